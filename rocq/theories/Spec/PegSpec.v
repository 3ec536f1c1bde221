(** Specification of grammars made of parser combinators: parsing expression grammars (ordered
    choice, greedy repetition, recursion through named rules), as a big-step relation on texts. *)
From Coq Require Import List Bool ZArith.
From Verif.Model Require Import Base OptionResult Parser.
From Verif.Spec Require Export ParserSpec.
Import ListNotations.
Local Open Scope list_scope.

(** The values that parsers give. *)
Inductive val : Type := VStr (s : str) | VInt (z : Z) | VPair (a b : val) | VList (vs : list val) | VSome (v : val) | VNone.

(** What is kept of two parsers in sequence: and_then, then_ignore, ignore_then. *)
Inductive kept : Type := Both | First | Second.

(** Grammars; [GCall n] is a call of the user's function for rule [n]. *)
Inductive gram (W : Type) : Type :=
| GChar (c : nat)
| GReturn (v : val)
| GFail (message : str)
| GAnd (k : kept) (a b : gram W)
| GOr (a b : gram W)
| GMap (f : val -> M W val) (g : gram W)
| GBind (f : val -> gram W) (g : gram W)
| GMany (g : gram W)
| GMany1 (g : gram W)
| GOpt (g : gram W)
| GSepBy (g sep : gram W)
| GBetween (a b g : gram W)
| GCall (n : nat)
| GString (u : str)
| GAnyOf (c : nat) (cs : str).
Arguments GChar {W} c.
Arguments GReturn {W} v.
Arguments GFail {W} message.
Arguments GAnd {W} k a b.
Arguments GOr {W} a b.
Arguments GMap {W} f g.
Arguments GBind {W} f g.
Arguments GMany {W} g.
Arguments GMany1 {W} g.
Arguments GOpt {W} g.
Arguments GSepBy {W} g sep.
Arguments GBetween {W} a b g.
Arguments GCall {W} n.
Arguments GString {W} u.
Arguments GAnyOf {W} c cs.

Section Peg.
  Context {W : Type} (rules : nat -> gram W).

  (** The parser that the user writes, with the combinators of the library (pstring and any_of are
      made where they are used).  [limit] bounds the
      recursion of many, [depth] that of the rules. *)
  Fixpoint compile (limit depth : nat) : gram W -> parser W val :=
    fix go (g : gram W) : parser W val :=
      match g with
      | GChar c => map (fun s => ret (VStr s)) (pchar [c])
      | GReturn v => preturn v
      | GFail message => fail message
      | GAnd Both a b => map (fun ab => ret (VPair (fst ab) (snd ab))) (and_then (go a) (go b))
      | GAnd First a b => then_ignore (go a) (go b)
      | GAnd Second a b => ignore_then (go a) (go b)
      | GOr a b => or_else (go a) (go b)
      | GMap f g => map f (go g)
      | GBind f g => Parser.bind (fun v => ret (go (f v))) (go g)
      | GMany g => map (fun vs => ret (VList vs)) (many limit (go g))
      | GMany1 g => map (fun vs => ret (VList vs)) (many1 limit (go g))
      | GOpt g => map (fun o => ret (match o with Some v => VSome v | None => VNone end)) (opt (go g))
      | GSepBy g sep => map (fun vs => ret (VList vs)) (sep_by limit (go g) (go sep))
      | GBetween a b g => between (go a) (go b) (go g)
      | GCall n => match depth with 0 => fun _ => raise RecursionError | S depth => compile limit depth (rules n) end
      | GString u => map (fun s => ret (VStr s)) (imported (pstring limit u))
      | GAnyOf c cs => map (fun s => ret (VStr s)) (imported (any_of (c :: cs)))
      end.

  (** What a grammar does with a text: a value and the text that is left, no match, or an
      exception of one of the user's functions. *)
  Definition outcome : Type := res (option (val * str)).
  Definition keep (k : kept) (a b : val) : val := match k with Both => VPair a b | First => a | Second => b end.
  Definition with_value (f : val -> val) (r : outcome) : outcome :=
    match r with Ret (Some (v, s)) => Ret (Some (f v, s)) | Ret None => Ret None | Raise e => Raise e end.
  Definition applied (f : val -> M W val) (r : outcome) (w : W) : outcome * W :=
    match r with
    | Ret (Some (v, s)) => match f v w with (Ret y, w1) => (Ret (Some (y, s)), w1) | (Raise e, w1) => (Raise e, w1) end
    | Ret None => (Ret None, w)
    | Raise e => (Raise e, w)
    end.
  Definition listed (vs : list val) (r : res (list val * str)) : outcome :=
    match r with Ret (us, s) => Ret (Some (VList (vs ++ us), s)) | Raise e => Raise e end.
  Definition one_more (v : val) (r : res (list val * str)) : res (list val * str) :=
    match r with Ret (vs, s) => Ret (v :: vs, s) | Raise e => Raise e end.
  Definition no_value (r : outcome) : Prop := match r with Ret (Some _) => False | _ => True end.

  Inductive peg : gram W -> str -> W -> outcome -> W -> Prop :=
  | p_char : forall c s w, peg (GChar c) (c :: s) w (Ret (Some (VStr [c], s))) w
  | p_no_char : forall c s w, match s with d :: _ => d <> c | [] => True end -> peg (GChar c) s w (Ret None) w
  | p_return : forall v s w, peg (GReturn v) s w (Ret (Some (v, s))) w
  | p_fail : forall m s w, peg (GFail m) s w (Ret None) w
  | p_and_stop : forall k a b s w r w1, peg a s w r w1 -> no_value r -> peg (GAnd k a b) s w r w1
  | p_and : forall k a b s w v s1 w1 r w2, peg a s w (Ret (Some (v, s1))) w1 -> peg b s1 w1 r w2 -> peg (GAnd k a b) s w (with_value (keep k v) r) w2
  | p_or_first : forall a b s w r w1, peg a s w r w1 -> r <> Ret None -> peg (GOr a b) s w r w1
  | p_or_second : forall a b s w w1 r w2, peg a s w (Ret None) w1 -> peg b s w1 r w2 -> peg (GOr a b) s w r w2
  | p_map : forall f g s w r w1 r2 w2, peg g s w r w1 -> applied f r w1 = (r2, w2) -> peg (GMap f g) s w r2 w2
  | p_bind_stop : forall f g s w r w1, peg g s w r w1 -> no_value r -> peg (GBind f g) s w r w1
  | p_bind : forall f g s w v s1 w1 r w2, peg g s w (Ret (Some (v, s1))) w1 -> peg (f v) s1 w1 r w2 -> peg (GBind f g) s w r w2
  | p_many : forall g s w r w1, pegs g s w r w1 -> peg (GMany g) s w (listed [] r) w1
  | p_many1_stop : forall g s w r w1, peg g s w r w1 -> no_value r -> peg (GMany1 g) s w r w1
  | p_many1 : forall g s w v s1 w1 r w2, peg g s w (Ret (Some (v, s1))) w1 -> pegs g s1 w1 r w2 -> peg (GMany1 g) s w (listed [v] r) w2
  | p_opt_some : forall g s w r w1, peg g s w r w1 -> r <> Ret None -> peg (GOpt g) s w (with_value VSome r) w1
  | p_opt_none : forall g s w w1, peg g s w (Ret None) w1 -> peg (GOpt g) s w (Ret (Some (VNone, s))) w1
  | p_sep_none : forall g h s w w1, peg g s w (Ret None) w1 -> peg (GSepBy g h) s w (Ret (Some (VList [], s))) w1
  | p_sep_raise : forall g h s w e w1, peg g s w (Raise e) w1 -> peg (GSepBy g h) s w (Raise e) w1
  | p_sep : forall g h s w v s1 w1 r w2, peg g s w (Ret (Some (v, s1))) w1 -> pegs (GAnd Second h g) s1 w1 r w2 -> peg (GSepBy g h) s w (listed [v] r) w2
  | p_between : forall a b g s w r w1, peg (GAnd First (GAnd Second a g) b) s w r w1 -> peg (GBetween a b g) s w r w1
  | p_call : forall n s w r w1, peg (rules n) s w r w1 -> peg (GCall n) s w r w1
  | p_string : forall u s w, peg (GString u) (u ++ s) w (Ret (Some (VStr u, s))) w
  | p_no_string : forall u s w, (forall t, s <> u ++ t) -> peg (GString u) s w (Ret None) w
  | p_any : forall c cs d s w, In d (c :: cs) -> peg (GAnyOf c cs) (d :: s) w (Ret (Some (VStr [d], s))) w
  | p_no_any : forall c cs s w, match s with d :: _ => ~ In d (c :: cs) | [] => True end -> peg (GAnyOf c cs) s w (Ret None) w
  (** as many as there are *)
  with pegs : gram W -> str -> W -> res (list val * str) -> W -> Prop :=
  | ps_end : forall g s w w1, peg g s w (Ret None) w1 -> pegs g s w (Ret ([], s)) w1
  | ps_raise : forall g s w e w1, peg g s w (Raise e) w1 -> pegs g s w (Raise e) w1
  | ps_more : forall g s w v s1 w1 r w2, peg g s w (Ret (Some (v, s1))) w1 -> pegs g s1 w1 r w2 -> pegs g s w (one_more v r) w2.

  (** Grammars that call rule [n], directly or through others, before anything is read. *)
  Inductive starts_with (n : nat) : gram W -> Prop :=
  | sw_call : starts_with n (GCall n)
  | sw_through : forall m, starts_with n (rules m) -> starts_with n (GCall m)
  | sw_and : forall k a b, starts_with n a -> starts_with n (GAnd k a b)
  | sw_or : forall a b, starts_with n a -> starts_with n (GOr a b)
  | sw_map : forall f g, starts_with n g -> starts_with n (GMap f g)
  | sw_bind : forall f g, starts_with n g -> starts_with n (GBind f g)
  | sw_many : forall g, starts_with n g -> starts_with n (GMany g)
  | sw_many1 : forall g, starts_with n g -> starts_with n (GMany1 g)
  | sw_opt : forall g, starts_with n g -> starts_with n (GOpt g)
  | sw_sep : forall g h, starts_with n g -> starts_with n (GSepBy g h)
  | sw_between : forall a b g, starts_with n a -> starts_with n (GBetween a b g).

  (** Grammars that read at least one character when they match. *)
  Inductive eats : gram W -> Prop :=
  | e_char : forall c, eats (GChar c)
  | e_fail : forall m, eats (GFail m)
  | e_and_left : forall k a b, eats a -> eats (GAnd k a b)
  | e_and_right : forall k a b, eats b -> eats (GAnd k a b)
  | e_or : forall a b, eats a -> eats b -> eats (GOr a b)
  | e_map : forall f g, eats g -> eats (GMap f g)
  | e_bind_left : forall f g, eats g -> eats (GBind f g)
  | e_bind_right : forall f g, (forall v, eats (f v)) -> eats (GBind f g)
  | e_many1 : forall g, eats g -> eats (GMany1 g)
  | e_between : forall a b g, eats (GAnd First (GAnd Second a g) b) -> eats (GBetween a b g)
  | e_call : forall n, eats (rules n) -> eats (GCall n)
  | e_string : forall u, u <> [] -> eats (GString u)
  | e_any : forall c cs, eats (GAnyOf c cs).

  (** Well-formed grammars: only what eats is repeated, and the rules called before anything is
      read have a rank below [l] ([None]: any rank). *)
  Inductive well_formed (rank : nat -> nat) (l : option nat) : gram W -> Prop :=
  | wf_char : forall c, well_formed rank l (GChar c)
  | wf_return : forall v, well_formed rank l (GReturn v)
  | wf_fail : forall m, well_formed rank l (GFail m)
  | wf_and : forall k a b, well_formed rank l a -> well_formed rank l b -> well_formed rank l (GAnd k a b)
  | wf_and_eats : forall k a b, well_formed rank l a -> eats a -> well_formed rank None b -> well_formed rank l (GAnd k a b)
  | wf_or : forall a b, well_formed rank l a -> well_formed rank l b -> well_formed rank l (GOr a b)
  | wf_map : forall f g, well_formed rank l g -> well_formed rank l (GMap f g)
  | wf_bind : forall f g, well_formed rank l g -> (forall v, well_formed rank l (f v)) -> well_formed rank l (GBind f g)
  | wf_bind_eats : forall f g, well_formed rank l g -> eats g -> (forall v, well_formed rank None (f v)) -> well_formed rank l (GBind f g)
  | wf_many : forall g, well_formed rank l g -> eats g -> well_formed rank l (GMany g)
  | wf_many1 : forall g, well_formed rank l g -> eats g -> well_formed rank l (GMany1 g)
  | wf_opt : forall g, well_formed rank l g -> well_formed rank l (GOpt g)
  | wf_sep : forall g h, well_formed rank l (GAnd Both g (GMany (GAnd Second h g))) -> well_formed rank l (GSepBy g h)
  | wf_between : forall a b g, well_formed rank l (GAnd First (GAnd Second a g) b) -> well_formed rank l (GBetween a b g)
  | wf_call : forall n, match l with Some m => rank n < m | None => True end -> well_formed rank l (GCall n)
  | wf_string : forall u, well_formed rank l (GString u)
  | wf_any : forall c cs, well_formed rank l (GAnyOf c cs).

  (** What a parser returns for it, on the text [text]. *)
  Inductive same (text : str) : res (presult val) -> outcome -> Prop :=
  | same_ok : forall v pos, (0 <= pos)%Z -> same text (Ret (Ok (v, (text, pos)))) (Ret (Some (v, rest_of (text, pos))))
  | same_err : forall e, same text (Ret (Err e)) (Ret None)
  | same_raise : forall e, same text (Raise e) (Raise e).
End Peg.
