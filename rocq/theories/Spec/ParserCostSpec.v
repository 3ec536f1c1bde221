(** How often a parser looks at the input. *)
From Coq Require Import List ZArith Arith.
From Verif.Model Require Import Base OptionResult Parser ParserCost.
Import ListNotations.

(** A position in the text; how much text is left there. *)
Definition proper (i : remaining) : Prop := (0 <= snd i <= Z.of_nat (length (fst i)))%Z.
Definition left (i : remaining) : nat := Z.to_nat (Z.of_nat (length (fst i)) - snd i).

Section Spec.
  Context {W A : Type}.
  Notation cparser := (parser (nat * W)).

  (** [p] does what [q] does and counts on the way. *)
  Definition counts (p : cparser A) (q : parser W A) : Prop :=
    forall i n w, exists c, p i (n, w) = (fst (q i w), (n + c, snd (q i w))).
  (** Functions of the user that do not look at the input. *)
  Definition still {X B} (f : X -> M (nat * W) B) : Prop := forall x w, fst (snd (f x w)) = fst w.
  Definition same_function {X B} (f : X -> M (nat * W) B) (g : X -> M W B) : Prop :=
    forall x n w, f x (n, w) = (fst (g x w), (n, snd (g x w))).

  (** Wherever [p] starts in a text: at most [ok] looks if it succeeds (given what is left
      before and after), [err] if it fails, [exc] if it raises; it never moves back. *)
  Definition bounded (ok : nat -> nat -> nat) (err exc : nat -> nat) (p : cparser A) : Prop :=
    forall i n w, proper i ->
      let '(r, (n', _)) := p i (n, w) in
      match r with
      | Ret (Ok (_, i')) => proper i' /\ left i' <= left i /\ n' <= n + ok (left i) (left i')
      | Ret (Err _) => n' <= n + err (left i)
      | Raise _ => n' <= n + exc (left i)
      end.
  (** A constant number of looks for each character consumed; ... *)
  Definition per_consumed (b : nat) : nat -> nat -> nat := fun l l' => b * (l - l' + 1).
  (** ... for each character left. *)
  Definition per_left (b : nat) : nat -> nat := fun l => b * (l + 1).

  (** Failing after a constant number of looks (the first character decides); ... *)
  Definition predictive (b : nat) : cparser A -> Prop := bounded (per_consumed b) (fun _ => b) (per_left b).
  (** ... after looking at a constant multiple of the rest of the text; ... *)
  Definition linear (b : nat) : cparser A -> Prop := bounded (per_consumed b) (per_left b) (per_left b).
  (** ... and the same in case of success. *)
  Definition total (b : nat) : cparser A -> Prop := bounded (fun l _ => per_left b l) (per_left b) (per_left b).
  (** A polynomial in the length of what is left. *)
  Definition polynomial (b d : nat) : cparser A -> Prop :=
    bounded (fun l _ => b * (l + 2) ^ d) (fun l => b * (l + 2) ^ d) (fun l => b * (l + 2) ^ d).
  (** Success takes at least one character. *)
  Definition consuming (p : cparser A) : Prop :=
    forall i n w, proper i -> match fst (p i (n, w)) with Ret (Ok (_, i')) => left i' < left i | _ => True end.
End Spec.

Arguments counts {W A} p q.

(** Functions of the user that give a parser, with and without the counter, do the same. *)
Definition same_parser_function {W X B} (f : X -> M (nat * W) (parser (nat * W) B)) (g : X -> M W (parser W B)) : Prop :=
  forall x n w, match g x w with
                | (Ret q, w') => exists p, f x (n, w) = (Ret p, (n, w')) /\ counts p q
                | (Raise e, w') => f x (n, w) = (Raise e, (n, w'))
                end.
(** ... that give a function. *)
Definition same_function2 {W X Y B} (f : X -> M (nat * W) (Y -> M (nat * W) B)) (g : X -> M W (Y -> M W B)) : Prop :=
  forall x n w, match g x w with
                | (Ret h, w') => exists k, f x (n, w) = (Ret k, (n, w')) /\ same_function k h
                | (Raise e, w') => f x (n, w) = (Raise e, (n, w'))
                end.
(** Making a parser, with and without the counter. *)
Definition counts_made {W A} (p : res (parser (nat * W) A)) (q : res (parser W A)) : Prop :=
  match p, q with
  | Ret p, Ret q => counts p q
  | Raise e, Raise e' => e = e'
  | _, _ => False
  end.
(** How many looks a run took. *)
Definition looks {W A} (p : parser (nat * W) A) (i : remaining) (w : W) : nat := fst (snd (p i (0, w))).

(** Parsers from the combinators: [b] is the number of pchars when the definitions of all
    parsers are written out, [d] how deep many and many1 are nested. *)
Inductive grammar {W : Type} : nat -> nat -> forall A : Type, parser (nat * W) A -> Prop :=
| g_pchar : forall c, grammar 1 0 str (c_pchar c)
| g_preturn : forall A (x : A), grammar 0 0 A (preturn x)
| g_fail : forall A e, grammar 0 0 A (fail e)
| g_and_then : forall A B b1 d1 b2 d2 p q, grammar b1 d1 A p -> grammar b2 d2 B q -> grammar (b1 + b2) (Nat.max d1 d2) (A * B) (and_then p q)
| g_or_else : forall A b1 d1 b2 d2 p q, grammar b1 d1 A p -> grammar b2 d2 A q -> grammar (b1 + b2) (Nat.max d1 d2) A (or_else p q)
| g_map : forall A B b d f p, still f -> grammar b d A p -> grammar b d B (map f p)
| g_bind : forall A B b1 d1 b2 d2 f p, still f -> grammar b1 d1 A p -> (forall x w q w', f x w = (Ret q, w') -> grammar b2 d2 B q) ->
    grammar (b1 + b2) (Nat.max d1 d2) B (bind f p)
| g_lift2 : forall A B C b1 d1 b2 d2 fn p q, still fn -> (forall x w g w', fn x w = (Ret g, w') -> still g) ->
    grammar b1 d1 A p -> grammar b2 d2 B q -> grammar (b1 + b2) (Nat.max d1 d2) C (lift2 fn p q)
| g_many : forall A b d limit p, grammar b d A p -> consuming p -> grammar b (S d) (list A) (many limit p)
| g_many1 : forall A b d limit p, grammar b d A p -> consuming p -> grammar b (S d) (list A) (many1 limit p).

(** A grammar for terms in parentheses, maybe followed by a plus: the parser calls itself,
    as with Parser(lambda i: term.run(i)); [limit] is the room on the stack. *)
Fixpoint term {W} (limit : nat) : parser (nat * W) str :=
  match limit with
  | 0 => fun _ => raise RecursionError
  | S limit => or_else (then_ignore (between (c_pchar [40]) (c_pchar [41]) (term limit)) (c_pchar [43]))
                       (or_else (between (c_pchar [40]) (c_pchar [41]) (term limit)) (c_pchar [97]))
  end.
(** The text with [k] parentheses around an a. *)
Definition parens (k : nat) : str := repeat 40 k ++ 97 :: repeat 41 k.
(** A grammar with two nested repetitions: each item is many a's and a b, or an a. *)
Definition items {W} (limit : nat) : parser (nat * W) (list str) :=
  many limit (or_else (then_ignore (map (fun v => ret (List.concat v)) (many limit (c_pchar [97]))) (c_pchar [98])) (c_pchar [97])).
