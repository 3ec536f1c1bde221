(** Independent specification of the parser combinators. *)
From Coq Require Import String List Bool ZArith Decimal.
From Verif.Model Require Import Base OptionResult Parser.
Import ListNotations.
Local Open Scope list_scope.

(** Text that is still to be read at a position. *)
Definition rest_of (input : remaining) : str := skipn (Z.to_nat (snd input)) (fst input).
Definition inside (input : remaining) : Prop := (0 <= snd input <= Z.of_nat (List.length (fst input)))%Z.
Definition advance (input : remaining) (n : nat) : remaining := (fst input, (snd input + Z.of_nat n)%Z).

(** Parsers that users can build with the functions of the module. *)
Section Built.
  Context (W : Type).
  Inductive built : forall A, parser W A -> Prop :=
  | b_pchar : forall c, built _ (pchar c)
  | b_and_then : forall A B (p : parser W A) (q : parser W B), built _ p -> built _ q -> built _ (and_then p q)
  | b_or_else : forall A (p q : parser W A), built _ p -> built _ q -> built _ (or_else p q)
  | b_choice : forall A (ps : list (parser W A)) q, (forall p, In p ps -> built _ p) -> choice ps = Ret q -> built _ q
  | b_any_of : forall cs q, any_of cs = Ret q -> built _ q
  | b_map : forall A B (f : A -> M W B) p, built _ p -> built _ (map f p)
  | b_starmap : forall A B C (f : A -> B -> M W C) p, built _ p -> built _ (starmap f p)
  | b_preturn : forall A (x : A), built _ (preturn x)
  | b_fail : forall A e, built A (fail e)
  | b_apply : forall A B (p : parser W (A -> M W B)) q, built _ p -> built _ q -> built _ (apply p q)
  | b_lift2 : forall A B C (f : A -> M W (B -> M W C)) p q, built _ p -> built _ q -> built _ (lift2 f p q)
  | b_sequence : forall A limit (ps : list (parser W A)) q, (forall p, In p ps -> built _ p) -> sequence limit ps = Ret q -> built _ q
  | b_pstring : forall limit s q, pstring limit s = Ret q -> built _ q
  | b_many : forall A limit (p : parser W A), built _ p -> built _ (many limit p)
  | b_many1 : forall A limit (p : parser W A), built _ p -> built _ (many1 limit p)
  | b_sep_by : forall A B limit (p : parser W A) (s : parser W B), built _ p -> built _ s -> built _ (sep_by limit p s)
  | b_sep_by1 : forall A B limit (p : parser W A) (s : parser W B), built _ p -> built _ s -> built _ (sep_by1 limit p s)
  | b_digits : forall limit, built _ (digits limit)
  | b_opt : forall A (p : parser W A), built _ p -> built _ (opt p)
  | b_then_ignore : forall A B (p : parser W A) (q : parser W B), built _ p -> built _ q -> built _ (then_ignore p q)
  | b_ignore_then : forall A B (p : parser W A) (q : parser W B), built _ p -> built _ q -> built _ (ignore_then p q)
  | b_between : forall A B C (o : parser W B) (c : parser W C) (p : parser W A), built _ o -> built _ c -> built _ p -> built _ (between o c p)
  | b_bind : forall A B (f : A -> M W (parser W B)) p, (forall x w q w1, f x w = (Ret q, w1) -> built _ q) -> built _ p -> built _ (bind f p)
  | b_ignore : forall A (p : parser W A), built _ p -> built _ (ignore p)
  | b_pint : forall limit int_limit, built _ (pint limit int_limit)
  | b_pfloat : forall limit F (to_float : str -> res F) neg, built _ (pfloat limit to_float neg)
  | b_whitespace : forall limit, built _ (whitespace limit)
  | b_starts_with : forall p q, built _ p -> built _ q -> built _ (starts_with p q).
End Built.

(** First success in order; the last error when all fail. *)
Fixpoint first_ok {W A} (ps : list (parser W A)) (last : str) (input : remaining) : M W (presult A) :=
  match ps with
  | [] => ret (Err last)
  | p :: ps => Base.bind (p input) (fun r => match r with Ok _ => ret r | Err e => first_ok ps e input end)
  end.
(** One parser after the other; the first failure ends it. *)
Fixpoint run_all {W A} (ps : list (parser W A)) (input : remaining) : M W (presult (list A)) :=
  match ps with
  | [] => ret (Ok ([], input))
  | p :: ps => Base.bind (p input) (fun r =>
      match r with
      | Err e => ret (Err e)
      | Ok (x, i1) => Base.bind (run_all ps i1) (fun rs =>
          ret (match rs with Err e => Err e | Ok (xs, i2) => Ok (x :: xs, i2) end))
      end)
  end.

(** Where the text differs from [s]: the message. *)
Fixpoint mismatch (s text : str) : option str :=
  match s, text with
  | [], _ => None
  | _ :: _, [] => Some (lit "no more input"%string)
  | c :: s, d :: text =>
      if Nat.eqb c d then mismatch s text else Some (lit "Expecting '"%string ++ [c] ++ lit "'. Got '"%string ++ [d] ++ lit "'"%string)
  end.

(** [p] succeeds again and again from [input], giving [vs], and then fails at [input']. *)
Section Repeats.
  Context {W A B : Type}.
  Inductive repeats (p : parser W A) : remaining -> W -> list A -> remaining -> W -> Prop :=
  | rep_end : forall i w e w1, p i w = (Ret (Err e), w1) -> repeats p i w [] i w1
  | rep_more : forall i w v i1 w1 vs i2 w2, p i w = (Ret (Ok (v, i1)), w1) -> repeats p i1 w1 vs i2 w2 ->
      repeats p i w (v :: vs) i2 w2.
  (** items after the first: separator and item; the text before a separator that no item
      follows is not consumed *)
  Inductive more_items (p : parser W A) (sep : parser W B) : remaining -> W -> list A -> remaining -> W -> Prop :=
  | mi_no_sep : forall i w e w1, sep i w = (Ret (Err e), w1) -> more_items p sep i w [] i w1
  | mi_no_item : forall i w x i1 w1 e w2, sep i w = (Ret (Ok (x, i1)), w1) -> p i1 w1 = (Ret (Err e), w2) -> more_items p sep i w [] i w2
  | mi_item : forall i w x i1 w1 v i2 w2 vs i3 w3, sep i w = (Ret (Ok (x, i1)), w1) -> p i1 w1 = (Ret (Ok (v, i2)), w2) ->
      more_items p sep i2 w2 vs i3 w3 -> more_items p sep i w (v :: vs) i3 w3.
  Inductive separated (p : parser W A) (sep : parser W B) : remaining -> W -> list A -> remaining -> W -> Prop :=
  | sep_items : forall i w v i1 w1 vs i2 w2, p i w = (Ret (Ok (v, i1)), w1) -> more_items p sep i1 w1 vs i2 w2 ->
      separated p sep i w (v :: vs) i2 w2.
  (** A parser without exceptions that consumes something whenever it succeeds. *)
  Definition consumes (p : parser W A) : Prop := forall i w, inside i ->
    match p i w with
    | (Ret (Ok (_, i1)), _) => fst i1 = fst i /\ (snd i < snd i1)%Z /\ inside i1
    | (Ret (Err _), _) => True
    | (Raise _, _) => False
    end.
End Repeats.

(** Decimal notation, by the standard library. *)
Fixpoint str_of_uint (u : uint) : str :=
  match u with
  | Nil => []
  | D0 u => 48 :: str_of_uint u | D1 u => 49 :: str_of_uint u | D2 u => 50 :: str_of_uint u | D3 u => 51 :: str_of_uint u
  | D4 u => 52 :: str_of_uint u | D5 u => 53 :: str_of_uint u | D6 u => 54 :: str_of_uint u | D7 u => 55 :: str_of_uint u
  | D8 u => 56 :: str_of_uint u | D9 u => 57 :: str_of_uint u
  end.
Definition str_of_Z (z : Z) : str :=
  match Z.to_int z with Pos u => str_of_uint u | Neg u => 45 :: str_of_uint u end.
(** The text does not go on with a digit. *)
Definition no_digit_next (text : str) : Prop := match text with [] => True | c :: _ => ~ (48 <= c <= 57) end.
(** A minus sign, or nothing. *)
Definition minus (negative : bool) : str := if negative then [45] else [].
(** A decimal point with digits, or nothing. *)
Definition fraction (f : option uint) : str := match f with Some v => 46 :: str_of_uint v | None => [] end.

(** The ASCII classes of characters, by their code points. *)
Definition between_codes (lo hi c : nat) : bool := Nat.leb lo c && Nat.leb c hi.
Definition lowercase_code := between_codes 97 122.
Definition uppercase_code := between_codes 65 90.
Definition digit_code := between_codes 48 57.
Definition whitespace_code (c : nat) : bool := Nat.eqb c 32 || between_codes 9 13 c.

(** [q] reads one character of the class, and fails without one. *)
Definition reads_one_of {W} (class : nat -> bool) (q : parser W str) : Prop := forall s pos (w : W), (0 <= pos)%Z ->
  match rest_of (s, pos) with
  | [] => exists e, q (s, pos) w = (Ret (Err e), w)
  | d :: _ => if class d then q (s, pos) w = (Ret (Ok ([d], (s, (pos + 1)%Z))), w)
              else exists e, q (s, pos) w = (Ret (Err e), w)
  end.
