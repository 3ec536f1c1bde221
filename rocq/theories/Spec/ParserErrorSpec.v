(** What the error of a failed parse says. *)
From Coq Require Import String List Bool ZArith.
From Verif.Model Require Import Base OptionResult Parser.
Import ListNotations.
Local Open Scope list_scope.

Definition expecting (c : str) (d : nat) : str := (lit "Expecting '"%string ++ c ++ lit "'. Got '"%string ++ [d] ++ lit "'"%string)%list.
(** [e] is true of the text at place [q]: something else than [c] is there, or nothing. *)
Definition says (text : str) (q : nat) (c e : str) : Prop :=
  (q = List.length text /\ e = lit "no more input"%string) \/ (exists d, nth_error text q = Some d /\ c <> [d] /\ e = expecting c d).
(** The texts are the same up to place [n]. *)
Definition agree (n : nat) (text text1 : str) : Prop :=
  n <= List.length text /\ n <= List.length text1 /\ firstn n text = firstn n text1.

Section Parsers.
  Context {W : Type}.
  (** Parsers made of these functions, with the characters and the messages they were given. *)
  Inductive made (char own : str -> Prop) : forall A, parser W A -> Prop :=
  | m_pchar : forall c, char c -> made char own _ (pchar c)
  | m_preturn : forall A (x : A), made char own _ (preturn x)
  | m_fail : forall A e, own e -> made char own A (fail e)
  | m_and_then : forall A B (p : parser W A) (q : parser W B), made char own _ p -> made char own _ q -> made char own _ (and_then p q)
  | m_or_else : forall A (p q : parser W A), made char own _ p -> made char own _ q -> made char own _ (or_else p q)
  | m_map : forall A B (f : A -> M W B) p, made char own _ p -> made char own _ (map f p)
  | m_bind : forall A B (f : A -> M W (parser W B)) p, made char own _ p -> (forall x w q w1, f x w = (Ret q, w1) -> made char own _ q) ->
      made char own _ (bind f p)
  | m_many : forall A limit (p : parser W A), made char own _ p -> made char own _ (many limit p)
  | m_many1 : forall A limit (p : parser W A), made char own _ p -> made char own _ (many1 limit p).
  (** Parsers without alternatives and repetitions: of [k] characters. *)
  Inductive straight : nat -> forall A, parser W A -> Prop :=
  | s_pchar : forall c, straight 1 _ (pchar c)
  | s_preturn : forall A (x : A), straight 0 _ (preturn x)
  | s_and_then : forall A B k1 k2 (p : parser W A) (q : parser W B), straight k1 _ p -> straight k2 _ q -> straight (k1 + k2) _ (and_then p q)
  | s_map : forall A B k (f : A -> M W B) p, straight k _ p -> straight k _ (map f p).
End Parsers.

(** The last of some characters. *)
Definition last_char (cs : str) : str := [last cs 0].
