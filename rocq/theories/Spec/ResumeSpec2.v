(** What calls of [next()] on an object that keeps its source give, for any source: every
    outcome is that of one or several calls of [next()] on the source. *)
From Coq Require Import List ZArith.
From Verif.Model Require Import Base Gen Resume.
From Verif.Spec Require Export ResumeSpec.
Import ListNotations.

Section Tries.
  Context {W A B S : Type}.
  (** [one s x]: what is done with the element [x]: a new state, and the element given, if any.
      Elements that give none are passed within the same call. *)
  Inductive tries (one : S -> A -> M W (S * option B)) : S -> rgen W A -> W -> list (outcome B) -> S -> rgen W A -> W -> Prop :=
  | tr_none : forall s g w, tries one s g w [] s g w
  | tr_ended : forall s g w g1 w1 os s2 g2 w2, next g w Ended g1 w1 -> tries one s g1 w1 os s2 g2 w2 -> tries one s g w (Ended :: os) s2 g2 w2
  | tr_source : forall s g w e g1 w1 os s2 g2 w2, next g w (Raised e) g1 w1 -> tries one s g1 w1 os s2 g2 w2 -> tries one s g w (Raised e :: os) s2 g2 w2
  | tr_given : forall s g w x g1 w1 s1 y w2 os s3 g3 w3, next g w (Got x) g1 w1 -> one s x w1 = (Ret (s1, Some y), w2) ->
      tries one s1 g1 w2 os s3 g3 w3 -> tries one s g w (Got y :: os) s3 g3 w3
  | tr_passed : forall s g w x g1 w1 s1 w2 o os s3 g3 w3, next g w (Got x) g1 w1 -> one s x w1 = (Ret (s1, None), w2) ->
      tries one s1 g1 w2 (o :: os) s3 g3 w3 -> tries one s g w (o :: os) s3 g3 w3
  | tr_failed : forall s g w x g1 w1 e w2 os s3 g3 w3, next g w (Got x) g1 w1 -> one s x w1 = (Raise e, w2) ->
      tries one s g1 w2 os s3 g3 w3 -> tries one s g w (seen e :: os) s3 g3 w3.

  (** Two sources: the second one is asked when the first one has given an element; that
      element is lost when the second one gives none. *)
  Inductive tries_pairs : rgen W A -> rgen W B -> W -> list (outcome (A * B)) -> rgen W A -> rgen W B -> W -> Prop :=
  | tp_none : forall g h w, tries_pairs g h w [] g h w
  | tp_ended : forall g h w g1 w1 os g2 h2 w2, next g w Ended g1 w1 -> tries_pairs g1 h w1 os g2 h2 w2 -> tries_pairs g h w (Ended :: os) g2 h2 w2
  | tp_raised : forall g h w e g1 w1 os g2 h2 w2, next g w (Raised e) g1 w1 -> tries_pairs g1 h w1 os g2 h2 w2 -> tries_pairs g h w (Raised e :: os) g2 h2 w2
  | tp_given : forall g h w x g1 w1 y h1 w2 os g3 h3 w3, next g w (Got x) g1 w1 -> next h w1 (Got y) h1 w2 ->
      tries_pairs g1 h1 w2 os g3 h3 w3 -> tries_pairs g h w (Got (x, y) :: os) g3 h3 w3
  | tp_ended2 : forall g h w x g1 w1 h1 w2 os g3 h3 w3, next g w (Got x) g1 w1 -> next h w1 Ended h1 w2 ->
      tries_pairs g1 h1 w2 os g3 h3 w3 -> tries_pairs g h w (Ended :: os) g3 h3 w3
  | tp_raised2 : forall g h w x g1 w1 e h1 w2 os g3 h3 w3, next g w (Got x) g1 w1 -> next h w1 (Raised e) h1 w2 ->
      tries_pairs g1 h1 w2 os g3 h3 w3 -> tries_pairs g h w (Raised e :: os) g3 h3 w3.
End Tries.

(** The predicate of filter, and the scanner of scan. *)
Definition keep_if {W A} (p : A -> M W bool) (_ : unit) (x : A) : M W (unit * option A) :=
  fun w => match p x w with (Ret b, w1) => (Ret (tt, if b : bool then Some x else None), w1) | (Raise e, w1) => (Raise e, w1) end.
Definition next_total {W A S} (f : S -> A -> M W S) (s : S) (x : A) : M W (S * option S) :=
  fun w => match f s x w with (Ret s1, w1) => (Ret (s1, Some s1), w1) | (Raise e, w1) => (Raise e, w1) end.
