(** What a user may expect of the class of a result. *)
From Coq Require Import String.
From Verif.Model Require Import Base OptionResult TryClass.
Local Open Scope py_scope.

Definition is_try {A E} (x : kresult A E) : Prop := fst x = KTry.
Definition is_plain_result {A E} (x : kresult A E) : Prop := fst x = KResult.
(** Every value that the computation can give satisfies [P]. *)
Definition gives {W A} (m : M W A) (P : A -> Prop) : Prop := forall w x w', m w = (Ret x, w') -> P x.
(** The computation with the class of its result forgotten. *)
Definition forget {W A E} (m : M W (kresult A E)) : M W (result A E) := do x <- m; ret (snd x).
