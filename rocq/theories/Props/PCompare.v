(** C32 and C72, max and min when comparing two values has effects or raises: values of
    classes with their own [__lt__] and [__gt__]. *)
From Coq Require Import List ZArith Bool.
From Verif.Model Require Import Base Gen OptionResult Seq.
From Verif.Model Require AsyncSeq.
From Verif.Spec Require Import RunSpec.
From Verif.Proofs Require Import CompareFacts.
Import ListNotations.
Local Open Scope py_scope.

(** The elements are asked for one by one; the projection runs on each, then the result is
    compared once with the best so far, before the next element is asked for.  What the
    comparison raises is raised as it is; StopIteration of the projection is not. *)
Theorem C32_comparisons : forall W A B (better : B -> B -> M W bool) (proj : A -> M W B) (src : iterable W A) w g w0, src w = (Ret g, w0) ->
  (forall r w1, folds (fun s x => do y <- outside (proj x); challenge better s y) None g w0 r w1 ->
     exists n, forall fuel, n <= fuel -> best_with fuel better proj src w = (best_found r, w1)) /\
  (forall fuel r w1, best_with fuel better proj src w = (r, w1) -> r <> Raise OutOfFuel ->
     exists r0, folds (fun s x => do y <- outside (proj x); challenge better s y) None g w0 r0 w1 /\ r = best_found r0).
Proof. exact (fun W A B => @best_with_fold W A B). Qed.
Print Assumptions C32_comparisons.

(** Whatever the comparison answers, what comes out was given by the projection. *)
Theorem C32_comparisons_value : forall W A B (better : B -> B -> M W bool) (proj : A -> M W B) (src : iterable W A) fuel w m w1,
  best_with fuel better proj src w = (Ret m, w1) -> exists x v v1, proj x v = (Ret m, v1).
Proof.
  intros W A B better proj src fuel w m w1 Q. destruct (src w) as [[g|e] w0] eqn:E.
  - destruct (proj2 (C32_comparisons W A B better proj src w g w0 E) fuel (Ret m) w1 Q ltac:(discriminate)) as (r0 & F & R).
    destruct r0 as [[k|]|e]; try discriminate. injection R as <-.
    destruct (fold_values _ _ _ _ _ _ _ _ _ _ F m eq_refl) as [C|(x & v & v1 & O)]; [discriminate|].
    exists x, v, v1. unfold outside in O. destruct (proj x v) as [[y|[]] v2]; cbn in O; congruence.
  - unfold best_with, bind in Q. rewrite E in Q. discriminate.
Qed.
Print Assumptions C32_comparisons_value.

(** The comparisons are logged; comparing with 9 raises StopIteration, and so does
    projecting 8. *)
Definition logged (y m : Z) (log : list (Z * Z)) : res bool * list (Z * Z) :=
  (if Z.eqb y 9 then Raise StopIterationExn else Ret (Z.ltb m y), log ++ [(y, m)]).
Definition picky (x : Z) (log : list (Z * Z)) : res Z * list (Z * Z) := (if Z.eqb x 8 then Raise StopIterationExn else Ret x, log).
Example C32_comparisons_ex :
  best_with 9 logged picky (of_list [3; 1; 5; 4]%Z) [] = (Ret 5%Z, [(1, 3); (5, 3); (4, 5)]%Z) /\
  best_with 9 logged picky (of_list [3; 9; 5]%Z) [] = (Raise StopIterationExn, [(9, 3)]%Z) /\
  best_with 9 logged picky (of_list [3; 1; 8; 5]%Z) [] = (Raise RuntimeError, [(1, 3)]%Z) /\
  best_with 9 logged picky (of_list [9]%Z) [] = (Ret 9%Z, []).
Proof. repeat split. Qed.
Example C32_comparisons_folds_ex : exists n, forall fuel, n <= fuel -> best_with fuel logged picky (of_list [3; 5]%Z) [] = (Ret 5%Z, [(5, 3)%Z]).
Proof.
  apply (proj1 (C32_comparisons _ _ _ logged picky (of_list [3; 5]%Z) [] _ [] eq_refl) (Ret (Some 5%Z)) [(5, 3)%Z]).
  do 2 (eapply fo_next; [eapply pu_yield; [reflexivity|apply pu_none]|reflexivity|]). apply (fo_end _ _ _ _ (Ret tt)). now apply pr_stop.
Qed.

(** AsyncSeq takes all elements first and compares them afterwards. *)
Theorem C72_comparisons : forall W A (better : A -> A -> M W bool) (src : iterable W A) w l r w1, iterates src w l r w1 ->
  exists n, forall fuel, n <= fuel -> AsyncSeq.best_with fuel better src w =
    match r with
    | Raise e => (leaving (Raise e), w1)
    | Ret _ => let '(r, w2) := foldM (challenge better) None l w1 in (leaving (best_found r), w2)
    end.
Proof. exact async_best_with. Qed.
Print Assumptions C72_comparisons.
Example C72_comparisons_ex :
  AsyncSeq.best_with 9 logged (of_list [3; 1; 5; 4]%Z) [] = (Ret 5%Z, [(1, 3); (5, 3); (4, 5)]%Z) /\
  AsyncSeq.best_with 9 logged (of_list [3; 9; 5]%Z) [] = (Raise RuntimeError, [(9, 3)]%Z).
Proof. split; reflexivity. Qed.
