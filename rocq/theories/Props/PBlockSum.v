(** Property theorems C102 (sums over a Block). *)
From Coq Require Import List ZArith Bool Sorting.Permutation.
From Verif.Model Require Import Base PyList OptionResult Block.
From Verif.Spec Require Import ListM BlockSpec.
From Verif.Proofs Require Import BlockFacts BlockSumFacts.
Import ListNotations.
Local Open Scope py_scope.

(** C102: [add] is [+] of the elements, which may raise; [zero] is 0. *)
Theorem C102_sum : forall W A (zero : A) (add : A -> A -> M W A) (xs ys : block A),
  sum zero add xs ==m foldM add zero xs /\
  sum zero add (append xs ys) ==m (do s <- sum zero add xs; sum s add ys) /\
  (forall x, sum zero add (singleton x) ==m (do s <- add zero x; ret s)) /\
  sum (W := W) zero add [] ==m ret zero.
Proof.
  intros W A zero add xs ys. split; [apply sum_pf|]. split; [apply sum_append_pf|]. split; [intros x|]; intros w; reflexivity.
Qed.
Print Assumptions C102_sum.
(** for a commutative and associative [+] the order of the elements does not matter *)
Theorem C102_order : forall W A (plus : A -> A -> A) (zero : A) (xs ys : block A),
  (forall x y z, plus x (plus y z) = plus (plus x y) z) -> (forall x y, plus x y = plus y x) -> Permutation xs ys ->
  sum (W := W) zero (fun a b => ret (plus a b)) xs ==m sum zero (fun a b => ret (plus a b)) ys.
Proof. intros W A plus zero xs ys As C P w. exact (sum_permutation_pf plus As C xs ys P zero w). Qed.
Print Assumptions C102_order.
Example C102_order_ex : Permutation [1; 2; 3] [3; 1; 2] /\ sum (W := unit) 0 (fun a b => ret (a + b)) [1; 2; 3] tt = (Ret 6, tt).
Proof. split; [|reflexivity]. apply (Permutation_app_comm [1; 2] [3]). Qed.

(** sum_by: all calls of the projection, in order, then the additions *)
Theorem C102_sum_by_partial : forall W A B (zero : B) (add : B -> B -> M W B) (xs : block A) f w,
  fst (mapM f xs w) <> Raise StopIterationExn -> sum_by zero add xs f w = (do ys <- mapM f xs; foldM add zero ys) w.
Proof. exact (fun W A B => sum_by_pf). Qed.
Print Assumptions C102_sum_by_partial.
(** a projection that raises StopIteration silently cuts the sum short *)
Theorem C102_stop_iteration_refuted : forall W A B (zero : B) (add : B -> B -> M W B) pre (x : A) post f ys w w1 w2,
  mapM f pre w = (Ret ys, w1) -> f x w1 = (Raise StopIterationExn, w2) ->
  sum_by zero add (pre ++ x :: post) f w = foldM add zero ys w2.
Proof. exact (fun W A B => sum_by_stop_pf). Qed.
Print Assumptions C102_stop_iteration_refuted.
Example C102_sum_by_ex :
  let f x (w : list nat) := (if Nat.eqb x 3 then Raise StopIterationExn else Ret (x * 10), w ++ [x]) in
  let add a b (w : list nat) := (Ret (a + b), w ++ [100]) in
  sum_by 0 add [1; 2] f [] = (Ret 30, [1; 2; 100; 100]) /\ sum_by 0 add [1; 3; 2] f [] = (Ret 10, [1; 3; 100]).
Proof. split; reflexivity. Qed.

Theorem C102_singleton_of_option : forall A (x : A) (o : option A),
  (forall i, item (singleton x) i = if Z.eqb i 0 || Z.eqb i (-1) then Ret x else Raise IndexError) /\
  try_head (of_option o) = o /\ length (of_option o) <= 1.
Proof. exact @singleton_of_option_pf. Qed.
Print Assumptions C102_singleton_of_option.
Example C102_singleton_of_option_ex : of_option (Some 3) = [3] /\ of_option (@None nat) = [] /\ item (singleton 3) (-1) = Ret 3.
Proof. repeat split. Qed.
