(** Lemmas for C102. *)
From Coq Require Import List ZArith Bool Lia Sorting.Permutation.
From Verif.Model Require Import Base PyList OptionResult Block.
From Verif.Spec Require Import ListM BlockSpec.
From Verif.Proofs Require Import BlockFacts.
Import ListNotations.
Local Open Scope py_scope.

Section Sum.
  Context {W A B : Type}.
  Lemma foldM_app : forall (f : A -> A -> M W A) xs ys z w, foldM f z (xs ++ ys) w = (do s <- foldM f z xs; foldM f s ys) w.
  Proof.
    intros f xs. induction xs as [|x xs IH]; intros ys z w; [reflexivity|]. cbn. unfold bind in *.
    destruct (f z x w) as [[s|e] w1]; [apply IH|reflexivity].
  Qed.
  Lemma sum_pf : forall (zero : A) (add : A -> A -> M W A) xs, sum zero add xs ==m foldM add zero xs.
  Proof. intros. apply for_in_foldM. Qed.
  Lemma sum_append_pf : forall (zero : A) (add : A -> A -> M W A) xs ys,
    sum zero add (append xs ys) ==m (do s <- sum zero add xs; sum s add ys).
  Proof.
    intros zero add xs ys w. rewrite (sum_pf zero add (append xs ys) w). unfold append. rewrite foldM_app. unfold bind.
    rewrite (sum_pf zero add xs w). destruct (foldM add zero xs w) as [[s|e] w1]; [|reflexivity].
    symmetry. apply sum_pf.
  Qed.
  Lemma sum_by_pf : forall (zero : B) (add : B -> B -> M W B) (xs : block A) f w,
    fst (mapM f xs w) <> Raise StopIterationExn -> sum_by zero add xs f w = (do ys <- mapM f xs; foldM add zero ys) w.
  Proof.
    intros zero add xs f w N. unfold sum_by, bind. rewrite (map_mapM xs f w N).
    destruct (mapM f xs w) as [[ys|e] w1]; [|reflexivity]. apply for_in_foldM.
  Qed.
  Lemma sum_by_stop_pf : forall (zero : B) (add : B -> B -> M W B) pre (x : A) post f ys w w1 w2,
    mapM f pre w = (Ret ys, w1) -> f x w1 = (Raise StopIterationExn, w2) ->
    sum_by zero add (pre ++ x :: post) f w = foldM add zero ys w2.
  Proof.
    intros zero add pre x post f ys w w1 w2 P X. unfold sum_by, bind.
    rewrite (proj1 (stop_iteration_pf W A pre x post w w1 w2) B f ys P X). apply for_in_foldM.
  Qed.
  Variable plus : A -> A -> A.
  Hypothesis assoc : forall x y z, plus x (plus y z) = plus (plus x y) z.
  Hypothesis comm : forall x y, plus x y = plus y x.
  Lemma sum_permutation_pf : forall xs ys, Permutation xs ys -> forall zero (w : W),
    sum zero (fun a b => ret (plus a b)) xs w = sum zero (fun a b => ret (plus a b)) ys w.
  Proof.
    intros xs ys P. induction P as [|x xs ys P IH|x y xs|xs ys zs P1 IH1 P2 IH2]; intros zero w.
    - reflexivity.
    - apply IH.
    - unfold sum, fold. cbn. unfold bind, ret. rewrite <- !assoc, (comm x y). reflexivity.
    - now rewrite IH1.
  Qed.
End Sum.

Lemma singleton_of_option_pf : forall A (x : A) (o : option A),
  (forall i, item (singleton x) i = if Z.eqb i 0 || Z.eqb i (-1) then Ret x else Raise IndexError) /\
  try_head (of_option o) = o /\ length (of_option o) <= 1.
Proof.
  intros A x o. split; [|destruct o; cbn; split; auto].
  intros i. destruct (C19_item_pf A [x] i) as [R N]. change (item (singleton x) i) with (item [x] i).
  destruct (Z.eqb_spec i 0) as [->|N0]; [reflexivity|]. destruct (Z.eqb_spec i (-1)) as [->|N1]; [reflexivity|].
  apply N. cbn. lia.
Qed.
