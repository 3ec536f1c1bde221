(** Facts about sums of TypedArrays (C100). *)
From Coq Require Import List ZArith Bool Lia.
From Verif.Model Require Import Base PyList OptionResult Array.
From Verif.Spec Require Import ListM BlockSpec ArraySpec.
From Verif.Proofs Require Import BlockFacts ArrayFacts ArrayFacts2.
Import ListNotations.
Local Open Scope py_scope.

Section Sum.
  Context {F U : Type} `{Floats F} {W : Type}.
  Variable long64 : bool.
  Notation val := (pyval F U).
  Implicit Types (a : tarray F U) (f : val -> M W val) (total : list val -> M W val).

  Lemma sum_by_calls_pf : forall total a f w, fst (mapM f (a_elems a) w) <> Raise StopIterationExn ->
    sum_by long64 total a f w =
    (do ys <- mapM f (a_elems a); do b <- lift (new long64 (FromIter ys) None); total (a_elems b)) w.
  Proof.
    intros total a f w N. unfold sum_by, bind. rewrite map_calls_pf by exact N. unfold bind.
    destruct (mapM f (a_elems a) w) as [[ys|e] w1]; reflexivity.
  Qed.
  Lemma sum_by_plain_pf : forall total a f w, fst (mapM f (a_elems a) w) <> Raise StopIterationExn ->
    (forall ys w1, mapM f (a_elems a) w = (Ret ys, w1) -> plain_first ys) ->
    sum_by long64 total a f w = (do ys <- mapM f (a_elems a); total ys) w.
  Proof.
    intros total a f w N P. rewrite sum_by_calls_pf by exact N. unfold bind.
    destruct (mapM f (a_elems a) w) as [[ys|e] w1] eqn:E; [|reflexivity].
    rewrite (construct_plain_pf long64 ys (P ys w1 eq_refl)). reflexivity.
  Qed.
  Lemma infer_float : forall v, (forall c x, v <> VFloat (Some c) x) ->
    snd (infer (F := F) (U := U) v) <> TFloat /\ snd (infer (F := F) (U := U) v) <> TDouble.
  Proof.
    intros v N. destruct v as [[[]|] n|[c|] x|u]; cbn; split; try discriminate; exfalso; eapply N; reflexivity.
  Qed.
  Lemma sum_by_same_pf : forall total a f w ys w1,
    (forall xs ys w, Forall2 same_value xs ys -> total xs w = total ys w) ->
    mapM f (a_elems a) w = (Ret ys, w1) -> (forall c x rest, ys <> VFloat (Some c) x :: rest) ->
    match new long64 (FromIter ys) None with
    | Ret b => sum_by long64 total a f w = total ys w1
    | Raise e => sum_by long64 total a f w = (Raise e, w1)
    end.
  Proof.
    intros total a f w ys w1 T E N.
    assert (C : sum_by long64 total a f w = (do b <- lift (new long64 (FromIter ys) None); total (a_elems b)) w1).
    { rewrite sum_by_calls_pf by (rewrite E; discriminate). unfold bind at 1. rewrite E. reflexivity. }
    rewrite C. destruct (new long64 (FromIter ys) None) as [b|e] eqn:B; [|reflexivity].
    unfold bind, lift. apply T. change ys with (init_elems (FromIter ys)). refine (construct_same_pf _ _ _ _ B _ _);
      destruct ys as [|v vs]; cbn -[store_all infer] in B; try (injection B; intros; subst; discriminate);
      destruct (infer_float v) as [A1 A2]; try (intros c x ->; eapply N; reflexivity);
      destruct (store_all _ _ _) in B; try discriminate; injection B; intros; subst; cbn; assumption.
  Qed.
  Lemma sum_by_stop_pf : forall total a f pre x post w ys w1 w2, a_elems a = pre ++ x :: post ->
    mapM f pre w = (Ret ys, w1) -> f x w1 = (Raise StopIterationExn, w2) -> plain_first ys ->
    sum_by long64 total a f w = total ys w2.
  Proof.
    intros total a f pre x post w ys w1 w2 E M1 X P. unfold sum_by, bind. rewrite (map_stop_pf long64 a f pre x post w ys w1 w2 E M1 X).
    rewrite (construct_plain_pf long64 ys P). reflexivity.
  Qed.
  Lemma singleton_pf : forall v : val,
    (plain v -> singleton long64 v = Ret (TArray KList [v] TAny)) /\
    (forall x, stored long64 (fst (infer v)) v x -> exists t, singleton long64 v = Ret (TArray (fst (infer v)) [x] t)) /\
    (forall b, singleton long64 v = Ret b -> exists x, a_elems b = [x]).
  Proof.
    intros v. repeat split.
    - intros P. destruct v as [[|]|[|]|]; try contradiction; reflexivity.
    - intros x S. unfold singleton, array_from_initializer, store_all. apply store_iff in S. rewrite S. cbn. eauto.
    - intros b. unfold singleton, array_from_initializer, store_all. destruct (store _ _ v); [|discriminate].
      intros E. injection E; intros; subst. cbn. eauto.
  Qed.
End Sum.
