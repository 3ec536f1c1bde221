(** Facts about grammars whose functions neither raise nor have effects. *)
From Coq Require Import List Arith ZArith Lia.
From Verif.Model Require Import Base OptionResult Parser.
From Verif.Proofs Require Import PegFacts PegFacts2 PegLaws.
From Verif.Spec Require Import PegSpec PegSafeSpec.
Import ListNotations.
Local Open Scope list_scope.

Section Safe.
  Context {W : Type} (rules : nat -> gram W).
  Lemma safe_calm : (forall n, safe (rules n)) -> (forall g s w r w1, peg rules g s w r w1 -> safe g -> calm r w w1) /\ (forall g s w r w1, pegs rules g s w r w1 -> safe g -> calm r w w1).
  Proof.
    intros SR. apply (peg_ind2 W rules); unfold calm; cbn [safe]; intros;
      repeat match goal with
        | H : _ /\ _ |- _ => destruct H
        | H : safe ?g -> _, G : safe ?g |- _ => specialize (H G)
        | H : safe (rules ?n) -> _ |- _ => specialize (H (SR n))
        | H : safe (?f ?v) -> _, G : forall x, safe (?f x) |- _ => specialize (H (G v))
        | H : _ /\ _ -> _ |- _ => specialize (H ltac:(tauto))
        end; subst; try (split; [reflexivity|]; try discriminate; try assumption);
      try (intros e0 X; match goal with H : forall e, ?r <> Raise e |- _ => destruct r as [[[? ?]|]|e1]; cbn in X; try discriminate X; exact (H e1 eq_refl) end);
      try (intros e0 X; match goal with H : forall e, ?r <> Raise e |- _ => destruct r as [[? ?]|e1]; cbn in X; try discriminate X; exact (H e1 eq_refl) end);
      try (intros e0 X; match goal with H : forall e', Raise ?e <> Raise e' |- _ => exact (H e eq_refl) end).
    all: match goal with H : applied ?f ?r ?w = _, S : forall v w, exists u, _ |- _ => destruct r as [[[v s1]|]|e1]; cbn in H; [destruct (S v w) as [u U]; rewrite U in H|..]; injection H as <- <-; split; try reflexivity; try discriminate; try assumption end.
  Qed.
End Safe.
