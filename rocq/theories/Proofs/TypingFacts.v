(** Lemmas about the casts. *)
From Coq Require Import List Bool.
From Verif.Model Require Import Typing.
From Verif.Spec Require Import TypingSpec.
Import ListNotations.

Section Casts.
  Context {cls obj : Type} (inst : obj -> cls -> bool) (union_type : cls) (none : obj) (holds : obj -> nat -> obj -> Prop).
  Lemma isinstance_pf : forall t x, checkable t -> exists b, isinstance inst x t = Returns b /\ (b = true <-> belongs inst none holds t x).
  Proof.
    intros t x C. destruct t as [|c|c args|cs|cs|cs]; try contradiction; cbn; eexists; (split; [reflexivity|]); try reflexivity; rewrite existsb_exists; reflexivity.
  Qed.
  Lemma downcast_pf : forall t x, checkable t ->
    (belongs inst none holds t x -> downcast inst true t x = Returns x) /\ (~ belongs inst none holds t x -> downcast inst true t x = Asserts).
  Proof.
    intros t x C. destruct (isinstance_pf t x C) as (b & E & H). unfold downcast. rewrite E. split; intros B.
    - apply H in B. subst. reflexivity.
    - destruct b; [|reflexivity]. exfalso. apply B, H. reflexivity.
  Qed.
  Lemma try_downcast_pf : forall t x, plain t ->
    (belongs inst none holds t x -> try_downcast inst union_type none t x = Returns x) /\ (~ belongs inst none holds t x -> try_downcast inst union_type none t x = Returns none).
  Proof.
    intros t x P. assert (C : checkable t) by (destruct t; try contradiction; exact I). destruct (isinstance_pf t x C) as (b & E & H).
    assert (E2 : try_downcast inst union_type none t x = if b then Returns x else Returns none).
    { destruct t; try contradiction; unfold try_downcast; cbn [get_origin]; rewrite E; destruct b; reflexivity. }
    rewrite E2. split; intros B.
    - apply H in B. subst. reflexivity.
    - destruct b; [|reflexivity]. exfalso. apply B, H. reflexivity.
  Qed.
End Casts.
