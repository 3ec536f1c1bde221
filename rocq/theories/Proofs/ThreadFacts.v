(** Lemmas about schedules, stacks, locks and logs. *)
From Coq Require Import List Bool Arith Lia.
From Verif.Model Require Import Base Thread.
From Verif.Spec Require Import LogSpec.
Import ListNotations.

Lemma exec_ind : forall {C S} (step : C -> S -> option S) (P : list C -> S -> Prop) s0,
  P [] s0 -> (forall cs c s s1, P cs s -> step c s = Some s1 -> P (cs ++ [c]) s1) ->
  forall cs s, exec step cs s0 = Some s -> P cs s.
Proof.
  intros C S step P s0 H0 HS. 
  assert (G : forall cs pre s, P pre s -> forall s1, exec step cs s = Some s1 -> P (pre ++ cs) s1).
  { induction cs as [|c cs IH]; intros pre s Hp s1 E; cbn in E.
    - injection E; intros; subst. rewrite app_nil_r. exact Hp.
    - destruct (step c s) as [s2|] eqn:E2; [|discriminate]. specialize (IH (pre ++ [c]) s2 (HS _ _ _ _ Hp E2) s1 E).
      rewrite <- app_assoc in IH. exact IH. }
  intros cs s E. exact (G cs [] s0 H0 s E).
Qed.
Lemma count_cons : forall E (f : E -> bool) e l, count f (e :: l) = (if f e then 1 else 0) + count f l.
Proof. intros. unfold count. cbn. destruct (f e); reflexivity. Qed.
Lemma upd_same : forall F (s : stacks F) t st, upd s t st t = st.
Proof. intros. unfold upd. rewrite Nat.eqb_refl. reflexivity. Qed.
Lemma upd_other : forall F (s : stacks F) t st u, u <> t -> upd s t st u = s u.
Proof. intros. unfold upd. destruct (Nat.eqb_spec u t); congruence. Qed.

Ltac byt t t0 := destruct (Nat.eq_dec t t0) as [->|]; [rewrite ?upd_same in *|rewrite ?upd_other in * by assumption].
Ltac neq t u := replace (Nat.eqb t u) with false by (symmetry; apply Nat.eqb_neq; congruence).
Lemma acquire_inv : forall t l l1, acquire t l = Some l1 -> (l = None /\ l1 = Some (t, 1)) \/ exists n, l = Some (t, n) /\ l1 = Some (t, S n).
Proof.
  intros t [[o n]|] l1 H; cbn in H.
  - destruct (Nat.eqb_spec o t) as [->|]; [|discriminate]. right. exists n. split; congruence.
  - left. split; congruence.
Qed.
Lemma release_inv : forall t n l1, release t (Some (t, n)) = Some l1 -> n = 1 -> l1 = None.
Proof. intros t n l1 H ->. cbn in H. rewrite Nat.eqb_refl in H. congruence. Qed.

