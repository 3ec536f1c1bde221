(** Lemmas about cancellation: registrations and handles. *)
From Coq Require Import List Bool Arith Lia.
From Verif.Model Require Import Base Thread Cancellation.
From Verif.Spec Require Import LogSpec CancellationSpec.
From Verif.Proofs Require Import ThreadFacts CancellationFacts CancellationFacts2.
Import ListNotations.

Ltac cnt2 J ET := match goal with |- count (unregister_called ?t ?k) _ = _ => 
  let A := fresh in pose proof (a_count _ _ J t k) as A; try rewrite ET in A; cbn [unreg_of] in A; rewrite ?Nat.eqb_refl;
  repeat (match goal with |- context[Nat.eqb ?a ?b] => destruct (Nat.eqb_spec a b); subst end); cbn in *; try lia; try congruence end.
Lemma count_pos : forall E (f : E -> bool) l, 1 <= count f l -> exists e, In e l /\ f e = true.
Proof.
  intros E f. induction l as [|e l IH]; intros H; [cbn in H; lia|]. rewrite count_cons in H. destruct (f e) eqn:F; [exists e; cbn; auto|].
  destruct (IH H) as (x & A & B). exists x. cbn. auto.
Qed.
Lemma p_u_again : forall t s T k i, inv2 s T -> T t = Some (U_Claim k i) -> In k (s_claimed s) ->
  inv2 (say (Unregistered t k) s) (set_top T t None).
Proof. intros t s T k i J ET C. pose proof J as J0. destruct J. constructor; field J0 t; try cnt2 J0 ET. Qed.
Lemma p_u_claim : forall t s T k i, inv2 s T -> T t = Some (U_Claim k i) -> ~ In k (s_claimed s) ->
  inv2 (claim k s) (set_top T t (Some (U_Acquire k i))).
Proof.
  intros t s T k i J ET C. pose proof J as J0. 
  assert (R1 : In (k, i) (s_handles s)) by (apply (a_unreg _ _ J t); rewrite ET; reflexivity).
  assert (R2 : In (i, k) (s_listeners s)) by (destruct (a_live _ _ J _ _ R1); tauto).
  assert (R3 : exists u, In (UnregisterCalled u k) (s_log s)).
  { pose proof (a_count _ _ J t k) as A. rewrite ET in A. cbn in A. rewrite Nat.eqb_refl in A. 
    destruct (count_pos _ (unregister_called t k) (s_log s)) as (e & B & D); [lia|]. destruct e; try discriminate. cbn in D.
    apply andb_true_iff in D. destruct D as [_ D]. apply Nat.eqb_eq in D. subst. eauto. }
  assert (R4 : exists u j, holding (set_top T t (Some (U_Acquire k i)) u) = Some (k, j)) by (exists t, i; rewrite set_top_same; reflexivity).
  destruct J. constructor; field J0 t.
Qed.
Lemma p_u_release : forall t s T k, inv2 s T -> T t = Some (U_Release k true) ->
  inv2 (say (Unregistered t k) s) (set_top T t None).
Proof. intros t s T k J ET. pose proof J as J0. destruct J. constructor; field J0 t; try cnt2 J0 ET. Qed.
Lemma NoDup_del : forall (f : nat * nat -> nat) d1 x d2, NoDup (map f (d1 ++ x :: d2)) -> NoDup (map f (d1 ++ d2)).
Proof. intros f d1 x d2 H. rewrite map_app in *. cbn in H. eapply NoDup_remove_1. exact H. Qed.
Lemma p_u_del : forall t s T k i d1 d2, inv2 s T -> T t = Some (U_Del k i) -> s_listeners s = d1 ++ (i, k) :: d2 ->
  inv2 (set_listeners (d1 ++ d2) s) (set_top T t (Some (U_Release k true))).
Proof.
  intros t s T k i d1 d2 J ET EL. pose proof J as J0.
  assert (R0 : In (i, k) (s_listeners s)) by (rewrite EL; apply in_app_iff; cbn; auto).
  assert (IN : forall x, In x (d1 ++ d2) <-> In x (s_listeners s) /\ x <> (i, k)).
  { intros x. rewrite EL, !in_app_iff. cbn. split; [|intros [[H|[H|H]] N]; auto; congruence]. intros H. split; [tauto|]. intros ->.
    pose proof (a_labels _ _ J) as N. rewrite EL, map_app in N. cbn in N. apply NoDup_remove_2 in N. apply N. rewrite in_app_iff.
    destruct H as [H|H]; [left|right]; apply (in_map snd) in H; exact H. }
  assert (N1 : NoDup (map fst (d1 ++ d2))) by (pose proof (a_keys _ _ J) as N; rewrite EL in N; eapply NoDup_del; exact N).
  assert (N2 : NoDup (map snd (d1 ++ d2))) by (pose proof (a_labels _ _ J) as N; rewrite EL in N; eapply NoDup_del; exact N).
  assert (R1 : In k (s_claimed s)) by (apply (a_hold _ _ J t k i); rewrite ET; reflexivity).
  assert (R2 : In (k, i) (s_handles s)) by (apply (a_unreg _ _ J t); rewrite ET; reflexivity).
  destruct J. constructor; cc; auto.
  - intros u x. bytop u t; [discriminate|apply a_inreg].
  - intros u x j. bytop u t; [discriminate|]. rewrite IN. intros H [A _]. eapply a_pre; eauto.
  - intros u x. bytop u t; [discriminate|]. rewrite IN. intros H. split; [eapply a_post; eauto|]. intros ->.
    assert (E : inreg (T u) = Some k) by (destruct (T u) as [[]|]; try discriminate; cbn in *; congruence). destruct (a_inreg _ _ E) as [_ A]. exact (A _ R2).
  - intros u x. bytop u t; [discriminate|apply a_id].
  - intros u x j. bytop u t; [discriminate|apply a_idr].
  - intros j x. rewrite IN. intros [H _]. destruct (a_list _ _ H) as [A [B|(u & B)]]; (split; [exact A|auto]). right. exists u. rewrite set_top_other; [exact B|congruence].
  - intros x j y. rewrite IN. intros H [A _]. eauto.
  - intros x j y. rewrite IN. intros H [A _]. eauto.
  - intros x j H. rewrite IN. destruct (a_live _ _ H) as [A|A]; [|auto]. destruct (Nat.eq_dec x k) as [->|N]; [auto|]. left. split; [exact A|congruence].
  - intros u x. bytop u t; [discriminate|apply a_unreg].
  - intros u x j. bytop u t; [discriminate|]. rewrite IN. intros H. destruct (a_hold _ _ _ H) as [A B]. split; [exact A|]. split; [exact B|].
    intros E. injection E as -> ->. apply n. eapply a_hold1; [exact H|rewrite ET; reflexivity].
  - intros u x y j l. bytop u t; [discriminate|]. bytop x t; [discriminate|]. apply a_hold1.
  - intros x j H. rewrite IN. intros [A B]. destruct (a_gone _ _ H A) as (u & l & C). exists u, l. rewrite set_top_other; [exact C|]. intros ->.
    rewrite ET in C. cbn in C. injection C; intros; subst. apply B. f_equal. eapply nodup_snd; [exact a_labels|exact A|exact R0].
  - intros u x. bytop u t; [discriminate|apply a_nokey].
  - intros u x y. bytop u t; [|apply a_rel]. intros E. injection E as <- <-. exact R1.
  - intros u x. bytop u t; [|apply a_count]. pose proof (a_count t x) as A. rewrite ET in A. exact A.
  - intros u x H. destruct (a_raised _ _ H) as (A & B & C & D). split; [exact A|]. split; [|split; [|exact D]].
    + intros y. bytop y t; [discriminate|apply B].
    + intros y. rewrite IN. intros [E _]. exact (C _ E).
Qed.

(** ** The invariant holds *)
Lemma inv2_vstep : forall t s T r n q r1 n1 s1, inv2 s T -> (forall t u, critical (T t) = true -> critical (T u) = true -> t = u) ->
  vstep t s (T t, r, n) (q, r1, n1) s1 -> inv2 s1 (set_top T t q).
Proof.
  intros t s T r n q r1 n1 s1 J EX V. remember (T t, r, n) as v eqn:Ev. remember (q, r1, n1) as v1 eqn:Ev1.
  destruct V; injection Ev; injection Ev1; intros; subst; clear Ev Ev1; match goal with H : _ = T t |- _ => symmetry in H; rename H into ET end.
  (* calls of cancel *)
  1: eapply inv2_plain; [exact J|rewrite ET; reflexivity|reflexivity|reflexivity|reflexivity|reflexivity|reflexivity|reflexivity|right; eexists; split; [|reflexivity]; reflexivity].
  - apply p_register; assumption.
  - apply p_unregister; assumption.
  - eapply inv2_plain; [exact J|rewrite ET; reflexivity|reflexivity|reflexivity|reflexivity|reflexivity|reflexivity|reflexivity|right; eexists; split; [|reflexivity]; reflexivity].
  - eapply inv2_plain; [exact J|rewrite ET; reflexivity|reflexivity|reflexivity|reflexivity|reflexivity|reflexivity|reflexivity|right; eexists; split; [|reflexivity]; reflexivity].
  - eapply inv2_plain; [exact J|rewrite ET; reflexivity|reflexivity|reflexivity|reflexivity|reflexivity|reflexivity|reflexivity|left; reflexivity].
  - eapply inv2_plain; [exact J|rewrite ET; reflexivity|reflexivity|reflexivity|reflexivity|reflexivity|reflexivity|reflexivity|right; eexists; split; [|reflexivity]; reflexivity].
  - eapply inv2_plain; [exact J|rewrite ET; reflexivity|reflexivity|reflexivity|reflexivity|reflexivity|reflexivity|reflexivity|left; reflexivity].
  - eapply inv2_plain; [exact J|rewrite ET; reflexivity|destruct (s_disposed s); reflexivity|reflexivity|reflexivity|reflexivity|reflexivity|reflexivity|left; reflexivity].
  - eapply inv2_plain; [exact J|rewrite ET; reflexivity|reflexivity|reflexivity|reflexivity|reflexivity|reflexivity|reflexivity|left; reflexivity].
  - eapply inv2_plain; [exact J|rewrite ET; reflexivity|reflexivity|reflexivity|reflexivity|reflexivity|reflexivity|reflexivity|left; reflexivity].
  - eapply inv2_plain; [exact J|rewrite ET; reflexivity|reflexivity|reflexivity|reflexivity|reflexivity|reflexivity|reflexivity|left; reflexivity].
  - eapply inv2_plain; [exact J|rewrite ET; reflexivity|reflexivity|reflexivity|reflexivity|reflexivity|reflexivity|reflexivity|right; eexists; split; [|reflexivity]; reflexivity].
  - eapply inv2_plain; [exact J|rewrite ET; reflexivity|reflexivity|reflexivity|reflexivity|reflexivity|reflexivity|reflexivity|right; eexists; split; [|reflexivity]; reflexivity].
  - apply p_r_raise; assumption.
  - apply p_move; auto; rewrite ?ET; try reflexivity. discriminate.
  - eapply inv2_ext; [apply (p_move t s T (Some (R_Read k))); auto; rewrite ?ET; try reflexivity; discriminate|reflexivity..].
  - apply p_move; auto; rewrite ?ET; try reflexivity. intros i E. injection E as <-. reflexivity.
  - apply p_r_store; assumption.
  - apply p_r_incr; assumption.
  - eapply inv2_ext; [apply (p_r_release t s T k i); assumption|reflexivity..].
  - eapply p_u_again; eassumption.
  - apply p_u_claim; assumption.
  - eapply inv2_ext; [apply (p_move t s T (Some (U_Del k i))); auto; rewrite ?ET; try reflexivity; discriminate|reflexivity..].
  - destruct (del_some s T J t k i ET) as (d1 & d2 & E1 & E2). rewrite E2 in H. injection H as <-. eapply p_u_del; eassumption.
  - destruct (del_some s T J t k i ET) as (d1 & d2 & E1 & E2). congruence.
  - destruct ok; [|destruct (a_nokey _ _ J _ _ ET)]. eapply inv2_ext; [apply (p_u_release t s T k); assumption|reflexivity..].
Qed.
Definition T_of (s : state) : tops := fun u => top (s_stacks s u).
Lemma excl : forall s, inv1 s -> forall t u, critical (T_of s t) = true -> critical (T_of s u) = true -> t = u.
Proof. intros s I t u A B. apply (i_crit _ I) in A. apply (i_crit _ I) in B. congruence. Qed.
Lemma inv2_tops : forall s T T1, (forall u, T1 u = T u) -> inv2 s T -> inv2 s T1.
Proof.
  intros s T T1 E J. destruct J. constructor; intros *; rewrite ?E; eauto.
  - intros H. destruct (a_list _ _ H) as [A [B|(u & B)]]; (split; [exact A|auto]). right. exists u. rewrite E. exact B.
  - intros H1 H2. destruct (a_gone _ _ H1 H2) as (u & j & A). exists u, j. rewrite E. exact A.
  - intros H. destruct (a_raised _ _ H) as (A & B & C). split; [exact A|]. split; [|exact C]. intros u. rewrite E. apply B.
Qed.
Lemma inv2_step : forall c s s1, inv1 s -> inv2 s (T_of s) -> step c s = Some s1 -> inv2 s1 (T_of s1).
Proof.
  intros c s s1 I J E. destruct (step_view c s s1 I E) as (t & st1 & s2 & G & V & E1 & U).
  pose proof (inv2_vstep t s (T_of s) _ _ _ _ _ _ J (excl s I) V) as J1. rewrite E1.
  eapply inv2_tops; [|eapply inv2_ext; [exact J1|reflexivity..]]. intros u. unfold T_of. cbn. rewrite U. unfold set_top.
  destruct (Nat.eqb u t); reflexivity.
Qed.
