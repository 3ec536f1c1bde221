(** No thread is stuck, whichever threads process events. *)
From Coq Require Import List Bool Arith Lia.
From Verif.Model Require Import Base Thread Aiotools Mailbox.
From Verif.Spec Require Import MailboxSpec RestSpec.
From Verif.Proofs Require Import ThreadFacts MailboxFacts.
Import ListNotations.

Record locked (s : state) : Prop := {
  lk_owner : forall t, locking (s_thr s t) = true <-> s_lock s = Some (t, 1);
  lk_free : s_lock s = None \/ exists o, s_lock s = Some (o, 1);
  lk_get : forall t, s_thr s t = P_Get -> s_queue s <> [] }.
Lemma locked_init : locked init.
Proof. constructor; cbn; auto; try discriminate. intros t. split; discriminate. Qed.
(** A step of thread [t] between places that both hold the lock or both do not. *)
Lemma locked_goto : forall t p s s1, locked s -> locking p = locking (s_thr s t) -> s_lock s1 = s_lock s -> s_thr s1 = s_thr (goto t p s) ->
  (s_queue s <> [] -> s_queue s1 <> []) -> (p = P_Get -> s_queue s1 <> []) -> locked s1.
Proof.
  intros t p s s1 [O F G] L E1 E2 Q1 Q2. constructor; rewrite ?E1, ?E2; auto; cbn; intros u; destruct (Nat.eqb_spec u t) as [->|D]; auto.
  - rewrite L. apply O.
  - intros H. apply Q1, (G u H).
Qed.
Lemma locked_step : forall c s s1, locked s -> step c s = Some s1 -> locked s1.
Proof.
  intros c s s1 I E. destruct c as [t m|t m| | |f|f|t|t]; cbn [step] in E.
  - destruct (is_idle (s_thr s t)) eqn:X; [|discriminate]. apply idle in X. injection E as <-. apply (locked_goto t A_Soon s); auto; try reflexivity; try discriminate; [now rewrite X|]. intros _. cbn. destruct (s_queue s); discriminate.
  - destruct (is_idle (s_thr s t)) eqn:X; [|discriminate]. apply idle in X. injection E as <-. apply (locked_goto t P_Flag s); auto; try reflexivity; try discriminate; [now rewrite X|]. intros _. cbn. destruct (s_queue s); discriminate.
  - destruct (is_idle (s_thr s 0)) eqn:X; [|discriminate]. apply idle in X. injection E as <-. apply (locked_goto 0 (V_Check (s_nfut s)) s); auto; try reflexivity; try discriminate. now rewrite X.
  - destruct (s_ready s); [discriminate|]. destruct (is_idle (s_thr s 0)) eqn:X; [|discriminate]. apply idle in X. injection E as <-. apply (locked_goto 0 P_Flag s); auto; try reflexivity; try discriminate. now rewrite X.
  - destruct (awaited f s); [|discriminate]. destruct (s_fut s f); try discriminate; injection E as <-; constructor; cbn; apply I.
  - destruct (awaited f s); [|discriminate]. injection E as <-; constructor; cbn; apply I.
  - destruct (is_idle (s_thr s t)); [|discriminate]. injection E as <-; constructor; cbn; apply I.
  - assert (G : forall p s1, s_thr s1 = s_thr (goto t p s) -> locking p = locking (s_thr s t) -> s_lock s1 = s_lock s -> s_queue s1 = s_queue s -> (p = P_Get -> s_queue s <> []) -> locked s1).
    { intros p s2 H3 H1 H2 H4 H5. apply (locked_goto t p s); auto; rewrite H4; auto. }
    unfold run in E. destruct (s_thr s t) as [| |f|f|f| | |c|c| | | | |m|m c|m c|] eqn:T; try discriminate E.
    + injection E as <-. eapply G; reflexivity || discriminate.
    + destruct (s_cont s); injection E as <-; (eapply G; reflexivity || discriminate).
    + injection E as <-. eapply G; reflexivity || discriminate.
    + injection E as <-. eapply G; reflexivity || discriminate.
    + injection E as <-. eapply G; try reflexivity; destruct (s_flag s); reflexivity || discriminate.
    + injection E as <-. eapply G; reflexivity || discriminate.
    + injection E as <-. eapply G; reflexivity || discriminate.
    + injection E as <-. apply (G Idle); destruct c; reflexivity || discriminate.
    + injection E as <-. eapply G; try reflexivity; destruct (s_cont s); reflexivity || discriminate.
    + destruct (acquire t (s_lock s)) as [l|] eqn:A; [|discriminate]. injection E as <-. destruct (acquire_inv _ _ _ A) as [[A1 A2]|(n & A1 & _)].
      * subst l. destruct I as [O F GT]. constructor; cbn.
        -- intros u. destruct (Nat.eqb_spec u t) as [->|D]; [split; reflexivity|]. split; [|intros H; injection H as H; congruence]. intros H. apply O in H. congruence.
        -- right. exists t. reflexivity.
        -- intros u. destruct (Nat.eqb u t); [discriminate|apply GT].
      * exfalso. destruct (lk_free _ I) as [X|[o X]]; [congruence|]. rewrite A1 in X. injection X as -> ->. apply (lk_owner _ I) in A1. rewrite T in A1. discriminate.
    + injection E as <-. apply (G (match s_queue s with [] => P_Release | _ => P_Get end)); try reflexivity; destruct (s_queue s); reflexivity || discriminate.
    + destruct (s_queue s) as [|m q] eqn:Q; [discriminate|]. injection E as <-. destruct I as [O F GT].
      assert (L : s_lock s = Some (t, 1)) by (apply O; rewrite T; reflexivity).
      constructor; cbn; auto; intros u; destruct (Nat.eqb_spec u t) as [->|D]; try discriminate.
      * rewrite L. split; reflexivity.
      * apply O.
      * intros H. exfalso. assert (X : s_lock s = Some (u, 1)) by (apply O; rewrite H; reflexivity). congruence.
    + injection E as <-. eapply G; reflexivity || discriminate.
    + injection E as <-. eapply G; reflexivity || discriminate.
    + injection E as <-. apply (G P_Release); destruct c; reflexivity || discriminate.
    + destruct (release t (s_lock s)) as [l|] eqn:A; [|discriminate]. injection E as <-.
      assert (L : s_lock s = Some (t, 1)) by (apply (lk_owner _ I); rewrite T; reflexivity). rewrite L in A. cbn in A. rewrite Nat.eqb_refl in A. injection A as <-.
      destruct I as [O F GT]. constructor; cbn; auto.
      * intros u. destruct (Nat.eqb_spec u t) as [->|D]; [split; discriminate|]. split; [|discriminate]. intros H. apply O in H. congruence.
      * intros u. destruct (Nat.eqb u t); [discriminate|apply GT].
Qed.
Lemma locked_pf : forall cs s, exec step cs init = Some s -> locked s.
Proof. intros cs s E. revert E. apply (exec_ind step (fun _ s => locked s)); [exact locked_init|]. intros ds c s1 s2 I S. exact (locked_step c s1 s2 I S). Qed.
(** A thread in a call can make a step, or waits for the lock, whose owner can. *)
Lemma not_stuck : forall s t, locked s -> s_thr s t <> Idle ->
  (exists s1, step (CRun t) s = Some s1) \/ (s_thr s t = P_Acquire /\ exists u s1, u <> t /\ s_lock s = Some (u, 1) /\ step (CRun u) s = Some s1).
Proof.
  intros s t I H.
  assert (K : forall u, locking (s_thr s u) = true -> exists s1, step (CRun u) s = Some s1).
  { intros u L. pose proof (proj1 (lk_owner _ I u) L) as O. pose proof (lk_get _ I u) as G. cbn [step]. unfold run. destruct (s_thr s u); try discriminate L; eauto.
    - destruct (s_queue s); [destruct (G eq_refl eq_refl)|eauto].
    - rewrite O. cbn. rewrite Nat.eqb_refl. cbn. eauto. }
  destruct (locking (s_thr s t)) eqn:L; [left; apply K, L|]. destruct (s_thr s t) eqn:T; try discriminate L; try congruence;
    try (left; cbn [step]; unfold run; rewrite T; eauto; fail).
  - left. cbn [step]. unfold run. rewrite T. destruct (s_cont s); eauto.
  - destruct (lk_free _ I) as [F|[o F]].
    + left. cbn [step]. unfold run. rewrite T, F. cbn. eauto.
    + right. split; [reflexivity|]. pose proof (proj2 (lk_owner _ I o) F) as L1. destruct (K o L1) as [s1 E]. exists o, s1. split; [|auto]. intros ->. rewrite T in L1. discriminate.
Qed.
