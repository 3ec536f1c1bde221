(** Requests to an agent. *)
From Coq Require Import List Bool Arith Lia.
From Verif.Model Require Import Base Thread Aiotools Mailbox Agent Reply Request.
From Verif.Spec Require Import MailboxSpec AgentSpec AiotoolsSpec RequestSpec.
From Verif.Proofs Require Import ThreadFacts ReplyFacts AgentFacts AgentFacts2.
Import ListNotations.

(** *** One request *)
Definition replying (p : rpc) : bool := match p with R_Set _ | K_Result false | K_Cont false | K_Arg false | K_Done false _ => true | _ => false end.
Record binv (s : rstate) : Prop := {
  b_called : r_called s = true -> exists t, caller (r_thr s t) = true \/ In (Waiting t) (r_log s);
  b_reply : forall t v, In (ReplyCalled t v) (r_log s) -> In (ReplyReturned t) (r_log s) \/ replying (r_thr s t) = true }.
Lemma binv_init : binv rinit.
Proof. constructor; cbn; [discriminate|contradiction]. Qed.
Lemma binv_thr : forall s s1 t p, binv s -> r_thr s1 = (fun u => if Nat.eqb u t then p else r_thr s u) -> r_log s1 = r_log s -> r_called s1 = r_called s ->
  caller p = caller (r_thr s t) -> replying p = replying (r_thr s t) -> binv s1.
Proof.
  intros s s1 t p [B1 B2] Ht Hl Hc C R. constructor; rewrite ?Ht, ?Hl, ?Hc.
  - intros H. destruct (B1 H) as (u & U). exists u. destruct (Nat.eqb_spec u t) as [->|]; [rewrite C|]; exact U.
  - intros u v H. destruct (Nat.eqb_spec u t) as [->|]; [rewrite R|]; eauto.
Qed.
Lemma binv_returned : forall s v t (w : bool), binv s -> r_thr v = r_thr s -> r_log v = r_log s -> r_called v = r_called s ->
  (if w then caller else replying) (r_thr s t) = true -> (if w then replying else caller) (r_thr s t) = false -> binv (returned t w v).
Proof.
  intros s v t w [B1 B2] Ht Hl Hc C N. constructor; cbn; rewrite ?Ht, ?Hl, ?Hc.
  - intros H. destruct (B1 H) as (u & [U|U]); [|eauto]. destruct w; [exists t; auto|]. exists u. left. destruct (Nat.eqb_spec u t) as [->|]; [congruence|exact U].
  - intros u x [H|H]; [destruct w; discriminate|]. destruct (B2 u x H) as [U|U]; [auto|]. destruct (Nat.eqb_spec u t) as [->|]; [destruct w; [congruence|auto]|auto].
Qed.
Lemma binv_step : forall c s s1, binv s -> rstep c s = Some s1 -> binv s1.
Proof.
  intros c s s1 I E. destruct c as [t v|t| |t]; cbn in E.
  - destruct (is_ridle (r_thr s t)) eqn:X; [|discriminate]. apply ridle in X. injection E as <-. destruct I as [B1 B2]. constructor; cbn.
    + intros H. destruct (B1 H) as (u & [U|U]); [|eauto]. exists u. left. destruct (Nat.eqb_spec u t) as [->|]; [rewrite X in U; discriminate|exact U].
    + intros u x [H|H]; [injection H as -> ->; right; rewrite Nat.eqb_refl; reflexivity|]. destruct (B2 u x H) as [U|U]; [auto|]. right. destruct (Nat.eqb u t); [reflexivity|exact U].
  - destruct (is_ridle (r_thr s t)) eqn:X; [|discriminate]. apply ridle in X. destruct (r_called s); [discriminate|]. injection E as <-. destruct I as [B1 B2]. constructor; cbn.
    + intros _. exists t. rewrite Nat.eqb_refl. auto.
    + intros u x H. destruct (B2 u x H) as [U|U]; [auto|]. right. destruct (Nat.eqb_spec u t) as [->|]; [rewrite X in U; discriminate|exact U].
  - destruct (existsb _ (r_log s)); [|discriminate]. injection E as <-. destruct I as [B1 B2]. constructor; cbn.
    + intros H. destruct (B1 H) as (u & [U|U]); eauto.
    + intros u x [H|H]; [discriminate|]. destruct (B2 u x H) as [U|U]; auto.
  - unfold rrun in E. destruct (r_thr s t) as [|v| |w|w|w|w v] eqn:T; try discriminate E; injection E as <-.
    + eapply (binv_thr s _ t); [exact I|reflexivity..| |]; rewrite T; reflexivity.
    + eapply (binv_thr s _ t); [exact I|reflexivity..| |]; rewrite T; reflexivity.
    + destruct (r_result s); [eapply (binv_thr s _ t); [exact I|reflexivity..| |]|eapply (binv_returned s); [exact I|reflexivity..| |]]; rewrite T; destruct w; reflexivity.
    + destruct (r_cont s); [eapply (binv_thr s _ t); [exact I|reflexivity..| |]|eapply (binv_returned s); [exact I|reflexivity..| |]]; rewrite T; destruct w; reflexivity.
    + eapply (binv_thr s _ t); [exact I|reflexivity..| |]; rewrite T; reflexivity.
    + eapply (binv_returned s); [exact I|reflexivity..| |]; rewrite T; destruct w; reflexivity.
Qed.
Lemma binv_pf : forall cs s, exec rstep cs rinit = Some s -> binv s.
Proof. apply (exec_ind rstep (fun _ s => binv s) rinit); [apply binv_init|]. intros. eapply binv_step; eassumption. Qed.
(** What a step adds to the log. *)
Lemma rlog_step : forall c s s1 t v, rstep c s = Some s1 ->
  (In (ReplyCalled t v) (r_log s1) <-> In (ReplyCalled t v) (r_log s) \/ c = QReply t v).
Proof.
  intros c s s1 t v E. destruct c as [u x|u| |u]; cbn in E.
  - destruct (is_ridle (r_thr s u)); [|discriminate]. injection E as <-. cbn. split; [intros [H|H]; [injection H as -> ->; auto|auto]|intros [H|H]; [auto|injection H as -> ->; auto]].
  - destruct (is_ridle (r_thr s u) && negb (r_called s)); [|discriminate]. injection E as <-. cbn. split; [auto|intros [H|H]; [auto|discriminate]].
  - destruct (existsb _ (r_log s)); [|discriminate]. injection E as <-. cbn. split; [intros [H|H]; [discriminate|auto]|intros [H|H]; [auto|discriminate]].
  - unfold rrun in E. assert (Y : forall w z, r_log z = r_log s -> (In (ReplyCalled t v) (r_log (returned u w z)) <-> In (ReplyCalled t v) (r_log s) \/ QRun u = QReply t v)).
    { intros w z Z. cbn. rewrite Z. split; [intros [H|H]; [destruct w; discriminate|auto]|intros [H|H]; [auto|discriminate]]. }
    assert (N : forall z, r_log z = r_log s -> (In (ReplyCalled t v) (r_log z) <-> In (ReplyCalled t v) (r_log s) \/ QRun u = QReply t v)).
    { intros z Z. rewrite Z. split; [auto|intros [H|H]; [auto|discriminate]]. }
    destruct (r_thr s u) as [|x| |w|w|w|w x]; try discriminate E; injection E as <-; try (apply N; reflexivity).
    + destruct (r_result s); [apply N; reflexivity|apply Y; reflexivity].
    + destruct (r_cont s); [apply N; reflexivity|apply Y; reflexivity].
    + apply Y. reflexivity.
Qed.
Lemma rcalled_step : forall c s s1, rstep c s = Some s1 -> r_called s1 = (r_called s || match c with QWait _ => true | _ => false end)%bool.
Proof.
  intros c s s1 E. destruct c as [u x|u| |u]; cbn in E.
  - destruct (is_ridle (r_thr s u)); [|discriminate]. injection E as <-. cbn. destruct (r_called s); reflexivity.
  - destruct (is_ridle (r_thr s u) && negb (r_called s)); [|discriminate]. injection E as <-. cbn. destruct (r_called s); reflexivity.
  - destruct (existsb _ (r_log s)); [|discriminate]. injection E as <-. cbn. destruct (r_called s); reflexivity.
  - rewrite orb_false_r. unfold rrun in E. destruct (r_thr s u) as [|x| |w|w|w|w x]; try discriminate E; injection E as <-; try reflexivity; [destruct (r_result s); reflexivity|destruct (r_cont s); reflexivity].
Qed.

(** *** The trace of the agent *)
Lemma trace_step : forall B (next : B -> act B (nat * reply_value)) c a a1 o, astep next c a = Some a1 ->
  (In (Did o) (a_trace a1) <-> In (Did o) (a_trace a) \/ replies next c a = Some o).
Proof.
  intros B next c a a1 o E. destruct c as [c| | |]; cbn [astep] in E; unfold replies.
  - assert (S : a_trace a1 = a_trace a).
    { destruct (step c (a_box a)) as [s|] eqn:S; destruct c; try discriminate E; rewrite ?S in E; cbn in E; try discriminate E; injection E as <-; reflexivity. }
    rewrite S. split; [auto|intros [H|H]; [auto|discriminate]].
  - destruct (a_body a) as [b|b|f k|]; try discriminate; (destruct (is_idle _); [|discriminate]); destruct (next b) as [k|o1 b1| |].
    all: try (destruct (step CReceive (a_box a)); [|discriminate]).
    all: injection E as <-; cbn; intuition congruence.
  - assert (S : forall o, In (Did o) (a_trace a1) <-> In (Did o) (a_trace a)).
    { intros p. destruct (a_body a) as [b|b|f k|]; try discriminate. destruct (s_over (a_box a) f).
      - destruct (is_idle _); [|discriminate]. injection E as <-. reflexivity.
      - destruct (step (CResume f) (a_box a)) as [s|]; [|discriminate]. injection E as <-. destruct (s_fut (a_box a) f); try reflexivity. cbn. split; [intros [H|H]; [discriminate|exact H]|auto]. }
    rewrite S. split; [auto|intros [H|H]; [auto|discriminate]].
  - assert (S : a_trace a1 = a_trace a).
    { destruct (s_flag (a_box a)); [|discriminate]. destruct (a_body a) as [b|b|f k|]; try discriminate; [injection E as <-; reflexivity|]. destruct (step (CAbandon f) (a_box a)); [|discriminate]. injection E as <-. reflexivity. }
    rewrite S. split; [auto|intros [H|H]; [auto|discriminate]].
Qed.
(** What a step posts. *)
Definition posts (c : achoice) : list nat := match c with Box (CPost _ m) | Box (CAsk _ m) => [m] | _ => [] end.
Lemma posted_step : forall B (next : B -> act B (nat * reply_value)) c a a1, astep next c a = Some a1 -> posted (s_log (a_box a1)) = posted (s_log (a_box a)) ++ posts c.
Proof.
  intros B next c a a1 E. destruct c as [c| | |]; cbn [astep posts] in *.
  - assert (S : exists s, step c (a_box a) = Some s /\ a_box a1 = s /\ match c with CReceive | CResume _ | CAbandon _ => False | _ => True end).
    { destruct (step c (a_box a)) as [s|] eqn:S; [exists s; split; [reflexivity|]|]; destruct c; try discriminate E; rewrite ?S in E; cbn in E; try discriminate E; injection E as <-; auto. }
    destruct S as (s & S & -> & N). destruct c as [t m|t m| | |f|f|t|t]; try contradiction; cbn [step] in S; rewrite ?app_nil_r.
    + destruct (is_idle _); [|discriminate]. injection S as <-. reflexivity.
    + destruct (is_idle _); [|discriminate]. injection S as <-. reflexivity.
    + destruct (s_ready (a_box a)); [discriminate|]. destruct (is_idle _); [|discriminate]. injection S as <-. reflexivity.
    + destruct (is_idle _); [|discriminate]. injection S as <-. reflexivity.
    + unfold run in S. destruct (s_thr (a_box a) t); try discriminate S; try (injection S as <-; reflexivity).
      * destruct (s_cont (a_box a)); injection S as <-; reflexivity.
      * destruct c; injection S as <-; reflexivity.
      * destruct (acquire t (s_lock (a_box a))); [|discriminate]. injection S as <-. reflexivity.
      * destruct (s_queue (a_box a)); [discriminate|]. injection S as <-. reflexivity.
      * destruct c; injection S as <-; reflexivity.
      * destruct (release t (s_lock (a_box a))); [|discriminate]. injection S as <-. reflexivity.
  - rewrite app_nil_r. destruct (a_body a) as [b|b|f k|]; try discriminate; (destruct (is_idle (s_thr (a_box a) 0)) eqn:X; [|discriminate]); destruct (next b) as [k|o1 b1| |]; cbn in E; rewrite ?X in E; injection E as <-; reflexivity.
  - rewrite app_nil_r. destruct (a_body a) as [b|b|f k|]; try discriminate. destruct (s_over (a_box a) f).
    + destruct (is_idle _); [|discriminate]. injection E as <-. reflexivity.
    + cbn [step] in E. destruct (awaited f (a_box a)); [|discriminate]. destruct (s_fut (a_box a) f); try discriminate; injection E as <-; reflexivity.
  - rewrite app_nil_r. destruct (s_flag (a_box a)); [|discriminate]. destruct (a_body a) as [b|b|f k|]; try discriminate; [injection E as <-; reflexivity|].
    cbn [step] in E. destruct (awaited f (a_box a)); [|discriminate]. injection E as <-. reflexivity.
Qed.

Section Request.
  Context {B : Type} (next : B -> act B (nat * reply_value)) (b0 : B).
  Record yinv (y : system B) : Prop := {
    y_run : exists ds, exec (astep next) ds (start b0) = Some (y_agent y);
    y_each : forall n, exists ds, exec rstep ds rinit = Some (y_req y n);
    y_posted : posted (s_log (a_box (y_agent y))) = seq 0 (y_count y);
    y_replied : forall n t v, In (ReplyCalled t v) (r_log (y_req y n)) <-> t = 0 /\ In (Did (n, v)) (a_trace (y_agent y));
    y_pending : forall n, In n (y_asked y) -> r_called (y_req y n) = true \/ exists t, y_asking y t = Some n;
    y_ask : forall t n, y_asking y t = Some n -> r_called (y_req y n) = false /\ n < y_count y;
    y_one : forall t u n, y_asking y t = Some n -> y_asking y u = Some n -> t = u;
    y_late : forall n, y_count y <= n -> r_called (y_req y n) = false }.
  Lemma yinv_start : yinv (system_start b0).
  Proof.
    constructor; cbn; auto; try discriminate; try contradiction; [exists []; reflexivity|exists []; reflexivity|]. intros n t v. tauto.
  Qed.
  Lemma exec_snoc : forall C S (step : C -> S -> option S) cs c s0 s s1, exec step cs s0 = Some s -> step c s = Some s1 -> exec step (cs ++ [c]) s0 = Some s1.
  Proof.
    intros C S st cs c. induction cs as [|d cs IH]; intros s0 s s1 E X; cbn in *; [injection E as ->; rewrite X; reflexivity|]. destruct (st d s0); [eauto|discriminate].
  Qed.
  (** A step of request [n] that is no reply and no call. *)
  Lemma yinv_req : forall y n c r, yinv y -> rstep c (y_req y n) = Some r -> match c with QRun _ | QGiveUp => True | _ => False end ->
    yinv (System (y_agent y) (update n r (y_req y)) (y_asking y) (y_asked y) (y_count y)).
  Proof.
    intros y n c r [I1 I2 I3 I4 I5 I6 I7 I8] E K.
    assert (CA : forall m, r_called (update n r (y_req y) m) = r_called (y_req y m)).
    { intros m. unfold update. destruct (Nat.eqb_spec m n) as [->|]; [|reflexivity]. rewrite (rcalled_step _ _ _ E). destruct c; try contradiction; apply orb_false_r. }
    constructor; cbn; auto.
    - intros m. unfold update. destruct (Nat.eqb_spec m n) as [->|]; [|auto]. destruct (I2 n) as [ds D]. exists (ds ++ [c]). eapply exec_snoc; eassumption.
    - intros m t v. rewrite <- I4. unfold update. destruct (Nat.eqb_spec m n) as [->|]; [|reflexivity]. rewrite (rlog_step _ _ _ t v E). split; [intros [H|H]; [exact H|subst c; contradiction]|auto].
    - intros m H. rewrite CA. auto.
    - intros t m H. rewrite CA. exact (I6 t m H).
    - intros m H. rewrite CA. auto.
  Qed.
  Lemma yinv_step : forall c y y1, yinv y -> ystep next c y = Some y1 -> yinv y1.
  Proof.
    intros c y y1 I E. destruct c as [t|t|t|n t|n|c]; cbn [ystep] in E.
    - destruct (astep next (Box (CPost t (y_count y))) (y_agent y)) as [a|] eqn:A; [|discriminate]. injection E as <-. destruct I as [[ds I1] I2 I3 I4 I5 I6 I7 I8]. constructor; cbn [y_agent y_req y_asking y_asked y_count]; auto.
      + exists (ds ++ [Box (CPost t (y_count y))]). eapply exec_snoc; eassumption.
      + rewrite (posted_step _ _ _ _ _ A), I3. cbn [posts]. rewrite seq_S. reflexivity.
      + intros n u v. rewrite I4, (trace_step _ _ _ _ _ (n, v) A). cbn [replies]. split; [tauto|intros [H1 [H2|H2]]; [auto|discriminate]].
      + intros u n H. destruct (I6 u n H). split; [assumption|lia].
      + intros n H. apply I8. lia.
    - destruct (y_asking y t) eqn:AT; [discriminate|]. destruct (astep next (Box (CAsk t (y_count y))) (y_agent y)) as [a|] eqn:A; [|discriminate]. injection E as <-. destruct I as [[ds I1] I2 I3 I4 I5 I6 I7 I8].
      constructor; cbn [y_agent y_req y_asking y_asked y_count]; auto.
      + exists (ds ++ [Box (CAsk t (y_count y))]). eapply exec_snoc; eassumption.
      + rewrite (posted_step _ _ _ _ _ A), I3. cbn [posts]. rewrite seq_S. reflexivity.
      + intros n u v. rewrite I4, (trace_step _ _ _ _ _ (n, v) A). cbn [replies]. split; [tauto|intros [H1 [H2|H2]]; [auto|discriminate]].
      + intros n [<-|H]; [right; exists t; unfold update; rewrite Nat.eqb_refl; reflexivity|]. destruct (I5 n H) as [X|[u X]]; [auto|]. right. exists u. unfold update. destruct (Nat.eqb_spec u t) as [->|]; [congruence|exact X].
      + intros u n. unfold update. destruct (Nat.eqb_spec u t) as [->|].
        * intros H. injection H as <-. split; [apply I8; lia|lia].
        * intros H. destruct (I6 u n H). split; [assumption|lia].
      + intros u w n. unfold update. destruct (Nat.eqb_spec u t) as [->|], (Nat.eqb_spec w t) as [->|]; auto; intros H1 H2.
        * injection H1 as <-. destruct (I6 w _ H2). lia.
        * injection H2 as <-. destruct (I6 u _ H1). lia.
        * eauto.
      + intros n H. apply I8. lia.
    - destruct (y_asking y t) as [n|] eqn:AT; [|discriminate]. destruct (is_idle _); [|discriminate]. destruct (rstep (QWait t) (y_req y n)) as [r|] eqn:R; [|discriminate]. injection E as <-. destruct I as [I1 I2 I3 I4 I5 I6 I7 I8].
      assert (CR : r_called r = true) by (rewrite (rcalled_step _ _ _ R); apply orb_true_r).
      constructor; cbn [y_agent y_req y_asking y_asked y_count]; auto.
      + intros m. unfold update. destruct (Nat.eqb_spec m n) as [->|]; [|auto]. destruct (I2 n) as [ds D]. exists (ds ++ [QWait t]). eapply exec_snoc; eassumption.
      + intros m u v. rewrite <- I4. unfold update. destruct (Nat.eqb_spec m n) as [->|]; [|reflexivity]. rewrite (rlog_step _ _ _ u v R). split; [intros [H|H]; [exact H|discriminate]|auto].
      + intros m H. unfold update at 1. destruct (Nat.eqb_spec m n) as [->|]; [auto|]. destruct (I5 m H) as [X|[u X]]; [auto|]. right. exists u. unfold update. destruct (Nat.eqb_spec u t) as [->|]; [congruence|exact X].
      + intros u m. unfold update. destruct (Nat.eqb_spec u t) as [->|]; [discriminate|]. intros H. destruct (Nat.eqb_spec m n) as [->|]; [destruct n0; eapply I7; eassumption|exact (I6 u m H)].
      + intros u w m. unfold update. destruct (Nat.eqb_spec u t); [discriminate|]. destruct (Nat.eqb_spec w t); [discriminate|]. apply I7.
      + intros m H. unfold update. destruct (Nat.eqb_spec m n) as [->|]; [|auto]. destruct (I6 t n AT). lia.
    - destruct (rstep (QRun t) (y_req y n)) as [r|] eqn:R; [|discriminate]. injection E as <-. eapply yinv_req; [exact I|exact R|exact Logic.I].
    - destruct (rstep QGiveUp (y_req y n)) as [r|] eqn:R; [|discriminate]. injection E as <-. eapply yinv_req; [exact I|exact R|exact Logic.I].
    - assert (P : posts c = []) by (destruct c as [[]| | |]; try discriminate E; reflexivity).
      assert (E1 : match astep next c (y_agent y) with
            | None => None
            | Some a =>
                match replies next c (y_agent y) with
                | Some (n, v) => option_map (fun r => System a (update n r (y_req y)) (y_asking y) (y_asked y) (y_count y)) (rstep (QReply 0 v) (y_req y n))
                | None => Some (System a (y_req y) (y_asking y) (y_asked y) (y_count y))
                end
            end = Some y1) by (destruct c as [[]| | |]; try discriminate E; exact E).
      clear E. destruct (astep next c (y_agent y)) as [a|] eqn:A; [|discriminate]. pose proof (posted_step _ _ _ _ _ A) as PS. rewrite P, app_nil_r in PS.
      destruct I as [[ds I1] I2 I3 I4 I5 I6 I7 I8]. assert (RN : exists ds, exec (astep next) ds (start b0) = Some a) by (exists (ds ++ [c]); eapply exec_snoc; eassumption).
      destruct (replies next c (y_agent y)) as [[n v]|] eqn:RE.
      + destruct (rstep (QReply 0 v) (y_req y n)) as [r|] eqn:R; [|discriminate]. injection E1 as <-.
        assert (CA : forall m, r_called (update n r (y_req y) m) = r_called (y_req y m)).
        { intros m. unfold update. destruct (Nat.eqb_spec m n) as [->|]; [|reflexivity]. rewrite (rcalled_step _ _ _ R). apply orb_false_r. }
        constructor; cbn [y_agent y_req y_asking y_asked y_count]; auto.
        * intros m. unfold update. destruct (Nat.eqb_spec m n) as [->|]; [|auto]. destruct (I2 n) as [es D]. exists (es ++ [QReply 0 v]). eapply exec_snoc; eassumption.
        * congruence.
        * intros m u x. rewrite (trace_step _ _ _ _ _ (m, x) A), RE. unfold update. destruct (Nat.eqb_spec m n) as [->|].
          -- rewrite (rlog_step _ _ _ u x R), I4. split; [intros [[H1 H2]|H]; [tauto|injection H as <- <-; auto]|intros [H1 [H2|H2]]; [auto|injection H2 as <-; subst; auto]].
          -- rewrite I4. split; [tauto|intros [H1 [H2|H2]]; [auto|congruence]].
        * intros m H. rewrite CA. auto.
        * intros u m H. rewrite CA. exact (I6 u m H).
        * intros m H. rewrite CA. auto.
      + injection E1 as <-. constructor; cbn [y_agent y_req y_asking y_asked y_count]; auto; [congruence|].
        intros m u x. rewrite (trace_step _ _ _ _ _ (m, x) A), RE, I4. split; [tauto|intros [H1 [H2|H2]]; [auto|discriminate]].
  Qed.
  Lemma yinv_pf : forall cs y, exec (ystep next) cs (system_start b0) = Some y -> yinv y.
  Proof. apply (exec_ind (ystep next) (fun _ y => yinv y)); [apply yinv_start|]. intros. eapply yinv_step; eassumption. Qed.
  (** The agent's part of the schedule. *)
  Lemma agent_part : forall cs y, Forall request_on_loop cs -> exec (ystep next) cs (system_start b0) = Some y ->
    exists ds, Forall agent_on_loop ds /\ exec (astep next) ds (start b0) = Some (y_agent y).
  Proof.
    intros cs y L E. revert L. revert cs y E.
    apply (exec_ind (ystep next) (fun cs y => Forall request_on_loop cs -> exists ds, Forall agent_on_loop ds /\ exec (astep next) ds (start b0) = Some (y_agent y))).
    - intros _. exists []. split; [constructor|reflexivity].
    - intros cs c y y1 IH E L. apply Forall_app in L. destruct L as [L1 L2]. apply Forall_inv in L2. destruct (IH L1) as (ds & D1 & D2).
      assert (Sn : forall e a, agent_on_loop e -> astep next e (y_agent y) = Some a -> exists ds, Forall agent_on_loop ds /\ exec (astep next) ds (start b0) = Some a).
      { intros e a K A. exists (ds ++ [e]). split; [apply Forall_app; auto|eapply exec_snoc; eassumption]. }
      destruct c as [t|t|t|n t|n|c]; cbn [ystep] in E.
      + destruct (astep next (Box (CPost t (y_count y))) (y_agent y)) as [a|] eqn:A; [|discriminate]. injection E as <-. eapply Sn; [|exact A]. exact Logic.I.
      + destruct (y_asking y t); [discriminate|]. destruct (astep next (Box (CAsk t (y_count y))) (y_agent y)) as [a|] eqn:A; [|discriminate]. injection E as <-. eapply Sn; [|exact A]. exact L2.
      + destruct (y_asking y t); [|discriminate]. destruct (is_idle _); [|discriminate]. destruct (rstep _ _); [|discriminate]. injection E as <-. eauto.
      + destruct (rstep _ _); [|discriminate]. injection E as <-. eauto.
      + destruct (rstep _ _); [|discriminate]. injection E as <-. eauto.
      + assert (K : agent_on_loop c) by (destruct c as [[]| | |]; try discriminate E; exact Logic.I).
        assert (X : exists a, astep next c (y_agent y) = Some a /\ y_agent y1 = a).
        { destruct (astep next c (y_agent y)) as [a|] eqn:A; [|destruct c as [[]| | |]; discriminate E]. exists a. split; [reflexivity|].
          destruct (replies next c (y_agent y)) as [[n v]|]; [destruct (rstep (QReply 0 v) (y_req y n)) as [r|]|]; destruct c as [[]| | |]; try discriminate E; injection E as <-; reflexivity. }
        destruct X as (a & A & ->). eapply Sn; eassumption.
  Qed.
  Lemma quiet_requests : forall y, system_quiet next y -> forall n t, r_thr (y_req y n) t = R_Idle.
  Proof.
    intros y Q n t. specialize (Q (YRequest n t) Logic.I). cbn in Q. unfold rrun in Q. destruct (r_thr (y_req y n) t) as [|v| |w|w|w|w v]; cbn in Q; try reflexivity; discriminate.
  Qed.
  Lemma quiet_agent : forall y, system_quiet next y -> agent_quiet next (y_agent y).
  Proof.
    intros y Q c G. pose proof (quiet_requests y Q) as R. destruct (astep next c (y_agent y)) as [a|] eqn:A; [|reflexivity]. exfalso.
    assert (QC : ystep next (YAgent c) y = None) by (apply Q; destruct c as [c| | |]; auto).
    assert (X : exists z, ystep next (YAgent c) y = Some z).
    { cbn [ystep]. destruct (replies next c (y_agent y)) as [[n v]|] eqn:RE; destruct c as [[]| | |]; try contradiction; rewrite A; try discriminate RE; eauto; rewrite ?RE; cbn; rewrite ?(R n 0); cbn; eauto. }
    destruct X as [z X]. congruence.
  Qed.
End Request.

(** *** Serving *)
Lemma serving_answers : forall S (f : S -> nat -> S * reply_value) ms s, let g := fun s n => let (s, v) := f s n in (s, (n, v)) in
  map fst (answers g s ms) = ms /\ map snd (answers g s ms) = answers f s ms.
Proof.
  intros S f ms s g. revert s. induction ms as [|m ms IH]; intros s; [split; reflexivity|]. cbn. unfold g at 1 3. destruct (f s m) as [s1 v]. destruct (IH s1) as [H1 H2]. cbn. rewrite H1, H2. auto.
Qed.
Lemma seq_nth_inv : forall n i m, nth_error (seq 0 n) i = Some m -> m = i.
Proof.
  intros n i m H. assert (L : i < n) by (rewrite <- (seq_length n 0); apply nth_error_Some; congruence). apply (nth_error_nth _ _ 0) in H. rewrite seq_nth in H by exact L. cbn in H. lia.
Qed.
Lemma serving_in : forall S (f : S -> nat -> S * reply_value) s k n v, In (n, v) (answers (fun s n => let (s, v) := f s n in (s, (n, v))) s (seq 0 k)) <-> nth_error (answers f s (seq 0 k)) n = Some v.
Proof.
  intros S f s k n v. destruct (serving_answers S f (seq 0 k) s) as [H1 H2]. set (l := answers _ s (seq 0 k)) in *. rewrite <- H2. split.
  - intros H. apply In_nth_error in H. destruct H as [i H]. assert (X : nth_error (map fst l) i = Some n) by (rewrite nth_error_map, H; reflexivity). rewrite H1 in X. apply seq_nth_inv in X. subst i. rewrite nth_error_map, H. reflexivity.
  - rewrite nth_error_map. intros H. destruct (nth_error l n) as [[m x]|] eqn:E; [|discriminate]. injection H as <-. assert (X : nth_error (map fst l) n = Some m) by (rewrite nth_error_map, E; reflexivity). rewrite H1 in X. apply seq_nth_inv in X. subst m. eapply nth_error_In, E.
Qed.
Lemma outputs_in : forall O (tr : list (happening O)) o, In o (outputs tr) <-> In (Did o) tr.
Proof.
  intros O tr o. induction tr as [|[m|p] tr IH]; cbn; [tauto| |]; rewrite IH; split; intros H; try tauto; [destruct H as [H|H]; [discriminate|exact H]|destruct H as [->|H]; auto|destruct H as [H|H]; [injection H as ->; auto|auto]].
Qed.
