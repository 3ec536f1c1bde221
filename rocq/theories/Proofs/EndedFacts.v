(** Requests to an agent whose body has ended. *)
From Coq Require Import List Bool Arith Lia.
From Verif.Model Require Import Base Thread Aiotools Mailbox Agent Reply Request.
From Verif.Spec Require Import MailboxSpec AgentSpec AiotoolsSpec RequestSpec.
From Verif.Proofs Require Import MailboxFacts MailboxFacts3 ReplyFacts AgentFacts AgentFacts2 RequestFacts.
Import ListNotations.

Section Ended.
  Context {B : Type} (next : B -> act B (nat * reply_value)) (b0 : B).
  Implicit Types y : system B.

  Lemma over_agent : forall c (a a1 : agent B (nat * reply_value)), a_body a = Over -> astep next c a = Some a1 -> a_body a1 = Over /\ a_trace a1 = a_trace a.
  Proof.
    intros c a a1 O E. destruct c as [c| | |]; cbn [astep] in E.
    - destruct (step c (a_box a)) as [s|]; destruct c; cbn in E; try discriminate E; injection E as <-; auto.
    - rewrite O in E. discriminate.
    - rewrite O in E. discriminate.
    - rewrite O in E. destruct (s_flag (a_box a)); discriminate.
  Qed.
  Lemma over_step : forall c y y1, a_body (y_agent y) = Over -> ystep next c y = Some y1 ->
    a_body (y_agent y1) = Over /\ a_trace (y_agent y1) = a_trace (y_agent y).
  Proof.
    intros c y y1 O E. destruct c as [t|t|t|n t|n|c]; cbn [ystep] in E.
    - destruct (astep next (Box (CPost t (y_count y))) (y_agent y)) as [a|] eqn:A; [|discriminate]. injection E as <-. eapply over_agent; eassumption.
    - destruct (y_asking y t); [discriminate|]. destruct (astep next (Box (CAsk t (y_count y))) (y_agent y)) as [a|] eqn:A; [|discriminate]. injection E as <-. eapply over_agent; eassumption.
    - destruct (y_asking y t) as [n|]; [|discriminate]. destruct (is_idle _); [|discriminate]. destruct (rstep (QWait t) (y_req y n)); [|discriminate]. injection E as <-. auto.
    - destruct (rstep (QRun t) (y_req y n)); [|discriminate]. injection E as <-. auto.
    - destruct (rstep QGiveUp (y_req y n)); [|discriminate]. injection E as <-. auto.
    - assert (X : exists a, astep next c (y_agent y) = Some a /\ y_agent y1 = a).
      { destruct (astep next c (y_agent y)) as [a|] eqn:A; [|destruct c as [[]| | |]; discriminate E].
        exists a. split; [reflexivity|]. destruct (replies next c (y_agent y)) as [[n v]|].
        - destruct (rstep (QReply 0 v) (y_req y n)); destruct c as [[]| | |]; try discriminate E; injection E as <-; reflexivity.
        - destruct c as [[]| | |]; try discriminate E; injection E as <-; reflexivity. }
      destruct X as (a & A & ->). eapply over_agent; eassumption.
  Qed.
  Lemma over_exec : forall cs y y1, a_body (y_agent y) = Over -> exec (ystep next) cs y = Some y1 ->
    a_body (y_agent y1) = Over /\ a_trace (y_agent y1) = a_trace (y_agent y).
  Proof.
    induction cs as [|c cs IH]; intros y y1 O E; cbn in E; [injection E as <-; auto|]. destruct (ystep next c y) as [z|] eqn:S; [|discriminate].
    destruct (over_step c y z O S) as [O1 T1]. destruct (IH z y1 O1 E) as [O2 T2]. split; [exact O2|congruence].
  Qed.
  Lemma exec_app : forall cs ds y0 y y1, exec (ystep next) cs y0 = Some y -> exec (ystep next) ds y = Some y1 -> exec (ystep next) (cs ++ ds) y0 = Some y1.
  Proof.
    induction cs as [|c cs IH]; intros ds y0 y y1 E1 E2; cbn in *; [injection E1 as ->; exact E2|]. destruct (ystep next c y0); [eauto|discriminate].
  Qed.

  (** A request that was not answered while the body ran never ends. *)
  Lemma waits_pf : forall cs y n, exec (ystep next) cs (system_start b0) = Some y -> a_body (y_agent y) = Over -> (forall v, ~ In (Did (n, v)) (a_trace (y_agent y))) ->
    forall ds y1 o, exec (ystep next) ds y = Some y1 -> sees (r_fut (y_req y1 n)) o -> In GaveUp (r_log (y_req y1 n)).
  Proof.
    intros cs y n E O N ds y1 o E1 H. pose proof (yinv_pf next b0 _ _ (exec_app cs ds _ _ _ E E1)) as I.
    destruct (over_exec ds y y1 O E1) as [_ T]. destruct (y_each _ _ _ I n) as [es X].
    apply (none_pf es _ o X); [|exact H]. intros t v R. apply (y_replied _ _ _ I) in R. destruct R as [_ R]. rewrite T in R. destruct (N v R).
  Qed.

  (** A request that was answered ends, whatever became of the body. *)
  Lemma answered_over : forall cs y n, exec (ystep next) cs (system_start b0) = Some y -> system_quiet next y -> In n (y_asked y) ->
    (exists v, In (Did (n, v)) (a_trace (y_agent y))) -> ~ In (Did (n, None)) (a_trace (y_agent y)) ->
    (exists x, sees (r_fut (y_req y n)) (OValue (Some x)) /\ In (Did (n, Some x)) (a_trace (y_agent y))) \/ In GaveUp (r_log (y_req y n)).
  Proof.
    intros cs y n E Q A [v D] N. pose proof (yinv_pf next b0 cs y E) as I. pose proof (quiet_requests _ y Q n) as RI. pose proof (quiet_agent _ y Q) as QA.
    assert (TI : forall t, s_thr (a_box (y_agent y)) t = Idle).
    { destruct (y_run _ _ _ I) as [ds D2]. destruct (gen_pf _ _ ds _ D2) as [[gs G] _]. destruct (MailboxFacts6.threads_pf gs _ G) as (cons & pos & LI & _). apply (idle_quiet cons _ LI).
      intros u. specialize (QA (Box (CRun u)) Logic.I). cbn [astep] in QA. destruct (step (CRun u) (a_box (y_agent y))); [discriminate|reflexivity]. }
    assert (RC : r_called (y_req y n) = true).
    { destruct (y_pending _ _ _ I n A) as [H|[t H]]; [exact H|]. exfalso. specialize (Q (YGoOn t) Logic.I). cbn in Q. rewrite H in Q. destruct (y_ask _ _ _ I t n H) as [H1 _].
      rewrite (TI t), (RI t), H1 in Q. cbn in Q. discriminate. }
    destruct (y_each _ _ _ I n) as [es X]. destruct (binv_pf es _ X) as [B1 B2].
    assert (RP : In (ReplyCalled 0 v) (r_log (y_req y n))) by (apply (y_replied _ _ _ I); auto).
    destruct (B1 RC) as [t [T|T]]; [rewrite RI in T; discriminate|]. destruct (B2 0 _ RP) as [U|U]; [|rewrite RI in U; discriminate].
    destruct (completes_pf es _ t 0 X) as [(x & w & S & R)|G]; [|exact T|exact U| |now right].
    - intros u R. apply (y_replied _ _ _ I) in R. destruct R as [_ R]. contradiction.
    - left. exists x. split; [exact S|]. apply (y_replied _ _ _ I) in R. apply R.
  Qed.

  (** What was posted and not handled is in the queue, but for one message. *)
  Lemma queued_pf : forall cs y, Forall request_on_loop cs -> exec (ystep next) cs (system_start b0) = Some y ->
    length (posted (s_log (a_box (y_agent y)))) <= S (length (messages (rev (a_trace (y_agent y)))) + length (s_queue (a_box (y_agent y)))).
  Proof.
    intros cs y L E. destruct (agent_part next b0 cs y L E) as (ds & F & D). destruct (loop_pf next b0 ds _ F D) as [[T1 _] I].
    destruct (ai_run _ _ _ I) as (es & FE & X). destruct (loop_all es _ FE X) as (cons & A). pose proof (a_inv _ _ A) as IA.
    pose proof (one_body_len _ (ai_one _ _ _ I) (i_dup _ _ IA)) as LN. rewrite T1, (i_queue _ _ IA), app_length.
    enough (length cons <= length (accepted (s_log (a_box (y_agent y))))) by lia.
    pose proof (i_phase _ _ IA) as P. set (acc := accepted _) in *. clearbody acc.
    assert (R : forall k c, rel acc k c -> length k <= length acc).
    { intros k [c|] H; unfold rel in H; [destruct H as (l & -> & H); rewrite app_length; cbn; lia|lia]. }
    assert (R1 : forall k c m, rel acc k c -> c <> None -> length (k ++ [m]) <= length acc).
    { intros k [c|] m H N; [|congruence]. unfold rel in H. destruct H as (l & -> & H). rewrite !app_length. cbn. lia. }
    destruct (s_thr (a_box (y_agent y)) 0); unfold phase in P;
      first [exact (R _ _ P)|exact (R _ _ (proj2 P))|destruct P as (k & -> & N & P); first [exact (R1 _ _ _ P N)|exact (R1 _ _ _ (proj2 P) N)]].
  Qed.
End Ended.
