(** C99: a request to an agent gets its own answer. *)
From Coq Require Import List Bool Arith Lia.
From Verif.Model Require Import Base Thread Aiotools Mailbox Agent Reply Request.
From Verif.Spec Require Import MailboxSpec AgentSpec AiotoolsSpec RequestSpec.
From Verif.Proofs Require Import ReplyFacts AgentFacts AgentFacts2 RequestFacts.
From Verif.Props Require Import PMailbox PAgent.
Import ListNotations.

Section Serving.
  Context {S : Type} (f : S -> nat -> S * reply_value) (s0 : S).
  Lemma replied_answers : forall cs y n t v, Forall request_on_loop cs -> exec (ystep (serving f)) cs (serve s0) = Some y ->
    In (ReplyCalled t v) (r_log (y_req y n)) -> nth_error (answers f s0 (posted (s_log (a_box (y_agent y))))) n = Some v.
  Proof.
    intros cs y n t v L E R. pose proof (yinv_pf (serving f) (s0, None) cs y E) as I. apply (y_replied _ _ _ I) in R. destruct R as [_ R].
    destruct (agent_part (serving f) (s0, None) cs y L E) as (ds & D1 & D2). destruct (C97_answers_partial _ _ _ s0 ds (y_agent y) D1 D2) as [[k P] _].
    rewrite (y_posted _ _ _ I) in *. apply (proj1 (serving_in S f s0 (y_count y) n v)). rewrite P. apply in_app_iff. left. apply outputs_in. apply -> in_rev. exact R.
  Qed.
  Lemma answered_pf : forall cs y n, Forall request_on_loop cs -> exec (ystep (serving f)) cs (serve s0) = Some y ->
    system_quiet (serving f) y -> (forall t, ~ In (CancelRequested t) (s_log (a_box (y_agent y)))) -> In n (y_asked y) ->
    exists v, nth_error (answers f s0 (posted (s_log (a_box (y_agent y))))) n = Some v /\
      forall x, v = Some x -> sees (r_fut (y_req y n)) (OValue (Some x)) \/ In GaveUp (r_log (y_req y n)).
  Proof.
    intros cs y n L E Q NC A. pose proof (yinv_pf (serving f) (s0, None) cs y E) as I.
    destruct (agent_part (serving f) (s0, None) cs y L E) as (ds & D1 & D2). destruct (C97_answers_partial _ _ _ s0 ds (y_agent y) D1 D2) as [_ P].
    pose proof (quiet_agent _ y Q) as QA. specialize (P QA NC). pose proof (quiet_requests _ y Q n) as RI.
    assert (TI : forall t, s_thr (a_box (y_agent y)) t = Idle).
    { destruct (gen_pf _ _ ds _ D2) as [[gs G] _]. destruct (MailboxFacts6.threads_pf gs _ G) as (cons & pos & LI & _). apply (idle_quiet cons _ LI).
      intros u. specialize (QA (Box (CRun u)) Logic.I). cbn [astep] in QA. destruct (step (CRun u) (a_box (y_agent y))); [discriminate|reflexivity]. }
    assert (RC : r_called (y_req y n) = true).
    { destruct (y_pending _ _ _ I n A) as [H|[t H]]; [exact H|]. exfalso. specialize (Q (YGoOn t) Logic.I). cbn in Q. rewrite H in Q. destruct (y_ask _ _ _ I t n H) as [H1 _].
      rewrite (TI t), (RI t), H1 in Q. cbn in Q. discriminate. }
    assert (LT : n < y_count y). { destruct (Nat.lt_ge_cases n (y_count y)) as [H|H]; [exact H|]. rewrite (y_late _ _ _ I n H) in RC. discriminate. }
    rewrite (y_posted _ _ _ I) in *. destruct (serving_answers S f (seq 0 (y_count y)) s0) as [S1 S2].
    assert (LA : length (answers f s0 (seq 0 (y_count y))) = y_count y) by (rewrite <- S2, map_length, <- (map_length fst), S1; apply seq_length).
    destruct (nth_error (answers f s0 (seq 0 (y_count y))) n) as [v|] eqn:N; [|apply nth_error_None in N; lia]. exists v. split; [reflexivity|]. intros x ->.
    destruct (y_each _ _ _ I n) as [es X]. destruct (binv_pf es _ X) as [B1 B2].
    assert (RP : In (ReplyCalled 0 (Some x)) (r_log (y_req y n))).
    { apply (y_replied _ _ _ I). split; [reflexivity|]. apply in_rev. apply outputs_in. rewrite P. apply serving_in, N. }
    destruct (B1 RC) as [t [T|T]]; [rewrite RI in T; discriminate|]. destruct (B2 0 _ RP) as [U|U]; [|rewrite RI in U; discriminate].
    destruct (in_dec (fun a b : revent => ltac:(decide equality; try apply Nat.eq_dec; decide equality; apply Nat.eq_dec)) GaveUp (r_log (y_req y n))) as [G|G]; [auto|]. left.
    eapply (C69_first_partial es []); try eassumption; [|reflexivity]. intros w z Z. pose proof (replied_answers cs y n w z L E Z) as NZ. rewrite (y_posted _ _ _ I) in NZ. congruence.
  Qed.
End Serving.

(** A caller never sees anything but the answer to its request, computed after all messages
    posted before it and no other. *)
Theorem C99_value_partial : forall S (f : S -> nat -> S * reply_value) s0 cs y n v, Forall request_on_loop cs -> exec (ystep (serving f)) cs (serve s0) = Some y ->
  sees (r_fut (y_req y n)) (OValue v) -> nth_error (answers f s0 (posted (s_log (a_box (y_agent y))))) n = Some v.
Proof.
  intros S f s0 cs y n v L E H. destruct (y_each _ _ _ (yinv_pf (serving f) (s0, None) cs y E) n) as [es X]. destruct (value_pf es _ v X H) as [t R]. eapply replied_answers; eassumption.
Qed.
Print Assumptions C99_value_partial.
(** When nothing goes on any more, every request has its answer unless its caller gave up
    or the answer is None. *)
Theorem C99_answered_partial : forall S (f : S -> nat -> S * reply_value) s0 cs y n, Forall request_on_loop cs -> exec (ystep (serving f)) cs (serve s0) = Some y ->
  system_quiet (serving f) y -> (forall t, ~ In (CancelRequested t) (s_log (a_box (y_agent y)))) -> In n (y_asked y) ->
  exists v, nth_error (answers f s0 (posted (s_log (a_box (y_agent y))))) n = Some v /\
    forall x, v = Some x -> sees (r_fut (y_req y n)) (OValue (Some x)) \/ In GaveUp (r_log (y_req y n)).
Proof. exact (fun S f s0 => answered_pf f s0). Qed.
Print Assumptions C99_answered_partial.
(** The messages are numbered in the order they are posted. *)
Theorem C99_numbers : forall B (next : B -> act B (nat * reply_value)) b0 cs y, exec (ystep next) cs (system_start b0) = Some y ->
  posted (s_log (a_box (y_agent y))) = seq 0 (y_count y).
Proof. intros B next b0 cs y E. apply (yinv_pf next b0 cs y E). Qed.
Print Assumptions C99_numbers.

(** An agent that counts: the answer to message n is the number of messages so far plus n. *)
Definition counting (s n : nat) : nat * reply_value := (s + 1, Some (s + 1 + n)).
Definition yfinal {S} (f : S -> nat -> S * reply_value) (s : S) (cs : list ychoice) : system (S * option (nat * reply_value)) :=
  match exec (ystep (serving f)) cs (serve s) with Some y => y | None => serve s end.
Lemma yfinal_ok : forall S (f : S -> nat -> S * reply_value) s cs, (if exec (ystep (serving f)) cs (serve s) then true else false) = true -> exec (ystep (serving f)) cs (serve s) = Some (yfinal f s cs).
Proof. intros S f s cs H. unfold yfinal. destruct (exec (ystep (serving f)) cs (serve s)); [reflexivity|discriminate]. Qed.
Definition boxes (cs : list choice) : list ychoice := map (fun c => YAgent (as_agent c)) cs.
Definition steps (n t k : nat) : list ychoice := repeat (YRequest n t) k.
Ltac system_quiet_tac := let c := fresh "c" in let G := fresh "G" in intros c G; destruct c as [?t|?t|t|n t|?n|c]; try contradiction;
  [destruct t as [|[|[|t]]]; vm_compute; reflexivity|destruct n as [|[|[|[|n]]]]; destruct t as [|[|[|t]]]; vm_compute; reflexivity|
   destruct c as [c| | |]; try contradiction; [|vm_compute; reflexivity|vm_compute; reflexivity];
   destruct c as [?t ?m|?t ?m| | |f|f|t|t]; try contradiction; [vm_compute; reflexivity|destruct f as [|[|[|f]]]; vm_compute; reflexivity|destruct t as [|[|[|t]]]; vm_compute; reflexivity]].
(** A request on the loop, then a message posted by another thread. *)
Definition served : list ychoice :=
  boxes (CReceive :: all_of 0 8) ++ [YAsk 0] ++ boxes (all_of 0 9) ++ [YGoOn 0] ++ steps 0 0 2 ++ [YAgent Resume; YPost 1; YAgent Go] ++ steps 0 0 5 ++
  boxes (CReceive :: all_of 0 12) ++ [YAgent Resume; YAgent Go; YAgent (Box (CRun 1))] ++ steps 1 0 3 ++ boxes (CReceive :: all_of 0 8 ++ CTurn :: all_of 0 5).
Example C99_case : exists y, exec (ystep (serving counting)) served (serve 10) = Some y /\ Forall request_on_loop served /\ system_quiet (serving counting) y /\
  (forall t, ~ In (CancelRequested t) (s_log (a_box (y_agent y)))) /\ In 0 (y_asked y) /\ answers counting 10 (posted (s_log (a_box (y_agent y)))) = [Some 11; Some 13] /\
  r_fut (y_req y 0) = Done (Some 11) /\ ~ In GaveUp (r_log (y_req y 0)).
Proof.
  exists (yfinal counting 10 served). split; [apply yfinal_ok; vm_compute; reflexivity|]. split; [repeat constructor|]. split; [system_quiet_tac|].
  split; [apply no_cancel; vm_compute; reflexivity|]. split; [vm_compute; auto|]. split; [vm_compute; reflexivity|]. split; [vm_compute; reflexivity|].
  vm_compute. intros H. repeat destruct H as [H|H]; try discriminate; contradiction.
Qed.
(** False for the answer None: the request waits for ever. *)
Definition silent (s n : nat) : nat * reply_value := (s, None).
Definition unserved : list ychoice :=
  boxes (CReceive :: all_of 0 8) ++ [YAsk 0] ++ boxes (all_of 0 9) ++ [YGoOn 0] ++ steps 0 0 2 ++ [YAgent Resume; YAgent Go] ++ steps 0 0 2 ++ boxes (CReceive :: all_of 0 8).
Theorem C99_none_refuted : exists cs y, Forall request_on_loop cs /\ exec (ystep (serving silent)) cs (serve 0) = Some y /\ system_quiet (serving silent) y /\
  (forall t, ~ In (CancelRequested t) (s_log (a_box (y_agent y)))) /\ y_asked y = [0] /\ messages (rev (a_trace (y_agent y))) = [0] /\ r_fut (y_req y 0) = Pending.
Proof.
  exists unserved, (yfinal silent 0 unserved). split; [repeat constructor|]. split; [apply yfinal_ok; vm_compute; reflexivity|]. split; [system_quiet_tac|].
  split; [apply no_cancel; vm_compute; reflexivity|]. repeat split; vm_compute; reflexivity.
Qed.
Print Assumptions C99_none_refuted.
(** False when other threads ask: the second request is dropped and waits for ever. *)
Definition dropped : list ychoice :=
  boxes (CReceive :: all_of 0 8) ++ [YAsk 1] ++ boxes (all_of 1 2) ++ [YAsk 2] ++ boxes (all_of 2 2 ++ all_of 1 7 ++ all_of 2 7) ++ [YGoOn 1] ++ steps 0 1 2 ++ [YGoOn 2] ++ steps 1 2 2 ++
  [YAgent Resume; YAgent Go] ++ steps 0 0 5 ++ boxes (CReceive :: all_of 0 8).
Theorem C99_threads_refuted : exists cs y, exec (ystep (serving counting)) cs (serve 0) = Some y /\ system_quiet (serving counting) y /\
  (forall t, ~ In (CancelRequested t) (s_log (a_box (y_agent y)))) /\ y_asked y = [1; 0] /\ r_fut (y_req y 0) = Done (Some 1) /\ r_fut (y_req y 1) = Pending.
Proof.
  exists dropped, (yfinal counting 0 dropped). split; [apply yfinal_ok; vm_compute; reflexivity|]. split; [system_quiet_tac|].
  split; [apply no_cancel; vm_compute; reflexivity|]. repeat split; vm_compute; reflexivity.
Qed.
Print Assumptions C99_threads_refuted.
