(** C136: requests to an agent whose body has ended. *)
From Coq Require Import List Bool Arith Lia.
From Verif.Model Require Import Base Thread Aiotools Mailbox Agent Reply Request.
From Verif.Spec Require Import MailboxSpec AgentSpec AiotoolsSpec RequestSpec.
From Verif.Proofs Require Import EndedFacts.
From Verif.Props Require Import PMailbox PAgent PRequest.
Import ListNotations.

(** Handles no further message and makes no further reply. *)
Theorem C136_ended : forall B (next : B -> act B (nat * reply_value)) cs y y1, a_body (y_agent y) = Over -> exec (ystep next) cs y = Some y1 ->
  a_body (y_agent y1) = Over /\ a_trace (y_agent y1) = a_trace (y_agent y).
Proof. exact (fun B => @over_exec B). Qed.
Print Assumptions C136_ended.

(** Whoever was answered before has the answer, whatever became of the body since. *)
Theorem C136_answered_partial : forall B (next : B -> act B (nat * reply_value)) b0 cs y n, exec (ystep next) cs (system_start b0) = Some y ->
  system_quiet next y -> In n (y_asked y) -> (exists v, In (Did (n, v)) (a_trace (y_agent y))) -> ~ In (Did (n, None)) (a_trace (y_agent y)) ->
  (exists x, sees (r_fut (y_req y n)) (OValue (Some x)) /\ In (Did (n, Some x)) (a_trace (y_agent y))) \/ In GaveUp (r_log (y_req y n)).
Proof. exact (fun B => @answered_over B). Qed.
Print Assumptions C136_answered_partial.

(** The others are not told: whatever happens afterwards, awaiting the reply ends only if
    the caller gives up; so for requests made before the end and for those made later. *)
Theorem C136_waits_refuted : forall B (next : B -> act B (nat * reply_value)) b0 cs y n, exec (ystep next) cs (system_start b0) = Some y ->
  a_body (y_agent y) = Over -> (forall v, ~ In (Did (n, v)) (a_trace (y_agent y))) ->
  forall ds y1 o, exec (ystep next) ds y = Some y1 -> sees (r_fut (y_req y1 n)) o -> In GaveUp (r_log (y_req y1 n)).
Proof. exact (fun B => @waits_pf B). Qed.
Print Assumptions C136_waits_refuted.

(** Posting is as if the agent were there: a thread that is free can always post, and what
    is posted stays in the queue, all but one message. *)
Theorem C136_accepts_refuted : forall B (next : B -> act B (nat * reply_value)) b0 cs y, exec (ystep next) cs (system_start b0) = Some y -> a_body (y_agent y) = Over ->
  (forall t, s_thr (a_box (y_agent y)) t = Idle -> exists y1, ystep next (YPost t) y = Some y1 /\ posted (s_log (a_box (y_agent y1))) = posted (s_log (a_box (y_agent y))) ++ [y_count y]) /\
  (Forall request_on_loop cs -> forall ds y1, Forall request_on_loop ds -> exec (ystep next) ds y = Some y1 ->
     length (posted (s_log (a_box (y_agent y1)))) <= S (length (messages (rev (a_trace (y_agent y)))) + length (s_queue (a_box (y_agent y1))))).
Proof.
  intros B next b0 cs y E O. split.
  - intros t T. cbn [ystep astep step]. rewrite T. cbn [is_idle option_map]. eexists. split; reflexivity.
  - intros L ds y1 LD E1. rewrite <- (proj2 (C136_ended B next ds y y1 O E1)). apply (queued_pf next b0 (cs ++ ds)); [now apply Forall_app|]. eapply exec_app; eassumption.
Qed.
Print Assumptions C136_accepts_refuted.

(** An agent that answers one request and raises. *)
Definition once (b : option (option nat)) : act (option (option nat)) (nat * reply_value) :=
  match b with None => Receive (fun m => Some (Some m)) | Some (Some m) => Do (m, Some (m + 5)) (Some None) | Some None => Raises end.
(** A request, its answer, the end of the body, a second request. *)
Definition two_requests : list ychoice :=
  boxes (CReceive :: all_of 0 8) ++ [YAsk 0] ++ boxes (all_of 0 9) ++ [YGoOn 0] ++ steps 0 0 2 ++ [YAgent Resume; YAgent Go] ++ steps 0 0 5 ++ [YAgent Go] ++
  [YAsk 0] ++ boxes (all_of 0 2) ++ [YGoOn 0] ++ steps 1 0 2.
Definition once_after (cs : list ychoice) : system (option (option nat)) :=
  match exec (ystep once) cs (system_start None) with Some y => y | None => system_start None end.
Example C136_case : let y := once_after two_requests in
  exec (ystep once) two_requests (system_start None) = Some y /\ a_body (y_agent y) = Over /\ system_quiet once y /\ y_asked y = [1; 0] /\
  a_trace (y_agent y) = [Did (0, Some 5); Got 0] /\ r_fut (y_req y 0) = Done (Some 5) /\ r_fut (y_req y 1) = Pending /\ r_log (y_req y 1) = [Waiting 0] /\
  s_queue (a_box (y_agent y)) = [1].
Proof. cbv zeta. split; [vm_compute; reflexivity|]. split; [vm_compute; reflexivity|]. split; [system_quiet_tac|]. repeat split; vm_compute; reflexivity. Qed.
(** An agent that is cancelled while a request is in its queue. *)
Definition cancelled_before : list ychoice :=
  [YAsk 0] ++ boxes (all_of 0 2) ++ [YGoOn 0] ++ steps 0 0 2 ++ [YAgent (Box (CCancelToken 0)); YAgent Kill].
Example C136_cancelled_case : let y := once_after cancelled_before in
  exec (ystep once) cancelled_before (system_start None) = Some y /\ a_body (y_agent y) = Over /\ system_quiet once y /\ a_trace (y_agent y) = [] /\
  r_fut (y_req y 0) = Pending /\ r_log (y_req y 0) = [Waiting 0].
Proof. cbv zeta. split; [vm_compute; reflexivity|]. split; [vm_compute; reflexivity|]. split; [system_quiet_tac|]. repeat split; vm_compute; reflexivity. Qed.
