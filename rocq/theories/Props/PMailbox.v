(** Properties of mailboxes (C66-C70). *)
From Coq Require Import List Bool Arith Lia.
From Verif.Model Require Import Base Thread Aiotools Mailbox Reply.
From Verif.Spec Require Import MailboxSpec AiotoolsSpec.
From Verif.Proofs Require Import ThreadFacts MailboxFacts3 MailboxFacts4 MailboxFacts6 MailboxFacts7 ReplyFacts.
Import ListNotations.

(** The final state of a concrete execution. *)
Definition final (cs : list choice) : state := match exec step cs init with Some s => s | None => init end.
Lemma final_ok : forall cs, (if exec step cs init then true else false) = true -> exec step cs init = Some (final cs).
Proof. intros cs H. unfold final. destruct (exec step cs init); [reflexivity|discriminate]. Qed.
Ltac all_quiet := let c := fresh "c" in let G := fresh "G" in intros c G; destruct c as [?t ?m|?t ?m| | |f|f|t|t]; try contradiction;
  [vm_compute; reflexivity|destruct f as [|[|[|f]]]; vm_compute; reflexivity|destruct t as [|[|[|t]]]; vm_compute; reflexivity].
Lemma no_abandon : forall log, existsb (fun e => match e with Abandoned _ => true | _ => false end) log = false -> forall f, ~ In (Abandoned f) log.
Proof. intros log H f X. assert (T : existsb (fun e => match e with Abandoned _ => true | _ => false end) log = true) by (apply existsb_exists; eexists; split; [exact X|reflexivity]). congruence. Qed.

(** ** C66 *)
(** The i-th accepted receive gets the i-th message or nothing. *)
Theorem C66_position : forall cs s f m i, Forall on_loop cs -> exec step cs init = Some s ->
  In (Received f m) (s_log s) -> nth_error (accepted (s_log s)) i = Some f -> nth_error (posted (s_log s)) i = Some m.
Proof. exact position_pf. Qed.
Print Assumptions C66_position.
(** Only accepted receives get messages. *)
Theorem C66_accepted : forall cs s f m, Forall on_loop cs -> exec step cs init = Some s -> In (Received f m) (s_log s) -> In f (accepted (s_log s)).
Proof. exact received_accepted_pf. Qed.
Print Assumptions C66_accepted.
(** One task receives: what it got is a prefix of what was posted. *)
Theorem C66_prefix : forall cs s, Forall on_loop cs -> exec step cs init = Some s -> one_body (s_log s) -> prefix (received (s_log s)) (posted (s_log s)).
Proof. exact prefix_pf. Qed.
Print Assumptions C66_prefix.
(** When nothing goes on any more and the task has called receive often enough, it has
    got all messages. *)
Theorem C66_all_received : forall cs s, Forall on_loop cs -> exec step cs init = Some s -> quiet s -> one_body (s_log s) ->
  (forall t, ~ In (CancelRequested t) (s_log s)) -> (forall f, ~ In (Abandoned f) (s_log s)) -> length (posted (s_log s)) <= length (accepted (s_log s)) ->
  received (s_log s) = posted (s_log s).
Proof. exact all_received_pf. Qed.
Print Assumptions C66_all_received.
(** A receive returns or raises at most once. *)
Theorem C66_once : forall cs s f, exec step cs init = Some s -> count (is_end f) (s_log s) <= 1.
Proof. exact ends_once_pf. Qed.
Print Assumptions C66_once.
(** Two threads post, the task receives twice and waits a third time. *)
Definition all_of (t n : nat) : list choice := repeat (CRun t) n.
Definition two_posts : list choice :=
  [CPost 1 10; CRun 1; CReceive] ++ all_of 0 4 ++ [CPost 2 20] ++ all_of 0 8 ++ [CRun 2; CResume 0; CReceive] ++ all_of 0 12 ++ [CTurn; CRun 0; CRun 0; CResume 1; CReceive] ++ all_of 0 8 ++ [CTurn] ++ all_of 0 5.
Example C66_case : exists s, exec step two_posts init = Some s /\ Forall on_loop two_posts /\ quiet s /\ one_body (s_log s) /\
  posted (s_log s) = [10; 20] /\ accepted (s_log s) = [0; 1; 2] /\ received (s_log s) = [10; 20].
Proof.
  exists (final two_posts). split; [apply final_ok; vm_compute; reflexivity|]. split; [repeat constructor|]. split.
  - all_quiet.
  - split; [|vm_compute; auto]. vm_compute. split; [|split; [|split; [|auto]]].
    + intros g [<-|[<-|[]]]; eauto 12.
    + intros g [<-|[]]. eauto 12.
    + intros g [].
Qed.

(** ** C67: with post_and_async_reply on other threads *)
(** False: two threads see the continuation and each takes a message; the second one finds
    no continuation under the lock and drops its message (mailbox.py:143-153).  The queue
    is empty, all is quiet and the task, which got 1 and 3, never gets 2. *)
Definition race : list choice :=
  CReceive :: all_of 0 8 ++ [CAsk 1 1; CRun 1; CRun 1; CAsk 2 2; CRun 2; CRun 2] ++ all_of 1 7 ++ all_of 2 7 ++ [CResume 0; CPost 1 3; CRun 1; CReceive] ++
  all_of 0 12 ++ [CResume 1; CReceive] ++ all_of 0 8 ++ [CTurn] ++ all_of 0 5.
Theorem C67_lost_refuted : exists cs s, exec step cs init = Some s /\ quiet s /\ one_body (s_log s) /\ s_queue s = [] /\ s_flag s = false /\
  (forall f, ~ In (Abandoned f) (s_log s)) /\ posted (s_log s) = [1; 2; 3] /\ accepted (s_log s) = [0; 1; 2] /\ received (s_log s) = [1; 3].
Proof.
  exists race, (final race). split; [apply final_ok; vm_compute; reflexivity|]. split; [|split].
  - all_quiet.
  - vm_compute. split; [|split; [|split; [|auto]]].
    + intros g [<-|[<-|[]]]; eauto 14.
    + intros g [<-|[]]. eauto 14.
    + intros g [].
  - repeat match goal with |- _ /\ _ => split end; try (vm_compute; reflexivity). apply no_abandon. vm_compute. reflexivity.
Qed.
Print Assumptions C67_lost_refuted.
(** False in another way: the event loop's thread stores the continuation of a new receive
    between another thread's reading and clearing of the attribute (127, 150), so that
    receive is never answered although a message is waiting for it. *)
Definition erase : list choice :=
  CReceive :: all_of 0 8 ++ [CAsk 1 1; CRun 1; CRun 1; CAsk 2 2; CRun 2; CRun 2] ++ all_of 1 7 ++ [CResume 0] ++ all_of 2 4 ++ [CReceive] ++ all_of 0 2 ++ all_of 2 3 ++ all_of 0 3 ++
  [CPost 1 3; CRun 1; CTurn] ++ all_of 0 2.
Theorem C67_never_answered_refuted : exists cs s, exec step cs init = Some s /\ quiet s /\ one_body (s_log s) /\ s_flag s = false /\
  (forall f, ~ In (Abandoned f) (s_log s)) /\ posted (s_log s) = [1; 2; 3] /\ accepted (s_log s) = [0; 1] /\ received (s_log s) = [1] /\ s_queue s = [3].
Proof.
  exists erase, (final erase). split; [apply final_ok; vm_compute; reflexivity|]. split; [|split].
  - all_quiet.
  - vm_compute. split; [|split; [|auto]].
    + intros g [<-|[]]; eauto 14.
    + intros g [].
  - repeat match goal with |- _ /\ _ => split end; try (vm_compute; reflexivity). apply no_abandon. vm_compute. reflexivity.
Qed.
Print Assumptions C67_never_answered_refuted.
(** True of all interleavings: no message is received twice and none out of order.  Each
    received message has a position among the posted ones, and later receives get later
    positions. *)
Theorem C67_order_partial : forall cs s, exec step cs init = Some s -> exists pos,
  (forall f m, In (Received f m) (s_log s) -> nth_error (posted (s_log s)) (pos f) = Some m) /\
  (forall i j f g m n, nth_error (accepted (s_log s)) i = Some f -> nth_error (accepted (s_log s)) j = Some g -> i < j ->
     In (Received f m) (s_log s) -> In (Received g n) (s_log s) -> pos f < pos g).
Proof. exact positions_pf. Qed.
Print Assumptions C67_order_partial.
(** No deadlock: a thread in a call of the mailbox can go on, or waits for the lock whose
    owner can go on. *)
Theorem C67_no_deadlock_partial : forall cs s t, exec step cs init = Some s -> s_thr s t <> Idle ->
  step (CRun t) s <> None \/ (s_thr s t = P_Acquire /\ exists u n, s_lock s = Some (u, n) /\ u <> t /\ step (CRun u) s <> None).
Proof. exact progress_pf. Qed.
Print Assumptions C67_no_deadlock_partial.
Example C67_case : exists s, exec step (CReceive :: all_of 0 8 ++ [CAsk 1 1; CRun 1; CRun 1; CAsk 2 2; CRun 2; CRun 2; CRun 1]) init = Some s /\
  s_thr s 2 = P_Acquire /\ s_lock s = Some (1, 1) /\ step (CRun 2) s = None.
Proof.
  exists (final (CReceive :: all_of 0 8 ++ [CAsk 1 1; CRun 1; CRun 1; CAsk 2 2; CRun 2; CRun 2; CRun 1])). split; [apply final_ok; vm_compute; reflexivity|]. repeat split; vm_compute; reflexivity.
Qed.

(** ** C68: abandoned receives *)
(** False: the message that an abandoned receive would have got is never received. *)
Theorem C68_lost_refuted : forall cs s i f m, Forall on_loop cs -> exec step cs init = Some s -> nth_error (accepted (s_log s)) i = Some f -> In (Abandoned f) (s_log s) ->
  nth_error (posted (s_log s)) i = Some m -> NoDup (posted (s_log s)) -> forall g, ~ In (Received g m) (s_log s).
Proof. exact abandoned_pf. Qed.
Print Assumptions C68_lost_refuted.
Definition given_up : list choice :=
  CReceive :: all_of 0 8 ++ [CAbandon 0; CPost 0 5; CRun 0; CTurn] ++ all_of 0 9 ++ [CReceive] ++ all_of 0 8.
Theorem C68_waits_refuted : exists cs s, Forall on_loop cs /\ exec step cs init = Some s /\ quiet s /\
  rev (s_log s) = [ReceiveCalled 0; Abandoned 0; Posted 0 5; ReceiveCalled 1].
Proof.
  exists given_up, (final given_up). split; [repeat constructor|]. split; [apply final_ok; vm_compute; reflexivity|]. split; [|vm_compute; reflexivity].
  all_quiet.
Qed.
Print Assumptions C68_waits_refuted.
(** False also: the next receive raises when no message came in between. *)
Theorem C68_raises_refuted : option_map (fun s => rev (s_log s)) (exec step (CReceive :: all_of 0 8 ++ [CAbandon 0; CReceive; CRun 0]) init) =
  Some [ReceiveCalled 0; Abandoned 0; ReceiveRaised 1].
Proof. reflexivity. Qed.
Print Assumptions C68_raises_refuted.
(** True: receive raises only if the last accepted receive has not returned a message. *)
Theorem C68_raised_partial : forall cs s l1 l2 f, Forall on_loop cs -> exec step cs init = Some s -> s_log s = l1 ++ ReceiveRaised f :: l2 ->
  exists l g, accepted l2 = l ++ [g] /\ forall m, ~ In (Received g m) l2.
Proof. exact raised_pf. Qed.
Print Assumptions C68_raised_partial.
(** True: abandoned receives cost one message each, all others get theirs. *)
Theorem C68_others_partial : forall cs s i f m, Forall on_loop cs -> exec step cs init = Some s -> quiet s -> (forall t, ~ In (CancelRequested t) (s_log s)) ->
  nth_error (accepted (s_log s)) i = Some f -> nth_error (posted (s_log s)) i = Some m -> In (Received f m) (s_log s) \/ In (Abandoned f) (s_log s).
Proof. exact all_delivered_pf. Qed.
Print Assumptions C68_others_partial.
Example C68_case : option_map (fun s => rev (s_log s)) (exec step (given_up ++ [CPost 0 6; CRun 0; CTurn] ++ all_of 0 9 ++ [CResume 1]) init) =
  Some [ReceiveCalled 0; Abandoned 0; Posted 0 5; ReceiveCalled 1; Posted 0 6; Received 1 6].
Proof. reflexivity. Qed.

(** ** C69: replies *)
(** When the caller waits and a reply has returned, the caller gets the value of some
    reply, unless its task was cancelled.  Missing: replying None. *)
Theorem C69_completes_partial : forall cs s t u, exec rstep cs rinit = Some s -> (forall v, ~ In (ReplyCalled v None) (r_log s)) -> In (Waiting t) (r_log s) -> In (ReplyReturned u) (r_log s) ->
  (exists v w, sees (r_fut s) (OValue (Some v)) /\ In (ReplyCalled w (Some v)) (r_log s)) \/ In GaveUp (r_log s).
Proof. exact completes_pf. Qed.
Print Assumptions C69_completes_partial.
(** The caller never gets a value that was not replied. *)
Theorem C69_value_partial : forall cs s v, exec rstep cs rinit = Some s -> sees (r_fut s) (OValue v) -> exists t, In (ReplyCalled t v) (r_log s).
Proof. exact value_pf. Qed.
Print Assumptions C69_value_partial.
(** A reply that comes when the request is completed changes nothing. *)
Theorem C69_second_partial : forall cs s s1 o, sees (r_fut s) o -> exec rstep cs s = Some s1 -> r_fut s1 = r_fut s.
Proof. exact settled_pf. Qed.
Print Assumptions C69_second_partial.
(** So the caller that waits when only [v] was replied gets [v] for good. *)
Theorem C69_first_partial : forall cs1 cs2 s1 s2 t u v, exec rstep cs1 rinit = Some s1 -> In (Waiting t) (r_log s1) -> In (ReplyReturned u) (r_log s1) -> ~ In GaveUp (r_log s1) ->
  (forall w x, In (ReplyCalled w x) (r_log s1) -> x = Some v) -> exec rstep cs2 s1 = Some s2 -> sees (r_fut s2) (OValue (Some v)).
Proof.
  intros cs1 cs2 s1 s2 t u v E W R G V E2.
  assert (N : forall y, ~ In (ReplyCalled y None) (r_log s1)) by (intros y H; specialize (V _ _ H); discriminate).
  destruct (completes_pf cs1 s1 t u E N W R) as [(x & w & S & C)|H]; [|contradiction].
  specialize (V _ _ C). injection V as ->. rewrite (settled_pf _ _ _ _ S E2). exact S.
Qed.
Print Assumptions C69_first_partial.
Definition qruns (t n : nat) : list rchoice := repeat (QRun t) n.
(** The agent's thread replies between the steps of the caller. *)
Example C69_case : option_map (fun s => (r_fut s, rev (r_log s))) (exec rstep ([QReply 1 (Some 7); QRun 1; QWait 0; QRun 1; QRun 0; QRun 0; QRun 1; QRun 0] ++ qruns 0 2 ++ qruns 1 2) rinit) =
  Some (Done (Some 7), [ReplyCalled 1 (Some 7); Waiting 0; ReplyReturned 1]).
Proof. reflexivity. Qed.
(** False for None: when all replies are None the caller waits for ever. *)
Theorem C69_none_refuted : forall cs s o, exec rstep cs rinit = Some s -> (forall t v, In (ReplyCalled t v) (r_log s) -> v = None) -> sees (r_fut s) o -> In GaveUp (r_log s).
Proof. exact none_pf. Qed.
Print Assumptions C69_none_refuted.
Example C69_none_case : option_map (fun s => (r_fut s, rev (r_log s))) (exec rstep ([QWait 0] ++ qruns 0 2 ++ [QReply 1 None] ++ qruns 1 2) rinit) =
  Some (Pending, [Waiting 0; ReplyCalled 1 None; ReplyReturned 1]).
Proof. reflexivity. Qed.
(** False before the caller waits: the second reply replaces the first. *)
Theorem C69_second_refuted : option_map (fun s => (r_fut s, rev (r_log s))) (exec rstep ([QReply 1 (Some 7)] ++ qruns 1 3 ++ [QReply 1 (Some 8)] ++ qruns 1 3 ++ [QWait 0] ++ qruns 0 5) rinit) =
  Some (Done (Some 8), [ReplyCalled 1 (Some 7); ReplyReturned 1; ReplyCalled 1 (Some 8); ReplyReturned 1; Waiting 0]).
Proof. reflexivity. Qed.
Print Assumptions C69_second_refuted.
(** None after a reply takes it back. *)
Theorem C69_takes_back_refuted : option_map (fun s => (r_fut s, rev (r_log s))) (exec rstep ([QReply 1 (Some 7)] ++ qruns 1 3 ++ [QReply 1 None] ++ qruns 1 2 ++ [QWait 0] ++ qruns 0 2) rinit) =
  Some (Pending, [ReplyCalled 1 (Some 7); ReplyReturned 1; ReplyCalled 1 None; ReplyReturned 1; Waiting 0]).
Proof. reflexivity. Qed.
Print Assumptions C69_takes_back_refuted.

(** ** C70: cancellation *)
(** A message received after the cancellation was for a receive accepted before; all but
    at most one were posted before. *)
Theorem C70_receive_partial : forall cs s l1 t l2 f m, Forall on_loop cs -> exec step cs init = Some s -> s_log s = l1 ++ CancelRequested t :: l2 ->
  In (Received f m) (s_log s) -> exists i, nth_error (accepted l2) i = Some f /\ nth_error (posted (s_log s)) i = Some m /\ i <= length (posted l2).
Proof. intros cs s l1 t l2 f m L E H R. destruct (late_receive_pf cs s l1 t l2 f m L E H R) as (i & A & B & C & _). eauto. Qed.
Print Assumptions C70_receive_partial.
(** When the loop's thread cancels, nothing posted later is received. *)
Theorem C70_loop_partial : forall cs s l1 l2 f m, Forall on_loop cs -> exec step cs init = Some s -> s_log s = l1 ++ CancelRequested 0 :: l2 ->
  In (Received f m) (s_log s) -> exists i, nth_error (accepted l2) i = Some f /\ nth_error (posted l2) i = Some m.
Proof. intros cs s l1 l2 f m L E H R. destruct (late_receive_pf cs s l1 0 l2 f m L E H R) as (i & A & _ & _ & D). eauto. Qed.
Print Assumptions C70_loop_partial.
(** After the cancellation and one more post every receive ends. *)
Theorem C70_pending_partial : forall cs s f, Forall on_loop cs -> exec step cs init = Some s -> posted_after (s_log s) -> quiet s -> In f (accepted (s_log s)) ->
  (exists m, In (Received f m) (s_log s)) \/ In (Abandoned f) (s_log s) \/ In (ReceiveCancelled f) (s_log s).
Proof. exact cancelled_quiet_pf. Qed.
Print Assumptions C70_pending_partial.
Definition cancelled : list choice := CReceive :: all_of 0 8 ++ [CCancelToken 0; CPost 0 5; CRun 0; CTurn] ++ all_of 0 4 ++ [CResume 0].
(** The receive after that raises, because the continuation of the cancelled one is kept. *)
Example C70_case : option_map (fun s => rev (s_log s)) (exec step (cancelled ++ [CReceive; CRun 0]) init) =
  Some [ReceiveCalled 0; CancelRequested 0; Posted 0 5; ReceiveCancelled 0; ReceiveRaised 1].
Proof. reflexivity. Qed.
(** False: a message posted after the cancellation by the same thread is received. *)
Theorem C70_post_refuted : option_map (fun s => rev (s_log s)) (exec step (CReceive :: all_of 0 5 ++ [CCancelToken 1; CPost 1 7; CRun 1] ++ all_of 0 7 ++ [CResume 0]) init) =
  Some [ReceiveCalled 0; CancelRequested 1; Posted 1 7; Received 0 7].
Proof. reflexivity. Qed.
Print Assumptions C70_post_refuted.
(** False: the pending receive is not cancelled by the cancellation itself. *)
Theorem C70_pending_refuted : exists cs s, Forall on_loop cs /\ exec step cs init = Some s /\ quiet s /\ rev (s_log s) = [ReceiveCalled 0; CancelRequested 0].
Proof.
  exists (CReceive :: all_of 0 8 ++ [CCancelToken 0]), (final (CReceive :: all_of 0 8 ++ [CCancelToken 0])). split; [repeat constructor|]. split; [apply final_ok; vm_compute; reflexivity|].
  split; [all_quiet|vm_compute; reflexivity].
Qed.
Print Assumptions C70_pending_refuted.
