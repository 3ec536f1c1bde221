(** C97: an agent handles its messages one after another.  C98: a cancelled agent stops. *)
From Coq Require Import List Bool Arith Lia.
From Verif.Model Require Import Base Thread Aiotools Mailbox Agent.
From Verif.Spec Require Import MailboxSpec AgentSpec.
From Verif.Proofs Require Import AgentFacts AgentFacts2.
From Verif.Props Require Import PMailbox.
Import ListNotations.

(** Whatever threads post, ask and cancel: the body does what it does when run alone with
    the messages it got. *)
Theorem C97_sequential_partial : forall B O (next : B -> act B O) b0 cs a, exec (astep next) cs (start b0) = Some a ->
  (exists b, sequential next b0 (rev (a_trace a)) b) /\ messages (rev (a_trace a)) = received (s_log (a_box a)).
Proof.
  intros B O next b0 cs a E. destruct (sequential_pf next b0 cs a E) as [T1 T2]. split; [|exact T1].
  destruct (a_body a) as [b|b|f k|]; eauto. destruct T2 as (b & T2 & _). eauto.
Qed.
Print Assumptions C97_sequential_partial.
(** When no thread but the loop's calls post_and_async_reply: the messages it got are the
    first ones that were posted, in this order, and receive never raises. *)
Theorem C97_prefix_partial : forall B O (next : B -> act B O) b0 cs a, Forall agent_on_loop cs -> exec (astep next) cs (start b0) = Some a ->
  prefix (messages (rev (a_trace a))) (posted (s_log (a_box a))) /\ forall f, ~ In (ReceiveRaised f) (s_log (a_box a)).
Proof. intros B O next b0 cs a L E. exact (proj2 (agent_prefix_pf next b0 cs a L E)). Qed.
Print Assumptions C97_prefix_partial.
(** When nothing goes on any more, it has ended or it has handled all messages and waits
    for the next. *)
Theorem C97_all_partial : forall B O (next : B -> act B O) b0 cs a, Forall agent_on_loop cs -> exec (astep next) cs (start b0) = Some a ->
  agent_quiet next a -> (forall t, ~ In (CancelRequested t) (s_log (a_box a))) ->
  exists b, sequential next b0 (rev (a_trace a)) b /\
    ((a_body a = Over /\ finished next b) \/
     (exists f k, a_body a = Waits f k /\ next b = Receive k /\ messages (rev (a_trace a)) = posted (s_log (a_box a)))).
Proof. exact (fun B O next b0 => agent_all_pf next b0). Qed.
Print Assumptions C97_all_partial.

Lemma folding_seq : forall S (f : S -> nat -> S) s tr b, sequential (folding f) s tr b -> b = fold_left f (messages tr) s.
Proof. intros S f s tr b. induction 1 as [b|b k m tr b1 N Q IH|b o b2 tr b1 N Q IH]; cbn; [reflexivity|injection N as <-; exact IH|discriminate]. Qed.
(** The state of an agent that keeps one is the fold of all messages posted. *)
Theorem C97_state_partial : forall S (f : S -> nat -> S) s0 cs a, Forall agent_on_loop cs -> exec (astep (folding f)) cs (start s0) = Some a ->
  agent_quiet (folding f) a -> (forall t, ~ In (CancelRequested t) (s_log (a_box a))) ->
  exists g, a_body a = Waits g (f (fold_left f (posted (s_log (a_box a))) s0)).
Proof.
  intros S f s0 cs a L E Q N. destruct (agent_all_pf (folding f) s0 cs a L E Q N) as (b & SQ & [[_ [D|D]]|(g & k & W & R & M)]); [discriminate D|discriminate D|].
  exists g. apply folding_seq in SQ. subst b. rewrite M in R. injection R as <-. exact W.
Qed.
Print Assumptions C97_state_partial.

Lemma answering_seq : forall S O (f : S -> nat -> S * O) b tr b1, sequential (answering f) b tr b1 ->
  forall ms, match b with
  | (s, None) => prefix (outputs tr) (answers f s (messages tr ++ ms)) /\ (snd b1 = None -> outputs tr = answers f s (messages tr))
  | (s, Some o) => (tr = [] /\ b1 = b) \/ exists l, outputs tr = o :: l /\ prefix l (answers f s (messages tr ++ ms)) /\ (snd b1 = None -> l = answers f s (messages tr))
  end.
Proof.
  intros S O f b tr b1. induction 1 as [[s [o|]]|[s [o|]] k m tr b1 N Q IH|[s [o|]] o1 b2 tr b1 N Q IH]; intros ms; try discriminate N; cbn.
  - auto.
  - split; [eexists; reflexivity|reflexivity].
  - injection N as <-. specialize (IH ms). cbn in IH. destruct (f s m) as [s1 o] eqn:F. destruct IH as [[-> ->]|(l & -> & (r & E) & IH)].
    + cbn. split; [eexists; reflexivity|discriminate].
    + split; [exists r; cbn; rewrite E; reflexivity|]. intros H. rewrite (IH H). reflexivity.
  - injection N as <- <-. specialize (IH ms). cbn in IH. right. exists (outputs tr). auto.
Qed.
(** The answers of an agent that answers each message: always the first ones of those
    computed one after another from the messages posted, and all of them in the end. *)
Theorem C97_answers_partial : forall S O (f : S -> nat -> S * O) s0 cs a, Forall agent_on_loop cs -> exec (astep (answering f)) cs (start (s0, None)) = Some a ->
  prefix (outputs (rev (a_trace a))) (answers f s0 (posted (s_log (a_box a)))) /\
  (agent_quiet (answering f) a -> (forall t, ~ In (CancelRequested t) (s_log (a_box a))) -> outputs (rev (a_trace a)) = answers f s0 (posted (s_log (a_box a)))).
Proof.
  intros S O f s0 cs a L E. split.
  - destruct (agent_prefix_pf (answering f) (s0, None) cs a L E) as ((b & SQ) & (ms & P) & _). rewrite P. exact (proj1 (answering_seq _ _ f _ _ _ SQ ms)).
  - intros Q N. destruct (agent_all_pf (answering f) (s0, None) cs a L E Q N) as (b & SQ & [[_ [D|D]]|(g & k & W & R & M)]).
    + destruct b as [s [o|]]; discriminate D.
    + destruct b as [s [o|]]; discriminate D.
    + rewrite <- M. apply (proj2 (answering_seq _ _ f _ _ _ SQ [])). destruct b as [s [o|]]; [discriminate R|reflexivity].
Qed.
Print Assumptions C97_answers_partial.

(** An agent that lists its messages. *)
Definition listing : list nat -> act (list nat) Empty_set := folding (fun l m => l ++ [m]).
(** A mailbox schedule as one of an agent. *)
Definition as_agent (c : choice) : achoice := match c with CReceive => Go | CResume _ => Resume | CAbandon _ => Kill | c => Box c end.
Definition afinal {B O} (next : B -> act B O) (b : B) (cs : list achoice) : agent B O := match exec (astep next) cs (start b) with Some a => a | None => start b end.
Lemma afinal_ok : forall B O (next : B -> act B O) b cs, (if exec (astep next) cs (start b) then true else false) = true -> exec (astep next) cs (start b) = Some (afinal next b cs).
Proof. intros B O next b cs H. unfold afinal. destruct (exec (astep next) cs (start b)); [reflexivity|discriminate]. Qed.
Ltac agent_quiet_tac := let c := fresh "c" in let G := fresh "G" in intros c G; destruct c as [c| | |]; [|vm_compute; reflexivity|vm_compute; reflexivity|contradiction];
  destruct c as [?t ?m|?t ?m| | |f|f|t|t]; try contradiction; [vm_compute; reflexivity|cbn [astep]; reflexivity|destruct t as [|[|[|t]]]; vm_compute; reflexivity].
Lemma no_cancel : forall log, existsb (fun e => match e with CancelRequested _ => true | _ => false end) log = false -> forall t, ~ In (CancelRequested t) log.
Proof. intros log H t X. assert (T : existsb (fun e => match e with CancelRequested _ => true | _ => false end) log = true) by (apply existsb_exists; eexists; split; [exact X|reflexivity]). congruence. Qed.
(** Two threads post 10 and 20. *)
Example C97_case : exists a, exec (astep listing) (map as_agent two_posts) (start []) = Some a /\ Forall agent_on_loop (map as_agent two_posts) /\ agent_quiet listing a /\
  posted (s_log (a_box a)) = [10; 20] /\ (forall t, ~ In (CancelRequested t) (s_log (a_box a))) /\ messages (rev (a_trace a)) = [10; 20].
Proof.
  exists (afinal listing [] (map as_agent two_posts)). split; [apply afinal_ok; vm_compute; reflexivity|]. split; [repeat constructor|]. split; [agent_quiet_tac|].
  split; [vm_compute; reflexivity|]. split; [|vm_compute; reflexivity]. apply no_cancel. vm_compute. reflexivity.
Qed.
(** An agent that answers with the sum so far. *)
Example C97_answers_case :
  option_map (fun a => (outputs (rev (a_trace a)), posted (s_log (a_box a))))
    (exec (astep (answering (fun s m => (s + m, s + m)))) (map as_agent ([CPost 1 10; CReceive] ++ all_of 0 12 ++ [CPost 2 20; CResume 0]) ++ [Go]) (start (5, None))) = Some ([15], [10; 20]) /\
  answers (fun s m => (s + m, s + m)) 5 [10; 20] = [15; 35].
Proof. split; vm_compute; reflexivity. Qed.
(** False when other threads call post_and_async_reply: the agent waits for ever without
    having got the second message. *)
Theorem C97_threads_refuted : exists cs a, exec (astep listing) cs (start []) = Some a /\ agent_quiet listing a /\
  (forall t, ~ In (CancelRequested t) (s_log (a_box a))) /\ posted (s_log (a_box a)) = [1; 2; 3] /\ messages (rev (a_trace a)) = [1; 3].
Proof.
  exists (map as_agent race), (afinal listing [] (map as_agent race)). split; [apply afinal_ok; vm_compute; reflexivity|]. split; [agent_quiet_tac|].
  split; [|split; vm_compute; reflexivity]. apply no_cancel. vm_compute. reflexivity.
Qed.
Print Assumptions C97_threads_refuted.

(** ** C98: cancelling the token stops the agent *)
(** Whatever threads there are: once the token is cancelled and nothing goes on any more,
    the callback that start registered included, the body has ended. *)
Theorem C98_ends : forall B O (next : B -> act B O) b0 cs a t, exec (astep next) cs (start b0) = Some a -> In (CancelRequested t) (s_log (a_box a)) ->
  agent_quiet next a -> astep next Kill a = None -> a_body a = Over.
Proof. exact (fun B O next b0 => agent_stops_pf next b0). Qed.
Print Assumptions C98_ends.
(** On the loop the body gets at most one more message after the cancellation. *)
Theorem C98_one_more_partial : forall B O (next : B -> act B O) b0 cs a l1 t l2, Forall agent_on_loop cs -> exec (astep next) cs (start b0) = Some a ->
  s_log (a_box a) = l1 ++ CancelRequested t :: l2 -> length (messages (rev (a_trace a))) <= S (length (received l2)).
Proof. exact (fun B O next b0 => agent_late_pf next b0). Qed.
Print Assumptions C98_one_more_partial.
(** When the loop's thread cancels, it gets none of the messages posted later. *)
Theorem C98_loop_partial : forall B O (next : B -> act B O) b0 cs a l1 l2, Forall agent_on_loop cs -> exec (astep next) cs (start b0) = Some a ->
  s_log (a_box a) = l1 ++ CancelRequested 0 :: l2 -> prefix (messages (rev (a_trace a))) (posted l2).
Proof. exact (fun B O next b0 => agent_loop_pf next b0). Qed.
Print Assumptions C98_loop_partial.
(** One message is handled, and the loop's thread cancels while the
    agent waits: it is ended by the token's callback and never gets the second. *)
Definition stopped : list achoice := map as_agent ([CPost 1 10; CRun 1; CReceive] ++ all_of 0 12 ++ [CResume 0; CReceive] ++ all_of 0 8 ++ [CCancelToken 0]) ++ [Kill] ++ map as_agent ([CPost 1 20; CRun 1; CTurn] ++ all_of 0 4 ++ [CTurn] ++ all_of 0 4).
Example C98_case : exists a, exec (astep listing) stopped (start []) = Some a /\ Forall agent_on_loop stopped /\ agent_quiet listing a /\ astep listing Kill a = None /\
  In (CancelRequested 0) (s_log (a_box a)) /\ a_body a = Over /\ messages (rev (a_trace a)) = [10] /\ posted (s_log (a_box a)) = [10; 20].
Proof.
  exists (afinal listing [] stopped). split; [apply afinal_ok; vm_compute; reflexivity|]. split; [repeat constructor|]. split; [agent_quiet_tac|].
  split; [vm_compute; reflexivity|]. split; [|repeat split; vm_compute; reflexivity]. vm_compute. auto 10.
Qed.
(** False: a message posted after the cancellation by the thread that cancelled is handled. *)
Theorem C98_after_refuted : exists cs a l1 l2, Forall agent_on_loop cs /\ exec (astep listing) cs (start []) = Some a /\
  s_log (a_box a) = l1 ++ CancelRequested 1 :: l2 /\ posted l2 = [] /\ messages (rev (a_trace a)) = [7].
Proof.
  set (cs := map as_agent (CReceive :: all_of 0 5 ++ [CCancelToken 1; CPost 1 7; CRun 1] ++ all_of 0 7 ++ [CResume 0])).
  exists cs, (afinal listing [] cs), [Received 0 7; Posted 1 7], [ReceiveCalled 0]. split; [repeat constructor|]. split; [apply afinal_ok; vm_compute; reflexivity|]. repeat split; vm_compute; reflexivity.
Qed.
Print Assumptions C98_after_refuted.
(** False with other threads that call post_and_async_reply: two more messages. *)
Theorem C98_threads_refuted : exists cs a l1 l2, exec (astep listing) cs (start []) = Some a /\
  s_log (a_box a) = l1 ++ CancelRequested 3 :: l2 /\ received l2 = [] /\ messages (rev (a_trace a)) = [1; 2].
Proof.
  set (cs := map as_agent (CReceive :: all_of 0 8 ++ [CAsk 1 1; CRun 1; CAsk 2 2; CRun 2; CCancelToken 3] ++ all_of 1 8 ++ [CResume 0; CReceive] ++ all_of 0 2 ++ all_of 2 8 ++ all_of 0 5 ++ [CResume 1])).
  exists cs, (afinal listing [] cs), [Received 1 2; ReceiveCalled 1; Received 0 1], [Posted 2 2; Posted 1 1; ReceiveCalled 0].
  split; [apply afinal_ok; vm_compute; reflexivity|]. repeat split; vm_compute; reflexivity.
Qed.
Print Assumptions C98_threads_refuted.
