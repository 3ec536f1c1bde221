(** C138: mailboxes, agents and nets of agents come to rest, and then everything is delivered. *)
From Coq Require Import List Bool Arith Lia.
From Verif.Model Require Import Base Thread Aiotools Mailbox Agent Network Reply Request.
From Verif.Spec Require Import MailboxSpec AgentSpec NetworkSpec AiotoolsSpec RequestSpec RestSpec.
From Verif.Proofs Require Import ThreadFacts AgentFacts AgentFacts2 NetworkFacts RestFacts RestFacts2 RestFacts3 RestFacts4 RestFacts5.
From Verif.Props Require Import PMailbox PAgent PNetwork PRequest.
Import ListNotations.

(** A mailbox makes at most 13 steps for each call of post, post_and_async_reply and receive,
    whatever the threads and the loop do. *)
Theorem C138_bounded : forall cs s, exec step cs init = Some s -> count goes cs <= 13 * count called cs.
Proof.
  intros cs s E. destruct (schedule_bound cs) as (n & N & F). pose proof (proj2 (bounded_pf cs s n F N E)). lia.
Qed.
Print Assumptions C138_bounded.
Example C138_bounded_case : count goes two_posts = 45 /\ count called two_posts = 5 /\ exists s, exec step two_posts init = Some s.
Proof. split; [reflexivity|]. split; [reflexivity|]. eexists. vm_compute. reflexivity. Qed.
(** So it comes to rest: no run of its steps is infinite, and one that ends can be given. *)
Theorem C138_mailbox : forall cs s, exec step cs init = Some s ->
  comes_to_rest step goes_on s /\ exists ds s1, Forall goes_on ds /\ exec step ds s = Some s1 /\ quiet s1.
Proof.
  intros cs s E. destruct (schedule_bound cs) as (n & N & F). destruct (bounded_pf cs s n F N E) as [W _]. split; [|exact (rests_pf n s W)].
  unfold comes_to_rest. clear E F. revert W. induction (Wf_nat.well_founded_ltof _ (work n) s) as [s _ IH]. intros W. constructor. intros s1 (c & G & E).
  destruct (work_step n c s s1 W G E) as [W1 L]. exact (IH s1 L W1).
Qed.
Print Assumptions C138_mailbox.
(** No thread is ever stuck in a call, also when many threads process events: it can make a
    step, or it waits for the lock and the thread that has the lock can make one.  So at rest
    every call of every thread has returned, the lock is free and the loop has no callback left. *)
Theorem C138_not_stuck : forall cs s, exec step cs init = Some s ->
  (forall t, s_thr s t <> Idle ->
     (exists s1, step (CRun t) s = Some s1) \/ (s_thr s t = P_Acquire /\ exists u s1, u <> t /\ s_lock s = Some (u, 1) /\ step (CRun u) s = Some s1)) /\
  (quiet s -> (forall t, s_thr s t = Idle) /\ s_lock s = None /\ s_ready s = 0).
Proof.
  intros cs s E. pose proof (locked_pf cs s E) as I. split; [intros t; exact (not_stuck s t I)|]. intros Q.
  assert (T : forall t, s_thr s t = Idle).
  { intros t. destruct (is_idle (s_thr s t)) eqn:X; [apply MailboxFacts.idle, X|]. exfalso. destruct (not_stuck s t I) as [[s1 S]|(_ & u & s1 & _ & _ & S)].
    - intros Y. rewrite Y in X. discriminate.
    - rewrite (Q (CRun t) Logic.I) in S. discriminate.
    - rewrite (Q (CRun u) Logic.I) in S. discriminate. }
  split; [exact T|]. split.
  - destruct (lk_free _ I) as [F|[o F]]; [exact F|]. apply (lk_owner _ I) in F. rewrite T in F. discriminate.
  - specialize (Q CTurn Logic.I). cbn [step] in Q. rewrite (T 0) in Q. destruct (s_ready s); [reflexivity|discriminate].
Qed.
Print Assumptions C138_not_stuck.
(** Two threads ask at the same time while a receive waits: one has the lock, the other waits
    for it. *)
Example C138_stuck_case : exists s, exec step ([CReceive] ++ repeat (CRun 0) 8 ++ [CAsk 1 10; CAsk 2 20] ++ repeat (CRun 1) 3 ++ repeat (CRun 2) 2) init = Some s /\
  s_thr s 1 = P_Empty /\ s_thr s 2 = P_Acquire /\ step (CRun 2) s = None /\ step (CRun 1) s <> None.
Proof. eexists. split; [vm_compute; reflexivity|]. vm_compute. repeat split. discriminate. Qed.
(** An agent whose body always comes to its next receive or to its end comes to rest. *)
Theorem C138_agent : forall B O (next : B -> act B O) b0 cs a, prompt next -> exec (astep next) cs (start b0) = Some a ->
  comes_to_rest (astep next) agent_goes_on a /\ exists ds a1, Forall agent_goes_on ds /\ exec (astep next) ds a = Some a1 /\ agent_quiet next a1.
Proof.
  intros B O next b0 cs a P E. destruct (tidy_pf next b0 cs a E) as [n T]. split; [exact (agent_rests_pf next P n a T)|exact (agent_end_pf next P n a T)].
Qed.
Print Assumptions C138_agent.

(** Whatever has happened so far, when nobody cancels: from now on the agent handles all
    messages posted so far, if its body does not end before, in a run that needs nothing from
    outside, and every such run leads there. *)
Theorem C138_delivers : forall B O (next : B -> act B O) b0 cs a, prompt next -> Forall agent_on_loop cs -> exec (astep next) cs (start b0) = Some a ->
  (forall t, ~ In (CancelRequested t) (s_log (a_box a))) ->
  (exists ds a1, Forall agent_goes_on ds /\ exec (astep next) ds a = Some a1 /\ agent_quiet next a1) /\
  (forall ds a1, Forall agent_goes_on ds -> exec (astep next) ds a = Some a1 -> agent_quiet next a1 ->
     a_body a1 = Over \/ messages (rev (a_trace a1)) = posted (s_log (a_box a))).
Proof.
  intros B O next b0 cs a P L E NC. split; [exact (proj2 (C138_agent B O next b0 cs a P E))|]. intros ds a1 F X Q.
  destruct (going_keeps _ _ next ds a a1 F X) as [P1 P2]. pose proof (exec_app _ _ _ _ _ _ _ _ E X) as E1.
  assert (L1 : Forall agent_on_loop (cs ++ ds)).
  { apply Forall_app. split; [exact L|]. eapply Forall_impl; [|exact F]. intros [[t m|t m| | |f|f|t|t]| | |] G; try exact Logic.I; contradiction. }
  destruct (C97_all_partial _ _ _ _ _ _ L1 E1 Q (fun t H => NC t (P2 t H))) as (b & _ & [[O1 _]|(f & k & _ & _ & M)]); [left; exact O1|right; congruence].
Qed.
Print Assumptions C138_delivers.
(** Bodies that fold their messages, and those that answer each, are prompt. *)
Theorem C138_prompt : forall S O (f : S -> nat -> S) (g : S -> nat -> S * O), prompt (folding f) /\ prompt (answering g).
Proof.
  intros S O f g. split.
  - intros s. constructor. intros s1 (o & H). discriminate.
  - assert (N : forall s, Acc (fun b1 b => exists o, answering g b = Do o b1) (s, None)). { intros s. constructor. intros b1 (o & H). discriminate. }
    intros [s [o|]]; [|apply N]. constructor. intros b1 (o1 & H). injection H as _ <-. apply N.
Qed.
Print Assumptions C138_prompt.
(** Two threads have posted, nothing was received yet: the agent that lists its messages will
    have both. *)
Example C138_case : exists a, exec (astep listing) [Box (CPost 1 10); Box (CPost 2 20)] (start []) = Some a /\ a_trace a = [] /\ posted (s_log (a_box a)) = [10; 20] /\
  (forall t, ~ In (CancelRequested t) (s_log (a_box a))).
Proof. eexists. split; [reflexivity|]. split; [reflexivity|]. split; [reflexivity|]. apply no_cancel. reflexivity. Qed.
(** Requests come to rest too, for all prompt bodies, whatever they reply to and how often. *)
Theorem C138_requests : forall B (next : B -> act B (nat * reply_value)) b0 cs y, prompt next -> exec (ystep next) cs (system_start b0) = Some y ->
  comes_to_rest (ystep next) system_goes_on y /\ exists ds y1, Forall system_goes_on ds /\ exec (ystep next) ds y = Some y1 /\ system_quiet next y1.
Proof. intros B next b0 cs y P. exact (system_end_pf next P b0 cs y). Qed.
Print Assumptions C138_requests.
(** So nobody who has asked an agent that answers each message waits for ever: with nobody
    cancelling, each run leads to a rest, and there each caller that has not given up has
    the answer to its own request (an answer None is C69's). *)
Theorem C138_answers : forall S (f : S -> nat -> S * reply_value) s0 cs y, Forall request_on_loop cs -> exec (ystep (serving f)) cs (serve s0) = Some y ->
  (forall t, ~ In (CancelRequested t) (s_log (a_box (y_agent y)))) ->
  comes_to_rest (ystep (serving f)) system_goes_on y /\
  (exists ds y1, Forall system_goes_on ds /\ exec (ystep (serving f)) ds y = Some y1 /\ system_quiet (serving f) y1) /\
  (forall ds y1, Forall system_goes_on ds -> exec (ystep (serving f)) ds y = Some y1 -> system_quiet (serving f) y1 -> forall n, In n (y_asked y) ->
     exists v, nth_error (answers f s0 (posted (s_log (a_box (y_agent y))))) n = Some v /\
       forall x, v = Some x -> sees (r_fut (y_req y1 n)) (OValue (Some x)) \/ In GaveUp (r_log (y_req y n))).
Proof.
  intros S f s0 cs y L E NC. destruct (C138_requests _ (serving f) (s0, None) cs y (proj2 (C138_prompt S (nat * reply_value) (fun s _ => s) (fun s n => let (s, v) := f s n in (s, (n, v))))) E) as [A B].
  split; [exact A|]. split; [exact B|]. intros ds y1 F X Q n I. destruct (system_going_keeps _ _ ds y y1 F X) as (K1 & K2 & K3 & K4). pose proof (exec_app _ _ _ _ _ _ _ _ E X) as E1.
  assert (L1 : Forall request_on_loop (cs ++ ds)).
  { apply Forall_app. split; [exact L|]. eapply Forall_impl; [|exact F]. intros [t|t|t|k t|k|c] G; try exact Logic.I; contradiction. }
  destruct (C99_answered_partial S f s0 (cs ++ ds) y1 n L1 E1 Q (fun t H => NC t (K3 t H))) as (v & V1 & V2); [now rewrite K1|].
  exists v. rewrite <- K2. split; [exact V1|]. intros x H. destruct (V2 x H) as [Z|Z]; [left; exact Z|right; apply K4, Z].
Qed.
Print Assumptions C138_answers.
(** A request has just been posted and another thread posts: the answer is not there yet, and
    will be 1. *)
Example C138_answers_case : exists y, exec (ystep (serving counting)) [YAsk 0; YPost 1] (serve 0) = Some y /\ y_asked y = [0] /\ r_fut (y_req y 0) = Pending /\
  (forall t, ~ In (CancelRequested t) (s_log (a_box (y_agent y)))) /\ nth_error (answers counting 0 (posted (s_log (a_box (y_agent y))))) 0 = Some (Some 1).
Proof. eexists. split; [reflexivity|]. split; [reflexivity|]. split; [reflexivity|]. split; [apply no_cancel; reflexivity|reflexivity]. Qed.
(** Nets in which the agents post forward only come to rest. *)
Theorem C138_net : forall B O (next : nat -> B -> act B (effect O)) b0 last cs n, forward next b0 last -> exec (nstep next) cs (start_all b0) = Some n ->
  comes_to_rest (nstep next) net_goes_on n /\ exists ds n1, Forall net_goes_on ds /\ exec (nstep next) ds n = Some n1 /\ all_quiet next n1.
Proof.
  intros B O next b0 last cs n FW E. split; [exact (net_rests_pf next b0 last FW cs n E)|exact (net_end_pf next b0 last FW cs n E)].
Qed.
Print Assumptions C138_net.
(** Chains are such nets. *)
Theorem C138_chain_forward : forall S (f : nat -> S -> nat -> S * nat) (s0 : nat -> S) (last : nat),
  forward (chained f) (fun i => if Nat.leb i last then Some (s0 i, None) else None) (Datatypes.S last).
Proof.
  intros S f s0 last. assert (N : forall i s, Acc (fun b1 b => exists o, chained f i b = Do o b1) (s, None)). { intros i s. constructor. intros b1 (o & H). discriminate. }
  constructor.
  - intros i [s [o|]]; [|apply N]. constructor. intros b1 (o1 & H). injection H as _ <-. apply N.
  - intros i [s [o|]] j m b1 H E; [|discriminate]. injection E as <- _ _. destruct (Nat.leb_spec i last); [lia|contradiction].
  - intros i H. destruct (Nat.leb_spec i last); [lia|reflexivity].
Qed.
Print Assumptions C138_chain_forward.
(** So, whatever has happened so far in a chain of agents that nobody cancels: the chain can
    go on to a rest without help from outside, each run of its steps is finite, and each that
    cannot be prolonged has brought everything posted so far through all stages. *)
Theorem C138_chain : forall S (f : nat -> S -> nat -> S * nat) (s0 : nat -> S) (last : nat) cs n,
  let b0 i := if Nat.leb i last then Some (s0 i, None) else None in
  Forall net_on_loop cs -> Forall to_first cs -> exec (nstep (chained f)) cs (start_all b0) = Some n -> never_cancelled n ->
  comes_to_rest (nstep (chained f)) net_goes_on n /\
  (exists ds n1, Forall net_goes_on ds /\ exec (nstep (chained f)) ds n = Some n1 /\ all_quiet (chained f) n1) /\
  (forall ds n1, Forall net_goes_on ds -> exec (nstep (chained f)) ds n = Some n1 -> all_quiet (chained f) n1 ->
     let outside := map m_msg (from_outside (rev (n_mail n))) in
     (forall i, i <= last -> messages (rev (a_trace (n_agents n1 i))) = stage f s0 i outside) /\
     map snd (sends (outputs (rev (a_trace (n_agents n1 last))))) = stage f s0 (Datatypes.S last) outside).
Proof.
  intros S f s0 last cs n b0 L TF E NC. destruct (C138_net _ _ _ b0 _ cs n (C138_chain_forward S f s0 last) E) as [A B]. split; [exact A|]. split; [exact B|].
  intros ds n1 F X Q outside. destruct (net_going_keeps _ _ (chained f) ds n n1 F X) as [K1 K2]. pose proof (exec_app _ _ _ _ _ _ _ _ E X) as E1.
  assert (O : outside = map m_msg (from_outside (rev (n_mail n1)))). { unfold outside, from_outside. rewrite <- !filter_rev'. unfold from_outside in K1. now rewrite K1. }
  rewrite O. refine (proj2 (C137_chain S f s0 last (cs ++ ds) n1 _ _ E1) Q (K2 NC)); apply Forall_app; (split; [assumption|]); (eapply Forall_impl; [|exact F]).
  - intros [i [[t m|t m| | |g|g|t|t]| | |]] G; try exact Logic.I; contradiction.
  - intros [[|i] [[t m|t m| | |g|g|t|t]| | |]] G; try exact Logic.I; contradiction.
Qed.
Print Assumptions C138_chain.
(** Two threads have posted to the first of two agents, nothing more has happened: 20 and 60
    will come out. *)
Example C138_chain_case : exists n, exec (nstep (chained adding)) [(0, Box (CPost 1 10)); (0, Box (CPost 2 20))] (start_all two_agents) = Some n /\
  never_cancelled n /\ map m_msg (from_outside (rev (n_mail n))) = [10; 20] /\ stage adding (fun _ => 0) 2 [10; 20] = [20; 60] /\
  sends (outputs (rev (a_trace (n_agents n 1)))) = [].
Proof.
  eexists. split; [reflexivity|]. split; [|split; [reflexivity|split; reflexivity]].
  intros i t. destruct i as [|[|i]]; apply no_cancel; vm_compute; reflexivity.
Qed.
(** Bodies that are not prompt need not come to rest: one that goes on for ever. *)
Theorem C138_prompt_needed : forall B O (next : B -> act B O) (b0 : B), (forall b, exists o b1, next b = Do o b1) -> ~ comes_to_rest (astep next) agent_goes_on (start b0).
Proof.
  intros B O next b0 H A. remember (start b0) as a eqn:Ea.
  assert (I : is_idle (s_thr (a_box a) 0) = true /\ exists b, a_body a = Starts b \/ a_body a = Ready b). { subst a. split; [reflexivity|]. exists b0. left. reflexivity. }
  clear Ea. revert I. induction A as [a _ IH]. intros [I (b & D)]. destruct (H b) as (o & b1 & N).
  apply (IH (Agent (a_box a) (Ready b1) (Did o :: a_trace a))).
  - exists Go. split; [exact Logic.I|]. cbn [astep]. destruct D as [-> | ->]; rewrite I, N; reflexivity.
  - split; [exact I|]. exists b1. right. reflexivity.
Qed.
Print Assumptions C138_prompt_needed.
