(** C140: an agent that keeps reply channels answers exactly when it replies; a lock as an agent. *)
From Coq Require Import List Bool Arith Lia.
From Verif.Model Require Import Base Thread Aiotools Mailbox Agent Reply Request.
From Verif.Spec Require Import MailboxSpec AgentSpec AiotoolsSpec RequestSpec KeepingSpec.
From Verif.Proofs Require Import ReplyFacts AgentFacts AgentFacts2 RequestFacts KeepingFacts.
From Verif.Props Require Import PMailbox PAgent PRequest.
Import ListNotations.

(** Whatever the body does and whatever threads ask: a caller sees no value but one that the body
    replied to this very request. *)
Theorem C140_value : forall B (next : B -> act B (nat * reply_value)) b0 cs y n v, exec (ystep next) cs (system_start b0) = Some y ->
  sees (r_fut (y_req y n)) (OValue v) -> In (n, v) (outputs (rev (a_trace (y_agent y)))).
Proof. exact (fun B next b0 => any_value next b0). Qed.
Print Assumptions C140_value.
(** When nothing goes on any more, whether the agent was cancelled or not: a request to which the
    body replied, and not with None, has been answered; one to which it has not replied, or only
    with None, still waits; unless the caller gave up. *)
Theorem C140_replied : forall B (next : B -> act B (nat * reply_value)) b0 cs y n, exec (ystep next) cs (system_start b0) = Some y ->
  system_quiet next y -> In n (y_asked y) -> let rs := outputs (rev (a_trace (y_agent y))) in
  ((exists v, In (n, v) rs) -> ~ In (n, None) rs -> (exists v, In (n, v) rs /\ sees (r_fut (y_req y n)) (OValue v)) \/ In GaveUp (r_log (y_req y n))) /\
  ((forall v, In (n, v) rs -> v = None) -> r_fut (y_req y n) = Pending \/ In GaveUp (r_log (y_req y n))).
Proof. exact (fun B next b0 => any_rest next b0). Qed.
Print Assumptions C140_replied.

(** An agent that replies, after each message, to any requests it knows of: what callers see is
    among the replies computed from the messages one after another ... *)
Theorem C140_seen_partial : forall S (f : S -> nat -> S * list (nat * reply_value)) s0 cs y n v, Forall request_on_loop cs -> exec (ystep (keeping f)) cs (keep s0) = Some y ->
  sees (r_fut (y_req y n)) (OValue v) -> In (n, v) (repliesto f s0 (posted (s_log (a_box (y_agent y))))).
Proof.
  intros S f s0 cs y n v L E H. destruct (keeping_prefix f s0 cs y L E) as [l P]. rewrite P. apply in_app_iff. left. exact (any_value _ _ cs y n v E H).
Qed.
Print Assumptions C140_seen_partial.
(** ... and when nothing goes on any more a request has been answered if and only if there is a
    reply to it among them. *)
Theorem C140_rest_partial : forall S (f : S -> nat -> S * list (nat * reply_value)) s0 cs y n, Forall request_on_loop cs -> exec (ystep (keeping f)) cs (keep s0) = Some y ->
  system_quiet (keeping f) y -> (forall t, ~ In (CancelRequested t) (s_log (a_box (y_agent y)))) -> In n (y_asked y) ->
  let rs := repliesto f s0 (posted (s_log (a_box (y_agent y)))) in
  ((exists v, In (n, v) rs) -> ~ In (n, None) rs -> (exists v, In (n, v) rs /\ sees (r_fut (y_req y n)) (OValue v)) \/ In GaveUp (r_log (y_req y n))) /\
  ((forall v, In (n, v) rs -> v = None) -> r_fut (y_req y n) = Pending \/ In GaveUp (r_log (y_req y n))).
Proof. intros S f s0 cs y n L E Q N A. cbn zeta. rewrite <- (keeping_all f s0 cs y L E Q N). exact (any_rest _ _ cs y n E Q A). Qed.
Print Assumptions C140_rest_partial.

(** *** A lock *)
Lemma in_grants : forall g n v, In (n, v) (map grant g) <-> In n g /\ v = Some 1.
Proof.
  intros g n v. rewrite in_map_iff. split.
  - intros (m & E & H). injection E as -> <-. auto.
  - intros [H ->]. exists n. auto.
Qed.
Lemma lock_grants : forall acquire cs y, Forall request_on_loop cs -> exec (ystep (keeping (lock acquire))) cs (keep unlocked) = Some y ->
  exists g, outputs (rev (a_trace (y_agent y))) = map grant g /\ prefix g (acquires acquire (posted (s_log (a_box (y_agent y))))) /\
    length g <= 1 + length (releases acquire (posted (s_log (a_box (y_agent y))))).
Proof.
  intros acquire cs y L E. destruct (keeping_prefix (lock acquire) unlocked cs y L E) as [l P].
  destruct (lock_run acquire (posted (s_log (a_box (y_agent y)))) false [] (fun _ => eq_refl)) as (g & G & [r A] & C & _). unfold unlocked in P. rewrite P in G. cbn [app] in A.
  exists (firstn (length (outputs (rev (a_trace (y_agent y))))) g). repeat split.
  - rewrite <- firstn_map, <- G, firstn_app, firstn_all, Nat.sub_diag. cbn. rewrite app_nil_r. reflexivity.
  - exists (skipn (length (outputs (rev (a_trace (y_agent y))))) g ++ r). rewrite app_assoc, firstn_skipn. exact A.
  - rewrite firstn_length. cbn in C. lia.
Qed.
(** At any time the callers that have seen the lock granted are at most one more than the messages
    posted to release it. *)
Theorem C140_lock_one_partial : forall acquire cs y l, Forall request_on_loop cs -> exec (ystep (keeping (lock acquire))) cs (keep unlocked) = Some y ->
  NoDup l -> (forall n, In n l -> exists v, sees (r_fut (y_req y n)) (OValue v)) -> length l <= 1 + length (releases acquire (posted (s_log (a_box (y_agent y))))).
Proof.
  intros acquire cs y l L E ND H. destruct (lock_grants acquire cs y L E) as (g & G & _ & C). etransitivity; [|exact C]. apply NoDup_incl_length; [exact ND|].
  intros n I. destruct (H n I) as [v V]. apply (any_value _ _ cs y n v E) in V. rewrite G in V. apply in_grants in V. exact (proj1 V).
Qed.
Print Assumptions C140_lock_one_partial.
Lemma filter_split : forall (p : nat -> bool) k n m g l, filter p (seq 0 k) = g ++ l -> In n g -> m < n -> p m = true -> In m g.
Proof.
  intros p k n m g l E N LT P. assert (K : In m (g ++ l)).
  { rewrite <- E. apply filter_In. split; [|exact P]. apply in_seq. assert (In n (filter p (seq 0 k))) by (rewrite E; apply in_app_iff; auto). apply filter_In in H. destruct H as [H _]. apply in_seq in H. lia. }
  apply in_app_iff in K. destruct K as [K|K]; [exact K|]. exfalso.
  assert (SS : forall i k, Sorted.StronglySorted lt (filter p (seq i k))).
  { clear. intros i k. revert i. induction k as [|k IH]; intros i; [constructor|]. cbn. destruct (p i); [|apply IH]. constructor; [apply IH|]. apply Forall_forall. intros x H. apply filter_In in H. destruct H as [H _]. apply in_seq in H. lia. }
  specialize (SS 0 k). rewrite E in SS. clear E. induction g as [|x g IH]; [contradiction|]. cbn in SS. apply Sorted.StronglySorted_inv in SS. destruct SS as [S1 S2]. destruct N as [->|N]; [|auto].
  rewrite Forall_forall in S2. specialize (S2 m). assert (n < m) by (apply S2, in_app_iff; auto). lia.
Qed.
(** The lock is granted in the order in which it was asked for: when one caller has seen it granted
    and nothing goes on any more, so has every caller that asked before, unless they gave up. *)
Theorem C140_lock_order_partial : forall acquire cs y m n v, Forall request_on_loop cs -> exec (ystep (keeping (lock acquire))) cs (keep unlocked) = Some y ->
  system_quiet (keeping (lock acquire)) y -> sees (r_fut (y_req y n)) (OValue v) -> m < n -> acquire m = true -> In m (y_asked y) ->
  sees (r_fut (y_req y m)) (OValue (Some 1)) \/ In GaveUp (r_log (y_req y m)).
Proof.
  intros acquire cs y m n v L E Q H LT A I. destruct (lock_grants acquire cs y L E) as (g & G & [l P] & _). rewrite (C99_numbers _ _ _ cs y E) in P.
  apply (any_value _ _ cs y n v E) in H. rewrite G in H. apply in_grants in H. destruct H as [H _]. pose proof (filter_split _ _ _ _ _ _ P H LT A) as M.
  destruct (any_rest _ _ cs y m E Q I) as [R _]. rewrite G in R. destruct R as [(w & W & S)|R]; auto.
  - exists (Some 1). apply in_grants. auto.
  - intros X. apply in_grants in X. destruct X as [_ X]. discriminate.
  - apply in_grants in W. destruct W as [_ ->]. auto.
Qed.
Print Assumptions C140_lock_order_partial.
(** When nothing goes on any more and nobody released a lock that nobody had asked for: of those that
    asked the first ones have the lock granted, one more than there were releases; the others wait. *)
Theorem C140_lock_rest_partial : forall acquire cs y n, Forall request_on_loop cs -> exec (ystep (keeping (lock acquire))) cs (keep unlocked) = Some y ->
  system_quiet (keeping (lock acquire)) y -> (forall t, ~ In (CancelRequested t) (s_log (a_box (y_agent y)))) -> In n (y_asked y) ->
  let ms := posted (s_log (a_box (y_agent y))) in disciplined acquire ms ->
  (In n (firstn (1 + length (releases acquire ms)) (acquires acquire ms)) -> sees (r_fut (y_req y n)) (OValue (Some 1)) \/ In GaveUp (r_log (y_req y n))) /\
  (~ In n (firstn (1 + length (releases acquire ms)) (acquires acquire ms)) -> r_fut (y_req y n) = Pending \/ In GaveUp (r_log (y_req y n))).
Proof.
  intros acquire cs y n L E Q N A ms D. destruct (C140_rest_partial _ _ _ cs y n L E Q N A) as [R1 R2]. fold ms in R1, R2.
  destruct (lock_run acquire ms false [] (fun _ => eq_refl)) as (g & G & _ & _ & F). unfold unlocked in R1, R2. rewrite G in R1, R2. cbn [length app Nat.add] in F. specialize (F D). cbn [Nat.add]. rewrite <- F. split.
  - intros H. destruct R1 as [(w & W & S)|R]; auto.
    + exists (Some 1). apply in_grants. auto.
    + intros X. apply in_grants in X. destruct X as [_ X]. discriminate.
    + apply in_grants in W. destruct W as [_ ->]. auto.
  - intros H. apply R2. intros v X. apply in_grants in X. destruct X as [X _]. contradiction.
Qed.
Print Assumptions C140_lock_rest_partial.
(** So when every holder has released it or there is one that has not, all have had it. *)
Theorem C140_lock_all_partial : forall acquire cs y n, Forall request_on_loop cs -> exec (ystep (keeping (lock acquire))) cs (keep unlocked) = Some y ->
  system_quiet (keeping (lock acquire)) y -> (forall t, ~ In (CancelRequested t) (s_log (a_box (y_agent y)))) -> In n (y_asked y) -> acquire n = true ->
  let ms := posted (s_log (a_box (y_agent y))) in disciplined acquire ms -> length (acquires acquire ms) <= 1 + length (releases acquire ms) ->
  sees (r_fut (y_req y n)) (OValue (Some 1)) \/ In GaveUp (r_log (y_req y n)).
Proof.
  intros acquire cs y n L E Q N A AN ms D C. apply (C140_lock_rest_partial acquire cs y n L E Q N A D). rewrite firstn_all2 by exact C. apply filter_In. split; [|exact AN].
  unfold ms. rewrite (C99_numbers _ _ _ cs y E). apply in_seq. split; [lia|]. pose proof (asked_called _ _ cs y n E Q A) as RC. destruct (Nat.lt_ge_cases n (y_count y)) as [H|H]; [exact H|].
  rewrite (y_late _ _ _ (yinv_pf _ _ cs y E) n H) in RC. discriminate.
Qed.
Print Assumptions C140_lock_all_partial.

(** *** Permits *)
(** At any time the callers that have seen a permit granted are among the first that asked, as many as
    there were permits at first and were given back. *)
Theorem C140_pool_seen_partial : forall acquire k cs y n v, Forall request_on_loop cs -> exec (ystep (keeping (pool acquire))) cs (keep (k, [])) = Some y ->
  sees (r_fut (y_req y n)) (OValue v) -> let ms := posted (s_log (a_box (y_agent y))) in
  v = Some 1 /\ In n (firstn (k + length (releases acquire ms)) (acquires acquire ms)).
Proof.
  intros acquire k cs y n v L E H ms. apply (C140_seen_partial _ _ _ cs y n v L E) in H. fold ms in H. rewrite pool_run in H by reflexivity. apply in_grants in H. tauto.
Qed.
Print Assumptions C140_pool_seen_partial.
(** When nothing goes on any more these are all that have one; the others wait, and none waits while a
    permit is left. *)
Theorem C140_pool_rest_partial : forall acquire k cs y n, Forall request_on_loop cs -> exec (ystep (keeping (pool acquire))) cs (keep (k, [])) = Some y ->
  system_quiet (keeping (pool acquire)) y -> (forall t, ~ In (CancelRequested t) (s_log (a_box (y_agent y)))) -> In n (y_asked y) ->
  let ms := posted (s_log (a_box (y_agent y))) in
  (In n (firstn (k + length (releases acquire ms)) (acquires acquire ms)) -> sees (r_fut (y_req y n)) (OValue (Some 1)) \/ In GaveUp (r_log (y_req y n))) /\
  (~ In n (firstn (k + length (releases acquire ms)) (acquires acquire ms)) -> r_fut (y_req y n) = Pending \/ In GaveUp (r_log (y_req y n))).
Proof.
  intros acquire k cs y n L E Q N A ms. destruct (C140_rest_partial _ _ _ cs y n L E Q N A) as [R1 R2]. fold ms in R1, R2. rewrite pool_run in R1, R2 by reflexivity. cbn [app] in R1, R2. split.
  - intros H. destruct R1 as [(w & W & S)|R]; auto.
    + exists (Some 1). apply in_grants. auto.
    + intros X. apply in_grants in X. destruct X as [_ X]. discriminate.
    + apply in_grants in W. destruct W as [_ ->]. auto.
  - intros H. apply R2. intros v X. apply in_grants in X. destruct X as [X _]. contradiction.
Qed.
Print Assumptions C140_pool_rest_partial.

(** Schedules: those of the choices that can be made. *)
Section Able.
  Context {B : Type} (next : B -> act B (nat * reply_value)).
  Fixpoint able (cs : list ychoice) (y : system B) : list ychoice :=
    match cs with [] => [] | c :: cs => match ystep next c y with Some y1 => c :: able cs y1 | None => able cs y end end.
  Fixpoint reached (cs : list ychoice) (y : system B) : system B :=
    match cs with [] => y | c :: cs => match ystep next c y with Some y1 => reached cs y1 | None => reached cs y end end.
  Lemma able_ok : forall cs y, exec (ystep next) (able cs y) y = Some (reached cs y).
  Proof. induction cs as [|c cs IH]; intros y; [reflexivity|]. cbn. destruct (ystep next c y) as [y1|] eqn:E; [cbn; rewrite E; apply IH|apply IH]. Qed.
  Lemma able_on_loop : forall cs y, Forall request_on_loop cs -> Forall request_on_loop (able cs y).
  Proof. induction cs as [|c cs IH]; intros y L; [constructor|]. inversion L; subst. cbn. destruct (ystep next c y); [constructor; auto|auto]. Qed.
End Able.
(** All that goes on by itself, for a while. *)
Definition goings : list ychoice :=
  concat (repeat ([YGoOn 0; YAgent Go; YAgent Resume] ++ boxes [CReceive; CTurn] ++ boxes (all_of 0 14) ++ steps 0 0 6 ++ steps 1 0 6 ++ steps 2 0 6 ++ boxes (all_of 1 14)) 5).
(** Two callers acquire the lock, which messages 2 and later release. *)
Definition two (n : nat) : bool := Nat.ltb n 2.
Definition locked : list ychoice := goings ++ YAsk 0 :: goings ++ YAsk 0 :: goings.
Example C140_lock_case : exists y, exec (ystep (keeping (lock two))) (able (keeping (lock two)) locked (keep unlocked)) (keep unlocked) = Some y /\
  Forall request_on_loop (able (keeping (lock two)) locked (keep unlocked)) /\ system_quiet (keeping (lock two)) y /\
  (forall t, ~ In (CancelRequested t) (s_log (a_box (y_agent y)))) /\ y_asked y = [1; 0] /\ posted (s_log (a_box (y_agent y))) = [0; 1] /\
  r_fut (y_req y 0) = Done (Some 1) /\ r_fut (y_req y 1) = Pending.
Proof.
  exists (reached (keeping (lock two)) locked (keep unlocked)). split; [apply able_ok|]. split; [apply able_on_loop; repeat constructor|]. split; [system_quiet_tac|].
  split; [apply no_cancel; vm_compute; reflexivity|]. repeat split; vm_compute; reflexivity.
Qed.
(** Then another thread posts the message that releases it. *)
Definition handed : list ychoice := locked ++ YPost 1 :: goings.
Example C140_handed_case : exists y, exec (ystep (keeping (lock two))) (able (keeping (lock two)) handed (keep unlocked)) (keep unlocked) = Some y /\
  Forall request_on_loop (able (keeping (lock two)) handed (keep unlocked)) /\ system_quiet (keeping (lock two)) y /\
  (forall t, ~ In (CancelRequested t) (s_log (a_box (y_agent y)))) /\ y_asked y = [1; 0] /\ posted (s_log (a_box (y_agent y))) = [0; 1; 2] /\
  r_fut (y_req y 0) = Done (Some 1) /\ r_fut (y_req y 1) = Done (Some 1).
Proof.
  exists (reached (keeping (lock two)) handed (keep unlocked)). split; [apply able_ok|]. split; [apply able_on_loop; repeat constructor|]. split; [system_quiet_tac|].
  split; [apply no_cancel; vm_compute; reflexivity|]. repeat split; vm_compute; reflexivity.
Qed.
Example C140_disciplined_case : disciplined two [0; 1; 2].
Proof. intros ms1 ms2 E. destruct ms1 as [|a [|b [|c [|d ms1]]]]; cbn in E; inversion E; subst; cbn; lia. Qed.
(** Two permits for three callers, and one given back. *)
Definition three (n : nat) : bool := Nat.ltb n 3.
Definition pooled : list ychoice := locked ++ YAsk 0 :: goings.
Example C140_pool_case : let start := keep (2, []) in let b := keeping (pool three) in
  (exists y, exec (ystep b) (able b pooled start) start = Some y /\ Forall request_on_loop (able b pooled start) /\ system_quiet b y /\
    (forall t, ~ In (CancelRequested t) (s_log (a_box (y_agent y)))) /\ y_asked y = [2; 1; 0] /\
    r_fut (y_req y 0) = Done (Some 1) /\ r_fut (y_req y 1) = Done (Some 1) /\ r_fut (y_req y 2) = Pending) /\
  (exists y, exec (ystep b) (able b (pooled ++ YPost 1 :: goings) start) start = Some y /\ system_quiet b y /\ r_fut (y_req y 2) = Done (Some 1)).
Proof.
  intros start b. split; eexists; (split; [apply able_ok|]); [split; [apply able_on_loop; repeat constructor|]; split; [system_quiet_tac|]; split; [apply no_cancel; vm_compute; reflexivity|]|split; [system_quiet_tac|]];
    repeat split; vm_compute; reflexivity.
Qed.
(** False that the lock goes on to the next when a caller that waited for it gave up: it is granted to
    the one that gave up, who does not know, and the one that asked later waits for ever. *)
Definition lost : list ychoice := locked ++ YGiveUp 1 :: goings ++ YAsk 0 :: goings ++ YPost 1 :: goings.
Theorem C140_giveup_refuted : exists cs y, Forall request_on_loop cs /\ exec (ystep (keeping (lock three))) cs (keep unlocked) = Some y /\ system_quiet (keeping (lock three)) y /\
  (forall t, ~ In (CancelRequested t) (s_log (a_box (y_agent y)))) /\ y_asked y = [2; 1; 0] /\ posted (s_log (a_box (y_agent y))) = [0; 1; 2; 3] /\
  outputs (rev (a_trace (y_agent y))) = [(0, Some 1); (1, Some 1)] /\ r_fut (y_req y 0) = Done (Some 1) /\ r_fut (y_req y 1) = Cancelled /\ r_fut (y_req y 2) = Pending.
Proof.
  exists (able (keeping (lock three)) lost (keep unlocked)), (reached (keeping (lock three)) lost (keep unlocked)). split; [apply able_on_loop; repeat constructor|]. split; [apply able_ok|]. split; [system_quiet_tac|].
  split; [apply no_cancel; vm_compute; reflexivity|]. repeat split; vm_compute; reflexivity.
Qed.
Print Assumptions C140_giveup_refuted.
(** False when other threads ask: of two callers one never gets the lock, though the other released it. *)
Definition dropping : list ychoice :=
  goings ++ [YAsk 1] ++ boxes (all_of 1 2) ++ [YAsk 2] ++ boxes (all_of 2 2 ++ all_of 1 7 ++ all_of 2 7) ++ [YGoOn 1] ++ steps 0 1 2 ++ [YGoOn 2] ++ steps 1 2 2 ++ goings ++ YPost 1 :: goings.
Theorem C140_threads_refuted : exists cs y, exec (ystep (keeping (lock two))) cs (keep unlocked) = Some y /\ system_quiet (keeping (lock two)) y /\
  (forall t, ~ In (CancelRequested t) (s_log (a_box (y_agent y)))) /\ y_asked y = [1; 0] /\ posted (s_log (a_box (y_agent y))) = [0; 1; 2] /\
  r_fut (y_req y 0) = Done (Some 1) /\ r_fut (y_req y 1) = Pending.
Proof.
  exists (able (keeping (lock two)) dropping (keep unlocked)), (reached (keeping (lock two)) dropping (keep unlocked)). split; [apply able_ok|]. split; [system_quiet_tac|].
  split; [apply no_cancel; vm_compute; reflexivity|]. repeat split; vm_compute; reflexivity.
Qed.
Print Assumptions C140_threads_refuted.
