(** Properties of expression/system/disposable.py. *)
From Coq Require Import List Bool Arith Lia.
From Verif.Model Require Import Base Thread Disposable.
From Verif.Spec Require Import LogSpec DisposableSpec.
From Verif.Proofs Require Import DisposableFacts.
Import ListNotations.

(** C61: whatever the threads do, the action runs at most once ... *)
Theorem C61_at_most_once : forall cs s, exec step cs init = Some s -> count is_action (s_log s) <= 1.
Proof. exact once_pf. Qed.
Print Assumptions C61_at_most_once.
(** Two threads, the action disposes again: one Action. *)
Example C61_at_most_once_ex : 
  option_map s_log (exec step [CDispose 0; CDispose 1; CRun 1; CRun 1; CRun 1; CRun 1; CRun 0; CRun 0; CRun 1; CDispose 1; CRun 0; CRun 1; CRun 1; CRun 1; CEnd 1] init) =
  Some [Returned 1; Returned 1; Returned 0; Called 1; Action 1; Called 1; Called 0].
Proof. reflexivity. Qed.

(** ... and exactly once when dispose() was called and all calls are over. *)
Theorem C61_exactly_once : forall cs s, exec step cs init = Some s -> all_returned (s_log s) -> (exists t, In (Called t) (s_log s)) ->
  count is_action (s_log s) = 1.
Proof. exact returned_pf. Qed.
Print Assumptions C61_exactly_once.
Example C61_exactly_once_ex : exists l,
  option_map s_log (exec step [CDispose 0; CRun 0; CRun 0; CRun 0; CRun 0; CRun 0; CEnd 0] init) = Some l /\ all_returned l /\ In (Called 0) l.
Proof. exists [Returned 0; Action 0; Called 0]. split; [reflexivity|]. split; [|cbn; auto]. intros [|t]; reflexivity. Qed.

(** No deadlock: while some call is not over, some thread can go on. *)
Theorem C61_no_deadlock : forall cs s t, exec step cs init = Some s -> count (is_called t) (s_log s) <> count (is_returned t) (s_log s) ->
  exists u c s1, goes_on u c = true /\ step c s = Some s1.
Proof. exact progress_pf. Qed.
Print Assumptions C61_no_deadlock.
(** Thread 0 waits for the lock of thread 1. *)
Example C61_no_deadlock_ex : exec step [CDispose 0; CDispose 1; CRun 1; CRun 0] init = None
  /\ option_map s_log (exec step [CDispose 0; CDispose 1; CRun 1; CRun 1] init) = Some [Called 1; Called 0].
Proof. split; reflexivity. Qed.

(** No livelock: a thread makes at most six steps for each of its calls. *)
Theorem C61_bounded : forall cs s t, exec step cs init = Some s -> count (goes_on t) cs <= 6 * count (new_call t) cs.
Proof. exact bounded_pf. Qed.
Print Assumptions C61_bounded.

(** A with block can be entered only before any dispose() returned and before the action ran. *)
Theorem C61_enter : forall cs s, exec step cs init = Some s -> forall l2 t l1, s_log s = l2 ++ Entered t true :: l1 ->
  forall u, ~ In (Returned u) l1 /\ ~ In (Action u) l1.
Proof. exact entered_pf. Qed.
Print Assumptions C61_enter.
Example C61_enter_ex : 
  option_map s_log (exec step [CEnter 1; CDispose 0; CRun 0; CRun 0; CRun 0; CRun 0; CRun 0; CEnd 0; CEnter 1] init) =
  Some [Entered 1 false; Returned 0; Action 0; Called 0; Entered 1 true].
Proof. reflexivity. Qed.

(** The asynchronous disposable on an event loop: the action starts in the first call, and only there. *)
Theorem C61_async : forall cs s, exec astep cs ainit = Some s ->
  count is_aaction (a_log s) = (if a_disposed s then 1 else 0) /\ (a_disposed s = true <-> exists t, In (ACalled t) (a_log s)).
Proof. exact async_once_pf. Qed.
Print Assumptions C61_async.
Example C61_async_ex : option_map a_log (exec astep [AEnter 0; ADispose 0; ADispose 1; AEnd 0; ADispose 0; AEnter 1] ainit) =
  Some [AEntered 1 false; AReturned 0; ACalled 0; AReturned 0; AReturned 1; ACalled 1; AAction 0; ACalled 0; AEntered 0 true].
Proof. reflexivity. Qed.

(** A task returns from no more calls than it made, and only the call that started the action may still be under way. *)
Theorem C61_async_calls : forall cs s, exec astep cs ainit = Some s -> forall t,
  count (is_areturned t) (a_log s) <= count (is_acalled t) (a_log s) /\
  count (is_acalled t) (a_log s) <= count (is_areturned t) (a_log s) + count (is_aaction_of t) (a_log s).
Proof. exact async_calls_pf. Qed.
Print Assumptions C61_async_calls.
(** The calls of task 1 have returned while that of task 0 waits for the action. *)
Example C61_async_calls_ex : option_map a_log (exec astep [ADispose 0; ADispose 1; ADispose 1] ainit) =
  Some [AReturned 1; ACalled 1; AReturned 1; ACalled 1; AAction 0; ACalled 0] /\
  exec astep [ADispose 0; ADispose 1; AEnd 1] ainit = None.
Proof. split; reflexivity. Qed.

(** C77: with several threads dispose() may return before the action has even started ... *)
Theorem C77_returned_after_action_refuted : exists cs l, option_map s_log (exec step cs init) = Some l /\ In (Returned 1) l /\
  forall t, ~ In (Action t) l.
Proof.
  exists [CDispose 0; CRun 0; CRun 0; CRun 0; CRun 0; CDispose 1; CRun 1; CRun 1; CRun 1], [Returned 1; Called 1; Called 0].
  split; [reflexivity|]. split; [cbn; auto|]. intros t H. cbn in H. intuition discriminate.
Qed.
Print Assumptions C77_returned_after_action_refuted.
(** ... and also within one thread it returns before the action has finished, when the action
    calls it; for one thread, the action has started when a call returns. *)
Theorem C77_one_thread_partial : forall cs s t, Forall (by_thread t) cs -> exec step cs init = Some s ->
  forall u, In (Returned u) (s_log s) -> In (Action t) (s_log s).
Proof. exact one_thread_pf. Qed.
Print Assumptions C77_one_thread_partial.
Example C77_one_thread_ex : 
  option_map s_log (exec step [CDispose 3; CRun 3; CRun 3; CRun 3; CRun 3; CRun 3; CDispose 3; CRun 3; CRun 3; CRun 3] init) =
  Some [Returned 3; Called 3; Action 3; Called 3].
Proof. reflexivity. Qed.

(** C65: disposing runs the actions of the members that are not disposed yet, in order, each
    object once, up to the first that raises, and marks as disposed no others. *)
Theorem C65_dispose_partial : forall W (d : disposable W) flags done w, (forall j, flags j = flags_of done j) ->
  exists flags1, dispose d (flags, w) = (let (r, w1) := run_actions (to_run done (leaves d)) w in (r, (flags1, w1))) /\
    (forall j, flags1 j = true -> In j (map fst (leaves d)) \/ In j done) /\ (forall j, In j done -> flags1 j = true) /\
    (fst (dispose d (flags, w)) = Ret tt -> forall j, In j (map fst (leaves d)) -> flags1 j = true).
Proof. exact (@dispose_pf). Qed.
Print Assumptions C65_dispose_partial.
(** When no action raises: all actions in order; a second time nothing. *)
Theorem C65_all_members_partial : forall W (d : disposable W) w, NoDup (map fst (leaves d)) -> Forall quiet_action (map snd (leaves d)) ->
  exists flags1, dispose d (flags_of [], w) = (Ret tt, (flags1, fold_left (fun w a => snd (a w)) (map snd (leaves d)) w)) /\
    (forall j, flags1 j = true <-> In j (map fst (leaves d))) /\
    forall w1, exists flags2, dispose d (flags1, w1) = (Ret tt, (flags2, w1)).
Proof.
  intros W d w N Q. destruct (dispose_pf d (flags_of []) [] w (fun _ => eq_refl)) as (f1 & E & H1 & H2 & H3).
  rewrite to_run_distinct in E by (auto; intros i _ []). rewrite composite_quiet_pf in E by exact Q. exists f1. split; [exact E|].
  rewrite E in H3. cbn in H3. assert (J : forall j, f1 j = true <-> In j (map fst (leaves d))).
  { intros j. split; [intros H; destruct (H1 j H) as [X|[]]; exact X|apply H3; reflexivity]. }
  split; [exact J|]. intros w1. destruct (dispose_pf d f1 (map fst (leaves d)) w1) as (f2 & E2 & _).
  { intros j. unfold flags_of. destruct (existsb (Nat.eqb j) (map fst (leaves d))) eqn:X.
    - apply existsb_exists in X. destruct X as (x & X & Y). apply Nat.eqb_eq in Y. subst x. apply J, X.
    - destruct (f1 j) eqn:F; [|reflexivity]. exfalso. assert (existsb (Nat.eqb j) (map fst (leaves d)) = true); [|congruence].
      apply existsb_exists. exists j. rewrite Nat.eqb_refl. split; [apply J, F|reflexivity]. }
  rewrite to_run_done in E2 by auto. exists f2. exact E2.
Qed.
Print Assumptions C65_all_members_partial.
Example C65_all_members_ex :
  let say n : M (list nat) unit := fun w => (Ret tt, w ++ [n]) in
  let d := Composite [Anonymous 1 (say 10); Composite [Anonymous 2 (say 20); Anonymous 3 (say 30)]; Composite []; Anonymous 4 (say 40)] in
  NoDup (map fst (leaves d)) /\ Forall quiet_action (map snd (leaves d)) /\ snd (snd (dispose d (flags_of [], []))) = [10; 20; 30; 40].
Proof. cbn zeta. split; [repeat constructor; cbn; lia|]. split; [repeat constructor|reflexivity]. Qed.
(** Refuted in general: a member that raises keeps the later ones from being disposed, also
    when the composite is disposed in a with block. *)
Theorem C65_all_members_refuted : exists (d : disposable (list nat)) flags1 w1,
  dispose d (flags_of [], []) = (Raise (UserExn 0), (flags1, w1)) /\ In 2 (map fst (leaves d)) /\ flags1 2 = false /\ w1 = [1].
Proof.
  exists (Composite [Anonymous 1 (fun w => (Raise (UserExn 0), w ++ [1])); Anonymous 2 (fun w => (Ret tt, w ++ [2]))]).
  eexists; eexists. split; [reflexivity|]. repeat split. cbn; auto.
Qed.
Print Assumptions C65_all_members_refuted.

(** C76: a with block runs the body, then disposes, whether the body returned or raised; the
    result or exception of the body comes out unless disposing raises. *)
Theorem C76_with : forall W A (d : disposable W) flags done (body : M W A) w, (forall j, flags j = flags_of done j) ->
  (forall i a, d = Anonymous i a -> ~ In i done) ->
  exists flags1, with_block d (outside body) (flags, w) =
      (let (r, w1) := finally body (run_actions (to_run done (leaves d))) w in (r, (flags1, w1))) /\
    (forall j, flags1 j = true -> In j (map fst (leaves d)) \/ In j done) /\ (forall j, In j done -> flags1 j = true) /\
    (fst (run_actions (to_run done (leaves d)) (snd (body w))) = Ret tt -> forall j, In j (map fst (leaves d)) -> flags1 j = true).
Proof. exact (@with_pf). Qed.
Print Assumptions C76_with.
Example C76_with_ex : exists flags1,
  with_block (A := nat) (Anonymous 1 (fun w => (Ret tt, w ++ [1]))) (outside (fun w => (Raise (UserExn 7), w ++ [0]))) (flags_of [], [])
  = (Raise (UserExn 7), (flags1, [0; 1])) /\ flags1 1 = true.
Proof. eexists. split; reflexivity. Qed.
(** Any body, also one that disposes the object itself: the action runs at the end exactly
    when the body has not disposed the object. *)
Theorem C76_with_any_body : forall W A i (a : M W unit) (flags : nat -> bool) (body : M ((nat -> bool) * W) A) w, flags i = false ->
  exists r flags1 w1, body (flags, w) = (r, (flags1, w1)) /\
    with_block (Anonymous i a) body (flags, w) =
      (if flags1 i then (r, (flags1, w1))
       else match a w1 with
            | (Ret _, w2) => (r, ((fun j => if Nat.eqb j i then true else flags1 j), w2))
            | (Raise e, w2) => (Raise e, ((fun j => if Nat.eqb j i then true else flags1 j), w2))
            end).
Proof. exact (@with_any_pf). Qed.
Print Assumptions C76_with_any_body.
Example C76_with_any_body_ex : let a : M (list nat) unit := fun w => (Ret tt, w ++ [1]) in exists flags1,
  with_block (Anonymous 1 a) (dispose (Anonymous 1 a)) (flags_of [], []) = (Ret tt, (flags1, [1])).
Proof. eexists. reflexivity. Qed.
(** A disposed object cannot be entered: nothing runs. *)
Theorem C76_disposed : forall W A i (a : M W unit) (flags : nat -> bool) (body : M ((nat -> bool) * W) A) w, flags i = true ->
  with_block (Anonymous i a) body (flags, w) = (Raise ObjectDisposed, (flags, w)).
Proof. exact (@with_disposed_pf). Qed.
Print Assumptions C76_disposed.
Example C76_disposed_ex : flags_of [1] 1 = true.
Proof. reflexivity. Qed.
