(** Properties of cancellation (C62, C63, C64). *)
From Coq Require Import List Bool Arith Lia.
From Verif.Model Require Import Base Thread Cancellation.
From Verif.Spec Require Import LogSpec CancellationSpec.
From Verif.Proofs Require Import CancellationFacts2 CancellationFacts6.
Import ListNotations.

(** Schedules used in the cases below. *)
Definition runs (t n : nat) : list choice := repeat (CRun t) n.
(** thread t registers a listener (6 steps of the call) *)
Definition registers (t : nat) : list choice := CRegister t :: runs t 6.
(** thread t cancels, up to the first listener *)
Definition cancels (t : nat) : list choice := CCancel t :: runs t 5.

(** ** C62 *)

(** No listener is called twice, whatever the threads do. *)
Theorem C62_at_most_once_partial : forall cs s k, exec step cs init = Some s -> count (is_invoked k) (s_log s) <= 1.
Proof. exact (fun cs s k E => at_most_once_pf cs s E k). Qed.
Print Assumptions C62_at_most_once_partial.

(** A listener that was registered before the first call of cancel and is not unregistered
    has been called exactly once when all calls of cancel are over.  Listeners may raise an
    Exception, call cancel again, register and unregister.  Missing: listeners that raise
    a BaseException (see [C62_base_exception_refuted]). *)
Theorem C62_called_once_partial : forall cs s l2 t l1 u k, exec step cs init = Some s ->
  s_log s = l2 ++ CancelCalled t :: l1 -> no_cancel l1 -> In (Registered u k) l1 ->
  (forall v, ~ In (UnregisterCalled v k) (s_log s)) -> all_cancels_over (s_log s) -> (forall v, ~ In (Aborted v) (s_log s)) ->
  count (is_invoked k) (s_log s) = 1.
Proof. exact (fun cs s l2 t l1 u k E => called_once_pf cs s E l2 t l1 u k). Qed.
Print Assumptions C62_called_once_partial.
(** Two listeners; the first calls cancel again, which calls nothing, and then raises. *)
Example C62_called_once_case :
  option_map s_log (exec step (registers 1 ++ registers 2 ++ cancels 3 ++ [CRun 3] ++ (CCancel 3 :: runs 3 4) ++ [CEnd 3; CRun 3; CEnd 3; CRun 3]) init) =
  Some [CancelReturned 3; Invoked 3 1; CancelReturned 3; CancelCalled 3; Invoked 3 0; CancelCalled 3; Registered 2 1; RegisterCalled 2 1; Registered 1 0; RegisterCalled 1 0].
Proof. reflexivity. Qed.

(** Listeners are called in the order of registration. *)
Theorem C62_order_partial : forall cs s u v a b x y, exec step cs init = Some s ->
  before (s_log s) (Registered u a) (RegisterCalled v b) -> In (Invoked x a) (s_log s) -> In (Invoked y b) (s_log s) ->
  before (s_log s) (Invoked x a) (Invoked y b).
Proof. exact (fun cs s u v a b x y E => order_pf cs s E u v b a x y). Qed.
Print Assumptions C62_order_partial.

(** A listener whose handle was disposed before the first call of cancel is never called. *)
Theorem C62_unregistered_partial : forall cs s l2 t l1 k, exec step cs init = Some s ->
  s_log s = l2 ++ CancelCalled t :: l1 -> no_cancel l1 -> unregistered k l1 -> forall u, ~ In (Invoked u k) (s_log s).
Proof. exact (fun cs s l2 t l1 k E => unregistered_pf cs s E l2 t l1 k). Qed.
Print Assumptions C62_unregistered_partial.
(** Listener 0 is unregistered twice, then cancel calls listener 1 only. *)
Example C62_unregistered_case :
  option_map s_log (exec step (registers 1 ++ registers 1 ++ (CUnregister 1 0 :: runs 1 4) ++ [CUnregister 2 0; CRun 2] ++ cancels 3 ++ [CRun 3; CEnd 3; CRun 3]) init) =
  Some [CancelReturned 3; Invoked 3 1; CancelCalled 3; Unregistered 2 0; UnregisterCalled 2 0; Unregistered 1 0; UnregisterCalled 1 0;
        Registered 1 1; RegisterCalled 1 1; Registered 1 0; RegisterCalled 1 0].
Proof. reflexivity. Qed.

(** A listener is called only after it was passed to register and after cancel was called
    by the thread that calls it; all listeners are called by one thread. *)
Theorem C62_called_by_cancel_partial : forall cs s l2 t k l1, exec step cs init = Some s -> s_log s = l2 ++ Invoked t k :: l1 ->
  In (CancelCalled t) l1 /\ exists u, In (RegisterCalled u k) l1.
Proof. exact (fun cs s l2 t k l1 E => invoked_after_pf cs s E l2 t k l1). Qed.
Print Assumptions C62_called_by_cancel_partial.
Theorem C62_one_thread_partial : forall cs s t u k j, exec step cs init = Some s -> In (Invoked t k) (s_log s) -> In (Invoked u j) (s_log s) -> t = u.
Proof. exact (fun cs s t u k j E => one_thread_pf cs s E t u k j). Qed.
Print Assumptions C62_one_thread_partial.

(** Disposing a handle, any number of times and from any thread, never raises. *)
Theorem C62_unregister_safe_partial : forall cs s t k, exec step cs init = Some s -> ~ In (UnregisterRaised t k) (s_log s).
Proof. exact (fun cs s t k E => a_nokey2 _ _ (proj1 (proj2 (inv_exec cs s E))) t k). Qed.
Print Assumptions C62_unregister_safe_partial.

(** Once cancel was called and all its calls are over, no listener is ever called again,
    whatever happens: a second cancel calls nothing. *)
Theorem C62_nothing_more_partial : forall cs s t cs1 s1, exec step cs init = Some s -> In (CancelCalled t) (s_log s) -> all_cancels_over (s_log s) ->
  exec step cs1 s = Some s1 -> invoked (s_log s1) = invoked (s_log s).
Proof. exact nothing_more_pf. Qed.
Print Assumptions C62_nothing_more_partial.

(** No deadlock: while a call has not ended some step of a running call is possible, or a
    running listener can end. *)
Theorem C62_no_deadlock_partial : forall cs s t, exec step cs init = Some s -> count (starts t) (s_log s) <> count (ends t) (s_log s) ->
  exists c, goes_on c /\ exists s1, step c s = Some s1.
Proof. exact (fun cs s t E => goes_on_pf cs s E t). Qed.
Print Assumptions C62_no_deadlock_partial.

(** False: a listener that raises a BaseException (SystemExit, KeyboardInterrupt,
    asyncio.CancelledError) stops cancel, and the listeners after it are never called: a
    later cancel calls nothing. *)
Theorem C62_base_exception_refuted : exists cs log, option_map s_log (exec step cs init) = Some log /\
  before log (Registered 1 1) (CancelCalled 2) /\ (forall v, ~ In (UnregisterCalled v 1) log) /\ all_cancels_over log /\
  count (is_invoked 0) log = 1 /\ count (is_invoked 1) log = 0.
Proof.
  exists (registers 1 ++ registers 1 ++ cancels 2 ++ [CRun 2; CAbort 2; CCancel 2] ++ runs 2 4).
  exists [CancelReturned 2; CancelCalled 2; Aborted 2; Invoked 2 0; CancelCalled 2; Registered 1 1; RegisterCalled 1 1; Registered 1 0; RegisterCalled 1 0].
  split; [reflexivity|]. split; [exists [CancelReturned 2], [Aborted 2; Invoked 2 0; CancelCalled 2; Registered 1 1; RegisterCalled 1 1; Registered 1 0; RegisterCalled 1 0]; cbn; auto 10|].
  split; [intros v H; cbn in H; repeat destruct H as [H|H]; try discriminate; exact H|].
  split; [|split; reflexivity]. intros t. destruct t as [|[|[|t]]]; reflexivity.
Qed.
Print Assumptions C62_base_exception_refuted.

(** False: a listener that an earlier listener has unregistered (the handle's dispose has
    returned) is still called. *)
Theorem C62_unregistered_during_cancel_refuted : exists cs log, option_map s_log (exec step cs init) = Some log /\
  before log (Unregistered 2 1) (Invoked 2 1).
Proof.
  exists (registers 1 ++ registers 1 ++ cancels 2 ++ [CRun 2; CUnregister 2 1] ++ runs 2 4 ++ [CEnd 2; CRun 2]).
  exists [Invoked 2 1; Unregistered 2 1; UnregisterCalled 2 1; Invoked 2 0; CancelCalled 2; Registered 1 1; RegisterCalled 1 1; Registered 1 0; RegisterCalled 1 0].
  split; [reflexivity|]. exists [], [Unregistered 2 1; UnregisterCalled 2 1; Invoked 2 0; CancelCalled 2; Registered 1 1; RegisterCalled 1 1; Registered 1 0; RegisterCalled 1 0].
  cbn. auto.
Qed.
Print Assumptions C62_unregistered_during_cancel_refuted.

(** ** C63 *)

(** False: register tests the flag before it takes the lock (cancellation.py:89-92).  When
    another thread runs cancel in between, register returns a handle and the listener is
    never called: cancel has returned before the listener was stored. *)
Definition race : list choice := [CRegister 1; CRun 1] ++ cancels 2 ++ [CRun 2] ++ runs 1 5.
Theorem C63_lost_refuted : exists s, exec step race init = Some s /\ In (Registered 1 0) (s_log s) /\
  (forall t, count (starts t) (s_log s) = count (ends t) (s_log s)) /\
  forall cs s1 t, exec step cs s = Some s1 -> ~ In (Invoked t 0) (s_log s1).
Proof.
  destruct (exec step race init) as [s|] eqn:E; [|discriminate E]. exists s. split; [reflexivity|].
  assert (L : s_log s = [Registered 1 0; CancelReturned 2; CancelCalled 2; RegisterCalled 1 0]).
  { apply (f_equal (option_map s_log)) in E. cbn in E. injection E as <-. reflexivity. }
  split; [rewrite L; left; reflexivity|]. split; [rewrite L; intros [|[|[|t]]]; reflexivity|].
  intros cs s1 t E1 H. assert (X : In 0 (invoked (s_log s1))) by (apply CancellationFacts4.invoked_in; eauto).
  rewrite (nothing_more_pf race s 2 cs s1 E) in X; [rewrite L in X; exact X|rewrite L; cbn; auto| |exact E1].
  rewrite L. intros [|[|[|u]]]; reflexivity.
Qed.
Print Assumptions C63_lost_refuted.

(** Registrations that do not overlap a call of cancel are not lost: those before are
    called ([C62_called_once_partial]); those after fail. *)
Theorem C63_before_partial : forall cs s l2 t l1 u k, exec step cs init = Some s ->
  s_log s = l2 ++ CancelCalled t :: l1 -> no_cancel l1 -> In (Registered u k) l1 ->
  (forall v, ~ In (UnregisterCalled v k) (s_log s)) -> all_cancels_over (s_log s) -> (forall v, ~ In (Aborted v) (s_log s)) ->
  exists v, In (Invoked v k) (s_log s).
Proof.
  intros cs s l2 t l1 u k E H1 H2 H3 H4 H5 H6. pose proof (called_once_pf cs s E l2 t l1 u k H1 H2 H3 H4 H5 H6) as C.
  assert (P : 1 <= count (is_invoked k) (s_log s)) by lia. apply CancellationFacts3.count_pos in P. destruct P as ([] & P & Q); try discriminate.
  cbn in Q. apply Nat.eqb_eq in Q. subst. eauto.
Qed.
Print Assumptions C63_before_partial.
Theorem C63_after_partial : forall cs s l2 t k l1 u, exec step cs init = Some s -> s_log s = l2 ++ RegisterCalled t k :: l1 -> In (CancelReturned u) l1 ->
  count (starts t) (s_log s) = count (ends t) (s_log s) -> In (RegisterRaised t k) (s_log s).
Proof.
  intros cs s l2 t k l1 u E L H C. destruct (register_ends_pf cs s t k E) as [X|X]; [rewrite L; apply in_app_iff; cbn; auto|exact C| |exact X].
  destruct (register_late_pf cs s l2 t k l1 E L (ex_intro _ _ (conj H I)) t X).
Qed.
Print Assumptions C63_after_partial.
Example C63_case :
  option_map s_log (exec step (registers 1 ++ cancels 2 ++ [CRun 2; CEnd 2; CRun 2; CRegister 1; CRun 1]) init) =
  Some [RegisterRaised 1 1; RegisterCalled 1 1; CancelReturned 2; Invoked 2 0; CancelCalled 2; Registered 1 0; RegisterCalled 1 0].
Proof. reflexivity. Qed.

(** ** C64 *)

(** What a read of is_cancellation_requested gives: True after anything that showed the
    source cancelled (a read that gave True, a returned cancel, a called listener, a failed
    register or with); False before any call of cancel.  In between, while the first
    cancel runs, it is one or the other. *)
Theorem C64_flag : forall cs s l2 t b l1, exec step cs init = Some s -> s_log s = l2 ++ Requested t b :: l1 ->
  ((exists e, In e l1 /\ shows_cancelled e) -> b = true) /\ (no_cancel l1 -> b = false).
Proof. exact (fun cs s l2 t b l1 E => flag_pf cs s E l2 t b l1). Qed.
Print Assumptions C64_flag.
Example C64_flag_case :
  option_map s_log (exec step ([CRead 1; CCancel 2; CRun 2; CRead 1] ++ runs 2 2 ++ [CRead 1] ++ runs 2 3 ++ [CRead 3]) init) =
  Some [Requested 3 true; CancelReturned 2; Requested 1 true; Requested 1 false; CancelCalled 2; Requested 1 false].
Proof. reflexivity. Qed.

(** A listener that reads the flag sees True; so do reads after it. *)
Theorem C64_with : forall cs s l2 t ok l1, exec step cs init = Some s -> s_log s = l2 ++ Entered t ok :: l1 ->
  ((exists e, In e l1 /\ shows_cancelled e) -> ok = false) /\ (no_cancel l1 -> ok = true).
Proof. exact (fun cs s l2 t ok l1 E => enter_pf cs s E l2 t ok l1). Qed.
Print Assumptions C64_with.

(** register raises only after a call of cancel; after cancel was seen it does not return
    a handle, and when it has ended it has raised; what it was given is not called. *)
Theorem C64_register_raises : forall cs s l2 t k l1, exec step cs init = Some s -> s_log s = l2 ++ RegisterRaised t k :: l1 ->
  ~ no_cancel l1 /\ forall u, ~ In (Invoked u k) (s_log s).
Proof.
  intros cs s l2 t k l1 E L. split; [exact (raised_after_pf cs s E l2 t k l1 L)|]. intros u. apply (raised_pf cs s E t). rewrite L. apply in_app_iff. cbn. auto.
Qed.
Print Assumptions C64_register_raises.
Theorem C64_register_after : forall cs s l2 t k l1, exec step cs init = Some s -> s_log s = l2 ++ RegisterCalled t k :: l1 ->
  (exists e, In e l1 /\ shows_cancelled e) ->
  (forall u, ~ In (Registered u k) (s_log s)) /\ (count (starts t) (s_log s) = count (ends t) (s_log s) -> In (RegisterRaised t k) (s_log s)).
Proof.
  intros cs s l2 t k l1 E L H. pose proof (register_late_pf cs s l2 t k l1 E L H) as N. split; [exact N|]. intros C.
  destruct (register_ends_pf cs s t k E) as [X|X]; [rewrite L; apply in_app_iff; cbn; auto|exact C|destruct (N _ X)|exact X].
Qed.
Print Assumptions C64_register_after.

(** The token of a source shows the flag of the source; CancellationToken.none() is never
    cancelled; throw_if_cancellation_requested raises ObjectDisposedException exactly when
    cancellation is requested. *)
Theorem C64_token : forall flag,
  is_cancellation_requested token_cancelled flag = flag /\ can_be_canceled token_cancelled = true /\
  is_cancellation_requested none_cancelled flag = false /\ can_be_canceled none_cancelled = false /\
  forall cancelled, (throw_if_cancellation_requested cancelled flag = Raise ObjectDisposed <-> is_cancellation_requested cancelled flag = true) /\
                    (throw_if_cancellation_requested cancelled flag = Ret tt <-> is_cancellation_requested cancelled flag = false).
Proof. intros [|]; repeat split; try destruct cancelled; try reflexivity; try discriminate; cbn; intros H; try discriminate H; reflexivity. Qed.
Print Assumptions C64_token.
(** The source of none() is one on which cancel was called and has returned
    (cancellation.py:108-112), so register of that token always raises. *)
Theorem C64_none_register : forall cs s t k, exec step cs init = Some s -> (exists l u, s_log s = l ++ [CancelReturned u; CancelCalled u]) -> ~ In (Registered t k) (s_log s).
Proof.
  intros cs s t k E (l & u & L) H. pose proof (a_reg _ _ (proj1 (proj2 (inv_exec cs s E))) _ _ H) as [R _].
  assert (X : In (RegisterCalled t k) l) by (rewrite L in R; apply in_app_iff in R; destruct R as [R|[R|[R|[]]]]; [exact R|discriminate|discriminate]).
  apply in_split in X. destruct X as (a & b & ->). rewrite <- app_assoc in L. cbn in L.
  refine (register_late_pf cs s a t k _ E L _ t H). exists (CancelReturned u). split; [apply in_app_iff; cbn; auto|exact I].
Qed.
Print Assumptions C64_none_register.
Example C64_none_case :
  option_map s_log (exec step ((CCancel 0 :: runs 0 6) ++ [CRegister 1; CRun 1]) init) = Some [RegisterRaised 1 0; RegisterCalled 1 0; CancelReturned 0; CancelCalled 0].
Proof. reflexivity. Qed.
