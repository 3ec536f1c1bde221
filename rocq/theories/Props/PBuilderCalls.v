(** Property C134: the calls of the methods of a user's own builder. *)
From Coq Require Import List Bool Lia.
From Verif.Model Require Import Base OptionResult Builder BuilderCalls.
From Verif.Spec Require Import BuilderSpec CustomBuilderSpec BuilderCallsSpec.
From Verif.Proofs Require Import BuilderCallsFacts.
From Verif.Props Require Import PCustomBuilder.
Import ListNotations.

(** The methods are called as the body runs, in exactly this order and with these arguments,
    each call once, for Builder and AsyncBuilder; the log of the calls is left beside the effects of the body. *)
Theorem C134_calls_partial : forall W A Mo St (b : builder (pyopt A) Mo) (resume : St -> pyopt A -> W -> node (pyopt A) Mo St * W) effect is_async faults,
  left_unit b -> eager_delay b -> plain_faults faults -> (is_async = true -> async_body resume) -> forall s w vs e w1 log,
  body_gives resume s PyNone w vs e w1 -> Forall (fun c => faults c = None) (expected_calls b vs e) ->
  settles (fun fuel => mcall (spied faults b) (beside resume) effect is_async fuel s (log, w)) (custom_value b vs e, (log ++ expected_calls b vs e, w1)).
Proof. exact @calls_pf. Qed.
(** The exception of a method is raised to the caller and no method is called after it; so
    methods that the body does not need may be missing. *)
Theorem C134_missing_partial : forall W A Mo St (b : builder (pyopt A) Mo) (resume : St -> pyopt A -> W -> node (pyopt A) Mo St * W) effect is_async faults,
  left_unit b -> eager_delay b -> plain_faults faults -> (is_async = true -> async_body resume) -> forall s w vs e w1 log pre c post x,
  body_gives resume s PyNone w vs e w1 ->
  expected_calls b vs e = pre ++ c :: post -> Forall (fun c => faults c = None) pre -> faults c = Some x ->
  exists n, forall fuel, n <= fuel -> exists w2, mcall (spied faults b) (beside resume) effect is_async fuel s (log, w) = (Raise x, (log ++ pre ++ [c], w2)).
Proof. exact @missing_pf. Qed.
(** A body without a yield statement: zero or return_, then run. *)
Theorem C134_plain : forall W A Mo (b : builder (pyopt A) Mo) faults (body : M W (pyopt A)) log w,
  mcall_plain (spied faults b) (fun lw => let '(r, w1) := body (snd lw) in (r, (fst lw, w1))) (log, w) =
  match body w with
  | (Raise e, w1) => (Raise e, (log, w1))
  | (Ret v, w1) =>
      let first := match v with PyNone => CZero | PyVal _ => CReturn v end in
      let value := match v with PyNone => b_zero b | PyVal _ => b_return b v end in
      match faults first with
      | Some x => (Raise x, (log ++ [first], w1))
      | None =>
          match faults (CRun value) with
          | Some x => (Raise x, (log ++ [first; CRun value], w1))
          | None => (Ret (b_run b value), (log ++ [first; CRun value], w1))
          end
      end
  end.
Proof. exact plain_calls_pf. Qed.
(** With methods without effects it is the builder of C105. *)
Theorem C134_quiet : forall W A Mo St (b : builder (pyopt A) Mo) (resume : St -> pyopt A -> W -> node (pyopt A) Mo St * W) effect,
  left_unit b -> eager_delay b -> forall fuel s,
  mcall (quiet b) resume effect false fuel s ==m call_gen b resume fuel s /\
  mcall (quiet b) resume effect true fuel s ==m acall_gen b resume fuel s.
Proof. split; [apply quiet_pf|apply aquiet_pf]; assumption. Qed.

(** False as documented for [zero] ("Called if the effect raises StopIteration without a
    value"): it is called before every generator body starts, and if it raises, the body is
    not run at all. *)
Theorem C134_zero_refuted : forall W A Mo St (b : methods W (pyopt A) Mo) resume effect is_async fuel (s : St) x w w1,
  m_zero b w = (Raise x, w1) -> mcall b resume effect is_async fuel s w = (Raise x, w1).
Proof. exact zero_pf. Qed.
(** False for [delay]: it is given a value that is computed already; the body has run to its
    first yield even if delay never calls its function. *)
Theorem C134_delay_refuted : forall W A Mo St (b : methods W (pyopt A) Mo) resume effect is_async fuel (s : St) z m v s1 x w w1,
  (forall w, m_zero b w = (Ret z, w)) -> (forall w, m_return b v w = (Ret m, w)) ->
  (forall f w, m_delay b f w = (Raise x, w)) -> x <> StopIterationExn ->
  resume s PyNone w = (NYield v s1, w1) -> mcall b resume effect is_async fuel s w = (Raise x, w1).
Proof. exact delay_pf. Qed.

(** The builder and the body of C105: two yields and a failure. *)
Definition no_faults {V Mo} (c : called V Mo) : option exn := None.
Example C134_example :
  mcall (spied no_faults log_builder) (beside log_body) (PyNone, []) false 5 0 ([], 0) =
  (Ret (PyVal 1, [0; 0; 5; 9]),
   ([CZero; CReturn (PyVal 1); CDelay;
     CBind (PyVal 1, []); CReturn (PyVal 1); CDelay; CCombine (PyVal 1, []) (PyVal 1, []);
     CBind (PyVal 1, []); CReturnFrom (PyVal 1, [5]); CDelay; CCombine (PyVal 1, [0]) (PyVal 1, [5]);
     CRun (PyVal 1, [0; 0; 5])], 3)).
Proof. reflexivity. Qed.
Example C134_example_async : fst (mcall (spied no_faults log_builder) (beside log_body) (PyNone, []) true 5 0 ([], 0)) = Ret (PyVal 1, [0; 0; 5; 9]).
Proof. reflexivity. Qed.
Example C134_example_expected : expected_calls log_builder [PyVal 1; PyVal 1] (EFail (PyVal 1, [5])) =
  [CZero; CReturn (PyVal 1); CDelay;
   CBind (PyVal 1, []); CReturn (PyVal 1); CDelay; CCombine (PyVal 1, []) (PyVal 1, []);
   CBind (PyVal 1, []); CReturnFrom (PyVal 1, [5]); CDelay; CCombine (PyVal 1, [0]) (PyVal 1, [5]);
   CRun (PyVal 1, [0; 0; 5])].
Proof. reflexivity. Qed.
Definition no_return_from {V Mo} (c : called V Mo) : option exn := match c with CReturnFrom _ => Some (UserExn 1) | _ => None end.
Example C134_example_hypotheses : plain_faults (@no_return_from (pyopt nat) logged).
Proof. intros c x E. destruct c; try discriminate E; injection E as <-; split; discriminate. Qed.
Example C134_example_missing :
  mcall (spied no_return_from log_builder) (beside log_body) (PyNone, []) false 5 0 ([], 0) =
  (Raise (UserExn 1),
   ([CZero; CReturn (PyVal 1); CDelay;
     CBind (PyVal 1, []); CReturn (PyVal 1); CDelay; CCombine (PyVal 1, []) (PyVal 1, []);
     CBind (PyVal 1, []); CReturnFrom (PyVal 1, [5])], 3)).
Proof. reflexivity. Qed.
Definition no_zero {V Mo} (c : called V Mo) : option exn := match c with CZero => Some (UserExn 2) | _ => None end.
Example C134_example_zero : mcall (spied no_zero log_builder) (beside log_body) (PyNone, []) false 5 0 ([], 0) = (Raise (UserExn 2), ([CZero], 0)).
Proof. reflexivity. Qed.
Definition no_delay {V Mo} (c : called V Mo) : option exn := match c with CDelay => Some (UserExn 3) | _ => None end.
Example C134_example_delay : mcall (spied no_delay log_builder) (beside log_body) (PyNone, []) false 5 0 ([], 0) =
  (Raise (UserExn 3), ([CZero; CReturn (PyVal 1); CDelay], 1)).
Proof. reflexivity. Qed.
(** False for the exceptions that the library uses as signals: a StopIteration that [combine]
    raises ends the call with the result so far, the rest of the body is not run; an
    EffectError that return_ raises short circuits. *)
Definition stops {V Mo} (c : called V Mo) : option exn := match c with CCombine _ _ => Some StopIterationExn | _ => None end.
Theorem C134_signal_refuted : mcall (spied stops log_builder) (beside log_body) (PyNone, []) false 5 0 ([], 0) =
  (Ret (PyVal 1, [9]),
   ([CZero; CReturn (PyVal 1); CDelay; CBind (PyVal 1, []); CReturn (PyVal 1); CDelay; CCombine (PyVal 1, []) (PyVal 1, []);
     CRun (PyVal 1, [])], 2)).
Proof. reflexivity. Qed.
Definition effects {V Mo} (c : called V Mo) : option exn := match c with CReturn _ => Some EffectErrorExn | _ => None end.
Example C134_example_effect : mcall (spied effects log_builder) (beside log_body) (PyNone, [4]) false 5 0 ([], 0) =
  (Ret (PyNone, [4; 9]), ([CZero; CReturn (PyVal 1); CReturnFrom (PyNone, [4]); CDelay; CRun (PyNone, [4])], 1)).
Proof. reflexivity. Qed.

Print Assumptions C134_calls_partial.
Print Assumptions C134_missing_partial.
Print Assumptions C134_plain.
Print Assumptions C134_quiet.
Print Assumptions C134_zero_refuted.
Print Assumptions C134_delay_refuted.
Print Assumptions C134_signal_refuted.

(** A [bind] that handles the exception of return_ and gives something else: AsyncBuilder
    does not resume the body again and ends with what [combine] gives; Builder goes on with
    the body. *)
Theorem C134_handled : forall W A Mo St (b : methods W (pyopt A) Mo) (resume : St -> pyopt A -> W -> node (pyopt A) Mo St * W) effect is_async
    fuel s v s1 x given value result other c w w1 w2 w3,
  x <> StopIterationExn -> x <> EffectErrorExn -> resume s given w = (NYield v s1, w1) -> m_return b v w1 = (Raise x, w2) ->
  (forall G (k : pyopt A -> M (W * G) Mo) st, m_bind b value k st = match k given st with (Raise _, st) => (Ret other, st) | r => r end) ->
  m_combine b result other w2 = (Ret c, w3) ->
  mloop b resume effect is_async (S (S fuel)) value result (w, (GBody s, false)) =
  if is_async then (Ret c, (w3, (GBody s1, true))) else mloop b resume effect is_async (S fuel) other c (w3, (GBody s1, false)).
Proof.
  intros W A Mo St b resume effect is_async fuel s v s1 x given value result other c w w1 w2 w3 N1 N2 R1 R2 B C.
  assert (M : mbinder b resume effect is_async given (w, (GBody s, false)) = (Raise x, (w2, (GBody s1, is_async)))).
  { unfold mbinder, msend, bind. cbn [send]. unfold run_body. rewrite R1, R2. destruct x; try reflexivity; congruence. }
  cbn [mloop]. cbn [snd]. rewrite B, M. unfold side at 1. cbn [fst snd]. rewrite C. destruct is_async; reflexivity.
Qed.
Print Assumptions C134_handled.
(** A StopIteration of return_ ends either kind. *)
Theorem C134_handled_stop : forall W A Mo St (b : methods W (pyopt A) Mo) (resume : St -> pyopt A -> W -> node (pyopt A) Mo St * W) effect is_async
    fuel s v s1 given value result other c w w1 w2 w3,
  resume s given w = (NYield v s1, w1) -> m_return b v w1 = (Raise StopIterationExn, w2) ->
  (forall G (k : pyopt A -> M (W * G) Mo) st, m_bind b value k st =
     match k given st with (Raise StopIterationExn, st) => (Ret other, st) | r => r end) ->
  m_combine b result other w2 = (Ret c, w3) ->
  mloop b resume effect is_async (S (S fuel)) value result (w, (GBody s, false)) = (Ret c, (w3, (GBody s1, true))).
Proof.
  intros W A Mo St b resume effect is_async fuel s v s1 given value result other c w w1 w2 w3 R1 R2 B C.
  assert (M : mbinder b resume effect is_async given (w, (GBody s, false)) = (Raise StopIterationExn, (w2, (GBody s1, true)))).
  { unfold mbinder, msend, bind. cbn [send]. unfold run_body. rewrite R1, R2. reflexivity. }
  cbn [mloop]. cbn [snd]. rewrite B, M. unfold side at 1. cbn [fst snd]. rewrite C. reflexivity.
Qed.
Print Assumptions C134_handled_stop.
Definition forgiving : methods nat (pyopt nat) nat := {|
  m_bind := fun G m k st => match k (PyVal m) st with (Raise _, st) => (Ret 100, st) | r => r end;
  m_return := fun v w => match v with PyVal 7 => (Raise (UserExn 1), w) | PyVal 8 => (Raise StopIterationExn, w) | PyVal n => (Ret n, w) | PyNone => (Ret 0, w) end;
  m_return_from := fun m => ret m; m_combine := fun x y => ret (x + y); m_zero := ret 0; m_delay := fun f => f tt; m_run := fun m => ret m |}.
Definition counted (s : nat) (_ : pyopt nat) (w : nat) : node (pyopt nat) nat nat * nat :=
  match s with 0 => (NYield (PyVal 1) 1, w + 1) | 1 => (NYield (PyVal 7) 2, w + 1) | 2 => (NYield (PyVal 3) 3, w + 1) | _ => (NReturn PyNone, w + 1) end.
Example C134_handled_case :
  mcall forgiving counted 0 true 9 0 0 = (Ret 101, 2) /\ mcall forgiving counted 0 false 9 0 0 = (Ret 204, 4).
Proof. split; reflexivity. Qed.
Definition counted_stop (s : nat) (_ : pyopt nat) (w : nat) : node (pyopt nat) nat nat * nat :=
  match s with 0 => (NYield (PyVal 1) 1, w + 1) | 1 => (NYield (PyVal 8) 2, w + 1) | _ => (NYield (PyVal 3) 3, w + 1) end.
Example C134_handled_stop_case :
  mcall forgiving counted_stop 0 true 9 0 0 = (Ret 101, 2) /\ mcall forgiving counted_stop 0 false 9 0 0 = (Ret 101, 2).
Proof. split; reflexivity. Qed.
