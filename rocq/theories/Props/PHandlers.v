(** Property C128: try, except, finally and with in the bodies of computation expressions. *)
From Coq Require Import List.
From Verif.Model Require Import Base OptionResult Builder Mixed Handlers.
From Verif.Spec Require Import BuilderSpec HandlersSpec.
From Verif.Proofs Require Import HandlersFacts.
Import ListNotations.

Notation option_call p w := (fun fuel => call_gen mixed_option_builder susp_resume fuel (generator false p) w).
Notation result_call p w := (fun fuel => call_gen mixed_result_builder susp_resume fuel (generator false p) w).
Notation async_option_call p w := (fun fuel => acall_gen mixed_async_option_builder susp_resume fuel (generator true p) w).
Notation async_result_call p w := (fun fuel => acall_gen mixed_async_result_builder susp_resume fuel (generator true p) w).
Notation body W A E := (prog W (pyopt A) (outcome A E)).

(** The call of the decorated function does what the body means, read as a program in which
    [yield v] and [yield from Some(v)] give [v] and [yield from Nothing] raises. *)
Theorem C128_option : forall W A E (p : body W A E) w vs c w1, means false p w = (vs, c, w1) ->
  settles (option_call p w) (expression_value (UOpt None) (fun v => UOpt (Some v)) vs (ends false c), w1).
Proof. exact (fun W A E => @HandlersFacts.option_call W A E). Qed.
Theorem C128_result : forall W A E (p : body W A E) w vs c w1, means false p w = (vs, c, w1) ->
  settles (result_call p w) (expression_value (URes (Ok PyNone)) (fun v => URes (Ok v)) vs (ends false c), w1).
Proof. exact (fun W A E => @HandlersFacts.result_call W A E). Qed.
(** Likewise with [await]; a task that is cancelled at an [await] has an effect that raises
    there. *)
Theorem C128_async : forall W A E (p : body W A E) w vs c w1, means true p w = (vs, c, w1) ->
  settles (async_option_call p w) (expression_value (UOpt None) (fun v => UOpt (Some v)) vs (ends true c), w1) /\
  settles (async_result_call p w) (expression_value (URes (Ok PyNone)) (fun v => URes (Ok v)) vs (ends true c), w1).
Proof. exact (fun W A E p w vs c w1 H => conj (HandlersFacts.async_option_call p w vs c w1 H) (HandlersFacts.async_result_call p w vs c w1 H)). Qed.

(** A [finally] block around any body, and the [__exit__] of a [with] around it, run exactly
    once before the call returns, however the body ends, and change nothing else. *)
Theorem C128_cleanup_once : forall W A E (p : body W A E) h v0 w n r w1,
  (settles (option_call p w) (r, w1) ->
     settles (option_call (PTry (counted p) (fun _ => false) h (PDo (tick v0) PEnd) PEnd) (w, n)) (r, (w1, S n)) /\
     settles (option_call (PWith (counted p) (fun _ => tick false) PEnd) (w, n)) (r, (w1, S n))) /\
  (settles (result_call p w) (r, w1) ->
     settles (result_call (PTry (counted p) (fun _ => false) h (PDo (tick v0) PEnd) PEnd) (w, n)) (r, (w1, S n)) /\
     settles (result_call (PWith (counted p) (fun _ => tick false) PEnd) (w, n)) (r, (w1, S n))).
Proof.
  intros W A E p h v0 w n r w1. split; intros H.
  - exact (counts_once false (fun W s w fuel => call_gen mixed_option_builder susp_resume fuel s w) _ (fun W => @HandlersFacts.option_call W A E) W p h v0 w n r w1 H).
  - exact (counts_once false (fun W s w fuel => call_gen mixed_result_builder susp_resume fuel s w) _ (fun W => @HandlersFacts.result_call W A E) W p h v0 w n r w1 H).
Qed.
Theorem C128_cleanup_once_async : forall W A E (p : body W A E) h v0 w n r w1,
  (settles (async_option_call p w) (r, w1) ->
     settles (async_option_call (PTry (counted p) (fun _ => false) h (PDo (tick v0) PEnd) PEnd) (w, n)) (r, (w1, S n)) /\
     settles (async_option_call (PWith (counted p) (fun _ => tick false) PEnd) (w, n)) (r, (w1, S n))) /\
  (settles (async_result_call p w) (r, w1) ->
     settles (async_result_call (PTry (counted p) (fun _ => false) h (PDo (tick v0) PEnd) PEnd) (w, n)) (r, (w1, S n)) /\
     settles (async_result_call (PWith (counted p) (fun _ => tick false) PEnd) (w, n)) (r, (w1, S n))).
Proof.
  intros W A E p h v0 w n r w1. split; intros H.
  - exact (counts_once true (fun W s w fuel => acall_gen mixed_async_option_builder susp_resume fuel s w) _ (fun W => @HandlersFacts.async_option_call W A E) W p h v0 w n r w1 H).
  - exact (counts_once true (fun W s w fuel => acall_gen mixed_async_result_builder susp_resume fuel s w) _ (fun W => @HandlersFacts.async_result_call W A E) W p h v0 w n r w1 H).
Qed.

(** Except clauses that do not name EffectError or one of its base classes leave a short
    circuit alone. *)
Theorem C128_own_exceptions_partial : forall W A E (p : body W A E) catches h v0 next w vs m w1, catches (RFail m) = false ->
  (means false p w = (vs, CRaise (RFail m), w1) ->
     settles (option_call (PTry p catches h (PEnd v0) next) w) (Ret m, w1) /\ settles (result_call (PTry p catches h (PEnd v0) next) w) (Ret m, w1)) /\
  (means true p w = (vs, CRaise (RFail m), w1) ->
     settles (async_option_call (PTry p catches h (PEnd v0) next) w) (Ret m, w1) /\ settles (async_result_call (PTry p catches h (PEnd v0) next) w) (Ret m, w1)).
Proof.
  intros W A E p catches h v0 next w vs m w1 C. split; intros Q; split.
  - exact (other_handler false (fun W s w fuel => call_gen mixed_option_builder susp_resume fuel s w) _ (fun W => @HandlersFacts.option_call W A E) W p catches h v0 next w vs m w1 Q C).
  - exact (other_handler false (fun W s w fuel => call_gen mixed_result_builder susp_resume fuel s w) _ (fun W => @HandlersFacts.result_call W A E) W p catches h v0 next w vs m w1 Q C).
  - exact (other_handler true (fun W s w fuel => acall_gen mixed_async_option_builder susp_resume fuel s w) _ (fun W => @HandlersFacts.async_option_call W A E) W p catches h v0 next w vs m w1 Q C).
  - exact (other_handler true (fun W s w fuel => acall_gen mixed_async_result_builder susp_resume fuel s w) _ (fun W => @HandlersFacts.async_result_call W A E) W p catches h v0 next w vs m w1 Q C).
Qed.

(** EffectError is an Exception: [except Exception] (and a bare [except]) takes the short
    circuit for an error of the statements, and so does a [with] that suppresses exceptions;
    a [return] in a [finally] block discards it too. *)
Theorem C128_swallowed_refuted : forall W A E (p : body W A E) h x v0 next exit w vs m w1,
  means false p w = (vs, CRaise (RFail m), w1) ->
  (settles (option_call p w) (Ret m, w1) /\
   settles (option_call (PTry p (fun _ => true) (fun _ => PReturn (PyVal x)) (PEnd v0) next) w) (Ret (UOpt (Some (PyVal x))), w1) /\
   settles (option_call (PTry p (fun _ => false) h (PReturn (PyVal x)) next) w) (Ret (UOpt (Some (PyVal x))), w1) /\
   ((forall u, exit (Some (RFail m)) u = (Ret true, u)) ->
    settles (option_call (PWith p exit (fun _ => PReturn (PyVal x))) w) (Ret (UOpt (Some (PyVal x))), w1))) /\
  (settles (result_call p w) (Ret m, w1) /\
   settles (result_call (PTry p (fun _ => true) (fun _ => PReturn (PyVal x)) (PEnd v0) next) w) (Ret (URes (Ok (PyVal x))), w1) /\
   settles (result_call (PTry p (fun _ => false) h (PReturn (PyVal x)) next) w) (Ret (URes (Ok (PyVal x))), w1) /\
   ((forall u, exit (Some (RFail m)) u = (Ret true, u)) ->
    settles (result_call (PWith p exit (fun _ => PReturn (PyVal x))) w) (Ret (URes (Ok (PyVal x))), w1))).
Proof.
  intros W A E p h x v0 next exit w vs m w1 Q. split.
  - split; [exact (HandlersFacts.option_call _ _ _ _ _ Q)|].
    exact (swallowed false (fun W s w fuel => call_gen mixed_option_builder susp_resume fuel s w) _ (fun W => @HandlersFacts.option_call W A E) W p h (PyVal x) v0 next exit w vs m w1 Q).
  - split; [exact (HandlersFacts.result_call _ _ _ _ _ Q)|].
    exact (swallowed false (fun W s w fuel => call_gen mixed_result_builder susp_resume fuel s w) _ (fun W => @HandlersFacts.result_call W A E) W p h (PyVal x) v0 next exit w vs m w1 Q).
Qed.
Print Assumptions C128_option.
Print Assumptions C128_result.
Print Assumptions C128_async.
Print Assumptions C128_cleanup_once.
Print Assumptions C128_cleanup_once_async.
Print Assumptions C128_own_exceptions_partial.
Print Assumptions C128_swallowed_refuted.

(** try: log 1; x = yield 5; log 2; y = yield from m; log 3; return y
    except KeyError: return 8
    finally: log 9 *)
Definition say (n : nat) : M (list nat) (pyopt nat) := fun log => (Ret PyNone, log ++ [n]).
Definition guarded (m : outcome nat nat) : body (list nat) nat nat :=
  PTry (PDo (say 1) (fun _ => PYield (PyVal 5) (fun x => PDo (say 2) (fun _ => PFrom (ret m) (fun y => PDo (say 3) (fun _ => PReturn y))))))
    (fun x => match x with RThrow KeyError => true | _ => false end) (fun _ => PReturn (PyVal 8)) (PDo (say 9) PEnd) PEnd.
Example C128_example :
  option_call (guarded (UOpt (Some (PyVal 7)))) [] 9 = (Ret (UOpt (Some (PyVal 7))), [1; 2; 3; 9]) /\
  option_call (guarded (UOpt None)) [] 9 = (Ret (UOpt None), [1; 2; 9]) /\
  result_call (guarded (URes (Err 4))) [] 9 = (Ret (URes (Err 4)), [1; 2; 9]) /\
  means false (guarded (UOpt None)) [] = ([PyVal 5], CRaise (RFail (UOpt None)), [1; 2; 9]).
Proof. repeat split; reflexivity. Qed.
(** cancelled while it awaits: the finally block runs, the exception goes on *)
Example C128_cancelled_example :
  async_option_call (PTry (PDo (say 1) (fun _ => PYield (PyVal 5) (fun _ => PDo (fun log => (Raise (UserExn 3), log)) (fun _ => PEnd PyNone))))
    (fun _ => false) (fun x => PRaise x) (PDo (say 9) PEnd) PEnd : body (list nat) nat nat) [] 9 = (Raise (UserExn 3), [1; 9]).
Proof. reflexivity. Qed.
Example C128_swallowed_example :
  option_call (PTry (PFrom (ret (UOpt None)) PReturn) (fun _ => true) (fun _ => PReturn (PyVal 8)) (PEnd PyNone) PEnd : body (list nat) nat nat) [] 9 =
  (Ret (UOpt (Some (PyVal 8))), []).
Proof. reflexivity. Qed.
(** for x in [1, 2, 3, 4]: try: if x == 3: break; y = yield from f(x); finally: log x
    return 7 *)
Definition looping (f : pyopt nat -> outcome nat nat) : body (list nat) nat nat :=
  PFor [PyVal 1; PyVal 2; PyVal 3; PyVal 4] PyNone
    (fun v x => PTry (if match x with PyVal 3 => true | _ => false end then PBreak v else PFrom (ret (f x)) PEnd) (fun _ => false) (fun x => PRaise x)
                  (PDo (say (match x with PyVal n => n | PyNone => 0 end)) PEnd) PEnd)
    (fun _ => PReturn (PyVal 7)).
Example C128_loop_example :
  option_call (looping (fun x => UOpt (Some x))) [] 9 = (Ret (UOpt (Some (PyVal 7))), [1; 2; 3]) /\
  option_call (looping (fun x => match x with PyVal 2 => UOpt None | x => UOpt (Some x) end)) [] 9 = (Ret (UOpt None), [1; 2]).
Proof. split; reflexivity. Qed.
