(** Model of expression/core/aiotools.py.  Definitions only. *)
From Coq Require Import List Bool Arith.
From Verif.Model Require Import Base.
Import ListNotations.

(** ** from_continuations *)

(** The state of an asyncio.Future. *)
Inductive future (A : Type) : Type := Pending | Done (v : A) | Failed (e : exn) | Cancelled.
Arguments Pending {A}.
Arguments Done {A} v.
Arguments Failed {A} e.
Arguments Cancelled {A}.
Definition is_done {A} (f : future A) : bool := match f with Pending => false | _ => true end.
(** asyncio: [set_result], [set_exception] and [cancel] of a pending future.
    [set_exception] raises TypeError for a StopIteration (asyncio/futures.py). *)
Definition set_result {A} (v : A) : res unit * future A := (Ret tt, Done v).
Definition set_exception {A} (e : exn) : res unit * future A :=
  match e with StopIterationExn => (Raise TypeError, Pending) | _ => (Ret tt, Failed e) end.
Definition cancel_future {A} (f : future A) : future A := match f with Pending => Cancelled | f => f end.

(** aiotools.py:49-59, the three continuations: result of the call and new state *)
Definition k_done {A} (v : A) (f : future A) : res unit * future A := if is_done f then (Ret tt, f) else set_result v.
Definition k_error {A} (e : exn) (f : future A) : res unit * future A := if is_done f then (Ret tt, f) else set_exception e.
Definition k_cancel {A} (f : future A) : res unit * future A := if is_done f then (Ret tt, f) else (Ret tt, cancel_future f).
(** What may happen to the future: a continuation is called (by the callback at once or
    by anyone later), or the awaiting code is cancelled. *)
Inductive kcall (A : Type) : Type := KDone (v : A) | KError (e : exn) | KCancel | KAwaiterCancelled.
Arguments KDone {A} v.
Arguments KError {A} e.
Arguments KCancel {A}.
Arguments KAwaiterCancelled {A}.
Definition call {A} (k : kcall A) (f : future A) : res unit * future A :=
  match k with
  | KDone v => k_done v f
  | KError e => k_error e f
  | KCancel => k_cancel f
  | KAwaiterCancelled => (Ret tt, cancel_future f)
  end.
(** A sequence of calls: what each of them returned or raised, and the future. *)
Fixpoint calls {A} (ks : list (kcall A)) (f : future A) : list (res unit) * future A :=
  match ks with
  | [] => ([], f)
  | k :: ks => let (r, f) := call k f in let (rs, f) := calls ks f in (r :: rs, f)
  end.
(** aiotools.py:32-62.  The callback makes the calls [ks] and then returns or raises;
    when it raises the future is not returned. *)
Definition from_continuations {A} (ks : list (kcall A)) (callback_result : res unit) : res (future A) :=
  match callback_result with Ret _ => Ret (snd (calls ks Pending)) | Raise e => Raise e end.

(** ** start and start_immediate (aiotools.py:71-117; the two have the same code) *)

(** How a computation ends: it returns, raises, or its task was cancelled.  A task is
    cancelled only after the callback cb called [task.cancel()] on it: cancelling a task
    found by asyncio.all_tasks() or by the end of the loop is not modelled. *)
Inductive ending : Type := Returns | Raises | IsCancelled.
(** The token passed to start: none at all, [CancellationToken.none()], or the token of a
    source [i]. *)
Inductive token_arg : Type := NoToken | TokenNone | TokenOf (i : nat).
Record tasks : Type := Tasks {
  t_count : nat;                       (** tasks created: 0, 1, ... *)
  t_ended : list (nat * ending);       (** tasks that have ended *)
  t_running : list nat;                (** the set __running_tasks (68) *)
  t_cancelled : list nat;              (** sources that were cancelled *)
  t_registered : list (nat * nat);     (** (source, task): callback cb registered *)
  t_asked : list nat                   (** tasks on which cancel() was called *)
}.
Definition no_tasks : tasks := Tasks 0 [] [] [] [] [].
Inductive tchoice : Type :=
| TStart (tok : token_arg)
| TEnd (n : nat) (e : ending)     (** the computation of task n ends *)
| TCancel (i : nat).              (** source i is cancelled: the registered callbacks call task.cancel() *)
Definition set_remove (n : nat) (l : list nat) : list nat := filter (fun m => negb (Nat.eqb m n)) l.
(** What a step returns to its caller: start returns None or raises. *)
Definition tstep (c : tchoice) (s : tasks) : option (res unit * tasks) :=
  match c with
  | TStart tok =>
      let n := t_count s in
      let s1 reg := Tasks (S n) (t_ended s) (n :: t_running s) (t_cancelled s) reg (t_asked s) in
      match tok with
      | NoToken => Some (Ret tt, s1 (t_registered s))
      (** cancellation.py:89-90: the source of none() is cancelled *)
      | TokenNone => Some (Raise ObjectDisposed, s1 (t_registered s))
      | TokenOf i => if existsb (Nat.eqb i) (t_cancelled s) then Some (Raise ObjectDisposed, s1 (t_registered s))
                     else Some (Ret tt, s1 ((i, n) :: t_registered s))
      end
  | TEnd n e =>
      if Nat.ltb n (t_count s) && negb (existsb (fun x => Nat.eqb (fst x) n) (t_ended s))
         && (match e with IsCancelled => existsb (Nat.eqb n) (t_asked s) | _ => true end) then
        Some (Ret tt, Tasks (t_count s) ((n, e) :: t_ended s) (match e with Returns => set_remove n (t_running s) | _ => t_running s end)
                            (t_cancelled s) (t_registered s) (t_asked s))
      else None
  | TCancel i =>
      if existsb (Nat.eqb i) (t_cancelled s) then Some (Ret tt, s)
      else Some (Ret tt, Tasks (t_count s) (t_ended s) (t_running s) (i :: t_cancelled s) (t_registered s)
                               (map snd (filter (fun x => Nat.eqb (fst x) i) (t_registered s)) ++ t_asked s))
  end.
Fixpoint texec (cs : list tchoice) (s : tasks) : option tasks :=
  match cs with
  | [] => Some s
  | c :: cs => match tstep c s with Some (_, s) => texec cs s | None => None end
  end.
