(** Model of expression/system/cancellation.py.  Definitions only. *)
From Coq Require Import List Bool Arith.
From Verif.Model Require Import Base Thread.
Import ListNotations.

(** ** CancellationTokenSource with threads *)

(** Listeners are named by the [register] call they were passed to: listener [k] is the
    callback of call number [k].  The code never compares callbacks, so two calls with one
    function are two listeners here.  One step is one access to the lock, the flag, the
    dictionary or the counter ([self._id += 1] is one step: it happens under the lock and
    nothing reads or writes [_id] outside it), or the call of a listener. *)
Inductive pc : Type :=
(** cancellation.py:71-86 [cancel] and [dispose] *)
| C_Acquire                   (** 77, entering *)
| C_Test                      (** 78 *)
| C_Set                       (** 79 *)
| C_Snapshot                  (** 80 *)
| C_Release (ls : list nat)   (** 77, leaving; [ls] is the local variable of 76 *)
| C_Next (ls : list nat)      (** 82, before the next listener *)
| C_Wait (ls : list nat)      (** 84, a listener runs, its frame is above *)
(** 88-101 [register_internal] *)
| R_Check (k : nat)           (** 89 *)
| R_Acquire (k : nat)         (** 92, entering *)
| R_Read (k : nat)            (** 93 *)
| R_Store (k i : nat)         (** 94; [i] is the local variable [current] *)
| R_Incr (k i : nat)          (** 95 *)
| R_Release (k i : nat)       (** 92, leaving; then 101 *)
(** [dispose] of the returned handle: disposable.py:52-61, whose critical section (under
    the handle's own lock, which nothing else takes) is the one step [U_Claim]; then the
    action, cancellation.py:97-99 *)
| U_Claim (k i : nat)
| U_Acquire (k i : nat)       (** 98, entering *)
| U_Del (k i : nat)           (** 99 *)
| U_Release (k : nat) (ok : bool). (** 98, leaving; [ok] is false when 99 raised KeyError *)

(** Frames: user code (the main code of a thread or a running listener) and calls. *)
Inductive frame : Type := User | Call (p : pc).

(** What can be observed. *)
Inductive event : Type :=
| CancelCalled (t : nat)
| CancelReturned (t : nat)
| Aborted (t : nat)              (** cancel raises: a listener raised a BaseException that is no Exception *)
| Invoked (t k : nat)            (** listener k starts *)
| RegisterCalled (t k : nat)
| Registered (t k : nat)         (** register returned the handle of listener k *)
| RegisterRaised (t k : nat)     (** register raised ObjectDisposedException *)
| UnregisterCalled (t k : nat)   (** dispose() of the handle of k is called *)
| Unregistered (t k : nat)       (** it returned *)
| UnregisterRaised (t k : nat)   (** it raised KeyError *)
| Requested (t : nat) (b : bool) (** source.is_cancellation_requested or token.is_cancellation_requested was b *)
| Entered (t : nat) (ok : bool). (** with source: __enter__ returned (true) or raised *)

(** The variables of a CancellationTokenSource (cancellation.py:56-61) and of its threads. *)
Record state : Type := St {
  s_disposed : bool;
  s_lock : rlock;
  s_id : nat;
  s_listeners : list (nat * nat);  (** the dict: (id, listener) in insertion order *)
  s_handles : list (nat * nat);    (** returned handles: (listener, [current]) *)
  s_claimed : list nat;            (** handles whose [_is_disposed] is set *)
  s_calls : nat;                   (** number of register calls so far *)
  s_stacks : stacks frame;
  s_log : list event               (** latest first *)
}.
(** cancellation.py:57-61 *)
Definition init : state := St false None 0 [] [] [] 0 (fun _ => [User]) [].

(** dict[i] = k *)
Fixpoint dict_set (i k : nat) (d : list (nat * nat)) : list (nat * nat) :=
  match d with
  | [] => [(i, k)]
  | (j, x) :: d => if Nat.eqb j i then (j, k) :: d else (j, x) :: dict_set i k d
  end.
(** del dict[i]; None: KeyError *)
Fixpoint dict_del (i : nat) (d : list (nat * nat)) : option (list (nat * nat)) :=
  match d with
  | [] => None
  | (j, x) :: d => if Nat.eqb j i then Some d else option_map (cons (j, x)) (dict_del i d)
  end.
Fixpoint find_handle (k : nat) (hs : list (nat * nat)) : option nat :=
  match hs with [] => None | (h, i) :: hs => if Nat.eqb h k then Some i else find_handle k hs end.

(** A token: [CancellationToken(cancelled, source)] (cancellation.py:27-34); the source is
    represented by its flag. *)
Definition is_cancellation_requested (cancelled flag : bool) : bool := negb cancelled && flag. (** cancellation.py:36-38 *)
Definition can_be_canceled (cancelled : bool) : bool := negb cancelled. (** cancellation.py:40-42 *)
(** cancellation.py:44-46 *)
Definition throw_if_cancellation_requested (cancelled flag : bool) : res unit :=
  if is_cancellation_requested cancelled flag then Raise ObjectDisposed else Ret tt.
(** cancellation.py:63-65 [source.token] and 51-53, 108-112 [CancellationToken.none()] (a source of its
    own on which cancel was called): constructor argument and flag of the source. *)
Definition token_cancelled : bool := false.
Definition none_cancelled : bool := true.

(** What the scheduler or the user code of a thread does next. *)
Inductive choice : Type :=
| CCancel (t : nat)        (** source.cancel() or source.dispose(), or leaving [with source] *)
| CRegister (t : nat)      (** token.register(callback) (cancellation.py:48-49) *)
| CUnregister (t k : nat)  (** handle.dispose(), of a handle that was returned *)
| CRead (t : nat)          (** reads is_cancellation_requested *)
| CEnter (t : nat)         (** with source (cancellation.py:103-106) *)
| CEnd (t : nat)           (** a running listener returns or raises an Exception (83-86) *)
| CAbort (t : nat)         (** a running listener raises a BaseException that is no Exception *)
| CRun (t : nat).          (** a running call makes a step *)

(** Assignments to these variables (cancellation.py:56-106), one for each. *)
Definition goto (s : state) (t : nat) (st : list frame) : state :=
  St (s_disposed s) (s_lock s) (s_id s) (s_listeners s) (s_handles s) (s_claimed s) (s_calls s) (upd (s_stacks s) t st) (s_log s).
Definition say (e : event) (s : state) : state :=
  St (s_disposed s) (s_lock s) (s_id s) (s_listeners s) (s_handles s) (s_claimed s) (s_calls s) (s_stacks s) (e :: s_log s).
Definition set_lock (l : rlock) (s : state) : state :=
  St (s_disposed s) l (s_id s) (s_listeners s) (s_handles s) (s_claimed s) (s_calls s) (s_stacks s) (s_log s).
Definition set_disposed (s : state) : state :=
  St true (s_lock s) (s_id s) (s_listeners s) (s_handles s) (s_claimed s) (s_calls s) (s_stacks s) (s_log s).
Definition set_id (n : nat) (s : state) : state :=
  St (s_disposed s) (s_lock s) n (s_listeners s) (s_handles s) (s_claimed s) (s_calls s) (s_stacks s) (s_log s).
Definition set_listeners (d : list (nat * nat)) (s : state) : state :=
  St (s_disposed s) (s_lock s) (s_id s) d (s_handles s) (s_claimed s) (s_calls s) (s_stacks s) (s_log s).
Definition add_handle (k i : nat) (s : state) : state :=
  St (s_disposed s) (s_lock s) (s_id s) (s_listeners s) ((k, i) :: s_handles s) (s_claimed s) (s_calls s) (s_stacks s) (s_log s).
Definition claim (k : nat) (s : state) : state :=
  St (s_disposed s) (s_lock s) (s_id s) (s_listeners s) (s_handles s) (k :: s_claimed s) (s_calls s) (s_stacks s) (s_log s).
Definition count_call (s : state) : state :=
  St (s_disposed s) (s_lock s) (s_id s) (s_listeners s) (s_handles s) (s_claimed s) (S (s_calls s)) (s_stacks s) (s_log s).

(** Entering and leaving [with self._lock]; None: blocked. *)
Definition locked (t : nat) (s : state) (f : state -> state) : option state :=
  option_map (fun l => f (set_lock l s)) (acquire t (s_lock s)).
Definition unlocked (t : nat) (s : state) (f : state -> state) : option state :=
  option_map (fun l => f (set_lock l s)) (release t (s_lock s)).

(** One step of the call [p] in thread [t], whose stack is [Call p :: st]. *)
Definition run_call (t : nat) (p : pc) (st : list frame) (s : state) : option state :=
  match p with
  | C_Acquire => locked t s (fun s => goto s t (Call C_Test :: st))
  | C_Test => Some (goto s t (Call (if s_disposed s then C_Release [] else C_Set) :: st))
  | C_Set => Some (goto (set_disposed s) t (Call C_Snapshot :: st))
  | C_Snapshot => Some (goto s t (Call (C_Release (map snd (s_listeners s))) :: st))
  | C_Release ls => unlocked t s (fun s => goto s t (Call (C_Next ls) :: st))
  | C_Next [] => Some (say (CancelReturned t) (goto s t st))
  | C_Next (k :: ls) => Some (say (Invoked t k) (goto s t (User :: Call (C_Wait ls) :: st)))
  | C_Wait _ => None
  | R_Check k => if s_disposed s then Some (say (RegisterRaised t k) (goto s t st)) else Some (goto s t (Call (R_Acquire k) :: st))
  | R_Acquire k => locked t s (fun s => goto s t (Call (R_Read k) :: st))
  | R_Read k => Some (goto s t (Call (R_Store k (s_id s)) :: st))
  | R_Store k i => Some (goto (set_listeners (dict_set i k (s_listeners s)) s) t (Call (R_Incr k i) :: st))
  | R_Incr k i => Some (goto (set_id (S (s_id s)) s) t (Call (R_Release k i) :: st))
  | R_Release k i => unlocked t s (fun s => say (Registered t k) (add_handle k i (goto s t st)))
  | U_Claim k i =>
      if existsb (Nat.eqb k) (s_claimed s) then Some (say (Unregistered t k) (goto s t st))
      else Some (goto (claim k s) t (Call (U_Acquire k i) :: st))
  | U_Acquire k i => locked t s (fun s => goto s t (Call (U_Del k i) :: st))
  | U_Del k i =>
      match dict_del i (s_listeners s) with
      | Some d => Some (goto (set_listeners d s) t (Call (U_Release k true) :: st))
      | None => Some (goto s t (Call (U_Release k false) :: st))
      end
  | U_Release k ok => unlocked t s (fun s => say (if ok then Unregistered t k else UnregisterRaised t k) (goto s t st))
  end.
Definition step (c : choice) (s : state) : option state :=
  match c with
  | CCancel t =>
      match s_stacks s t with
      | User :: st => Some (say (CancelCalled t) (goto s t (Call C_Acquire :: User :: st)))
      | _ => None
      end
  | CRegister t =>
      match s_stacks s t with
      | User :: st => Some (say (RegisterCalled t (s_calls s)) (count_call (goto s t (Call (R_Check (s_calls s)) :: User :: st))))
      | _ => None
      end
  | CUnregister t k =>
      match s_stacks s t, find_handle k (s_handles s) with
      | User :: st, Some i => Some (say (UnregisterCalled t k) (goto s t (Call (U_Claim k i) :: User :: st)))
      | _, _ => None
      end
  | CRead t =>
      match s_stacks s t with
      | User :: _ => Some (say (Requested t (is_cancellation_requested token_cancelled (s_disposed s))) s)
      | _ => None
      end
  | CEnter t =>
      match s_stacks s t with
      | User :: _ => Some (say (Entered t (negb (s_disposed s))) s)
      | _ => None
      end
  | CEnd t =>
      match s_stacks s t with
      | User :: Call (C_Wait ls) :: st => Some (goto s t (Call (C_Next ls) :: st))
      | _ => None
      end
  | CAbort t =>
      match s_stacks s t with
      | User :: Call (C_Wait ls) :: st => Some (say (Aborted t) (goto s t st))
      | _ => None
      end
  | CRun t => match s_stacks s t with Call p :: st => run_call t p st s | _ => None end
  end.
