(** Model of expression/core/mailbox.py.  Definitions only. *)
From Coq Require Import List Bool Arith.
From Verif.Model Require Import Base Thread Aiotools.
Import ListNotations.

(** ** MailboxProcessor with threads *)

(** Thread 0 is the thread of the event loop [self.loop]; [receive] runs there (its future
    belongs to that loop).  Other threads may post, ask and cancel the token.  Messages
    are numbers; they are never inspected.  The [f]-th call of receive owns future [f].
    One step is one access to the queue, the flag, an attribute or the lock; calling a
    continuation (aiotools.py:49-51, 57-59: test of the future and setting it) is one
    step.  set_result only schedules the awaiting task, so nothing runs inside a step.
    That asyncio futures are not meant to be set from other threads (the loop may wake up
    late; debug mode raises) is not modelled. *)
Inductive pc : Type :=
| Idle                                (** user code, or the loop between callbacks *)
| A_Soon                              (** mailbox.py:64, in post *)
(** mailbox.py:119-130, the callback of receive *)
| V_Check (f : nat)                   (** 124 *)
| V_Cont (f : nat)                    (** 127 *)
| V_Cancel (f : nat)                  (** 128 *)
(** 134-153 [__process_events] *)
| P_Flag                              (** 137 *)
| P_CRead                             (** 138, reading self.cancel *)
| P_CWrite (c : option nat)           (** 138, writing it *)
| P_CCall (c : option nat)            (** 139-140 *)
| P_Check                             (** 143 *)
| P_Acquire                           (** 146, entering *)
| P_Empty                             (** 147 *)
| P_Get                               (** 149 *)
| P_Read (m : nat)                    (** 150, reading self.continuation *)
| P_Write (m : nat) (c : option nat)  (** 150, writing it *)
| P_Call (m : nat) (c : option nat)   (** 152-153 *)
| P_Release.                          (** 146, leaving *)

(** What can be observed. *)
Inductive event : Type :=
| Posted (t m : nat)          (** the message is in the queue *)
| ReceiveCalled (f : nat)     (** a receive was accepted (124) *)
| ReceiveRaised (f : nat)     (** receive raised "Receive can only be called once!" (125) *)
| Received (f m : nat)        (** await receive() gave m *)
| ReceiveCancelled (f : nat)  (** await receive() raised CancelledError because the mailbox was cancelled *)
| Abandoned (f : nat)         (** the awaiting task was cancelled, e.g. by a timeout *)
| CancelRequested (t : nat).  (** the token's source was cancelled *)

(** The variables of a MailboxProcessor (mailbox.py:39-48), of its futures, of the loop and
    of the threads. *)
Record state : Type := St {
  s_queue : list nat;  (** the messages, oldest first (40) *)
  s_flag : bool;  (** token.is_cancellation_requested *)
  s_cont : option nat;  (** self.continuation: the done of which future (47) *)
  s_cancel : option nat;  (** self.cancel (48) *)
  s_fut : nat -> future nat;  (** the futures of the receives *)
  s_over : nat -> bool;  (** the receive has returned or raised, or was given up *)
  s_nfut : nat;  (** receives so far *)
  s_ready : nat;  (** process_events callbacks scheduled on the loop *)
  s_lock : rlock;  (** self.lock (43) *)
  s_thr : nat -> pc;
  s_log : list event  (** latest first *)
}.
(** mailbox.py:39-48 *)
Definition init : state := St [] false None None (fun _ => Pending) (fun _ => false) 0 0 None (fun _ => Idle) [].

(** Assignments to these variables, one for each; [goto] moves a thread on, [say] logs. *)
Definition set_queue (x : list nat) (s : state) : state :=
  St x (s_flag s) (s_cont s) (s_cancel s) (s_fut s) (s_over s) (s_nfut s) (s_ready s) (s_lock s) (s_thr s) (s_log s).
Definition set_flag (x : bool) (s : state) : state :=
  St (s_queue s) x (s_cont s) (s_cancel s) (s_fut s) (s_over s) (s_nfut s) (s_ready s) (s_lock s) (s_thr s) (s_log s).
Definition set_cont (x : option nat) (s : state) : state :=
  St (s_queue s) (s_flag s) x (s_cancel s) (s_fut s) (s_over s) (s_nfut s) (s_ready s) (s_lock s) (s_thr s) (s_log s).
Definition set_cancel (x : option nat) (s : state) : state :=
  St (s_queue s) (s_flag s) (s_cont s) x (s_fut s) (s_over s) (s_nfut s) (s_ready s) (s_lock s) (s_thr s) (s_log s).
Definition set_nfut (x : nat) (s : state) : state :=
  St (s_queue s) (s_flag s) (s_cont s) (s_cancel s) (s_fut s) (s_over s) x (s_ready s) (s_lock s) (s_thr s) (s_log s).
Definition set_ready (x : nat) (s : state) : state :=
  St (s_queue s) (s_flag s) (s_cont s) (s_cancel s) (s_fut s) (s_over s) (s_nfut s) x (s_lock s) (s_thr s) (s_log s).
Definition set_lock (x : rlock) (s : state) : state :=
  St (s_queue s) (s_flag s) (s_cont s) (s_cancel s) (s_fut s) (s_over s) (s_nfut s) (s_ready s) x (s_thr s) (s_log s).
Definition goto (t : nat) (p : pc) (s : state) : state :=
  St (s_queue s) (s_flag s) (s_cont s) (s_cancel s) (s_fut s) (s_over s) (s_nfut s) (s_ready s) (s_lock s) (fun u => if Nat.eqb u t then p else s_thr s u) (s_log s).
Definition say (e : event) (s : state) : state :=
  St (s_queue s) (s_flag s) (s_cont s) (s_cancel s) (s_fut s) (s_over s) (s_nfut s) (s_ready s) (s_lock s) (s_thr s) (e :: s_log s).
Definition settle (f : nat) (x : future nat) (s : state) : state :=
  St (s_queue s) (s_flag s) (s_cont s) (s_cancel s) (fun g => if Nat.eqb g f then x else s_fut s g) (s_over s) (s_nfut s) (s_ready s) (s_lock s) (s_thr s) (s_log s).
Definition finish (f : nat) (s : state) : state :=
  St (s_queue s) (s_flag s) (s_cont s) (s_cancel s) (s_fut s) (fun g => if Nat.eqb g f then true else s_over s g) (s_nfut s) (s_ready s) (s_lock s) (s_thr s) (s_log s).

(** What may happen next. *)
Inductive choice : Type :=
| CPost (t m : nat)        (** post (50-64) *)
| CAsk (t m : nat)         (** post_and_async_reply up to 96: puts m and processes events itself *)
| CReceive                 (** receive (109-132) *)
| CTurn                    (** the loop runs a scheduled callback *)
| CResume (f : nat)        (** the loop resumes the task awaiting future f *)
| CAbandon (f : nat)       (** the task awaiting future f is cancelled *)
| CCancelToken (t : nat)   (** the token's source is cancelled (its flag, cancellation.py:79) *)
| CRun (t : nat).          (** a running call makes a step *)

(** done and cancel of a future, aiotools.py:49-51 and 57-59 *)
Definition call_done (c : option nat) (m : nat) (s : state) : state :=
  match c with Some f => settle f (snd (k_done m (s_fut s f))) s | None => s end.
Definition call_cancel (c : option nat) (s : state) : state :=
  match c with Some f => settle f (snd (k_cancel (s_fut s f))) s | None => s end.

(** One step of thread [t] in mailbox.py:50-152; the lines stand at the places [pc] above. *)
Definition run (t : nat) (s : state) : option state :=
  match s_thr s t with
  | Idle => None
  | A_Soon => Some (goto t Idle (set_ready (S (s_ready s)) s))
  | V_Check f => match s_cont s with
                 | Some _ => Some (say (ReceiveRaised f) (goto t Idle (finish f s)))
                 | None => Some (say (ReceiveCalled f) (goto t (V_Cont f) s))
                 end
  | V_Cont f => Some (goto t (V_Cancel f) (set_cont (Some f) s))
  | V_Cancel f => Some (goto t P_Flag (set_cancel (Some f) s))
  | P_Flag => Some (goto t (if s_flag s then P_CRead else P_Check) s)
  | P_CRead => Some (goto t (P_CWrite (s_cancel s)) s)
  | P_CWrite c => Some (goto t (P_CCall c) (set_cancel None s))
  | P_CCall c => Some (goto t Idle (call_cancel c s))
  | P_Check => Some (goto t (match s_cont s with None => Idle | Some _ => P_Acquire end) s)
  | P_Acquire => option_map (fun l => goto t P_Empty (set_lock l s)) (acquire t (s_lock s))
  | P_Empty => Some (goto t (match s_queue s with [] => P_Release | _ => P_Get end) s)
  | P_Get => match s_queue s with
             | [] => None (** SimpleQueue.get blocks *)
             | m :: q => Some (goto t (P_Read m) (set_queue q s))
             end
  | P_Read m => Some (goto t (P_Write m (s_cont s)) s)
  | P_Write m c => Some (goto t (P_Call m c) (set_cont None s))
  | P_Call m c => Some (goto t P_Release (call_done c m s))
  | P_Release => option_map (fun l => goto t Idle (set_lock l s)) (release t (s_lock s))
  end.
Definition is_idle (p : pc) : bool := match p with Idle => true | _ => false end.
(** The task awaiting future [f] may be resumed or cancelled. *)
Definition awaited (f : nat) (s : state) : bool := Nat.ltb f (s_nfut s) && negb (s_over s f) && is_idle (s_thr s 0).
Definition step (c : choice) (s : state) : option state :=
  match c with
  | CPost t m => if is_idle (s_thr s t) then Some (say (Posted t m) (goto t A_Soon (set_queue (s_queue s ++ [m]) s))) else None
  | CAsk t m => if is_idle (s_thr s t) then Some (say (Posted t m) (goto t P_Flag (set_queue (s_queue s ++ [m]) s))) else None
  | CReceive => if is_idle (s_thr s 0) then Some (goto 0 (V_Check (s_nfut s)) (set_nfut (S (s_nfut s)) s)) else None
  | CTurn => match s_ready s with
             | S n => if is_idle (s_thr s 0) then Some (goto 0 P_Flag (set_ready n s)) else None
             | 0 => None
             end
  | CResume f => if awaited f s then
                   match s_fut s f with
                   | Done m => Some (say (Received f m) (finish f s))
                   | Cancelled => Some (say (ReceiveCancelled f) (finish f s))
                   | _ => None
                   end
                 else None
  | CAbandon f => if awaited f s then Some (say (Abandoned f) (finish f (settle f (cancel_future (s_fut s f)) s))) else None
  | CCancelToken t => if is_idle (s_thr s t) then Some (say (CancelRequested t) (set_flag true s)) else None
  | CRun t => run t s
  end.
