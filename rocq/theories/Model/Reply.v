(** Model of the reply of MailboxProcessor.post_and_async_reply, expression/core/mailbox.py:81-107
    and 30-35.  Definitions only. *)
From Coq Require Import List Bool Arith.
From Verif.Model Require Import Base Thread Aiotools.
Import ListNotations.

(** One request.  The message with the reply channel is in the agent's hands (after 95), so
    [reply] may be called by any thread at any time and any number of times, also before
    the caller gets to 98-107.  A reply is a number or Python's None.  One step is one
    access to the variables [result] and [continuation] that check_completion shares, or
    one call of [done] (aiotools.py:49-51).  [continuation] is written once and never reset. *)
Definition reply_value : Type := option nat.
Inductive rpc : Type :=
| R_Idle
| R_Set (v : reply_value)            (** 91 *)
| W_Set                              (** 104, the caller *)
(** 85-87 check_completion, called by the caller ([w] = true) or by a reply *)
| K_Result (w : bool)                (** 86, result is not None *)
| K_Cont (w : bool)                  (** 86, continuation is not None *)
| K_Arg (w : bool)                   (** 87, reading result *)
| K_Done (w : bool) (v : reply_value). (** 87, done(v) *)

(** What happens to a request, for the log. *)
Inductive revent : Type :=
| ReplyCalled (t : nat) (v : reply_value)
| ReplyReturned (t : nat)
| Waiting (t : nat)          (** from_continuations returned the future to the caller (107) *)
| GaveUp.                    (** the task awaiting the reply was cancelled *)

(** The variables of one call of post_and_async_reply (mailbox.py:81-83) and the places of
    the threads. *)
Record rstate : Type := RSt {
  r_result : reply_value;             (** 81; None: no result *)
  r_cont : bool;                      (** 83: continuation is set *)
  r_fut : future reply_value;         (** aiotools.py:47 *)
  r_called : bool;                    (** the caller has entered 98-107 *)
  r_thr : nat -> rpc;
  r_log : list revent                 (** latest first *)
}.
Definition rinit : rstate := RSt None false Pending false (fun _ => R_Idle) [].
Definition rgoto (t : nat) (p : rpc) (s : rstate) : rstate :=
  RSt (r_result s) (r_cont s) (r_fut s) (r_called s) (fun u => if Nat.eqb u t then p else r_thr s u) (r_log s).
Definition rsay (e : revent) (s : rstate) : rstate :=
  RSt (r_result s) (r_cont s) (r_fut s) (r_called s) (r_thr s) (e :: r_log s).
Definition rset_result (v : reply_value) (s : rstate) : rstate := RSt v (r_cont s) (r_fut s) (r_called s) (r_thr s) (r_log s).
Definition rset_cont (s : rstate) : rstate := RSt (r_result s) true (r_fut s) (r_called s) (r_thr s) (r_log s).
Definition rset_fut (f : future reply_value) (s : rstate) : rstate := RSt (r_result s) (r_cont s) f (r_called s) (r_thr s) (r_log s).
Definition rset_called (s : rstate) : rstate := RSt (r_result s) (r_cont s) (r_fut s) true (r_thr s) (r_log s).

(** What may happen next. *)
Inductive rchoice : Type :=
| QReply (t : nat) (v : reply_value)  (** channel.reply(v) (34-35, 89-92) *)
| QWait (t : nat)                     (** the caller goes on at 98 *)
| QGiveUp                             (** the awaiting task is cancelled *)
| QRun (t : nat).
Definition is_ridle (p : rpc) : bool := match p with R_Idle => true | _ => false end.
(** check_completion returns; then the reply or the caller does. *)
Definition returned (t : nat) (w : bool) (s : rstate) : rstate :=
  rsay (if w then Waiting t else ReplyReturned t) (rgoto t R_Idle s).
Definition rrun (t : nat) (s : rstate) : option rstate :=
  match r_thr s t with
  | R_Idle => None
  | R_Set v => Some (rgoto t (K_Result false) (rset_result v s))
  | W_Set => Some (rgoto t (K_Result true) (rset_cont s))
  | K_Result w => Some (match r_result s with None => returned t w s | Some _ => rgoto t (K_Cont w) s end)
  | K_Cont w => Some (if r_cont s then rgoto t (K_Arg w) s else returned t w s)
  | K_Arg w => Some (rgoto t (K_Done w (r_result s)) s)
  | K_Done w v => Some (returned t w (rset_fut (snd (k_done v (r_fut s))) s))
  end.
Definition rstep (c : rchoice) (s : rstate) : option rstate :=
  match c with
  | QReply t v => if is_ridle (r_thr s t) then Some (rsay (ReplyCalled t v) (rgoto t (R_Set v) s)) else None
  | QWait t => if is_ridle (r_thr s t) && negb (r_called s) then Some (rgoto t W_Set (rset_called s)) else None
  | QGiveUp => if existsb (fun e => match e with Waiting _ => true | _ => false end) (r_log s)
               then Some (rsay GaveUp (rset_fut (cancel_future (r_fut s)) s)) else None
  | QRun t => rrun t s
  end.
