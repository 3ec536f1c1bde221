(** Specification of mailboxes, in terms of what is observed. *)
From Coq Require Import List Bool Arith.
From Verif.Model Require Import Base Thread Aiotools Mailbox.
From Verif.Spec Require Export LogSpec.
Import ListNotations.

(** Messages in the order they were posted; receives in the order they were accepted;
    messages in the order they were received.  The log is latest first. *)
Fixpoint posted (log : list event) : list nat :=
  match log with [] => [] | Posted _ m :: l => posted l ++ [m] | _ :: l => posted l end.
Fixpoint accepted (log : list event) : list nat :=
  match log with [] => [] | ReceiveCalled f :: l => accepted l ++ [f] | _ :: l => accepted l end.
Fixpoint received (log : list event) : list nat :=
  match log with [] => [] | Received _ m :: l => received l ++ [m] | _ :: l => received l end.
(** Events are processed on the thread of the loop only: no thread but 0 calls
    post_and_async_reply.  Any thread may post. *)
Definition on_loop (c : choice) : Prop := match c with CAsk t _ => t = 0 | _ => True end.
(** Nothing happens any more unless someone calls the mailbox or cancels: no running call
    can go on, the loop has no callback left, no awaiting task can be resumed. *)
Definition goes_on (c : choice) : Prop := match c with CRun _ | CTurn | CResume _ => True | _ => False end.
Definition quiet (s : state) : Prop := forall c, goes_on c -> step c s = None.
(** One task receives: each receive is called after all earlier ones have returned. *)
Fixpoint one_body (log : list event) : Prop :=
  match log with
  | [] => True
  | ReceiveCalled f :: l => (forall g, In g (accepted l) -> exists m, In (Received g m) l) /\ one_body l
  | _ :: l => one_body l
  end.
Definition prefix {A} (l1 l2 : list A) : Prop := exists l, l2 = l1 ++ l.
(** The receive [f] ends. *)
Definition is_end (f : nat) (e : event) : bool :=
  match e with Received g _ | ReceiveCancelled g | Abandoned g => Nat.eqb g f | _ => false end.
(** A message was posted after the token was cancelled. *)
Definition posted_after (log : list event) : Prop := exists t u m, before log (CancelRequested t) (Posted u m).
