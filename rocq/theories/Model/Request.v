(** Model of requests to an agent: MailboxProcessor.start and post_and_async_reply,
    expression/core/mailbox.py:66-107 and 154-162, with the agent's replies.  The agent is
    Model/Agent.v, each request is one Model/Reply.v.  Definitions only. *)
From Coq Require Import List Bool Arith.
From Verif.Model Require Import Base Thread Aiotools Mailbox Agent Reply.
Import ListNotations.

(** The messages are numbered in the order they are posted; what a message contains is
    what the body does with its number.  An output [(n, v)] of the body is
    [channel.reply(v)] on the channel of message [n]; for a message that was posted without
    a channel it has no effect that anybody sees. *)
Record system (B : Type) : Type := System {
  y_agent : agent B (nat * reply_value);
  y_req : nat -> rstate;         (** the variables of the call that posted message [n] (81-83) *)
  y_asking : nat -> option nat;  (** the thread is at 96 in post_and_async_reply with message [n] *)
  y_asked : list nat;            (** messages posted by post_and_async_reply, latest first *)
  y_count : nat                  (** messages posted so far *)
}.
Arguments System {B}. Arguments y_agent {B}. Arguments y_req {B}. Arguments y_asking {B}. Arguments y_asked {B}. Arguments y_count {B}.
Inductive ychoice : Type :=
| YPost (t : nat)
| YAsk (t : nat)             (** post_and_async_reply, 95-96 *)
| YGoOn (t : nat)            (** it goes on at 98 *)
| YRequest (n t : nat)       (** the caller or a reply makes a step in request [n] *)
| YGiveUp (n : nat)          (** the task awaiting the reply is cancelled *)
| YAgent (c : achoice).      (** all else: the loop, the body, cancellation *)
Definition update {X} (n : nat) (x : X) (f : nat -> X) (m : nat) : X := if Nat.eqb m n then x else f m.

Section Request.
  Context {B : Type} (next : B -> act B (nat * reply_value)).
  (** An agent that was just started (mailbox.py:154-162), and no request. *)
  Definition system_start (b : B) : system B := System (start b) (fun _ => rinit) (fun _ => None) [] 0.
  (** The reply that a step of the agent makes. *)
  Definition replies (c : achoice) (a : agent B (nat * reply_value)) : option (nat * reply_value) :=
    match c, a_body a with
    | Go, Starts b | Go, Ready b => match next b with Do o _ => Some o | _ => None end
    | _, _ => None
    end.
  (** More interleavings are allowed than there are: the loop's thread may do something else
      while it is inside of a reply or of post_and_async_reply after 96. *)
  Definition ystep (c : ychoice) (y : system B) : option (system B) :=
    match c with
    | YPost t => option_map (fun a => System a (y_req y) (y_asking y) (y_asked y) (S (y_count y))) (astep next (Box (CPost t (y_count y))) (y_agent y))
    | YAsk t =>
        match y_asking y t with
        | None => option_map (fun a => System a (y_req y) (update t (Some (y_count y)) (y_asking y)) (y_count y :: y_asked y) (S (y_count y)))
                    (astep next (Box (CAsk t (y_count y))) (y_agent y))
        | Some _ => None
        end
    | YGoOn t =>
        match y_asking y t with
        | Some n => if is_idle (s_thr (a_box (y_agent y)) t) then
                      option_map (fun r => System (y_agent y) (update n r (y_req y)) (update t None (y_asking y)) (y_asked y) (y_count y)) (rstep (QWait t) (y_req y n))
                    else None
        | None => None
        end
    | YRequest n t => option_map (fun r => System (y_agent y) (update n r (y_req y)) (y_asking y) (y_asked y) (y_count y)) (rstep (QRun t) (y_req y n))
    | YGiveUp n => option_map (fun r => System (y_agent y) (update n r (y_req y)) (y_asking y) (y_asked y) (y_count y)) (rstep QGiveUp (y_req y n))
    | YAgent c =>
        match c with
        | Box (CPost _ _) | Box (CAsk _ _) => None
        | _ =>
            match astep next c (y_agent y) with
            | None => None
            | Some a =>
                match replies c (y_agent y) with
                | Some (n, v) => option_map (fun r => System a (update n r (y_req y)) (y_asking y) (y_asked y) (y_count y)) (rstep (QReply 0 v) (y_req y n))
                | None => Some (System a (y_req y) (y_asking y) (y_asked y) (y_count y))
                end
            end
        end
    end.
End Request.
