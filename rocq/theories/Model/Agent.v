(** Model of MailboxProcessor.start, expression/core/mailbox.py:154-162, with the task of the
    body: the mailbox of Model/Mailbox.v together with one task that runs the body.
    Definitions only. *)
From Coq Require Import List Bool Arith.
From Verif.Model Require Import Base Thread Aiotools Mailbox.
Import ListNotations.

(** The body is any coroutine that receives from its mailbox: [next b] is what it does next
    in state [b].  Effects other than receiving (replies, awaiting something else, prints)
    are outputs.  It does not catch the CancelledError of a cancelled receive or task, nor
    the exception of a receive called twice. *)
Inductive act (B O : Type) : Type :=
| Receive (k : nat -> B)   (** msg = await inbox.receive() *)
| Do (o : O) (b : B)
| Returns
| Raises.
Arguments Receive {B O} k. Arguments Do {B O} o b. Arguments Returns {B O}. Arguments Raises {B O}.

(** The task that start_immediate created (aiotools.py:96-117). *)
Inductive status (B : Type) : Type :=
| Starts (b : B)                  (** created, not run yet *)
| Ready (b : B)                   (** running, or suspended elsewhere than in receive *)
| Waits (f : nat) (k : nat -> B)  (** in await receive(), the [f]-th call *)
| Over.                           (** has ended *)
Arguments Starts {B} b. Arguments Ready {B} b. Arguments Waits {B} f k. Arguments Over {B}.
Inductive happening (O : Type) : Type := Got (m : nat) | Did (o : O).
Arguments Got {O} m. Arguments Did {O} o.

Record agent (B O : Type) : Type := Agent {
  a_box : state;
  a_body : status B;
  a_trace : list (happening O)  (** what the body got and did, latest first *)
}.
Arguments Agent {B O}. Arguments a_box {B O}. Arguments a_body {B O}. Arguments a_trace {B O}.

Inductive achoice : Type :=
| Box (c : choice)  (** post, ask, cancellation of the token, the loop's callbacks, a step of a call *)
| Go                (** the task goes on *)
| Resume            (** the loop resumes the task that awaits receive *)
| Kill.             (** the token's callback cancels the task (aiotools.py:111-115) *)

Section Agent.
  Context {B O : Type} (next : B -> act B O).

  (** mailbox.py:160-162: the mailbox is new and the task of the body is created; that
      start_immediate raises for a token that is cancelled already is in Model/Aiotools.v *)
  Definition start (b : B) : agent B O := Agent init (Starts b) [].

  (** The task runs on the loop's thread when that is not in a call of the mailbox.  More
      interleavings are allowed than asyncio has: callbacks may run between any two acts of
      the body, not only when it awaits.  Cancelling a task that is not suspended takes
      effect when it awaits next, so [Kill] is a choice for waiting tasks and for tasks that
      have not started. *)
  Definition astep (c : achoice) (a : agent B O) : option (agent B O) :=
    match c with
    | Box c =>
        match c with
        | CReceive | CResume _ | CAbandon _ => None
        | _ => option_map (fun s => Agent s (a_body a) (a_trace a)) (step c (a_box a))
        end
    | Go =>
        match a_body a with
        | Starts b | Ready b =>
            if is_idle (s_thr (a_box a) 0) then
              match next b with
              | Receive k => option_map (fun s => Agent s (Waits (s_nfut (a_box a)) k) (a_trace a)) (step CReceive (a_box a))
              | Do o b => Some (Agent (a_box a) (Ready b) (Did o :: a_trace a))
              | Returns | Raises => Some (Agent (a_box a) Over (a_trace a))
              end
            else None
        | _ => None
        end
    | Resume =>
        match a_body a with
        | Waits f k =>
            if s_over (a_box a) f then (** receive raised *)
              (if is_idle (s_thr (a_box a) 0) then Some (Agent (a_box a) Over (a_trace a)) else None)
            else
              match step (CResume f) (a_box a) with
              | Some s => Some (match s_fut (a_box a) f with
                                | Done m => Agent s (Ready (k m)) (Got m :: a_trace a)
                                | _ => Agent s Over (a_trace a)
                                end)
              | None => None
              end
        | _ => None
        end
    | Kill =>
        if s_flag (a_box a) then
          match a_body a with
          | Starts _ => Some (Agent (a_box a) Over (a_trace a))
          | Waits f _ => option_map (fun s => Agent s Over (a_trace a)) (step (CAbandon f) (a_box a))
          | _ => None
          end
        else None
    end.
End Agent.
