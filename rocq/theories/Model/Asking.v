(** Model of agents (expression/core/mailbox.py:154-162) that ask one another with
    post_and_async_reply (66-107) and await the reply: the agents of Model/Agent.v and, for
    each request, the variables of Model/Reply.v.  Definitions only. *)
From Coq Require Import List Bool Arith Cantor.
From Verif.Model Require Import Base Thread Aiotools Mailbox Agent Reply Request.
Import ListNotations.

(** What a body does besides receiving: [v = await agent_j.post_and_async_reply(lambda ch: (p, ch))],
    [channel.reply(v)], or anything else.  Requests are numbered from 1 on, and a channel is the
    number of its request. *)
Inductive deed (O : Type) : Type := Ask (j p : nat) | Answer (r : nat) (v : reply_value) | Else (o : O).
Arguments Ask {O} j p. Arguments Answer {O} r v. Arguments Else {O} o.
(** The message of a request: the pair of what is asked and the channel (mailbox.py:95), as one
    number.  Channel 0 stands for a message without a channel. *)
Definition letter (p r : nat) : nat := Cantor.to_nat (p, r).
Definition letter_of (m : nat) : nat * nat := Cantor.of_nat m.

(** The agents are numbered; there is no bound on how many there are. *)
Record web (B O : Type) : Type := Web {
  w_agents : nat -> agent B (deed O);
  w_reqs : nat -> rstate;         (** the variables of each request (81-83) *)
  w_wait : nat -> option nat;     (** the request whose reply the body awaits *)
  w_to : nat -> nat;              (** the agent that was asked *)
  w_what : nat -> nat;            (** what it was asked *)
  w_count : nat                   (** the number of the next request *)
}.
Arguments Web {B O}. Arguments w_agents {B O}. Arguments w_reqs {B O}. Arguments w_wait {B O}. Arguments w_to {B O}. Arguments w_what {B O}. Arguments w_count {B O}.

(** What may happen next. *)
Inductive wchoice : Type :=
| WBox (i : nat) (c : choice)   (** the loop's callbacks and running calls of mailbox [i] *)
| WPost (i t p : nat)           (** other code posts to agent [i] *)
| WAsk (i p : nat)              (** other code asks agent [i] on the loop's thread *)
| WGo (i : nat)                 (** the body of agent [i] goes on *)
| WResume (i : nat)             (** the loop resumes the body that awaits receive *)
| WCall (r : nat)               (** post_and_async_reply goes on at 98 *)
| WRequest (r : nat)            (** a step in the reply or in from_continuations of request [r] *)
| WAnswered (i : nat).          (** the loop resumes the body that awaits a reply *)

Section Asking.
  (** [give i b v]: the state of the body of agent [i] when the reply that it awaits in state [b] is [v]. *)
  Context {B O : Type} (next : nat -> B -> act B (deed O)) (give : nat -> B -> reply_value -> B).

  (** Agents are started without a token, all on one event loop (mailbox.py:154-162). *)
  Definition web_start (b : nat -> option B) : web B O :=
    Web (fun i => match b i with Some b => start b | None => Agent init Over [] end) (fun _ => rinit) (fun _ => None) (fun _ => 0) (fun _ => 0) 1.
  (** What the body of [a] does when it goes on. *)
  Definition deed_of (i : nat) (a : agent B (deed O)) : option (deed O) :=
    match a_body a with
    | Starts b | Ready b => match next i b with Do o _ => Some o | _ => None end
    | _ => None
    end.
  (** A choice of agent [i] that concerns no request. *)
  Definition alone (i : nat) (c : achoice) (w : web B O) : option (web B O) :=
    option_map (fun a => Web (update i a (w_agents w)) (w_reqs w) (w_wait w) (w_to w) (w_what w) (w_count w)) (astep (next i) c (w_agents w i)).
  (** mailbox.py:95-96: the message goes into the mailbox of agent [j] and the loop's thread
      processes the events there; [waits] is who awaits the reply. *)
  Definition ask (j p : nat) (waits : nat -> option nat) (w : web B O) : option (web B O) :=
    option_map (fun a => Web (update j a (w_agents w)) (w_reqs w) waits (update (w_count w) j (w_to w)) (update (w_count w) p (w_what w)) (S (w_count w)))
      (astep (next j) (Box (CAsk 0 (letter p (w_count w)))) (w_agents w j)).
  (** A step of request [r]. *)
  Definition request (r : nat) (c : rchoice) (w : web B O) : option (web B O) :=
    option_map (fun q => Web (w_agents w) (update r q (w_reqs w)) (w_wait w) (w_to w) (w_what w) (w_count w)) (rstep c (w_reqs w r)).
  (** More interleavings are allowed than asyncio has: the loop may be in calls of several
      mailboxes and requests at once, and other agents may go on between any two acts of a
      body. *)
  Definition wstep (c : wchoice) (w : web B O) : option (web B O) :=
    match c with
    | WBox i c => match c with CPost _ _ | CAsk _ _ | CCancelToken _ => None | _ => alone i (Box c) w end
    | WPost i t p => alone i (Box (CPost t (letter p 0))) w
    | WAsk i p => ask i p (w_wait w) w
    | WGo i =>
        match w_wait w i with
        | Some _ => None
        | None =>
            match alone i Go w with
            | None => None
            | Some w1 =>
                match deed_of i (w_agents w i) with
                | Some (Ask j p) => ask j p (update i (Some (w_count w)) (w_wait w)) w1
                | Some (Answer r v) => request r (QReply 0 v) w1
                | _ => Some w1
                end
            end
        end
    | WResume i => alone i Resume w
    | WCall r =>
        if Nat.ltb 0 r && Nat.ltb r (w_count w) && is_idle (s_thr (a_box (w_agents w (w_to w r))) 0) then request r (QWait 0) w else None
    | WRequest r => request r (QRun 0) w
    | WAnswered i =>
        match w_wait w i, a_body (w_agents w i) with
        | Some r, Ready b =>
            match r_fut (w_reqs w r) with
            | Done v => Some (Web (update i (Agent (a_box (w_agents w i)) (Ready (give i b v)) (a_trace (w_agents w i))) (w_agents w)) (w_reqs w)
                                (update i None (w_wait w)) (w_to w) (w_what w) (w_count w))
            | _ => None
            end
        | _, _ => None
        end
    end.
End Asking.
