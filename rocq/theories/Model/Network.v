(** Model of several agents (expression/core/mailbox.py:154-162) that post to one another:
    a family of the agents of Model/Agent.v.  Definitions only. *)
From Coq Require Import List Bool Arith.
From Verif.Model Require Import Base Thread Aiotools Mailbox Agent.
Import ListNotations.

(** What a body does besides receiving: [agent_j.post(m)] (mailbox.py:50-64), or anything
    else. *)
Inductive effect (O : Type) : Type := Send (j m : nat) | Other (o : O).
Arguments Send {O} j m. Arguments Other {O} o.
(** One message on its way: posted by the body of an agent or by other code, to agent
    [m_to]. *)
Record mail : Type := Mail { m_from : option nat; m_to : nat; m_msg : nat }.

(** The agents are numbered; there is no bound on how many there are.  [n_mail]: all posts,
    latest first. *)
Record net (B O : Type) : Type := Net { n_agents : nat -> agent B (effect O); n_mail : list mail }.
Arguments Net {B O}. Arguments n_agents {B O}. Arguments n_mail {B O}.

Section Network.
  Context {B O : Type} (next : nat -> B -> act B (effect O)).

  (** Agent [i] is started with a body in state [b i], all on one event loop: thread 0 of
      each mailbox is the thread of that loop.  Where [b i] is None there is a mailbox that no
      task receives from, as made by the constructor (mailbox.py:39-48). *)
  Definition start_all (b : nat -> option B) : net B O :=
    Net (fun i => match b i with Some b => start b | None => Agent init Over [] end) [].

  (** Assignment to one of the agents. *)
  Definition place (i : nat) (a : agent B (effect O)) (f : nat -> agent B (effect O)) : nat -> agent B (effect O) :=
    fun j => if Nat.eqb j i then a else f j.
  (** The post that choice [c] makes from the body of [a]. *)
  Definition sending (i : nat) (c : achoice) (a : agent B (effect O)) : option (nat * nat) :=
    match c, a_body a with
    | Go, Starts b | Go, Ready b => match next i b with Do (Send j m) _ => Some (j, m) | _ => None end
    | _, _ => None
    end.
  (** The post or request that choice [c] makes from outside. *)
  Definition coming (i : nat) (c : achoice) : list mail :=
    match c with Box (CPost _ m) | Box (CAsk _ m) => [Mail None i m] | _ => [] end.

  (** A choice for one of the agents.  When its body posts to another agent (or to itself),
      the message is put into that mailbox by the loop's thread (mailbox.py:63) and the rest
      of the call (64) is a step of that mailbox.  More interleavings are allowed than asyncio
      has: the loop may be in calls of several mailboxes at once. *)
  Definition nstep (c : nat * achoice) (n : net B O) : option (net B O) :=
    let (i, c) := c in
    let a := n_agents n i in
    match astep (next i) c a with
    | None => None
    | Some a1 =>
        let agents := place i a1 (n_agents n) in
        match sending i c a with
        | None => Some (Net agents (coming i c ++ n_mail n))
        | Some (j, m) =>
            match step (CPost 0 m) (a_box (agents j)) with
            | None => None
            | Some s => Some (Net (place j (Agent s (a_body (agents j)) (a_trace (agents j))) agents) (Mail (Some i) j m :: n_mail n))
            end
        end
    end.
End Network.
