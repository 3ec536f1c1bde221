(** Coming to rest. *)
From Coq Require Import List Bool Arith.
From Verif.Model Require Import Base Thread Aiotools Mailbox Agent Network Reply Request.
From Verif.Spec Require Export MailboxSpec AgentSpec NetworkSpec RequestSpec.
Import ListNotations.

(** Which choices go on by themselves, and which are calls from outside that give the mailbox
    something to do. *)
Definition goes (c : choice) : bool := match c with CRun _ | CTurn | CResume _ => true | _ => false end.
Definition called (c : choice) : bool := match c with CPost _ _ | CAsk _ _ | CReceive => true | _ => false end.
(** The same for agents. *)
Definition agent_goes_on (c : achoice) : Prop := match c with Box c => goes_on c | Go | Resume => True | Kill => False end.
(** A body that always comes to its next receive or to its end. *)
Definition prompt {B O} (next : B -> act B O) : Prop := forall b, Acc (fun b1 b => exists o, next b = Do o b1) b.
(** No run of steps that go on is infinite: the state is accessible in the order of steps. *)
Definition comes_to_rest {C S} (step : C -> S -> option S) (goes_on : C -> Prop) (s : S) : Prop :=
  Acc (fun s1 s => exists c, goes_on c /\ step c s = Some s1) s.

(** Nets of agents: [n] bounds the numbers of the agents, each posts only to agents and mailboxes
    with a higher number (as in chains and trees of agents), and all bodies are prompt. *)
Record forward {B O} (next : nat -> B -> act B (effect O)) (b0 : nat -> option B) (n : nat) : Prop := {
  fw_prompt : forall i, prompt (next i);
  fw_sends : forall i b j m b1, b0 i <> None -> next i b = Do (Send j m) b1 -> i < j <= n;
  fw_agents : forall i, n < i -> b0 i = None }.
Definition net_goes_on (c : nat * achoice) : Prop := agent_goes_on (snd c).
(** Requests: which choices go on by themselves, as in [system_quiet]. *)
Definition system_goes_on (c : ychoice) : Prop :=
  match c with YGoOn _ | YRequest _ _ => True | YAgent c => agent_goes_on c | _ => False end.
