(** Specification of agents that post to one another. *)
From Coq Require Import List Bool Arith.
From Verif.Model Require Import Base Thread Aiotools Mailbox Agent Network.
From Verif.Spec Require Export MailboxSpec AgentSpec.
Import ListNotations.

(** The messages to agent [j], and those from the body of agent [i], of a list of mail, oldest
    first. *)
Definition sent_to (j : nat) (l : list mail) : list nat := map m_msg (filter (fun x => Nat.eqb (m_to x) j) l).
Definition sent_by (i : nat) (l : list mail) : list (nat * nat) :=
  map (fun x => (m_to x, m_msg x)) (filter (fun x => match m_from x with Some k => Nat.eqb k i | None => false end) l).
(** Those that one agent sent to another; those that came from outside. *)
Definition sent_between (i j : nat) (l : list mail) : list nat :=
  map m_msg (filter (fun x => Nat.eqb (m_to x) j && match m_from x with Some k => Nat.eqb k i | None => false end) l).
Definition from_outside (l : list mail) : list mail := filter (fun x => match m_from x with None => true | Some _ => false end) l.
(** The posts among what a body did. *)
Fixpoint sends {O} (l : list (effect O)) : list (nat * nat) :=
  match l with [] => [] | Send j m :: l => (j, m) :: sends l | Other _ :: l => sends l end.

Section Network.
  Context {B O : Type} (next : nat -> B -> act B (effect O)).
  (** Nothing goes on any more in any of the agents unless code outside posts or cancels. *)
  Definition all_quiet (n : net B O) : Prop :=
    forall i c, match c with Box c => goes_on c | Go | Resume => True | Kill => False end -> nstep next (i, c) n = None.
  Definition never_cancelled (n : net B O) : Prop := forall i t, ~ In (CancelRequested t) (s_log (a_box (n_agents n i))).
End Network.
Definition net_on_loop (c : nat * achoice) : Prop := agent_on_loop (snd c).
(** Code outside posts to agent 0 only. *)
Definition to_first (c : nat * achoice) : Prop := match c with (S _, Box (CPost _ _)) | (S _, Box (CAsk _ _)) => False | _ => True end.

(** A chain of agents: agent [i] computes [out = f(state, msg)] and posts [out] to agent
    [i + 1]. *)
Definition chained {S} (f : nat -> S -> nat -> S * nat) (i : nat) (b : S * option nat) : act (S * option nat) (effect Empty_set) :=
  match b with
  | (s, None) => Receive (fun m => let (s, o) := f i s m in (s, Some o))
  | (s, Some o) => Do (Send (Datatypes.S i) o) (s, None)
  end.
(** What comes to stage [i] when the messages [ms] go through the stages one after another. *)
Fixpoint stage {S} (f : nat -> S -> nat -> S * nat) (s0 : nat -> S) (i : nat) (ms : list nat) : list nat :=
  match i with 0 => ms | Datatypes.S i => answers (f i) (s0 i) (stage f s0 i ms) end.
