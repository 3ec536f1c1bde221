(** What a body does when it is run on its own with a list of messages. *)
From Coq Require Import List Bool Arith.
From Verif.Model Require Import Base Thread Aiotools Mailbox Agent.
From Verif.Spec Require Export MailboxSpec.
Import ListNotations.

Section Agent.
  Context {B O : Type} (next : B -> act B O).
  (** From state [b] to state [b'], getting the messages and making the outputs of the
      trace in this order. *)
  Inductive sequential : B -> list (happening O) -> B -> Prop :=
  | sq_nil : forall b, sequential b [] b
  | sq_got : forall b k m tr b1, next b = Receive k -> sequential (k m) tr b1 -> sequential b (Got m :: tr) b1
  | sq_did : forall b o b0 tr b1, next b = Do o b0 -> sequential b0 tr b1 -> sequential b (Did o :: tr) b1.
  (** It has nothing more to do. *)
  Definition finished (b : B) : Prop := next b = Returns \/ next b = Raises.
  Definition agent_quiet (a : agent B O) : Prop :=
    forall c, match c with Box c => goes_on c | Go | Resume => True | Kill => False end -> astep next c a = None.
End Agent.
Definition agent_on_loop (c : achoice) : Prop := match c with Box c => on_loop c | _ => True end.
Fixpoint messages {O} (tr : list (happening O)) : list nat := match tr with [] => [] | Got m :: tr => m :: messages tr | Did _ :: tr => messages tr end.
Fixpoint outputs {O} (tr : list (happening O)) : list O := match tr with [] => [] | Got _ :: tr => outputs tr | Did o :: tr => o :: outputs tr end.

(** An agent that keeps a state: while True: msg = await inbox.receive(); state = f(state, msg) *)
Definition folding {S} (f : S -> nat -> S) (s : S) : act S Empty_set := Receive (f s).
(** One that answers each message: state, out = f(state, msg); reply out. *)
Definition answering {S O} (f : S -> nat -> S * O) (b : S * option O) : act (S * option O) O :=
  match b with (s, None) => Receive (fun m => let (s, o) := f s m in (s, Some o)) | (s, Some o) => Do o (s, None) end.
(** The answers to a list of messages handled one after another. *)
Fixpoint answers {S O} (f : S -> nat -> S * O) (s : S) (ms : list nat) : list O :=
  match ms with [] => [] | m :: ms => let (s, o) := f s m in o :: answers f s ms end.
