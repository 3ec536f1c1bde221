(** Specification of agents that keep reply channels and answer later. *)
From Coq Require Import List Bool Arith.
From Verif.Model Require Import Base Thread Aiotools Mailbox Agent Reply Request.
From Verif.Spec Require Export RequestSpec.
Import ListNotations.

(** The body of an agent that may reply to any requests it has received so far, after each message:
    while True:
        msg, channel = await inbox.receive()
        state, replies = f(state, msg, channel)
        for channel, v in replies: channel.reply(v) *)
Definition keeping {S O} (f : S -> nat -> S * list O) (b : S * list O) : act (S * list O) O :=
  match b with (s, []) => Receive (f s) | (s, o :: os) => Do o (s, os) end.
Definition keep {S} (s : S) : system (S * list (nat * reply_value)) := system_start (s, []).
(** The replies to a list of messages handled one after another. *)
Fixpoint repliesto {S O} (f : S -> nat -> S * list O) (s : S) (ms : list nat) : list O :=
  match ms with [] => [] | m :: ms => let (s, os) := f s m in os ++ repliesto f s ms end.

(** An agent that is a lock: a request to acquire it is answered when it is free, otherwise its
    channel is kept until a message releases the lock.  Which messages acquire it is [acquire]. *)
Definition lock (acquire : nat -> bool) (s : bool * list nat) (n : nat) : (bool * list nat) * list (nat * reply_value) :=
  let (held, q) := s in
  if acquire n then if held then ((true, q ++ [n]), []) else ((true, q), [(n, Some 1)])
  else match q with [] => ((false, []), []) | m :: q => ((held, q), [(m, Some 1)]) end.
Definition unlocked : bool * list nat := (false, []).
Definition acquires (acquire : nat -> bool) (ms : list nat) : list nat := filter acquire ms.
Definition releases (acquire : nat -> bool) (ms : list nat) : list nat := filter (fun n => negb (acquire n)) ms.
(** Nobody releases a lock that nobody has asked for. *)
Definition disciplined (acquire : nat -> bool) (ms : list nat) : Prop :=
  forall ms1 ms2, ms = ms1 ++ ms2 -> length (releases acquire ms1) <= length (acquires acquire ms1).
(** An agent that hands out permits: at first it has some, a release gives one back. *)
Definition pool (acquire : nat -> bool) (s : nat * list nat) (n : nat) : (nat * list nat) * list (nat * reply_value) :=
  let (free, q) := s in
  if acquire n then match free with 0 => ((0, q ++ [n]), []) | S free => ((free, q), [(n, Some 1)]) end
  else match q with [] => ((S free, []), []) | m :: q => ((free, q), [(m, Some 1)]) end.
