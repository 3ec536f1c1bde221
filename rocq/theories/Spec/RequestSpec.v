(** Specification of requests to an agent. *)
From Coq Require Import List Bool Arith.
From Verif.Model Require Import Base Thread Aiotools Mailbox Agent Reply Request.
From Verif.Spec Require Export AgentSpec AiotoolsSpec.
Import ListNotations.

(** The body of an agent that answers each message:
    while True: msg, channel = await inbox.receive(); state, v = f(state, msg); channel.reply(v) *)
Definition serving {S} (f : S -> nat -> S * reply_value) : S * option (nat * reply_value) -> act (S * option (nat * reply_value)) (nat * reply_value) :=
  answering (fun s n => let (s, v) := f s n in (s, (n, v))).
Definition serve {S} (s : S) : system (S * option (nat * reply_value)) := system_start (s, None).
(** Requests are made on the loop's thread. *)
Definition request_on_loop (c : ychoice) : Prop := match c with YAsk t => t = 0 | _ => True end.
(** Nothing goes on any more unless someone posts, asks, cancels or gives up. *)
Definition system_quiet {B} (next : B -> act B (nat * reply_value)) (y : system B) : Prop :=
  forall c, match c with YGoOn _ | YRequest _ _ | YAgent Go | YAgent Resume => True | YAgent (Box c) => goes_on c | _ => False end -> ystep next c y = None.
