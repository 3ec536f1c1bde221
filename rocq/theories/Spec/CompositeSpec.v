(** What is said about composites disposed by several tasks. *)
From Coq Require Import List Bool Arith.
From Verif.Model Require Import CompositeTasks.
Import ListNotations.

(** The objects with an action in a composite, in the order they stand. *)
Fixpoint objects (d : member) : list nat := match d with One i => [i] | All ds => flat_map objects ds end.
Definition starts (i : nat) (e : event) : bool := match e with Started _ j => Nat.eqb j i | _ => false end.
Definition ends (i : nat) (e : event) : bool := match e with Ended _ j _ => Nat.eqb j i | _ => false end.
Definition has_started (log : list event) (i : nat) : Prop := exists c, In (Started c i) log.
Definition all_return (log : list event) : Prop := forall c d, In (Called c d) log -> In (Returned c) log.
