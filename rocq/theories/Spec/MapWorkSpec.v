(** The state of an iterator over a map, somewhere in the iteration. *)
From Coq Require Import List.
From Verif.Model Require Import Base MapTree.

Inductive iterating {K V} `{KeyOrd K} (fuel : nat) (m : tree K V) : list (tree K V) -> Prop :=
| it_new : forall s, mk_iterator fuel m = Ret s -> iterating fuel m s
| it_next : forall s kv s', iterating fuel m s -> iter_next fuel s = Ret (Some (kv, s')) -> iterating fuel m s'.
