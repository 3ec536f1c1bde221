(** How many nested calls a lookup makes: one for every subtree it enters, a missing one
    included. *)
From Coq Require Import List.
From Verif.Model Require Import Base MapTree.

Fixpoint entered {K V : Type} `{KeyOrd K} (k : K) (m : tree K V) : nat :=
  match m with
  | Node k' _ l r _ => if eqb k k' then 1 else S (if ltb k k' then entered k l else entered k r)
  | _ => 1
  end.

(** Callbacks that do not raise. *)
Definition quiet {W B : Type} (c : M W B) : Prop := forall w, exists x w', c w = (Ret x, w').
