(** Counting. *)
From Verif.Model Require Import Base.

(** Running [m] with any count gives [x] and adds exactly [n] to the count. *)
Definition costs {A} (m : M nat A) (x : A) (n : nat) : Prop := forall count, m count = (Ret x, count + n).
