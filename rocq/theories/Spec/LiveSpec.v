(** What callbacks do to the array they are called on. *)
From Coq Require Import List.
From Verif.Model Require Import Base.
Import ListNotations.

Section Live.
  Context {W A : Type} (peek : W -> list A).
  (** The callback leaves the array alone. *)
  Definition hands_off {B} (f : A -> M W B) : Prop := forall x w, peek (snd (f x w)) = peek w.
  (** Called for the element at position [i], in a world that knows this ([at_position]), the
      callback leaves the later positions alone. *)
  Definition only_behind {B} (at_position : nat -> W -> Prop) (f : A -> M W B) : Prop :=
    forall i x w, at_position i w -> nth_error (peek w) i = Some x ->
      skipn (S i) (peek (snd (f x w))) = skipn (S i) (peek w) /\ at_position (S i) (snd (f x w)).
End Live.
(** Every other element, from the first. *)
Fixpoint every_other {A} (xs : list A) : list A :=
  match xs with x :: _ :: xs => x :: every_other xs | xs => xs end.
