(** What lists, sets and dicts do, for the methods that TypedArray and Map inherit. *)
From Coq Require Import List ZArith Bool.
From Verif.Model Require Import Base.
Import ListNotations.
Local Open Scope py_scope.

(** Asking the elements from the first on, the first one being at position [i]: the position
    of the first that says yes. *)
Fixpoint search {W A} (eq : A -> M W bool) (i : Z) (l : list A) : M W Z :=
  match l with
  | [] => raise ValueError
  | x :: l => do b <- eq x; if b : bool then ret i else search eq (i + 1) l
  end.

(** A bound of list.index: negative ones count from the end. *)
Definition counted (len : nat) (b : Z) : Z := if Z.ltb b 0 then (b + Z.of_nat len)%Z else b.
(** [i] is a position of a list of [len] elements, from [start] on and before [stop]. *)
Definition within (len : nat) (start : Z) (stop : option Z) (i : nat) : Prop :=
  (i < len)%nat /\ (counted len start <= Z.of_nat i)%Z /\ match stop with Some s => (Z.of_nat i < counted len s)%Z | None => True end.

Section Keys.
  Context {K : Type} `{KeyOrd K}.
  (** An element equal to [k] is in the list. *)
  Definition has (k : K) (l : list K) : Prop := exists k', In k' l /\ eqb k k' = true.
  (** No two elements are equal: the elements of a set. *)
  Definition distinct (l : list K) : Prop := ForallOrdPairs (fun a b => eqb a b = false) l.
End Keys.
