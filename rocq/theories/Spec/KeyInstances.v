(** Concrete key types used by the examples. *)
From Coq Require Import List ZArith Bool Arith Lia.
From Verif.Model Require Import Base.

(** natural numbers *)
#[export] Program Instance nat_key : KeyOrd nat := {| ltb := Nat.ltb; eqb := Nat.eqb |}.
Next Obligation. rewrite Nat.eqb_eq, !Nat.ltb_ge. lia. Qed.
Next Obligation. apply Nat.ltb_irrefl. Qed.
Next Obligation. rewrite Nat.ltb_lt in *. lia. Qed.
Next Obligation. rewrite Nat.eqb_eq in *. now subst. Qed.
Next Obligation. rewrite Nat.eqb_eq in *. now subst. Qed.

(** Python numbers that are equal without being the same object, such as [1] and
    [1.0]: a number with a flag that the comparison ignores. *)
Record num : Type := Num { num_val : Z; num_is_float : bool }.
#[export] Program Instance num_key : KeyOrd num :=
  {| ltb := fun a b => Z.ltb (num_val a) (num_val b); eqb := fun a b => Z.eqb (num_val a) (num_val b) |}.
Next Obligation. rewrite Z.eqb_eq, !Z.ltb_ge. lia. Qed.
Next Obligation. apply Z.ltb_irrefl. Qed.
Next Obligation. rewrite Z.ltb_lt in *. lia. Qed.
Next Obligation. rewrite Z.eqb_eq in *. congruence. Qed.
Next Obligation. rewrite Z.eqb_eq in *. congruence. Qed.
