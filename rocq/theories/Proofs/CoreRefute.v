(** Witnesses and instances for Props/PCore.v. *)
From Coq Require Import List Bool ZArith Arith String Lia OrderedTypeEx.
From Verif.Model Require Import Base OptionResult TaggedUnion.
Import ListNotations.

Lemma C39_refuted_pf : exists o : option (pyopt nat), opt_of_optional (opt_to_optional o) <> o.
Proof. exists (Some PyNone). discriminate. Qed.

(** Payloads None, natural numbers and strings, ordered through an arbitrary numbering.
    Used only for the examples. *)
Definition pw (x : pyobj nat) : nat :=
  match x with PNone => 0 | PObj n => 2 * n + 1 | PStr s => 2 * String.length s + 2 end.

#[export] Program Instance payload_key : KeyOrd (pyobj nat) :=
  {| ltb := fun a b => Nat.ltb (pw a) (pw b); eqb := fun a b => Nat.eqb (pw a) (pw b) |}.
Next Obligation. rewrite Nat.eqb_eq, !Nat.ltb_ge. lia. Qed.
Next Obligation. apply Nat.ltb_irrefl. Qed.
Next Obligation. rewrite Nat.ltb_lt in *. lia. Qed.
Next Obligation. rewrite Nat.eqb_eq in *. congruence. Qed.
Next Obligation. rewrite Nat.eqb_eq in *. congruence. Qed.
