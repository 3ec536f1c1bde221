(** Counterexamples for TypedArray. *)
From Coq Require Import List ZArith Bool Lia.
From Verif.Model Require Import Base PyList Array.
From Verif.Spec Require Import ArraySpec.
Import ListNotations.
Lemma C34_mixed_refuted_pf : exists (a : tarray unit unit) n e, made true a /\
  skip true a n = Raise e /\ slice (a_elems a) (Some n) None = [VInt (Some I8) 5%Z; VInt None 1000%Z].
Proof.
  exists (TArray KList mixed TAny), 1%Z, OverflowError. split; [exact (made_new true (FromIter mixed) None _ I eq_refl)|]. split; reflexivity.
Qed.
Lemma C34_take_last_zero_refuted_pf : exists (a b c : tarray unit unit), made true a /\
  take_last true a 0 = Ret b /\ a_elems b <> [] /\ skip_last true a 0 = Ret c /\ a_elems c <> a_elems a.
Proof.
  exists (TArray KList [VOther tt] TAny), (TArray KList [VOther tt] TAny), (TArray KList [] TAny).
  split; [exact (made_new true (FromIter [VOther tt]) None _ I eq_refl)|]. repeat split; discriminate.
Qed.
Lemma C34_indexed_start_refuted_pf : exists (a : tarray unit unit) start,
  ~ (forall i, nth_error (indexed a start) i = option_map (fun x => (start + Z.of_nat i, x)%Z) (nth_error (a_elems a) i)).
Proof.
  exists (TArray KList [VOther tt] TAny), 1%Z. intros E. specialize (E 0). discriminate.
Qed.
Lemma C35_int32_refuted_pf : exists (a : tarray unit unit) r, made true a /\ a_type a = TInt32 /\
  type_range (a_type a) = Some r /\ ~ Forall (int_in r) (a_elems a).
Proof.
  exists (TArray (KArr Cl) [VInt None (2 ^ 40)]%Z TInt32), (signed 32).
  split; [exact (made_new true (FromIter [VInt None (2 ^ 40)%Z]) (Some TInt32) _ I eq_refl)|]. repeat split.
  intros Q. inversion Q as [|? ? (n & E & R) _]; subst. injection E; intros <-. unfold signed in R. cbn in R. lia.
Qed.
Lemma C36_bytearray_refuted_pf : exists (h : heap unit unit) obj h' r m,
  construct true h obj None = Ret (h', r) /\ nth_error (mutate_ref true h' r m) obj <> nth_error h obj.
Proof.
  exists [(KBytes, [VInt None 1%Z])], 0. do 2 eexists. exists (MSet 0 (VInt None 2%Z)). split; [reflexivity|discriminate].
Qed.
