(** Iterations that do not disturb each other. *)
From Coq Require Import List Arith.
From Verif.Model Require Import Base Interleave.
Import ListNotations.

(** What [n] calls of [next] hear that read [l] with nobody else around. *)
Definition alone {A} (l : list A) (n : nat) : list (outcome A) := map Got (firstn n l) ++ repeat Ended (n - length l).

(** What is heard from iterator [j]; how often it is asked. *)
Fixpoint heard {W A} (j : nat) (es : list (event W)) (os : list (outcome A)) : list (outcome A) :=
  match es, os with
  | Next i :: es, o :: os => if Nat.eqb i j then o :: heard j es os else heard j es os
  | _ :: es, _ :: os => heard j es os
  | _, _ => []
  end.
Fixpoint asked {W} (j : nat) (es : list (event W)) : nat :=
  match es with
  | Next i :: es => if Nat.eqb i j then S (asked j es) else asked j es
  | _ :: es => asked j es
  | [] => 0
  end.

(** Only opened iterators are read, and the rest of the program keeps [I]. *)
Fixpoint proper {W} (I : W -> Prop) (opened : nat) (es : list (event W)) : Prop :=
  match es with
  | [] => True
  | Open :: es => proper I (S opened) es
  | Next j :: es => j < opened /\ proper I opened es
  | Other f :: es => (forall w, I w -> I (f w)) /\ proper I opened es
  end.
