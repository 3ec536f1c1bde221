(** Independent specification of slices, after the Python reference: the slice from i to j
    with step k has the items at i, i+k, i+2k and so on, stopping when j is reached. *)
From Coq Require Import List ZArith Bool.
Import ListNotations.

(** Negative bounds count from the end; bounds beyond the sequence are cut; the bounds
    left out depend on the sign of the step. *)
Definition first_position (len : Z) (start : option Z) (step : Z) : Z :=
  match start with
  | None => if Z.ltb 0 step then 0 else len - 1
  | Some i => if Z.ltb i 0 then Z.max (i + len) (if Z.ltb 0 step then 0 else -1) else Z.min i (if Z.ltb 0 step then len else len - 1)
  end%Z.
Definition limit_position (len : Z) (stop : option Z) (step : Z) : Z :=
  match stop with
  | None => if Z.ltb 0 step then len else -1
  | Some j => if Z.ltb j 0 then Z.max (j + len) (if Z.ltb 0 step then 0 else -1) else Z.min j (if Z.ltb 0 step then len else len - 1)
  end%Z.
Definition given (step : option Z) : Z := match step with Some k => k | None => 1%Z end.

(** [is] are the positions a slice selects in a sequence of [len] elements, in order. *)
Definition selects (len : nat) (start stop step : option Z) (is : list nat) : Prop :=
  let n := Z.of_nat len in let k := given step in
  (forall j i, nth_error is j = Some i -> Z.of_nat i = (first_position n start k + Z.of_nat j * k)%Z) /\
  (forall i, In i is <-> i < len /\ exists m, (0 <= m /\ Z.of_nat i = first_position n start k + m * k /\
     if Z.ltb 0 k then Z.of_nat i < limit_position n stop k else limit_position n stop k < Z.of_nat i)%Z).

(** The elements at some positions. *)
Definition at_positions {A} (xs : list A) (is : list nat) (ys : list A) : Prop := Forall2 (fun i y => nth_error xs i = Some y) is ys.
(** The elements at all other positions. *)
Definition others {A} (xs : list A) (is : list nat) : list A :=
  map snd (filter (fun p => negb (existsb (Nat.eqb (fst p)) is)) (combine (seq 0 (length xs)) xs)).
