(** C86: slices of Block and TypedArray with any bounds and step. *)
From Coq Require Import List ZArith Bool.
From Verif.Model Require Import Base PyList Array Block.
From Verif.Spec Require Import ArraySpec SliceSpec.
From Verif.Proofs Require Import SliceFacts ArraySlice.
Import ListNotations.

Theorem C86_block_slice : forall A (xs : block A) start stop step,
  (given step = 0%Z -> Block.getslice xs start stop step = Raise ValueError) /\
  (given step <> 0%Z -> exists is ys, Block.getslice xs start stop step = Ret ys /\ selects (List.length xs) start stop step is /\ at_positions xs is ys).
Proof.
  exact (fun A xs s t k => conj (slice_zero_pf A xs s t k) (slice_step_pf xs s t k)).
Qed.
Print Assumptions C86_block_slice.
Theorem C86_array_slice : forall F U (a : tarray F U) start stop step,
  (given step = 0%Z -> Array.getslice a start stop step = Raise ValueError) /\
  (given step <> 0%Z -> exists is ys, Array.getslice a start stop step = Ret ys /\ selects (List.length (a_elems a)) start stop step is /\ at_positions (a_elems a) is ys).
Proof. exact (fun F U => getslice_pf). Qed.
Print Assumptions C86_array_slice.
(** the positions of a slice are determined by [selects]; they are distinct *)
Theorem C86_positions_unique : forall len start stop step is js, given step <> 0%Z ->
  selects len start stop step is -> selects len start stop step js -> is = js /\ NoDup is.
Proof. exact (fun len s t k is js N H1 H2 => conj (selects_unique _ _ _ _ _ _ H1 H2 N) (selects_nodup _ _ _ _ _ N H1)). Qed.
Print Assumptions C86_positions_unique.
(** [xs[::-1]] is the reversed sequence; without a step the slice is contiguous *)
Theorem C86_reversed : forall A (xs : block A), Block.getslice xs None None (Some (-1)%Z) = Ret (List.rev xs).
Proof. exact reverse_slice_pf. Qed.
Print Assumptions C86_reversed.
Theorem C86_contiguous : forall A (xs : block A) start stop step, given step = 1%Z ->
  let n := Z.of_nat (List.length xs) in let p := first_position n start 1 in let q := limit_position n stop 1 in
  Block.getslice xs start stop step = Ret (firstn (Z.to_nat (q - p)) (skipn (Z.to_nat p) xs)).
Proof. exact contiguous_pf. Qed.
Print Assumptions C86_contiguous.
Example C86_slice_case : Block.getslice [0; 1; 2; 3; 4; 5; 6] (Some (-2)%Z) (Some 0%Z) (Some (-2)%Z) = Ret [5; 3; 1] /\
  selects 7 (Some (-2)%Z) (Some 0%Z) (Some (-2)%Z) [5; 3; 1] /\ Block.getslice [0; 1; 2] (Some 1%Z) (Some 100%Z) None = Ret [1; 2].
Proof.
  split; [reflexivity|]. split; [|reflexivity]. destruct (positions_pf 7 (Some (-2)%Z) (Some 0%Z) (Some (-2)%Z)) as (is & E & S); [discriminate|]. vm_compute in E. injection E as <-. exact S.
Qed.

(** del a[start:stop:step] *)
Theorem C86_delete : forall F U (a : tarray F U) start stop step,
  (given step = 0%Z -> delstep a start stop step = (Raise ValueError, a)) /\
  (given step <> 0%Z -> exists is, selects (List.length (a_elems a)) start stop step is /\
     delstep a start stop step = (Ret tt, TArray (a_kind a) (others (a_elems a) is) (a_type a))).
Proof. exact (fun F U => delstep_pf). Qed.
Print Assumptions C86_delete.
Example C86_delete_case : others [10; 11; 12; 13; 14] [3; 1] = [10; 12; 14] /\
  delstep (F := unit) (U := unit) (TArray KList [VInt None 10; VInt None 11; VInt None 12] TAny) None None (Some 2%Z) = (Ret tt, TArray KList [VInt None 11] TAny).
Proof. split; reflexivity. Qed.

(** a[start:stop:step] = src, for what the storage accepts.  Missing: an array.array takes
    arrays of its own code only, and nothing assigned with a step deletes in typed
    storage (see the refuted theorem). *)
Theorem C86_assign_partial : forall F U (FF : Floats F) long64 (a : tarray F U) start stop step src ys, accepts long64 (a_kind a) src ys ->
  (given step = 0%Z -> setslice long64 a start stop step src = (Raise ValueError, a)) /\
  (given step = 1%Z -> exists pre mid post, a_elems a = pre ++ mid ++ post /\
     let n := Z.of_nat (List.length (a_elems a)) in
     Z.of_nat (List.length pre) = first_position n start 1 /\ Z.of_nat (List.length mid) = Z.max 0 (limit_position n stop 1 - first_position n start 1) /\
     setslice long64 a start stop step src = (Ret tt, TArray (a_kind a) (pre ++ ys ++ post) (a_type a))) /\
  (given step <> 0%Z -> given step <> 1%Z -> exists is, selects (List.length (a_elems a)) start stop step is /\
     (List.length ys = List.length is -> exists zs, setslice long64 a start stop step src = (Ret tt, TArray (a_kind a) zs (a_type a)) /\
        List.length zs = List.length (a_elems a) /\ at_positions zs is ys /\ forall i, ~ In i is -> nth_error zs i = nth_error (a_elems a) i) /\
     (List.length ys <> List.length is -> a_kind a = KList \/ ys <> [] -> setslice long64 a start stop step src = (Raise ValueError, a)) /\
     (List.length ys <> List.length is -> a_kind a <> KList -> ys = [] ->
        setslice long64 a start stop step src = (Ret tt, TArray (a_kind a) (others (a_elems a) is) (a_type a)))).
Proof. exact (fun F U FF => setslice_pf). Qed.
Print Assumptions C86_assign_partial.
(** an array.array with another code is refused, whatever it holds *)
Theorem C86_assign_code : forall F U (FF : Floats F) long64 (a : tarray F U) start stop step c d vs raw ys, a_kind a = KArr d -> c <> d -> given step <> 0%Z ->
  Forall2 (stored long64 (KArr c)) vs ys -> setslice long64 a start stop step (SArray c vs raw) = (Raise TypeError, a).
Proof. exact (fun F U FF => setslice_code_pf). Qed.
Print Assumptions C86_assign_code.
Example C86_assign_code_case : setslice true (TArray (KArr Ch) [VInt None 1] TInt16 : tarray unit unit) None None None (SArray CB [VInt None 2] [2%Z])
  = (Raise TypeError, TArray (KArr Ch) [VInt None 1] TInt16).
Proof. apply C86_assign_code with (d := Ch) (ys := [VInt None 2]); [reflexivity|discriminate|discriminate|]. constructor; [|constructor]. eapply st_int; [reflexivity|]. split; vm_compute; congruence. Qed.
(** an assignment that raises leaves the array as it was *)
Theorem C86_assign_fails : forall F U (FF : Floats F) long64 (a : tarray F U) start stop step src e,
  fst (setslice long64 a start stop step src) = Raise e -> snd (setslice long64 a start stop step src) = a.
Proof. exact (fun F U FF => setslice_fails_pf). Qed.
Print Assumptions C86_assign_fails.
Example C86_assign_case : forall l,
  accepts l KBytes (SIter [VInt None 1; VInt None 2] : source unit unit) [VInt None 1; VInt None 2] /\
  setslice l (TArray KBytes [VInt None 7; VInt None 8; VInt None 9; VInt None 10] TByte : tarray unit unit) None None (Some (-2)%Z) (SIter [VInt None 1; VInt None 2])
  = (Ret tt, TArray KBytes [VInt None 7; VInt None 2; VInt None 9; VInt None 1] TByte).
Proof. intros l. split; [|reflexivity]. apply ac_bytes. repeat constructor; discriminate. Qed.
(** not as for lists: an array.array refuses every other iterable, a bytearray takes the
    memory of an array.array instead of its numbers, and typed storage deletes where a
    list raises ValueError *)
Theorem C86_assign_refuted : forall F U (FF : Floats F) long64 (a : tarray F U),
  (forall c start stop step vs, a_kind a = KArr c -> given step <> 0%Z -> setslice long64 a start stop step (SIter vs) = (Raise TypeError, a)) /\
  (forall c vs raw ys, a_kind a = KBytes -> Forall2 (stored long64 (KArr c)) vs ys ->
     setslice long64 a None None None (SArray c vs raw) = (Ret tt, TArray KBytes (List.map (fun n => VInt None (n mod 256)%Z) raw) (a_type a))) /\
  (forall x y z ty, setslice long64 (TArray KBytes [x; y; z] ty : tarray F U) None None (Some 2%Z) (SIter []) = (Ret tt, TArray KBytes [y] ty) /\
     setslice long64 (TArray KList [x; y; z] ty : tarray F U) None None (Some 2%Z) (SIter []) = (Raise ValueError, TArray KList [x; y; z] ty)).
Proof.
  exact (fun F U FF l a => conj (fun c s t k vs => setslice_typed_pf l a s t k c vs) (conj (fun c vs raw ys => setslice_raw_pf l a c vs raw ys)
    (fun x y z ty => conj eq_refl eq_refl))).
Qed.
Print Assumptions C86_assign_refuted.
Example C86_assign_refuted_case : forall a : tarray unit unit, a_kind a = KBytes ->
  snd (setslice true a None None None (SArray Ch [VInt None 300] [44; 1]%Z)) = TArray KBytes [VInt None 44; VInt None 1] (a_type a).
Proof.
  intros a K. rewrite (setslice_raw_pf true a Ch _ [44; 1]%Z [VInt None 300] K); [reflexivity|].
  constructor; [|constructor]. eapply st_int; [reflexivity|]. split; vm_compute; congruence.
Qed.
