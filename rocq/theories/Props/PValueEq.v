(** C114: [==] between values of the library is an equivalence that never raises, and equal
    values have equal hashes. *)
From Coq Require Import List ZArith Bool.
From Verif.Model Require Import Base ValueEq.
From Verif.Spec Require Import EqSpec.
From Verif.Proofs Require Import EqFacts.
Import ListNotations.

(** Any value equals itself. *)
Theorem C114_reflexive : forall fuel x, depth x < fuel -> py_eq fuel x x = Ret true.
Proof. exact reflexive_pf. Qed.
Print Assumptions C114_reflexive.
Example C114_reflexive_case :
  let x := VMap [(3%Z, VArray [VOption (Some (VBlock [VNum 1])); VNone]); (5%Z, VResult false (VSeq 2))] in py_eq 9 x x = Ret true.
Proof. reflexivity. Qed.

(** Without arrays no comparison raises. *)
Theorem C114_never_raises_partial : forall fuel x y, depth x < fuel -> depth y < fuel ->
  everywhere not_array x = true -> everywhere not_array y = true -> exists b, py_eq fuel x y = Ret b.
Proof. exact total_pf. Qed.
Print Assumptions C114_never_raises_partial.
Example C114_never_raises_case :
  let x := VOption (Some (VMap [(1%Z, VBlock [VNone])])) in let y := VOption (Some (VBlock [VNone])) in
  everywhere not_array x = true /\ everywhere not_array y = true /\ py_eq 9 x y = Ret false.
Proof. repeat split. Qed.

(** Without arrays and Maps, values are equal exactly if they are the same up to tuples for
    Blocks: so == is symmetric and transitive. *)
Theorem C114_equal_partial : forall fuel x y, depth x < fuel -> depth y < fuel ->
  everywhere not_array_or_map x = true -> everywhere not_array_or_map y = true -> tells (py_eq fuel x y) (plain x = plain y).
Proof. exact equal_pf. Qed.
Print Assumptions C114_equal_partial.
Theorem C114_symmetric_partial : forall fuel x y, depth x < fuel -> depth y < fuel ->
  everywhere not_array_or_map x = true -> everywhere not_array_or_map y = true -> py_eq fuel x y = py_eq fuel y x.
Proof.
  intros fuel x y D E N O. destruct (equal_pf fuel x y D E N O) as (b & -> & B). destruct (equal_pf fuel y x E D O N) as (c & -> & C).
  f_equal. destruct b, c; try reflexivity.
  - symmetry. apply C. symmetry. apply B. reflexivity.
  - apply B. symmetry. apply C. reflexivity.
Qed.
Print Assumptions C114_symmetric_partial.
Theorem C114_transitive_partial : forall fuel x y z, depth x < fuel -> depth y < fuel -> depth z < fuel ->
  everywhere not_array_or_map x = true -> everywhere not_array_or_map y = true -> everywhere not_array_or_map z = true ->
  py_eq fuel x y = Ret true -> py_eq fuel y z = Ret true -> py_eq fuel x z = Ret true.
Proof.
  intros fuel x y z D E F N O P X Y. destruct (equal_pf fuel x y D E N O) as (b & B & B'). destruct (equal_pf fuel y z E F O P) as (c & C & C').
  destruct (equal_pf fuel x z D F N P) as (d & G & G'). rewrite G. f_equal. apply G'. transitivity (plain y); [apply B'|apply C']; congruence.
Qed.
Print Assumptions C114_transitive_partial.
Example C114_equal_case :
  let x := VTuple [VBlock [VNum 1; VNum 2]; VNone] in let y := VBlock [VTuple [VNum 1; VNum 2]; VNone] in
  everywhere not_array_or_map x = true /\ everywhere not_array_or_map y = true /\ py_eq 9 x y = Ret true /\ py_eq 9 y x = Ret true
  /\ py_eq 9 (VList [x]) (VList [y]) = Ret true /\ py_eq 9 (VList [x]) (VBlock [x]) = Ret false
  /\ py_eq 9 (VOption (Some x)) (VOption (Some y)) = Ret true /\ py_eq 9 (VResult true x) (VResult false y) = Ret false.
Proof. repeat split. Qed.

(** An array equals tuples, lists, Blocks and arrays of the same elements, from either side. *)
Theorem C114_array_partial : forall fuel xs ys,
  (forall x, In x xs \/ In x ys -> depth x < fuel) -> (forall x, In x xs \/ In x ys -> everywhere not_array_or_map x = true) ->
  forall o, o = VTuple ys \/ o = VList ys \/ o = VBlock ys \/ o = VArray ys ->
  tells (py_eq (S fuel) (VArray xs) o) (map plain xs = map plain ys) /\ tells (py_eq (S fuel) o (VArray xs)) (map plain xs = map plain ys).
Proof. exact array_pf. Qed.
Print Assumptions C114_array_partial.
Example C114_array_case :
  py_eq 9 (VArray [VNum 1; VNone]) (VList [VNum 1; VNone]) = Ret true /\ py_eq 9 (VBlock [VNum 1; VNone]) (VArray [VNum 1; VNum 2]) = Ret false.
Proof. split; reflexivity. Qed.

(** Maps with as many bindings are equal exactly if the keys and the values are. *)
Theorem C114_map_partial : forall fuel a b, length a = length b ->
  (forall kv, In kv a \/ In kv b -> depth (snd kv) < fuel) -> (forall kv, In kv a \/ In kv b -> everywhere not_array_or_map (snd kv) = true) ->
  tells (py_eq (S fuel) (VMap a) (VMap b)) (plain (VMap a) = plain (VMap b)).
Proof. exact maps_pf. Qed.
Print Assumptions C114_map_partial.
Example C114_map_case :
  py_eq 9 (VMap [(1%Z, VNone); (2%Z, VBlock [VNum 7])]) (VMap [(1%Z, VNone); (2%Z, VTuple [VNum 7])]) = Ret true
  /\ py_eq 9 (VMap [(1%Z, VNone); (2%Z, VBlock [VNum 7])]) (VMap [(1%Z, VNone); (3%Z, VTuple [VNum 7])]) = Ret false.
Proof. split; reflexivity. Qed.

(** [v in block] tells whether an element equals [v]. *)
Theorem C114_contains_partial : forall fuel xs v,
  (forall x, In x (v :: xs) -> depth x < fuel) -> (forall x, In x (v :: xs) -> everywhere not_array_or_map x = true) ->
  tells (py_contains fuel xs v) (exists x, In x xs /\ plain x = plain v).
Proof. exact contains_pf. Qed.
Print Assumptions C114_contains_partial.
Example C114_contains_case :
  py_contains 9 [VNone; VOption (Some (VTuple [VNum 1]))] (VOption (Some (VBlock [VNum 1]))) = Ret true
  /\ py_contains 9 [VNone; VOption (Some (VTuple [VNum 1]))] (VOption None) = Ret false.
Proof. split; reflexivity. Qed.

Section Hash.
  Context (num_hash : Z -> Z) (none_hash : Z) (id_hash : nat -> Z) (tuple_hash : list Z -> Z) (case_hash : bool -> bool -> Z -> Z).
  Notation hash := (py_hash num_hash none_hash id_hash tuple_hash case_hash).
  (** A value has a hash exactly if no list, Block or array is in it. *)
  Theorem C114_hashable : forall x,
    if everywhere not_list_block_array x then exists h, hash x = Ret h else hash x = Raise TypeError.
  Proof. apply hashable_pf. Qed.
  (** Equal values that have hashes have the same. *)
  Theorem C114_hash_partial : forall fuel x y h k, depth x < fuel -> depth y < fuel ->
    everywhere not_array_or_map x = true -> everywhere not_array_or_map y = true ->
    py_eq fuel x y = Ret true -> hash x = Ret h -> hash y = Ret k -> h = k.
  Proof. apply hash_pf. Qed.
End Hash.
Print Assumptions C114_hashable.
Print Assumptions C114_hash_partial.
Example C114_hash_case :
  let hash := py_hash (fun n => n) 7%Z Z.of_nat (fun hs => fold_left (fun a h => 31 * a + h)%Z hs 1%Z) (fun option first h => h + if first then 100 else 0)%Z in
  hash (VTuple [VNum 1; VOption (Some VNone)]) = Ret 1099%Z
  /\ hash (VMap [(1%Z, VResult false (VNum 4))]) = Ret 1899%Z
  /\ hash (VTuple [VNum 1; VOption (Some (VBlock []))]) = Raise TypeError.
Proof. repeat split. Qed.

(** An array raises when it is compared with what has no length, on either side, and so does
    a Block or an Option that has an array inside; only an Option or Result on the left does
    not ask the array. *)
Theorem C114_raises_refuted : forall fuel xs n s o ok x,
  py_eq (S fuel) (VArray xs) VNone = Raise TypeError /\ py_eq (S fuel) VNone (VArray xs) = Raise TypeError
  /\ py_eq (S fuel) (VArray xs) (VNum n) = Raise TypeError /\ py_eq (S fuel) (VNum n) (VArray xs) = Raise TypeError
  /\ py_eq (S fuel) (VArray xs) (VSeq s) = Raise TypeError /\ py_eq (S fuel) (VSeq s) (VArray xs) = Raise TypeError
  /\ py_eq (S fuel) (VArray xs) (VOption o) = Raise TypeError /\ py_eq (S fuel) (VOption o) (VArray xs) = Ret false
  /\ py_eq (S fuel) (VArray xs) (VResult ok x) = Raise TypeError /\ py_eq (S fuel) (VResult ok x) (VArray xs) = Ret false
  /\ py_contains (S fuel) [VArray xs] VNone = Raise TypeError
  /\ py_eq (S (S fuel)) (VOption (Some (VArray xs))) (VOption (Some VNone)) = Raise TypeError.
Proof. intros fuel xs n s [a|] ok x; repeat split. Qed.
Print Assumptions C114_raises_refuted.

(** Arrays join values that are not equal to each other. *)
Theorem C114_transitive_refuted : forall fuel xs, (forall x, In x xs -> depth x < fuel) -> (forall x, In x xs -> everywhere not_array_or_map x = true) ->
  py_eq (S fuel) (VList xs) (VArray xs) = Ret true /\ py_eq (S fuel) (VArray xs) (VTuple xs) = Ret true
  /\ py_eq (S fuel) (VArray xs) (VBlock xs) = Ret true
  /\ py_eq (S fuel) (VList xs) (VTuple xs) = Ret false /\ py_eq (S fuel) (VList xs) (VBlock xs) = Ret false.
Proof.
  intros fuel xs D N.
  assert (G : forall o, o = VTuple xs \/ o = VList xs \/ o = VBlock xs \/ o = VArray xs ->
    py_eq (S fuel) (VArray xs) o = Ret true /\ py_eq (S fuel) o (VArray xs) = Ret true).
  { intros o O. assert (D' : forall x, In x xs \/ In x xs -> depth x < fuel) by (intros x [X|X]; auto).
    assert (N' : forall x, In x xs \/ In x xs -> everywhere not_array_or_map x = true) by (intros x [X|X]; auto).
    destruct (array_pf fuel xs xs D' N' o O) as [(b & -> & B) (c & -> & C)]. split; f_equal; [apply B|apply C]; reflexivity. }
  repeat split; try reflexivity; apply G; auto.
Qed.
Print Assumptions C114_transitive_refuted.
Example C114_transitive_case : py_eq 3 (VList [VNum 1; VNone]) (VArray [VNum 1; VNone]) = Ret true.
Proof. reflexivity. Qed.

(** Equality with Maps is not symmetric: a Map equals the longer Map it begins; an array
    equals the Map with its elements at the keys 0, 1, ... but not the other way round, and an
    array of one element raises KeyError for a Map without the key 0. *)
Theorem C114_symmetric_refuted : forall fuel k x, depth x < fuel ->
  py_eq (S fuel) (VMap []) (VMap [(k, x)]) = Ret true /\ py_eq (S fuel) (VMap [(k, x)]) (VMap []) = Ret false
  /\ py_eq (S fuel) (VArray [x]) (VMap [(0%Z, x)]) = Ret true /\ py_eq (S fuel) (VMap [(0%Z, x)]) (VArray [x]) = Ret false
  /\ (k <> 0%Z -> py_eq (S fuel) (VArray [x]) (VMap [(k, x)]) = Raise KeyError)
  /\ py_eq (S (S fuel)) (VBlock [VMap []]) (VBlock [VMap [(k, x)]]) = Ret false
  /\ py_eq (S (S fuel)) (VBlock [VMap []]) (VTuple [VMap [(k, x)]]) = Ret true.
Proof.
  intros fuel k x D. repeat split.
  - cbn [py_eq array_eq len_of rbind length Nat.eqb array_items_eq item_of find fst Z.eqb Z.of_nat]. cbn.
    rewrite (reflexive_pf fuel x D). reflexivity.
  - intros K. cbn. destruct (Z.eqb_spec k 0) as [E|_]; [destruct (K E)|reflexivity].
Qed.
Print Assumptions C114_symmetric_refuted.
Example C114_symmetric_case : py_eq 3 (VArray [VNum 5]) (VMap [(4%Z, VNum 5)]) = Raise KeyError.
Proof. reflexivity. Qed.

(** A Block has no hash, though it equals a tuple that has one; a Map has another hash than
    the longer Map it equals. *)
Theorem C114_hash_refuted : exists x y a b, forall fuel num_hash none_hash id_hash tuple_hash case_hash,
  let hash := py_hash num_hash none_hash id_hash tuple_hash case_hash in
  py_eq (S fuel) x y = Ret true /\ hash x = Raise TypeError /\ (exists h, hash y = Ret h)
  /\ py_eq (S fuel) a b = Ret true /\ (forall h, num_hash = (fun n => n) -> hash a = Ret h -> hash b <> Ret h).
Proof.
  exists (VBlock []), (VTuple []), (VMap []), (VMap [(1%Z, VNum 1)]). intros. cbn. repeat split; eauto.
  intros h -> E. injection E as <-. discriminate.
Qed.
Print Assumptions C114_hash_refuted.
