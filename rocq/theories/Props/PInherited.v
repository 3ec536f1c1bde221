(** Property theorems C116 (what TypedArray inherits from MutableSequence) and C117 (a Map
    is a Mapping). *)
From Coq Require Import List ZArith Bool Arith.
From Verif.Model Require Import Base PyList Block Array MapTree Map Inherited.
From Verif.Spec Require Import ListM ArraySpec MapSpec InheritSpec KeyInstances.
From Verif.Proofs Require Import MapMain InheritFacts InheritFacts2.
From Verif.Props Require Import PMap.
Import ListNotations.
Local Open Scope list_scope.
Local Open Scope nat_scope.
Local Open Scope py_scope.

(** C116.  [v in a] asks the elements in order and stops at the first that is equal; the
    comparison may be code of the user that has effects and raises. *)
Theorem C116_contains : forall F U W (eq : pyval F U -> M W bool) (a : tarray F U), arr_contains eq a ==m existsM eq (a_elems a).
Proof. exact (fun F U => contains_pf (F := F) (U := U)). Qed.
Print Assumptions C116_contains.
(** index: the elements of the slice are asked in order *)
Theorem C116_index : forall F U W (eq : pyval F U -> M W bool) start stop (a : tarray F U) fuel, length (a_elems a) < fuel ->
  arr_index fuel eq start stop a ==m
  search eq (slice_bound (Z.of_nat (length (a_elems a))) start) (slice (a_elems a) (Some start) stop).
Proof. exact (fun F U => index_search_pf (F := F) (U := U)). Qed.
Print Assumptions C116_index.
(** with a pure comparison: the first position that is within the bounds and holds an equal
    element, ValueError when there is none *)
Theorem C116_index_first : forall F U W (p : pyval F U -> bool) start stop (a : tarray F U) fuel (w : W), length (a_elems a) < fuel ->
  let hit i := within (length (a_elems a)) start stop i /\ exists x, nth_error (a_elems a) i = Some x /\ p x = true in
  (exists i, hit i /\ (forall j, j < i -> ~ hit j) /\ arr_index fuel (fun v => ret (p v)) start stop a w = (Ret (Z.of_nat i), w)) \/
  ((forall i, ~ hit i) /\ arr_index fuel (fun v => ret (p v)) start stop a w = (Raise ValueError, w)).
Proof. exact (fun F U => index_pure_pf (F := F) (U := U)). Qed.
Print Assumptions C116_index_first.
Example C116_index_case :
  let a := TArray KList [VInt None 4; VInt None 7; VInt None 4; VInt None 9]%Z TAny : tarray unit unit in
  let eq := fun v (asked : list (pyval unit unit)) => (Ret (match v with VInt _ n => Z.eqb n 4 | _ => false end), asked ++ [v]) in
  arr_index 9 eq 0 None a [] = (Ret 0%Z, [VInt None 4%Z]) /\
  arr_index 9 eq (-3) (Some (-1)%Z) a [] = (Ret 2%Z, [VInt None 7; VInt None 4]%Z) /\
  arr_index 9 eq 3 (Some 100%Z) a [] = (Raise ValueError, [VInt None 9%Z]) /\
  arr_index 9 eq (-100) (Some (-4)%Z) a [] = (Raise ValueError, []) /\
  fst (arr_count eq a []) = Ret 2%Z /\ fst (arr_contains eq a []) = Ret true.
Proof. repeat split. Qed.
(** count asks every element; a StopIteration of the comparison is a RuntimeError *)
Theorem C116_count : forall F U W (eq : pyval F U -> M W bool) (a : tarray F U),
  arr_count eq a ==m (do bs <- mapM (fun v => outside (eq v)) (a_elems a); ret (Z.of_nat (count_occ bool_dec bs true))).
Proof. exact (fun F U => count_pf (F := F) (U := U)). Qed.
Print Assumptions C116_count.
(** reversed() of an array and of a Block *)
Theorem C116_reversed : forall F U (a : tarray F U) A (xs : block A),
  arr_reversed a = Ret (rev (a_elems a)) /\ block_reversed xs = Ret (rev xs).
Proof. exact (fun F U a A xs => conj (reversed_index _ (a_elems a)) (reversed_index _ xs)). Qed.
Print Assumptions C116_reversed.
(** C19: iteration backwards is the list backwards, by index from the end *)
Theorem C19_reversed : forall A (xs : block A),
  block_reversed xs = Ret (rev xs) /\
  forall i, i < length xs -> Block.item xs (- Z.of_nat (S i)) = match nth_error (rev xs) i with Some x => Ret x | None => Raise IndexError end.
Proof. exact block_reversed_pf. Qed.
Print Assumptions C19_reversed.
Example C116_reversed_case : block_reversed [3; 1; 2] = Ret [2; 1; 3].
Proof. reflexivity. Qed.
(** extend and += with the array itself append a copy of it, like those of a list; with
    any other iterable they are C34_extend and C34_extend_refused *)
Theorem C116_extend_partial : forall F U (FF : Floats F) long64 (a : tarray F U) fuel, made long64 a ->
  (extend_by long64 fuel a Itself = (Ret tt, TArray (a_kind a) (a_elems a ++ a_elems a) (a_type a))) /\
  (iadd long64 fuel a Itself = (Ret tt, TArray (a_kind a) (a_elems a ++ a_elems a) (a_type a))) /\
  (forall vs, extend_by long64 fuel a (Others vs) = extend long64 a vs /\ iadd long64 fuel a (Others vs) = extend long64 a vs).
Proof.
  exact (fun F U FF l a fuel D => conj (itself_pf l a fuel D) (conj (itself_pf l a fuel D) (fun vs => conj eq_refl eq_refl))).
Qed.
Print Assumptions C116_extend_partial.
(** ... but with its own storage (the bytearray it was made from, or a.value) they never
    come to an end, whatever the array holds, unless it is empty *)
Theorem C116_own_storage_refuted : forall F U (FF : Floats F) long64 (a : tarray F U), made long64 a -> a_elems a <> [] ->
  forall fuel, exists b, extend_by long64 fuel a ItsStorage = (Raise OutOfFuel, b) /\ length (a_elems b) = length (a_elems a) + fuel.
Proof. exact (fun F U FF l a D N fuel => own_storage_pf l a fuel D N). Qed.
Print Assumptions C116_own_storage_refuted.
(** b = bytearray(b"\x01\x02"); TypedArray(b).extend(b) *)
Example C116_own_storage_case : exists a : tarray unit unit,
  new true (FromBytearray [VInt None 1; VInt None 2]%Z) None = Ret a /\ made true a /\ a_elems a <> [] /\
  a_elems (snd (extend_by true 3 a ItsStorage)) = [VInt None 1; VInt None 2; VInt None 1; VInt None 2; VInt None 1]%Z.
Proof.
  eexists. split; [reflexivity|]. split; [|split; [discriminate|reflexivity]].
  eapply made_new with (i := FromBytearray [VInt None 1; VInt None 2]%Z) (tc := None); [|reflexivity].
  repeat constructor; eexists; split; try reflexivity; unfold unsigned; split; discriminate || reflexivity.
Qed.

(** C117.  get *)
Theorem C117_get : forall K V (KO : KeyOrd K) (m : tree K V) k d, Reach m ->
  map_get k d m = Ret (match assoc k (to_list m) with Some (_, v) => v | None => d end).
Proof. exact (fun K V KO => get_pf). Qed.
Print Assumptions C117_get.
(** keys() *)
Theorem C117_keys : forall K V (KO : KeyOrd K) (m : tree K V) n fuel, Reach m -> len m < n -> depth m + 2 <= fuel ->
  keys_iter n fuel m = Ret (List.map fst (to_list m)) /\ keys_len m = length (List.map fst (to_list m)) /\
  forall k, keys_in k m = true <-> has k (List.map fst (to_list m)).
Proof. exact (fun K V KO => keys_view_pf). Qed.
Print Assumptions C117_keys.
(** values(): in the order of the keys; [in] stops at the first equal value *)
Theorem C117_values : forall K V (KO : KeyOrd K) (m : tree K V) n fuel, Reach m -> len m < n -> depth m + 2 <= fuel ->
  values_iter n fuel m = Ret (List.map snd (to_list m)) /\
  forall W (eq : V -> M W bool), values_in n fuel eq m ==m existsM eq (List.map snd (to_list m)).
Proof. exact (fun K V KO m n fuel R L D => conj (values_iter_pf m n fuel R L D) (fun W eq => values_in_pf W eq m n fuel R L D)). Qed.
Print Assumptions C117_values.
(** dict(m) and items(), when the keys can be hashed *)
Theorem C117_dict_partial : forall K V (KO : KeyOrd K) hashable (m : tree K V) n fuel, Reach m -> len m < n -> depth m + 2 <= fuel ->
  (forall k v, In (k, v) (to_list m) -> hashable k = true) ->
  to_dict hashable n fuel m = Ret (to_list m) /\ items_hashed hashable n fuel m = Ret (to_list m).
Proof. exact (fun K V KO => dict_pf). Qed.
Print Assumptions C117_dict_partial.
(** keys that can be compared but not hashed, such as lists: a map of them has keys() and
    values(), but items() and dict(m) raise *)
Theorem C117_unhashable_refuted : forall K V (KO : KeyOrd K) hashable (m : tree K V) n fuel k v, Reach m -> len m < n -> depth m + 2 <= fuel ->
  In (k, v) (to_list m) -> hashable k = false ->
  to_dict hashable n fuel m = Raise TypeError /\ items_hashed hashable n fuel m = Raise TypeError /\
  keys_iter n fuel m = Ret (List.map fst (to_list m)) /\ values_iter n fuel m = Ret (List.map snd (to_list m)).
Proof.
  intros K V KO hashable m n fuel k v R L D I E. destruct (unhashable_pf hashable m n fuel k v R L D I E) as [E1 E2].
  repeat split; auto; [apply keys_view_pf|apply values_iter_pf]; auto.
Qed.
Print Assumptions C117_unhashable_refuted.
Example C117_case : map_get 9 0 ex_map = Ret 90 /\ map_get 8 7 ex_map = Ret 7 /\ values_iter 20 20 ex_map = Ret [31; 50; 90; 100; 110] /\
  items_hashed (fun _ => true) 20 20 ex_map = Ret [(3, 31); (5, 50); (9, 90); (10, 100); (11, 110)] /\
  to_dict (fun k => negb (Nat.eqb k 9)) 20 20 ex_map = Raise TypeError /\ len ex_map < 20 /\ depth ex_map + 2 <= 20.
Proof. repeat split; apply Nat.leb_le; reflexivity. Qed.
(** keys() as a set, against a set with the elements [s] *)
Theorem C117_compare : forall K V (KO : KeyOrd K) (m : tree K V) n fuel s, Reach m -> len m < n -> depth m + 2 <= fuel -> distinct s ->
  let ks := List.map fst (to_list m) in
  (exists b, keys_le n fuel m s = Ret b /\ (b = true <-> forall k, has k ks -> has k s)) /\
  (exists b, keys_lt n fuel m s = Ret b /\ (b = true <-> (forall k, has k ks -> has k s) /\ exists k, has k s /\ ~ has k ks)) /\
  (keys_ge m s = true <-> forall k, has k s -> has k ks) /\
  (keys_gt m s = true <-> (forall k, has k s -> has k ks) /\ exists k, has k ks /\ ~ has k s) /\
  (exists b, keys_eq n fuel m s = Ret b /\ (b = true <-> forall k, has k ks <-> has k s)) /\
  (keys_isdisjoint m s = true <-> forall k, ~ (has k ks /\ has k s)).
Proof.
  intros K V KO m n fuel s R L D S. repeat split.
  - now apply keys_le_pf.
  - now apply keys_lt_pf.
  - now apply (keys_ge_pf m n fuel).
  - now apply (keys_ge_pf m n fuel).
  - now apply (keys_gt_pf m n fuel).
  - now apply (keys_gt_pf m n fuel).
  - now apply (keys_gt_pf m n fuel).
  - now apply keys_eq_pf.
  - now apply keys_isdisjoint_pf.
  - now apply keys_isdisjoint_pf.
Qed.
Print Assumptions C117_compare.
Theorem C117_combine : forall K V (KO : KeyOrd K) (m : tree K V) n fuel s, Reach m -> len m < n -> depth m + 2 <= fuel ->
  let ks := List.map fst (to_list m) in
  (distinct (keys_and m s) /\ forall k, has k (keys_and m s) <-> has k ks /\ has k s) /\
  (exists l, keys_or n fuel m s = Ret l /\ distinct l /\ forall k, has k l <-> has k ks \/ has k s) /\
  (exists l, keys_sub n fuel m s = Ret l /\ distinct l /\ forall k, has k l <-> has k ks /\ ~ has k s) /\
  (distinct (keys_rsub m s) /\ forall k, has k (keys_rsub m s) <-> has k s /\ ~ has k ks) /\
  (exists l, keys_xor n fuel m s = Ret l /\ distinct l /\ forall k, has k l <-> (has k ks /\ ~ has k s) \/ (has k s /\ ~ has k ks)).
Proof.
  intros K V KO m n fuel s R L D. split; [now apply keys_and_pf|]. split; [now apply keys_or_pf|]. split; [now apply keys_sub_pf|].
  split; [now apply keys_rsub_pf|now apply keys_xor_pf].
Qed.
Print Assumptions C117_combine.
Example C117_set_case : keys_le 20 20 ex_map [11; 10; 9; 5; 3; 1] = Ret true /\ keys_eq 20 20 ex_map [11; 10; 9; 5; 3] = Ret true /\
  keys_lt 20 20 ex_map [11; 10; 9; 5; 3] = Ret false /\ keys_gt ex_map [9] = true /\ keys_and ex_map [9; 4; 3] = [9; 3] /\
  keys_xor 20 20 ex_map [9; 4; 3] = Ret [5; 10; 11; 4] /\ distinct [9; 4; 3].
Proof. repeat split. repeat constructor. Qed.
