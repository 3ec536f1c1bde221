(** Property theorems C01-C18 (Map).  Only statements; proofs are in Proofs/. *)
From Coq Require Import List ZArith Bool Arith String.
From Verif.Model Require Import Base MapTree Map.
From Verif.Spec Require Import MapSpec ListM KeyInstances.
From Verif.Proofs Require Import MapMain MapFacts MapRefute MapLinear MapOrder MapChangeHeight.
Import ListNotations.
Local Open Scope nat_scope.
Local Open Scope list_scope.
Local Open Scope py_scope.

(** The map used by most examples: built by insertions in mixed order and a removal,
    so that it contains a rotated inner node. *)
Definition ex_ops : list (op nat nat) :=
  [OAdd 5 50; OAdd 3 30; OAdd 8 80; OAdd 9 90; OAdd 10 100; OAdd 11 110; OAdd 3 31; ORemove 8].
Definition ex_map : tree nat nat := m_run ex_ops.
Example ex_map_reach : Reach ex_map.
Proof. exact (m_run_Reach ex_ops). Qed.
Example ex_map_list : to_list ex_map = [(3, 31); (5, 50); (9, 90); (10, 100); (11, 110)].
Proof. reflexivity. Qed.
Example ex_map_depth : depth ex_map = 3.
Proof. reflexivity. Qed.

(** C01. *)
Theorem C01_map_refines_dictionary : forall (K V : Type) (KO : KeyOrd K) (os : list (op K V)),
  let m := m_run os in let d := d_run os in
  (forall k, try_find k m = option_map snd (d k)) /\
  (forall k, find k m = match d k with Some (_, v) => Ret v | None => Raise KeyError end) /\
  (forall k, mem k m = match d k with Some _ => true | None => false end) /\
  lists (to_list m) d /\
  len m = List.length (to_list m) /\
  (is_empty m = true <-> forall k, d k = None) /\
  (forall n fuel, len m < n -> depth m + 2 <= fuel -> to_seq n fuel m = Ret (to_list m)).
Proof. exact (fun K V KO => C01_pf). Qed.
Print Assumptions C01_map_refines_dictionary.
(** the methods of Map on top: truth, try_get_value and items *)
Theorem C01_truth_and_items : forall (K V : Type) (KO : KeyOrd K) (os : list (op K V)),
  let m := m_run os in let d := d_run os in
  (map_bool m = true <-> exists k kv, d k = Some kv) /\
  (forall n fuel, len m < n -> depth m + 2 <= fuel -> exists l, items n fuel m = Ret l /\ lists l d).
Proof. exact (fun K V KO => C01_truth_pf). Qed.
Print Assumptions C01_truth_and_items.
Example C01_truth_and_items_ex : map_bool (m_run ex_ops) = true /\ map_bool (@Empty nat nat) = false /\
  items 20 20 (m_run [OAdd 2 1; OAdd 1 5; OAdd 2 7]) = Ret [(1, 5); (2, 7)].
Proof. repeat split. Qed.
Example C01_example : try_find 9 (m_run ex_ops) = Some 90 /\ d_run ex_ops 9 = Some (9, 90) /\ d_run ex_ops 8 = None.
Proof. repeat split. Qed.

(** C02. *)
Theorem C02_add : forall (K V : Type) (KO : KeyOrd K) (m : tree K V) (k : K) (v : V), Reach m ->
  exists m', add k v m = Ret m' /\
    (forall k', try_find k' m' = if eqb k' k then Some v else try_find k' m) /\
    (forall k', mem k' m' = eqb k' k || mem k' m) /\
    (forall k', assoc k' (to_list m') = if eqb k' k then Some (k, v) else assoc k' (to_list m)) /\
    len m' = if mem k m then len m else S (len m).
Proof. exact (fun K V KO => C02_pf). Qed.
Print Assumptions C02_add.
Example C02_example : rmap to_list (add 4 40 ex_map) = Ret [(3, 31); (4, 40); (5, 50); (9, 90); (10, 100); (11, 110)].
Proof. reflexivity. Qed.
(** the stored key object is replaced by the equal key just given *)
Example C02_example_equal_key :
  rmap to_list (rbind (add (Num 1 false) "a"%string Empty) (add (Num 1 true) "b"%string)) = Ret [(Num 1 true, "b"%string)].
Proof. reflexivity. Qed.

(** C03. *)
Theorem C03_remove : forall (K V : Type) (KO : KeyOrd K) (m : tree K V) (k : K), Reach m ->
  exists m', remove k m = Ret m' /\
    (forall k', try_find k' m' = if eqb k' k then None else try_find k' m) /\
    (forall k', mem k' m' = negb (eqb k' k) && mem k' m) /\
    (forall k', assoc k' (to_list m') = if eqb k' k then None else assoc k' (to_list m)) /\
    (mem k m = false -> to_list m' = to_list m) /\
    len m' = if mem k m then pred (len m) else len m.
Proof. exact (fun K V KO => C03_pf). Qed.
Print Assumptions C03_remove.
Example C03_example : rmap to_list (remove 9 ex_map) = Ret [(3, 31); (5, 50); (10, 100); (11, 110)].
Proof. reflexivity. Qed.

(** C04: the claim holds except that, when the key is absent and the callback returns
    Nothing, the call may raise EffectError instead of returning an unchanged map. *)
Theorem C04_change_some : forall (K V : Type) (KO : KeyOrd K) W (m : tree K V) k (u : option V -> M W (option V)) w v w',
  Reach m -> u (try_find k m) w = (Ret (Some v), w') ->
  exists m', change k u m w = (Ret m', w') /\
    (forall k', assoc k' (to_list m') = if eqb k' k then Some (k, v) else assoc k' (to_list m)) /\
    (forall k', try_find k' m' = if eqb k' k then Some v else try_find k' m).
Proof. exact (fun K V KO => C04_some_pf). Qed.
Print Assumptions C04_change_some.

Theorem C04_change_none_partial : forall (K V : Type) (KO : KeyOrd K) W (m : tree K V) k (u : option V -> M W (option V)) w w',
  Reach m -> u (try_find k m) w = (Ret None, w') ->
  (exists m', change k u m w = (Ret m', w') /\
    (forall k', assoc k' (to_list m') = if eqb k' k then None else assoc k' (to_list m)) /\
    (forall k', try_find k' m' = if eqb k' k then None else try_find k' m)) \/
  (mem k m = false /\ change k u m w = (Raise EffectErrorExn, w')).
Proof. exact (fun K V KO => C04_none_pf). Qed.
Print Assumptions C04_change_none_partial.

(** exactly when it raises: an absent key whose search ends at a missing child *)
Theorem C04_change_absent_nothing_partial : forall (K V : Type) (KO : KeyOrd K) W (m : tree K V) k (u : option V -> M W (option V)) w w',
  Reach m -> mem k m = false -> u None w = (Ret None, w') ->
  (falls_off k m -> change k u m w = (Raise EffectErrorExn, w')) /\
  (~ falls_off k m -> exists m', change k u m w = (Ret m', w') /\ to_list m' = to_list m).
Proof. exact (fun K V KO => C04_absent_pf). Qed.
Print Assumptions C04_change_absent_nothing_partial.
Example C04_falls_off_case : mem 4 ex_map = false /\ ~ falls_off 4 ex_map /\ mem 2 ex_map = false /\ falls_off 2 ex_map.
Proof.
  split; [reflexivity|]. split; [|split; [reflexivity|]].
  - vm_compute. intros F. repeat match goal with X : falls_off _ _ |- _ => inversion X; clear X; subst end; discriminate.
  - vm_compute. repeat (first [apply fo_empty | apply fo_left; [reflexivity|] | apply fo_right; [reflexivity|]]).
Qed.

Theorem C04_change_raise : forall (K V : Type) (KO : KeyOrd K) W (m : tree K V) k (u : option V -> M W (option V)) w e w',
  Reach m -> u (try_find k m) w = (Raise e, w') -> change k u m w = (Raise e, w').
Proof. exact (fun K V KO => C04_raise_pf). Qed.
Print Assumptions C04_change_raise.

(** Two maps with the same bindings: on one, [change(3, lambda _: Nothing)] returns the
    map unchanged, on the other it raises. *)
Theorem C04_change_absent_nothing_refuted :
  exists (m1 m2 m2' : tree nat nat), Reach m1 /\ Reach m2 /\ to_list m1 = to_list m2 /\
    mem 3 m1 = false /\ mem 3 m2 = false /\
    change (W := unit) 3 (fun _ => ret None) m1 tt = (Raise EffectErrorExn, tt) /\
    change (W := unit) 3 (fun _ => ret None) m2 tt = (Ret m2', tt) /\ to_list m2' = to_list m2.
Proof. exact C04_refuted_pf. Qed.
Print Assumptions C04_change_absent_nothing_refuted.
Example C04_example :
  let u := fun o => fun w : list (option nat) => (Ret (match o with Some v => Some (v + 1) | None => None end), o :: w) in
  exists m', change 5 u ex_map [] = (Ret m', [Some 50]) /\ try_find 5 m' = Some 51.
Proof. eexists. split; reflexivity. Qed.

(** C05. *)
Theorem C05_iteration_sorted : forall (K V : Type) (KO : KeyOrd K) (m : tree K V), Reach m ->
  ascending (to_list m) /\
  (forall k v, (exists k', eqb k k' = true /\ In (k', v) (to_list m)) <-> try_find k m = Some v) /\
  (forall n fuel, len m < n -> depth m + 2 <= fuel ->
     to_seq n fuel m = Ret (to_list m) /\
     keys n fuel m = Ret (List.map fst (to_list m)) /\
     items n fuel m = Ret (to_list m)).
Proof. exact (fun K V KO => C05_pf). Qed.
Print Assumptions C05_iteration_sorted.
Example C05_example : to_seq 6 5 ex_map = Ret [(3, 31); (5, 50); (9, 90); (10, 100); (11, 110)].
Proof. reflexivity. Qed.

(** C06: the only exceptions are those of the callbacks (and the EffectError of C04). *)
Theorem C06_no_internal_errors : forall (K V : Type) (KO : KeyOrd K) (m : tree K V), Reach m ->
  (forall k v, exists m', add k v m = Ret m') /\
  (forall k, exists m', remove k m = Ret m') /\
  (forall W (p : K -> V -> M W bool) w e w', filter p m w = (Raise e, w') ->
     exists k v w1, In (k, v) (to_list m) /\ p k v w1 = (Raise e, w')) /\
  (forall W (p : K -> V -> M W bool) w e w', partition p m w = (Raise e, w') ->
     exists k v w1, In (k, v) (to_list m) /\ p k v w1 = (Raise e, w')) /\
  (forall W (u : option V -> M W (option V)) k w e w', change k u m w = (Raise e, w') ->
     e = EffectErrorExn \/ u (try_find k m) w = (Raise e, w')) /\
  (forall n fuel, len m < n -> depth m + 2 <= fuel -> exists l, to_seq n fuel m = Ret l).
Proof. exact (fun K V KO => C06_pf). Qed.
Print Assumptions C06_no_internal_errors.
Example C06_example : filter (W := unit) (fun k _ => if k =? 9 then raise (UserExn 7) else ret true) ex_map tt = (Raise (UserExn 7), tt).
Proof. reflexivity. Qed.
(** the error branch is real code: an ill-formed tree does reach it *)
Example C06_example_branch : rebalance (Empty (K := nat) (V := nat)) 1 1 (Node 2 2 Empty Empty 9) <> Raise InternalError /\
  rebalance (Node 1 1 Empty (Leaf 5 5) 9) 1 1 (Empty (K := nat) (V := nat)) = Ret (Node 1 1 Empty (Node 1 1 (Leaf 5 5) Empty 2) 3).
Proof. split; [discriminate|reflexivity]. Qed.

(** C07. *)
Theorem C07_cached_heights_exact : forall (K V : Type) (KO : KeyOrd K) (m : tree K V), Reach m -> height m = depth m.
Proof. exact (fun K V KO => C07_height_pf). Qed.
Print Assumptions C07_cached_heights_exact.

Theorem C07_insertion_only_maps_are_logarithmic : forall (K V : Type) (KO : KeyOrd K) (m : tree K V), ReachAdd m ->
  balanced m /\ depth m <= 2 * Nat.log2 (len m + 1) + 1.
Proof. exact (fun K V KO m R => conj (proj1 (C07_log_pf m R)) (C07_log2_pf m R)). Qed.
Print Assumptions C07_insertion_only_maps_are_logarithmic.

Theorem C07_lookup_cost : forall (K V : Type) (KO : KeyOrd K) (m : tree K V) (k : K),
  fst (search k m) = try_find k m /\ snd (search k m) <= depth m.
Proof. exact (fun K V KO => search_ok). Qed.
Print Assumptions C07_lookup_cost.
Example C07_example : exists m : tree nat nat,
  of_list (List.map (fun k => (k, k)) (seq 1 100)) = Ret m /\ ReachAdd m /\ len m = 100 /\ depth m = 8.
Proof.
  eexists. split; [vm_compute; reflexivity|]. split; [|split; vm_compute; reflexivity].
  eapply RA_of_block with (xs := List.map (fun k => (k, k)) (seq 1 100)). vm_compute. reflexivity.
Qed.

(** C08: removal never makes the tree higher, but it can leave a node whose subtrees
    differ by more than the tolerance of 2. *)
Theorem C08_remove_height_partial : forall (K V : Type) (KO : KeyOrd K) (m : tree K V) (k : K), Reach m ->
  exists m', remove k m = Ret m' /\ depth m' <= depth m.
Proof. exact (fun K V KO => C08_height_pf). Qed.
Print Assumptions C08_remove_height_partial.

Theorem C08_removal_keeps_balance_refuted : exists m : tree nat nat, Reach m /\ ~ balanced m.
Proof. exact C08_refuted_pf. Qed.
Print Assumptions C08_removal_keeps_balance_refuted.
(** Removals can turn a map into a linear list: for every size there is a map in which a
    lookup compares as many keys as the map has. *)
Theorem C08_lookups_stay_logarithmic_refuted : forall n, 0 < n -> exists (m : tree nat nat) k v, Reach m /\ len m = n /\
  depth m = n /\ try_find k m = Some v /\ search k m = (Some v, n).
Proof. exact C08_linear_pf. Qed.
Print Assumptions C08_lookups_stay_logarithmic_refuted.
(** What is left: the depth stays logarithmic in the size before the removals. *)
Theorem C08_removals_partial : forall (K V : Type) (KO : KeyOrd K) (m : tree K V) (ks : list K) (m' : tree K V), ReachAdd m ->
  fold_left (fun (x : res (tree K V)) k => rbind x (remove k)) ks (Ret m) = Ret m' -> depth m' <= 2 * Nat.log2 (len m + 1) + 1.
Proof. exact C08_removals_pf. Qed.
Print Assumptions C08_removals_partial.
(** change makes the tree higher by at most one, and not when it removes. *)
Theorem C08_change_height_partial : forall (K V : Type) (KO : KeyOrd K) W (m : tree K V) k (u : option V -> M W (option V)) w m' w', Reach m ->
  change k u m w = (Ret m', w') -> depth m' <= S (depth m) /\ (fst (u (try_find k m) w) = Ret None -> depth m' <= depth m).
Proof. exact C08_change_pf. Qed.
Print Assumptions C08_change_height_partial.
Example C08_change_example : exists m', change (W := unit) 9 (fun _ => ret None) ex_map tt = (Ret m', tt) /\ depth m' = 3.
Proof. eexists. split; reflexivity. Qed.
Example C08_example : exists m', remove 9 ex_map = Ret m' /\ depth m' = 3 /\ depth ex_map = 3.
Proof. eexists. repeat split. Qed.

(** C09. *)
Theorem C09_find_getitem_contains : forall (K V : Type) (KO : KeyOrd K) (m : tree K V) (k : K), Reach m ->
  (forall v, getitem k m = Ret v <-> try_find k m = Some v) /\
  (getitem k m = Raise KeyError <-> try_find k m = None) /\
  (mem k m = true <-> exists v, try_find k m = Some v).
Proof. exact (fun K V KO => C09_pf). Qed.
Print Assumptions C09_find_getitem_contains.
Theorem C09_try_get_value : forall (K V : Type) (KO : KeyOrd K) (os : list (op K V)) (k : K) (value : list V),
  try_get_value k value (m_run os) =
  match d_run os k with Some (_, v) => (true, value ++ [v]) | None => (false, value) end.
Proof. intros. unfold try_get_value. rewrite (proj1 (C01_map_refines_dictionary K V KO os)). destruct (d_run os k) as [[k' v]|]; reflexivity. Qed.
Print Assumptions C09_try_get_value.
Example C09_try_get_value_ex : try_get_value 9 [1] (m_run ex_ops) = (true, [1; 90]) /\ try_get_value 8 [1] (m_run ex_ops) = (false, [1]).
Proof. split; reflexivity. Qed.
Example C09_example : getitem 10 ex_map = Ret 100 /\ getitem 8 ex_map = Raise KeyError.
Proof. split; reflexivity. Qed.

(** C10: [filterM]/[partitionM] over the list of bindings fix which bindings are kept,
    that the predicate is called once per binding, the order of the calls and the
    propagation of exceptions.  partition visits in descending key order. *)
Theorem C10_filter : forall (K V : Type) (KO : KeyOrd K) W (p : K -> V -> M W bool) (m : tree K V) w, Reach m ->
  match filterM (fun kv => p (fst kv) (snd kv)) (to_list m) w with
  | (Ret kept, w') => exists m', filter p m w = (Ret m', w') /\ to_list m' = kept
  | (Raise e, w') => filter p m w = (Raise e, w')
  end.
Proof. exact (fun K V KO => C10_filter_pf). Qed.
Print Assumptions C10_filter.

Theorem C10_partition : forall (K V : Type) (KO : KeyOrd K) W (p : K -> V -> M W bool) (m : tree K V) w, Reach m ->
  match partitionM (fun kv => p (fst kv) (snd kv)) (rev (to_list m)) w with
  | (Ret (yes, no), w') =>
      exists m1 m2, partition p m w = (Ret (m1, m2), w') /\ to_list m1 = rev yes /\ to_list m2 = rev no
  | (Raise e, w') => partition p m w = (Raise e, w')
  end.
Proof. exact (fun K V KO => C10_partition_pf). Qed.
Print Assumptions C10_partition.
Example C10_example :
  let p := fun (k _ : nat) (w : list nat) => (Ret (Nat.even k), k :: w) in
  exists m1 m2, partition p ex_map [] = (Ret (m1, m2), [3; 5; 9; 10; 11]) /\
    to_list m1 = [(10, 100)] /\ to_list m2 = [(3, 31); (5, 50); (9, 90); (11, 110)].
Proof. do 2 eexists. repeat split. Qed.

(** C11. *)
Theorem C11_map : forall (K V : Type) (KO : KeyOrd K) W R (f : K -> V -> M W R) (m : tree K V) w,
  match mapM (fun kv => do y <- f (fst kv) (snd kv); ret (fst kv, y)) (to_list m) w with
  | (Ret l', w') => exists m' : tree K R, map f m w = (Ret m', w') /\ to_list m' = l' /\ depth m' = depth m
  | (Raise e, w') => map f m w = (Raise e, w')
  end.
Proof. exact (fun K V KO => C11_pf). Qed.
Print Assumptions C11_map.
Example C11_example :
  let f := fun (k v : nat) (w : list nat) => (Ret (Nat.even k), k :: w) in
  exists m', map f ex_map [] = (Ret m', [11; 10; 9; 5; 3]) /\ try_find 10 m' = Some true.
Proof. eexists. split; reflexivity. Qed.

(** C12. *)
Theorem C12_fold : forall (K V : Type) (KO : KeyOrd K) W R (f : R -> K * V -> M W R) (m : tree K V) x w,
  fold f x m w = foldM f x (to_list m) w.
Proof. exact (fun K V KO => C12_fold_pf). Qed.
Print Assumptions C12_fold.
Theorem C12_fold_back : forall (K V : Type) (KO : KeyOrd K) W R (f : K * V -> R -> M W R) (m : tree K V) x w,
  fold_back f m x w = foldM (fun x kv => f kv x) x (rev (to_list m)) w.
Proof. exact (fun K V KO => C12_fold_back_pf). Qed.
Print Assumptions C12_fold_back.
Theorem C12_iterate : forall (K V : Type) (KO : KeyOrd K) W (f : K -> V -> M W unit) (m : tree K V) w,
  iter f m w = iterM (fun kv => f (fst kv) (snd kv)) (to_list m) w.
Proof. exact (fun K V KO => C12_iter_pf). Qed.
Print Assumptions C12_iterate.
(** the order itself: each binding once, in ascending order of the keys *)
Theorem C12_key_order : forall (K V : Type) (KO : KeyOrd K) (m : tree K V), Reach m ->
  exists bs, ascending bs /\ (forall k, try_find k m = option_map snd (assoc k bs)) /\
    (forall W R (f : R -> K * V -> M W R) x w, fold f x m w = foldM f x bs w) /\
    (forall W R (f : K * V -> R -> M W R) x w, fold_back f m x w = foldM (fun x kv => f kv x) x (rev bs) w) /\
    (forall W (f : K -> V -> M W unit) w, iter f m w = iterM (fun kv => f (fst kv) (snd kv)) bs w).
Proof. exact (fun K V KO => C12_order_pf). Qed.
Print Assumptions C12_key_order.
Example C12_example : fold_back (W := unit) (fun kv acc => ret (fst kv :: acc)) ex_map [] tt = (Ret [3; 5; 9; 10; 11], tt) /\
  fold (W := unit) (fun acc kv => ret (fst kv :: acc)) [] ex_map tt = (Ret [11; 10; 9; 5; 3], tt).
Proof. split; reflexivity. Qed.

(** C13. *)
Theorem C13_try_pick : forall (K V : Type) (KO : KeyOrd K) W R (f : K -> V -> M W (option R)) (m : tree K V) w,
  try_pick f m w = firstM (fun kv => f (fst kv) (snd kv)) (to_list m) w.
Proof. exact (fun K V KO => C13_try_pick_pf). Qed.
Print Assumptions C13_try_pick.
Theorem C13_exists : forall (K V : Type) (KO : KeyOrd K) W (f : K -> V -> M W bool) (m : tree K V) w,
  exists_ f m w = existsM (fun kv => f (fst kv) (snd kv)) (to_list m) w.
Proof. exact (fun K V KO => C13_exists_pf). Qed.
Print Assumptions C13_exists.
Theorem C13_for_all : forall (K V : Type) (KO : KeyOrd K) W (f : K -> V -> M W bool) (m : tree K V) w,
  forall_ f m w = forallM (fun kv => f (fst kv) (snd kv)) (to_list m) w.
Proof. exact (fun K V KO => C13_forall_pf). Qed.
Print Assumptions C13_for_all.
Theorem C13_key_order : forall (K V : Type) (KO : KeyOrd K) (m : tree K V), Reach m ->
  exists bs, ascending bs /\ (forall k, try_find k m = option_map snd (assoc k bs)) /\
    (forall W R (f : K -> V -> M W (option R)) w, try_pick f m w = firstM (fun kv => f (fst kv) (snd kv)) bs w) /\
    (forall W (f : K -> V -> M W bool) w, exists_ f m w = existsM (fun kv => f (fst kv) (snd kv)) bs w) /\
    (forall W (f : K -> V -> M W bool) w, forall_ f m w = forallM (fun kv => f (fst kv) (snd kv)) bs w).
Proof. exact (fun K V KO => C13_order_pf). Qed.
Print Assumptions C13_key_order.
Example C13_example :
  try_pick (fun k v w => (Ret (if 4 <? k then Some v else None), k :: w)) ex_map [] = (Ret (Some 50), [5; 3]).
Proof. reflexivity. Qed.

(** C14: the value is right; the exception is EffectError, never KeyError. *)
Theorem C14_pick_partial : forall (K V : Type) (KO : KeyOrd K) W R (f : K -> V -> M W (option R)) (m : tree K V) w,
  pick f m w =
  match firstM (fun kv => f (fst kv) (snd kv)) (to_list m) w with
  | (Ret (Some r), w') => (Ret r, w')
  | (Ret None, w') => (Raise EffectErrorExn, w')
  | (Raise e, w') => (Raise e, w')
  end.
Proof. exact (fun K V KO => C14_pf). Qed.
Print Assumptions C14_pick_partial.
Theorem C14_pick_keyerror_refuted : exists m : tree nat nat, Reach m /\
  exists chooser : nat -> nat -> M unit (option nat),
    (forall k v w, chooser k v w = (Ret None, w)) /\ fst (pick chooser m tt) <> Raise KeyError.
Proof. exact C14_refuted_pf. Qed.
Print Assumptions C14_pick_keyerror_refuted.
Example C14_example : pick (W := unit) (fun k v => ret (if 4 <? k then Some v else None)) ex_map tt = (Ret 50, tt).
Proof. reflexivity. Qed.

(** C15: [m1 == m2] is "the bindings of m1 are a prefix of those of m2". *)
Theorem C15_equality_is_prefix_partial : forall (K V : Type) (KO : KeyOrd K) (veq : V -> V -> bool) (m1 m2 : tree K V) n fuel,
  len m1 < n -> depth m1 + 2 <= fuel -> depth m2 + 2 <= fuel ->
  exists b, map_eq veq n fuel m1 m2 = Ret b /\
    (b = true <-> exists front back, to_list m2 = front ++ back /\
       Forall2 (fun x y => eqb (fst x) (fst y) = true /\ veq (snd x) (snd y) = true) (to_list m1) front).
Proof. exact (fun K V KO => C15_prefix_pf). Qed.
Print Assumptions C15_equality_is_prefix_partial.
Theorem C15_equality_same_length_partial : forall (K V : Type) (KO : KeyOrd K) (veq : V -> V -> bool) (m1 m2 : tree K V) n fuel,
  len m1 < n -> depth m1 + 2 <= fuel -> depth m2 + 2 <= fuel -> len m1 = len m2 ->
  exists b, map_eq veq n fuel m1 m2 = Ret b /\
    (b = true <->
       Forall2 (fun x y => eqb (fst x) (fst y) = true /\ veq (snd x) (snd y) = true) (to_list m1) (to_list m2)).
Proof. exact (fun K V KO => C15_same_len_pf). Qed.
Print Assumptions C15_equality_same_length_partial.
(** the laws that are left: reflexive and transitive where the values' own == is *)
Theorem C15_laws_partial : forall (K V : Type) (KO : KeyOrd K) (veq : V -> V -> bool) (m1 m2 m3 : tree K V) n fuel,
  len m1 < n -> len m2 < n -> depth m1 + 2 <= fuel -> depth m2 + 2 <= fuel -> depth m3 + 2 <= fuel ->
  ((forall v, veq v v = true) -> map_eq veq n fuel m1 m1 = Ret true) /\
  ((forall u v w, veq u v = true -> veq v w = true -> veq u w = true) ->
   map_eq veq n fuel m1 m2 = Ret true -> map_eq veq n fuel m2 m3 = Ret true -> map_eq veq n fuel m1 m3 = Ret true).
Proof. exact (fun K V KO => C15_laws_pf). Qed.
Print Assumptions C15_laws_partial.
(** not symmetric, not transitive with its converse, equal maps with different hashes,
    and two different maps both equal to a third *)
Theorem C15_equality_refuted : exists m1 m2 : tree nat nat, Reach m1 /\ Reach m2 /\
  (forall n fuel, 3 < n -> 5 <= fuel ->
    map_eq Nat.eqb n fuel m1 m2 = Ret true /\ map_eq Nat.eqb n fuel m2 m1 = Ret false /\
    exists h1 h2, map_hash Z.of_nat Z.of_nat n fuel m1 = Ret h1 /\ map_hash Z.of_nat Z.of_nat n fuel m2 = Ret h2 /\ h1 <> h2) /\
  to_list m1 <> to_list m2.
Proof. exact C15_refuted_pf. Qed.
Print Assumptions C15_equality_refuted.
Example C15_example : map_eq Nat.eqb 10 10 ex_map ex_map = Ret true.
Proof. reflexivity. Qed.

(** C16. *)
Theorem C16_history_independent : forall (K V : Type) (KO : KeyOrd K) (veq : V -> V -> bool) (khash : K -> Z) (vhash : V -> Z)
    (show : K * V -> string) (m1 m2 : tree K V) n fuel, Reach m1 -> Reach m2 ->
  (forall k1 k2, eqb k1 k2 = true -> khash k1 = khash k2) ->
  (forall v1 v2, veq v1 v2 = true -> veq v2 v1 = true /\ vhash v1 = vhash v2) ->
  (forall a b, eqb (fst a) (fst b) = true -> veq (snd a) (snd b) = true -> show a = show b) ->
  (forall k, match try_find k m1, try_find k m2 with
             | Some v1, Some v2 => veq v1 v2 = true
             | None, None => True
             | _, _ => False
             end) ->
  len m1 < n -> depth m1 + 2 <= fuel -> depth m2 + 2 <= fuel ->
  len m1 = len m2 /\
  map_eq veq n fuel m1 m2 = Ret true /\ map_eq veq n fuel m2 m1 = Ret true /\
  map_hash khash vhash n fuel m1 = map_hash khash vhash n fuel m2 /\
  map_str show n fuel m1 = map_str show n fuel m2.
Proof. exact (fun K V KO => C16_pf). Qed.
Print Assumptions C16_history_independent.
(** Every value counts: maps that differ in the hash of one value only have different
    hashes ([map_hash] is the int __hash__ returns, before hash() reduces large ones). *)
Theorem C16_hash_reads_every_value : forall (K V : Type) (KO : KeyOrd K) (khash : K -> Z) (vhash : V -> Z) k v1 v2
    (m1 m2 : tree K V) n fuel, Reach m1 -> Reach m2 ->
  (forall k1 k2, eqb k1 k2 = true -> khash k1 = khash k2) ->
  try_find k m1 = Some v1 -> try_find k m2 = Some v2 -> vhash v1 <> vhash v2 ->
  (forall k', eqb k k' = false -> option_map vhash (try_find k' m1) = option_map vhash (try_find k' m2)) ->
  len m1 < n -> depth m1 + 2 <= fuel -> depth m2 + 2 <= fuel ->
  exists h1 h2, map_hash khash vhash n fuel m1 = Ret h1 /\ map_hash khash vhash n fuel m2 = Ret h2 /\ h1 <> h2.
Proof. exact (fun K V KO => C16_hash_pf). Qed.
Print Assumptions C16_hash_reads_every_value.
Example C16_hash_reads_every_value_ex :
  let a := m_run (List.map (fun k => OAdd k (10 * k)) [1; 2; 3]) in
  let b := m_run (List.map (fun k => OAdd k (10 * k)) [3; 2; 1] ++ [OAdd 2 7]) in
  try_find 2 a = Some 20 /\ try_find 2 b = Some 7 /\ map_hash Z.of_nat Z.of_nat 9 9 a <> map_hash Z.of_nat Z.of_nat 9 9 b.
Proof. repeat split; vm_compute; discriminate. Qed.
(** two differently shaped trees with the same bindings *)
Example C16_example :
  let a := m_run (List.map (fun k => OAdd k (10 * k)) [1; 2; 3; 4; 5; 6]) in
  let b := m_run (List.map (fun k => OAdd k (10 * k)) [6; 5; 4; 9; 3; 2; 1] ++ [ORemove 9]) in
  a <> b /\ to_list a = to_list b /\ map_hash Z.of_nat Z.of_nat 9 9 a = map_hash Z.of_nat Z.of_nat 9 9 b.
Proof. split; [vm_compute; discriminate|split; reflexivity]. Qed.

(** C17. *)
Theorem C17_of_seq_last_wins : forall (K V : Type) (KO : KeyOrd K) (xs : list (K * V)),
  exists m, of_list xs = Ret m /\ of_seq None xs = Ret m /\
    lists (to_list m) (d_of_list xs) /\
    (forall k, try_find k m = option_map snd (List.find (fun kv => eqb k (fst kv)) (rev xs))).
Proof. exact (fun K V KO => C17_pf). Qed.
Print Assumptions C17_of_seq_last_wins.
Theorem C17_round_trip : forall (K V : Type) (KO : KeyOrd K) (m : tree K V), Reach m ->
  exists m', of_list (to_list m) = Ret m' /\ to_list m' = to_list m.
Proof. exact (fun K V KO => C17_roundtrip_pf). Qed.
Print Assumptions C17_round_trip.
Example C17_example : rmap to_list (of_list [(2, 1); (1, 2); (2, 3)]) = Ret [(1, 2); (2, 3)].
Proof. reflexivity. Qed.

(** C18: with a stack of [limit] frames available, of_seq fails on every input of that
    length or more; of_block does not depend on it. *)
Theorem C18_of_seq_stack_partial : forall (K V : Type) (KO : KeyOrd K) limit (xs : list (K * V)),
  (List.length xs < limit -> of_seq (Some limit) xs = of_list xs) /\
  (limit <= List.length xs -> of_seq (Some limit) xs = Raise RecursionError) /\
  exists m, of_list xs = Ret m.
Proof. exact (fun K V KO => C18_pf). Qed.
Print Assumptions C18_of_seq_stack_partial.
Theorem C18_of_seq_stack_refuted : forall limit : nat,
  exists xs : list (nat * nat), of_seq (Some limit) xs = Raise RecursionError /\ exists m, of_list xs = Ret m.
Proof. exact C18_refuted_pf. Qed.
Print Assumptions C18_of_seq_stack_refuted.
Example C18_example : of_seq (Some 3) [(1, 1); (2, 2); (3, 3)] = Raise RecursionError.
Proof. reflexivity. Qed.
