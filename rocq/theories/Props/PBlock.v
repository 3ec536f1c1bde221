(** Property theorems C19-C26 and C73 (Block). *)
From Coq Require Import List ZArith Bool Sorting.Permutation Sorting.Sorted.
From Verif.Model Require Import Base PyList OptionResult Block.
From Verif.Spec Require Import ListM BlockSpec KeyInstances.
From Verif.Proofs Require Import BlockFacts.
Import ListNotations.
Local Open Scope py_scope.

(** C19. *)
Theorem C19_append : forall A (xs ys zs : block A),
  append (append xs ys) zs = append xs (append ys zs) /\ append [] xs = xs /\ append xs [] = xs /\
  length (append xs ys) = length xs + length ys /\
  (forall i, (0 <= i < Z.of_nat (length xs))%Z -> item (append xs ys) i = item xs i) /\
  (forall i, (0 <= i)%Z -> item (append xs ys) (Z.of_nat (length xs) + i) = item ys i).
Proof. exact C19_append_pf. Qed.
Print Assumptions C19_append.
Theorem C19_cons_head_tail : forall A (xs : block A) x,
  head (cons xs x) = Ret x /\ tail (cons xs x) = Ret xs /\ try_head (cons xs x) = Some x /\
  is_empty (cons xs x) = false /\ length (cons xs x) = S (length xs) /\
  (is_empty xs = false -> exists h t, head xs = Ret h /\ tail xs = Ret t /\ try_head xs = Some h /\ xs = cons t h) /\
  (is_empty xs = true -> head xs = Raise ValueError /\ tail xs = Raise ValueError /\ try_head xs = None /\ xs = []).
Proof. exact C19_cons_pf. Qed.
Print Assumptions C19_cons_head_tail.
Theorem C19_item : forall A (xs : block A) i,
  (forall x, item xs i = Ret x <-> at_index xs i x) /\
  ((i < - Z.of_nat (length xs) \/ Z.of_nat (length xs) <= i)%Z <-> item xs i = Raise IndexError).
Proof. exact C19_item_pf. Qed.
Print Assumptions C19_item.
Theorem C19_contains : forall A same eq (xs : block A) x,
  contains same eq xs x = true <-> exists v, In v xs /\ (same v x = true \/ eq v x = true).
Proof. exact C19_contains_pf. Qed.
Print Assumptions C19_contains.
Theorem C19_concat : forall A (bs : list (block A)), concat bs = List.concat bs.
Proof. exact C19_concat_pf. Qed.
Print Assumptions C19_concat.
Example C19_example : item (append [1; 2] (cons [4] 3)) (-2) = Ret 3 /\ item [1; 2] 2 = Raise IndexError /\
  item [1; 2] (-3) = Raise IndexError /\ at_index [1; 2; 3] (-3) 1.
Proof. repeat split. exists [], [2; 3]. split; auto. Qed.

(** C20. *)
Theorem C20_take_skip : forall A (xs : block A) n, append (take xs n) (skip xs n) = xs.
Proof. exact C20_split_pf. Qed.
Print Assumptions C20_take_skip.
Theorem C20_take_first : forall A (xs : block A) n, (0 <= n)%Z ->
  take xs n = firstn (Z.to_nat n) xs /\ length (take xs n) = Nat.min (Z.to_nat n) (length xs).
Proof. exact C20_first_pf. Qed.
Print Assumptions C20_take_first.
Example C20_example : take [1; 2; 3] 2 = [1; 2] /\ skip [1; 2; 3] 2 = [3] /\ take [1; 2; 3] (-1) = [1; 2] /\ skip [1; 2; 3] (-7) = [1; 2; 3].
Proof. repeat split. Qed.

(** C21: holds for n >= 1; n = 0 gives the whole block for take_last and the empty one
    for skip_last. *)
Theorem C21_take_skip_last_partial : forall A (xs : block A) n, (1 <= n)%Z ->
  let k := length xs - Z.to_nat n in
  take_last xs n = skipn k xs /\ skip_last xs n = firstn k xs /\
  append (skip_last xs n) (take_last xs n) = xs /\
  length (take_last xs n) = Nat.min (Z.to_nat n) (length xs).
Proof. exact C21_pf. Qed.
Print Assumptions C21_take_skip_last_partial.
Theorem C21_zero_refuted : forall A (xs : block A), xs <> [] ->
  length (take_last xs 0) <> Nat.min 0 (length xs) /\ skip_last xs 0 <> xs.
Proof.
  exact (fun A xs N =>
    conj (eq_ind_r (fun t => length t <> 0) (fun E => N (proj1 (length_zero_iff_nil xs) E)) (proj1 (C21_zero_pf A xs)))
         (eq_ind_r (fun t => t <> xs) (fun E => N (eq_sym E)) (proj2 (C21_zero_pf A xs)))).
Qed.
Print Assumptions C21_zero_refuted.
Example C21_example : take_last [1; 2; 3] 2 = [2; 3] /\ skip_last [1; 2; 3] 2 = [1] /\ take_last [1; 2; 3] 5 = [1; 2; 3] /\
  take_last [1; 2; 3] 0 = [1; 2; 3].
Proof. repeat split. Qed.

(** C22: same results, calls, order of calls and exceptions as the list algorithms; but
    map, filter, choose, collect and mapi take a StopIteration of the callback for the end
    of the input, and forall turns it into a RuntimeError. *)
Theorem C22_map_partial : forall W A B (xs : block A) (f : A -> M W B) w,
  fst (mapM f xs w) <> Raise StopIterationExn -> map xs f w = mapM f xs w.
Proof. exact (fun W A B => map_mapM). Qed.
Print Assumptions C22_map_partial.
(** starmap, map2, map3: the elements are unpacked; one that cannot be is a TypeError *)
Theorem C22_starmap_partial : forall W X B (xs : list (list X)) (f : list X -> M W B) w,
  fst (mapM f xs w) <> Raise StopIterationExn -> starmap (List.map Args xs) f w = mapM f xs w.
Proof. exact (fun W X B => starmap_pf). Qed.
Print Assumptions C22_starmap_partial.
Theorem C22_starmap_not_iterable : forall W X B (xs : list (list X)) x (rest : list (star X)) (f : list X -> M W B) w,
  fst (mapM f xs w) <> Raise StopIterationExn ->
  starmap (List.map Args xs ++ NotIterable x :: rest) f w = (do _ <- mapM f xs; raise TypeError) w.
Proof. exact (fun W X B => starmap_not_iterable_pf). Qed.
Print Assumptions C22_starmap_not_iterable.
Theorem C22_filter_partial : forall W A (xs : block A) (p : A -> M W bool) w,
  fst (filterM p xs w) <> Raise StopIterationExn -> filter xs p w = filterM p xs w.
Proof. exact (fun W A => filter_pf). Qed.
Print Assumptions C22_filter_partial.
Theorem C22_choose_partial : forall W A B (xs : block A) (f : A -> M W (option B)) w,
  fst (mapM f xs w) <> Raise StopIterationExn ->
  choose xs f w = (do os <- mapM f xs; ret (flat_map (fun o => match o with Some y => [y] | None => [] end) os)) w.
Proof. exact choose_pf. Qed.
Print Assumptions C22_choose_partial.
Theorem C22_collect_partial : forall W A B (xs : block A) (f : A -> M W (block B)) w,
  fst (mapM f xs w) <> Raise StopIterationExn -> collect xs f w = (do yss <- mapM f xs; ret (List.concat yss)) w.
Proof. exact collect_pf. Qed.
Print Assumptions C22_collect_partial.
Theorem C22_mapi_partial : forall W A B (xs : block A) (f : Z -> A -> M W B) w,
  let m := mapM (fun ix => f (Z.of_nat (fst ix)) (snd ix)) (combine (seq 0 (length xs)) xs) in
  fst (m w) <> Raise StopIterationExn -> mapi xs f w = m w.
Proof. exact mapi_pf. Qed.
Print Assumptions C22_mapi_partial.
(** a callback that raises StopIteration at [x]: the call returns what it had before *)
Theorem C22_stop_iteration_refuted : forall W A pre (x : A) post w w1 w2,
  (forall B (f : A -> M W B) ys, mapM f pre w = (Ret ys, w1) -> f x w1 = (Raise StopIterationExn, w2) ->
     map (pre ++ x :: post) f w = (Ret ys, w2)) /\
  (forall (p : A -> M W bool) ys, filterM p pre w = (Ret ys, w1) -> p x w1 = (Raise StopIterationExn, w2) ->
     filter (pre ++ x :: post) p w = (Ret ys, w2)) /\
  (forall B (f : A -> M W (option B)) os, mapM f pre w = (Ret os, w1) -> f x w1 = (Raise StopIterationExn, w2) ->
     choose (pre ++ x :: post) f w = (Ret (flat_map (fun o => match o with Some y => [y] | None => [] end) os), w2)) /\
  (forall B (f : A -> M W (block B)) yss, mapM f pre w = (Ret yss, w1) -> f x w1 = (Raise StopIterationExn, w2) ->
     collect (pre ++ x :: post) f w = (Ret (List.concat yss), w2)) /\
  (forall B (f : Z -> A -> M W B) ys, mapM (fun ix => f (Z.of_nat (fst ix)) (snd ix)) (combine (seq 0 (length pre)) pre) w = (Ret ys, w1) ->
     f (Z.of_nat (length pre)) x w1 = (Raise StopIterationExn, w2) -> mapi (pre ++ x :: post) f w = (Ret ys, w2)).
Proof. exact stop_iteration_pf. Qed.
Print Assumptions C22_stop_iteration_refuted.
Example C22_stop_iteration_case :
  map [1; 2; 3] (fun x (w : list nat) => (if Nat.eqb x 2 then Raise StopIterationExn else Ret (x * 10), w ++ [x])) [] = (Ret [10], [1; 2]) /\
  mapM (fun x (w : list nat) => (if Nat.eqb x 2 then Raise StopIterationExn else Ret (x * 10), w ++ [x])) [1; 2; 3] [] = (Raise StopIterationExn, [1; 2]).
Proof. split; reflexivity. Qed.
Theorem C22_partition : forall W A (xs : block A) (p : A -> M W bool), partition xs p ==m partitionM p xs.
Proof. exact (fun W A => partition_pf). Qed.
Print Assumptions C22_partition.
Theorem C22_partition_interleaves : forall W A (xs : block A) (p : A -> M W bool) w ys zs w1,
  partition xs p w = (Ret (ys, zs), w1) -> interleave ys zs xs.
Proof. exact partition_interleave_pf. Qed.
Print Assumptions C22_partition_interleaves.
Theorem C22_fold : forall W A S (xs : block A) (s : S) (f : S -> A -> M W S), fold xs f s ==m foldM f s xs.
Proof. exact (fun W A S xs s f => for_in_foldM S xs s f). Qed.
Print Assumptions C22_fold.
Theorem C22_forall_partial : forall W A (xs : block A) (p : A -> M W bool), forall_ xs p ==m outside (forallM p xs).
Proof. exact (fun W A => forall_pf). Qed.
Print Assumptions C22_forall_partial.
Example C22_starmap_case :
  let f (l : list nat) (w : nat) := (match l with [a; b] => Ret (a + b) | _ => Raise TypeError end, S w) in
  starmap [Args [1; 2]; Args [3; 4]] f 0 = (Ret [3; 7], 2) /\ starmap [Args [1; 2]; Args [3]; Args [4; 5]] f 0 = (Raise TypeError, 2) /\
  starmap [Args [1; 2]; NotIterable 3; Args [4; 5]] f 0 = (Raise TypeError, 1).
Proof. repeat split. Qed.
Example C22_example :
  choose [1; 2; 3] (fun x (w : list nat) => (Ret (if Nat.even x then Some (x * 10) else None), w ++ [x])) [] = (Ret [20], [1; 2; 3]) /\
  filter [1; 2; 3] (fun x (w : list nat) => (if Nat.eqb x 2 then Raise (UserExn x) else Ret true, w ++ [x])) [] = (Raise (UserExn 2), [1; 2]) /\
  partition [1; 2; 3] (fun x (w : list nat) => (Ret (Nat.odd x), w ++ [x])) [] = (Ret ([1; 3], [2]), [1; 2; 3]).
Proof. repeat split. Qed.

(** C23: the indices always start at 0; the parameter [start] is ignored. *)
Theorem C23_indexed_partial : forall A (xs : block A) start i,
  nth_error (indexed xs start) i = option_map (fun x => (Z.of_nat i, x)) (nth_error xs i).
Proof. exact indexed_nth. Qed.
Print Assumptions C23_indexed_partial.
Theorem C23_start_refuted : exists (xs : block nat) start,
  ~ (forall i, nth_error (indexed xs start) i = option_map (fun x => (start + Z.of_nat i, x)%Z) (nth_error xs i)).
Proof. exact C23_refuted_pf. Qed.
Print Assumptions C23_start_refuted.
Example C23_example : indexed [7; 8] 0 = [(0%Z, 7); (1%Z, 8)].
Proof. reflexivity. Qed.

(** C24. *)
Theorem C24_zip : forall A B (xs : block A) (ys : block B),
  length (zip xs ys) = Nat.min (length xs) (length ys) /\
  forall i, nth_error (zip xs ys) i = match nth_error xs i, nth_error ys i with Some x, Some y => Some (x, y) | _, _ => None end.
Proof. exact zip_pf. Qed.
Print Assumptions C24_zip.
(** unfold ends with a result exactly when the generator does ([outside]: a StopIteration
    it raises comes out as a RuntimeError); [OutOfFuel] only marks the bound of the model *)
Theorem C24_unfold : forall W S B (f : S -> M W (option (B * S))) s w r w1, r <> Raise OutOfFuel ->
  ((exists fuel, unfold fuel f s [] w = (r, w1)) <-> generates (fun s => outside (f s)) s w r w1).
Proof. exact (fun W S B => unfold_pf). Qed.
Print Assumptions C24_unfold.
Theorem C24_unfold_calls : forall S B (g : S -> option (B * S)) fuel s n l n1,
  unfold fuel (fun s n => (Ret (g s), Datatypes.S n)) s [] n = (Ret l, n1) -> n1 = n + length l + 1.
Proof. exact unfold_calls_pf. Qed.
Print Assumptions C24_unfold_calls.
Theorem C24_reduce : forall W A (f : A -> A -> M W A) x (xs : block A),
  reduce (x :: xs) f ==m foldM f x xs /\ reduce [] f ==m raise ValueError.
Proof. exact (fun W A => reduce_pf). Qed.
Print Assumptions C24_reduce.
Example C24_example : zip [1; 2; 3] [4; 5] = [(1, 4); (2, 5)] /\
  unfold 9 (fun s (n : nat) => (Ret (if s <? 3 then Some (s * s, S s) else None), S n))%nat 0 [] 0 = (Ret [0; 1; 4], 4) /\
  reduce [8; 3; 2] (fun a b (w : unit) => (Ret (a - b), w)) tt = (Ret 3, tt).
Proof. repeat split. Qed.

(** C25. *)
Theorem C25_sort_with_effects : forall W A K (KO : KeyOrd K) (xs : block A) (func : A -> M W K) reverse w,
  match mapM func xs w with
  | (Ret keys, w1) => exists ps, sort_with xs func reverse w = (Ret (List.map snd ps), w1) /\ stably_sorts reverse (combine keys xs) ps
  | (Raise e, w1) => sort_with xs func reverse w = (Raise e, w1)
  end.
Proof. exact sort_with_pf. Qed.
Print Assumptions C25_sort_with_effects.
Theorem C25_sort_with : forall W A K (KO : KeyOrd K) (xs : block A) (key : A -> K) reverse (w : W),
  exists ys, sort_with xs (fun x => ret (key x)) reverse w = (Ret ys, w) /\ Permutation xs ys /\
    StronglySorted (fun x y => (if reverse then ltb (key x) (key y) else ltb (key y) (key x)) = false) ys /\
    (forall k, List.filter (fun x => eqb (key x) k) ys = List.filter (fun x => eqb (key x) k) xs).
Proof. exact sort_with_perm_pf. Qed.
Print Assumptions C25_sort_with.
Theorem C25_sort : forall W K (KO : KeyOrd K) (xs : block K) reverse (w : W),
  exists ys, sort xs reverse w = (Ret ys, w) /\ Permutation xs ys /\
    StronglySorted (fun x y => (if reverse then ltb x y else ltb y x) = false) ys /\
    (forall k, List.filter (fun x => eqb x k) ys = List.filter (fun x => eqb x k) xs).
Proof. exact (fun W K KO xs reverse w => sort_with_perm_pf W K K KO xs (fun x => x) reverse w). Qed.
Print Assumptions C25_sort.
Example C25_example :
  sort_with [(2, 1); (1, 2); (2, 3); (1, 4)] (fun x (w : unit) => (Ret (fst x), w)) false tt = (Ret [(1, 2); (1, 4); (2, 1); (2, 3)], tt) /\
  sort_with [(2, 1); (1, 2); (2, 3); (1, 4)] (fun x (w : unit) => (Ret (fst x), w)) true tt = (Ret [(2, 1); (2, 3); (1, 2); (1, 4)], tt).
Proof. split; reflexivity. Qed.

(** C26. *)
Theorem C26_elementwise : forall A (eq : A -> A -> bool) (xs ys : block A), (forall x y, eq x y = eq y x) ->
  (block_eq eq xs ys = true <-> elementwise eq xs ys) /\
  (block_eq_tuple eq xs ys = true <-> elementwise eq xs ys).
Proof. exact block_eq_pf. Qed.
Print Assumptions C26_elementwise.
Theorem C26_equivalence : forall A (eq : A -> A -> bool),
  (forall x, eq x x = true) -> (forall x y, eq x y = eq y x) -> (forall x y z, eq x y = true -> eq y z = true -> eq x z = true) ->
  forall xs ys zs : block A,
    block_eq eq xs xs = true /\ block_eq eq xs ys = block_eq eq ys xs /\
    (block_eq eq xs ys = true -> block_eq eq ys zs = true -> block_eq eq xs zs = true) /\
    (block_eq eq xs ys = true -> length xs = length ys).
Proof. exact block_eq_laws_pf. Qed.
Print Assumptions C26_equivalence.
Example C26_example : block_eq Nat.eqb [1; 2] [1; 2] = true /\ block_eq Nat.eqb [1; 2] [1] = false /\ block_eq Nat.eqb [] [1] = false.
Proof. repeat split. Qed.

(** C73. *)
Theorem C73_range : forall start stop step, step <> 0%Z ->
  exists l, range start stop step = Ret l /\
    (forall i x, nth_error l i = Some x -> x = (start + Z.of_nat i * step)%Z) /\
    (forall x, In x l <-> exists i, (0 <= i /\ x = start + i * step /\ if Z.ltb 0 step then x < stop else stop < x)%Z).
Proof. exact range_pf. Qed.
Print Assumptions C73_range.
Theorem C73_zero : forall start stop, range start stop 0 = Raise ValueError.
Proof. reflexivity. Qed.
Print Assumptions C73_zero.
Example C73_example : range 1 10 4 = Ret [1; 5; 9]%Z /\ range 5 0 (-2) = Ret [5; 3; 1]%Z /\ range 0 5 0 = Raise ValueError.
Proof. repeat split. Qed.
