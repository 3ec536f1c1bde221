(** Property theorems C34-C36 (TypedArray).  [plain] elements are those that are not
    instances of the library's own sized classes int8 ... double; [made] arrays are those
    constructed from anything and then mutated any number of times; [long64] tells
    whether a C long has 64 bits. *)
From Coq Require Import List ZArith Bool Lia.
From Verif.Model Require Import Base PyList OptionResult Array.
From Verif.Spec Require Import ListM BlockSpec ArraySpec KeyInstances.
From Verif.Proofs Require Import BlockFacts ArrayFacts ArrayFacts2 ArrayFacts3 ArraySlice.
Import ListNotations.
Local Open Scope py_scope.

(** C34: the list semantics holds for arrays of plain elements (always so for arrays with
    a fixed-width typecode); it fails for mixed arrays, for take_last/skip_last with 0 and
    for indexed with a start. *)
Theorem C34_construct_partial : forall F U (FF : Floats F) long64 (i : initializer F U) tc a,
  new long64 i tc = Ret a -> a_type a <> TFloat -> a_type a <> TDouble -> Forall2 same_value (a_elems a) (init_elems i).
Proof. exact (fun F U FF => construct_same_pf). Qed.
Print Assumptions C34_construct_partial.
Theorem C34_construct_plain_partial : forall F U (FF : Floats F) long64 (vs : list (pyval F U)), plain_first vs ->
  exists a, new long64 (FromIter vs) None = Ret a /\ a_elems a = vs /\ a_type a = TAny.
Proof. exact (fun F U FF l vs P => ex_intro _ _ (conj (construct_plain_pf l vs P) (conj eq_refl eq_refl))). Qed.
Print Assumptions C34_construct_plain_partial.
Theorem C34_typed_are_plain_partial : forall F U (FF : Floats F) long64 (a : tarray F U),
  made long64 a -> a_kind a <> KList -> Forall plain (a_elems a).
Proof. exact (fun F U FF => made_plain). Qed.
Print Assumptions C34_typed_are_plain_partial.
Theorem C34_take_skip_partial : forall F U (FF : Floats F) long64 (a : tarray F U) n,
  made long64 a -> Forall plain (a_elems a) ->
  exists t s, take long64 a n = Ret t /\ skip long64 a n = Ret s /\ a_elems t ++ a_elems s = a_elems a /\
    ((0 <= n)%Z -> a_elems t = firstn (Z.to_nat n) (a_elems a)) /\
    ((1 <= n)%Z -> exists t' s', take_last long64 a n = Ret t' /\ skip_last long64 a n = Ret s' /\
      a_elems s' ++ a_elems t' = a_elems a /\ a_elems t' = skipn (length (a_elems a) - Z.to_nat n) (a_elems a)).
Proof. exact (fun F U FF => C34_slices_pf). Qed.
Print Assumptions C34_take_skip_partial.
Theorem C34_head_tail_partial : forall F U (FF : Floats F) long64 (a : tarray F U),
  made long64 a -> Forall plain (a_elems a) ->
  match a_elems a with
  | [] => head a = Raise ValueError /\ tail long64 a = Raise ValueError /\ try_head a = None /\ is_empty a = true
  | x :: xs => head a = Ret x /\ (exists b, tail long64 a = Ret b /\ a_elems b = xs) /\ try_head a = Some x /\ is_empty a = false
  end.
Proof. exact (fun F U FF => tail_head_pf). Qed.
Print Assumptions C34_head_tail_partial.
Theorem C34_item_partial : forall F U (a : tarray F U) i,
  (forall x, item a i = Ret x <-> at_index (a_elems a) i x) /\
  ((i < - Z.of_nat (length (a_elems a)) \/ Z.of_nat (length (a_elems a)) <= i)%Z <-> item a i = Raise IndexError).
Proof. exact (fun F U a i => C19_item_pf _ (a_elems a) i). Qed.
Print Assumptions C34_item_partial.
(** callbacks: same calls, order of calls and exceptions as on a list, as long as no
    callback raises StopIteration *)
Theorem C34_map_partial : forall F U (FF : Floats F) long64 W (a : tarray F U) (f : pyval F U -> M W (pyval F U)) w,
  (forall x w y w1, f x w = (Ret y, w1) -> plain y) -> fst (mapM f (a_elems a) w) <> Raise StopIterationExn ->
  (do b <- map long64 a f; ret (a_elems b)) w = mapM f (a_elems a) w.
Proof. exact (fun F U FF l W => map_pf l). Qed.
Print Assumptions C34_map_partial.
Theorem C34_map_calls_partial : forall F U (FF : Floats F) long64 W (a : tarray F U) (f : pyval F U -> M W (pyval F U)) w,
  fst (mapM f (a_elems a) w) <> Raise StopIterationExn ->
  map long64 a f w = (do ys <- mapM f (a_elems a); lift (new long64 (FromIter ys) None)) w.
Proof. exact (fun F U FF l W => map_calls_pf l). Qed.
Print Assumptions C34_map_calls_partial.
Theorem C34_choose_partial : forall F U (FF : Floats F) long64 W (a : tarray F U) (f : pyval F U -> M W (option (pyval F U))) w,
  (forall x w y w1, f x w = (Ret (Some y), w1) -> plain y) -> fst (mapM f (a_elems a) w) <> Raise StopIterationExn ->
  (do b <- choose long64 a f; ret (a_elems b)) w =
  (do os <- mapM f (a_elems a); ret (flat_map (fun o => match o with Some y => [y] | None => [] end) os)) w.
Proof. exact (fun F U FF l W => choose_pf l). Qed.
Print Assumptions C34_choose_partial.
Theorem C34_collect_partial : forall F U (FF : Floats F) long64 W (a : tarray F U) (f : pyval F U -> M W (tarray F U)) w,
  (forall x w b w1, f x w = (Ret b, w1) -> Forall plain (a_elems b)) -> fst (mapM f (a_elems a) w) <> Raise StopIterationExn ->
  (do b <- collect long64 a f; ret (a_elems b)) w = (do bs <- mapM f (a_elems a); ret (List.concat (List.map (@a_elems F U) bs))) w.
Proof. exact (fun F U FF l W => collect_pf l). Qed.
Print Assumptions C34_collect_partial.
Theorem C34_filter_partial : forall F U (FF : Floats F) long64 W (a : tarray F U) (p : pyval F U -> M W bool), made long64 a ->
  (forall w, fst (filterM p (a_elems a) w) <> Raise StopIterationExn ->
     (do b <- filter long64 a p; ret (a_elems b)) w = filterM p (a_elems a) w) /\
  (forall w b w1, filter long64 a p w = (Ret b, w1) -> a_type b = a_type a).
Proof. exact (fun F U FF l W a p D => conj (fun w => filter_pf l a p w D) (filter_type_pf l a p)). Qed.
Print Assumptions C34_filter_partial.
(** a callback that raises StopIteration at [x]: the call returns what it had before, no
    exception reaches the caller *)
Theorem C34_stop_iteration_refuted : forall F U (FF : Floats F) long64 W (a : tarray F U) pre x post w w1 w2,
  a_elems a = pre ++ x :: post ->
  (forall f ys, mapM f pre w = (Ret ys, w1) -> f x w1 = (Raise StopIterationExn, w2) ->
     map long64 a f (w : W) = (new long64 (FromIter ys) None, w2)) /\
  (forall f bs, mapM f pre w = (Ret bs, w1) -> f x w1 = (Raise StopIterationExn, w2) ->
     collect long64 a f w = (new long64 (FromIter (List.concat (List.map (@a_elems F U) bs))) None, w2)) /\
  (forall f os, (forall x w y w1, f x w = (Ret (Some y), w1) -> plain y) ->
     mapM f pre w = (Ret os, w1) -> f x w1 = (Raise StopIterationExn, w2) ->
     choose long64 a f w = (new long64 (FromIter (flat_map (fun o => match o with Some y => [y] | None => [] end) os)) None, w2)) /\
  (forall p ys, made long64 a -> filterM p pre w = (Ret ys, w1) -> p x w1 = (Raise StopIterationExn, w2) ->
     (do b <- filter long64 a p; ret (a_elems b)) w = (Ret ys, w2)).
Proof. exact (fun F U FF l W => stop_iteration_pf l). Qed.
Print Assumptions C34_stop_iteration_refuted.
Example C34_stop_iteration_case : forall F U (FF : Floats F),
  map (F := F) (U := U) true (TArray KList [VInt None 1; VInt None 2; VInt None 3] TAny)
    (fun x (n : nat) => (match x with VInt _ 2 => Raise StopIterationExn | _ => Ret x end, S n)) 0 =
  (Ret (TArray KList [VInt None 1] TAny), 2).
Proof. reflexivity. Qed.
Theorem C34_fold : forall F U W S (a : tarray F U) (f : S -> pyval F U -> M W S) s, fold a f s ==m foldM f s (a_elems a).
Proof. exact (fun F U W S a f s => fold_pf S a f s). Qed.
Print Assumptions C34_fold.
Theorem C34_forall_partial : forall F U W (a : tarray F U) (p : pyval F U -> M W bool), forall_ a p ==m outside (forallM p (a_elems a)).
Proof. exact (fun F U W a p => forall_pf a p). Qed.
Print Assumptions C34_forall_partial.
Theorem C34_sort_with_partial : forall F U (FF : Floats F) long64 W K (KO : KeyOrd K) (a : tarray F U) (func : pyval F U -> M W K) reverse w,
  Forall plain (a_elems a) ->
  match mapM func (a_elems a) w with
  | (Ret keys, w1) => exists b ps, sort_with long64 a func reverse w = (Ret b, w1) /\ a_elems b = List.map snd ps /\
      stably_sorts reverse (combine keys (a_elems a)) ps
  | (Raise e, w1) => sort_with long64 a func reverse w = (Raise e, w1)
  end.
Proof. exact (fun F U FF l W => sort_with_pf l). Qed.
Print Assumptions C34_sort_with_partial.
Theorem C34_unfold_partial : forall F U (FF : Floats F) long64 W S (g : S -> M W (option (pyval F U * S))) s w r w1,
  (forall s w x s1 w1, g s w = (Ret (Some (x, s1)), w1) -> plain x) -> r <> Raise OutOfFuel ->
  ((exists fuel, (do b <- unfold long64 fuel g s; ret (a_elems b)) w = (r, w1)) <-> generates (fun s => outside (g s)) s w r w1).
Proof. exact (fun F U FF l W => unfold_pf l). Qed.
Print Assumptions C34_unfold_partial.
Theorem C34_eq : forall F U (neq : pyval F U -> pyval F U -> bool) (a : tarray F U) o,
  arr_eq neq a o = true <-> Forall2 (fun x y => neq x y = false) (a_elems a) o.
Proof. exact (fun F U => arr_eq_pf). Qed.
Print Assumptions C34_eq.
(** mutation: as the list operation, with the value as the storage reads it back *)
Theorem C34_setitem : forall F U (FF : Floats F) long64 (a : tarray F U) i v,
  (forall x, stored long64 (a_kind a) v x -> forall y, at_index (a_elems a) i y ->
     exists pre post, a_elems a = pre ++ y :: post /\ (i = Z.of_nat (length pre) \/ i = - (Z.of_nat (length post) + 1))%Z /\
       setitem long64 a i v = (Ret tt, TArray (a_kind a) (pre ++ x :: post) (a_type a))) /\
  (forall x, stored long64 (a_kind a) v x -> (i < - Z.of_nat (length (a_elems a)) \/ Z.of_nat (length (a_elems a)) <= i)%Z ->
     setitem long64 a i v = (Raise IndexError, a)) /\
  (forall e, fst (setitem long64 a i v) = Raise e -> snd (setitem long64 a i v) = a).
Proof. exact (fun F U FF => setitem_pf). Qed.
Print Assumptions C34_setitem.
Theorem C34_insert : forall F U (FF : Floats F) long64 (a : tarray F U) i v,
  (forall x, stored long64 (a_kind a) v x ->
     exists pre post, a_elems a = pre ++ post /\
       insert long64 a i v = (Ret tt, TArray (a_kind a) (pre ++ x :: post) (a_type a)) /\
       Z.of_nat (length pre) = (if Z.ltb i 0 then Z.max 0 (i + Z.of_nat (length (a_elems a))) else Z.min i (Z.of_nat (length (a_elems a))))%Z) /\
  (forall e, fst (insert long64 a i v) = Raise e -> snd (insert long64 a i v) = a).
Proof. exact (fun F U FF => insert_pf). Qed.
Print Assumptions C34_insert.
Theorem C34_extend : forall F U (FF : Floats F) long64 vs xs (a : tarray F U), Forall2 (stored long64 (a_kind a)) vs xs ->
  extend long64 a vs = (Ret tt, TArray (a_kind a) (a_elems a ++ xs) (a_type a)).
Proof. exact (fun F U FF => extend_pf). Qed.
Print Assumptions C34_extend.
(** a refused value: append and insert raise and change nothing, extend raises and keeps
    what came before *)
Theorem C34_extend_refused : forall F U (FF : Floats F) long64 vs xs (a : tarray F U) v rest,
  Forall2 (stored long64 (a_kind a)) vs xs -> (forall x, ~ stored long64 (a_kind a) v x) ->
  exists e, append long64 a v = (Raise e, a) /\ (forall i, insert long64 a i v = (Raise e, a)) /\
    extend long64 a (vs ++ v :: rest) = (Raise e, TArray (a_kind a) (a_elems a ++ xs) (a_type a)).
Proof.
  exact (fun F U FF l vs xs a v rest S N => let (e, H) := extend_refused_pf l vs xs a v rest S N in ex_intro _ e (proj2 H)).
Qed.
Print Assumptions C34_extend_refused.
Example C34_extend_refused_case : forall F U (FF : Floats F) (a : tarray F U), a_kind a = KBytes -> a_elems a = [] ->
  extend true a [VInt None 7; VInt None 300; VInt None 8] = (Raise ValueError, TArray KBytes [VInt None 7] (a_type a)).
Proof. intros F U FF [k xs ty] E1 E2. cbn in *. subst. reflexivity. Qed.
Theorem C34_delete : forall F U (a : tarray F U) i,
  (forall y, at_index (a_elems a) i y -> exists pre post, a_elems a = pre ++ y :: post /\
     (i = Z.of_nat (length pre) \/ i = - (Z.of_nat (length post) + 1))%Z /\
     delitem a i = (Ret tt, TArray (a_kind a) (pre ++ post) (a_type a)) /\
     pop a i = (Ret y, TArray (a_kind a) (pre ++ post) (a_type a))) /\
  ((i < - Z.of_nat (length (a_elems a)) \/ Z.of_nat (length (a_elems a)) <= i)%Z ->
     delitem a i = (Raise IndexError, a) /\ pop a i = (Raise IndexError, a)).
Proof. exact (fun F U => delitem_pf). Qed.
Print Assumptions C34_delete.
(** the other methods of MutableSequence; [eq v] says that [v] equals the value given to
    remove *)
Theorem C34_clear_reverse_remove : forall F U (FF : Floats F) long64 (a : tarray F U),
  (forall fuel, length (a_elems a) < fuel -> clear fuel a = (Ret tt, TArray (a_kind a) [] (a_type a))) /\
  (made long64 a -> reverse long64 a = (Ret tt, TArray (a_kind a) (List.rev (a_elems a)) (a_type a))) /\
  (forall eq pre x post, a_elems a = pre ++ x :: post -> Forall (fun v => eq v = false) pre -> eq x = true ->
     remove a eq = (Ret tt, TArray (a_kind a) (pre ++ post) (a_type a))) /\
  (forall eq, Forall (fun v => eq v = false) (a_elems a) -> remove a eq = (Raise ValueError, a)).
Proof.
  exact (fun F U FF l a => conj (fun fuel => clear_pf fuel a) (conj (reverse_pf l a)
    (conj (fun eq => proj1 (remove_pf a eq)) (fun eq => proj2 (remove_pf a eq))))).
Qed.
Print Assumptions C34_clear_reverse_remove.
Example C34_reverse_case : forall F U (FF : Floats F),
  exists a, new true (FromIter [VInt None 1; VInt None 2; VInt (U := U) None 3]) (Some TInt8) = Ret a /\
  reverse true a = (Ret tt, TArray (KArr Cb) [VInt None 3; VInt None 2; VInt None 1] TInt8).
Proof. intros. eexists. split; reflexivity. Qed.
Theorem C34_delete_slice : forall F U (a : tarray F U) s t,
  exists pre post, a_elems a = pre ++ slice (a_elems a) s t ++ post /\
    delslice a s t = (Ret tt, TArray (a_kind a) (pre ++ post) (a_type a)).
Proof. exact (fun F U => delslice_pf). Qed.
Print Assumptions C34_delete_slice.
Theorem C34_indexed_partial : forall F U (a : tarray F U) start i,
  nth_error (indexed a start) i = option_map (fun x => (Z.of_nat i, x)) (nth_error (a_elems a) i).
Proof. exact (fun F U a => indexed_nth _ (a_elems a)). Qed.
Print Assumptions C34_indexed_partial.

(** TypedArray([300, int8(5), 1000]).skip(1) raises, and so does map with such results *)
Theorem C34_mixed_refuted : exists (a : tarray unit unit) n e, made true a /\
  skip true a n = Raise e /\ slice (a_elems a) (Some n) None = [VInt (Some I8) 5%Z; VInt None 1000%Z].
Proof. exact C34_mixed_refuted_pf. Qed.
Print Assumptions C34_mixed_refuted.
Theorem C34_take_last_zero_refuted : exists (a b c : tarray unit unit), made true a /\
  take_last true a 0 = Ret b /\ a_elems b <> [] /\ skip_last true a 0 = Ret c /\ a_elems c <> a_elems a.
Proof. exact C34_take_last_zero_refuted_pf. Qed.
Print Assumptions C34_take_last_zero_refuted.
Theorem C34_indexed_start_refuted : exists (a : tarray unit unit) start,
  ~ (forall i, nth_error (indexed a start) i = option_map (fun x => (start + Z.of_nat i, x)%Z) (nth_error (a_elems a) i)).
Proof. exact C34_indexed_start_refuted_pf. Qed.
Print Assumptions C34_indexed_start_refuted.
Example C34_example :
  let a := TArray (KArr Cb) [VInt None 1; VInt None (-2); VInt None 3]%Z TInt8 : tarray unit unit in
  new true (FromIter [VInt (Some I8) 1; VInt None (-2); VInt (Some U64) 3]%Z) None = Ret a /\
  insert true a (-1) (VInt None 7) = (Ret tt, TArray (KArr Cb) [VInt None 1; VInt None (-2); VInt None 7; VInt None 3]%Z TInt8) /\
  insert true a 0 (VInt None 128) = (Raise OverflowError, a) /\
  setitem true a 3 (VInt None 0) = (Raise IndexError, a) /\
  take true a 2 = Ret (TArray KList [VInt None 1; VInt None (-2)]%Z TAny) /\
  filter true a (fun v (w : nat) => (Ret (match v with VInt _ n => Z.ltb 0 n | _ => false end), S w)) 0 =
    (Ret (TArray (KArr Cb) [VInt None 1; VInt None 3]%Z TInt8), 3).
Proof. repeat split. Qed.

(** C35: true of every integer typecode except Int32 and Uint32 where a C long has 64
    bits (those arrays are array.array("l") and ("L")). *)
Theorem C35_range_partial : forall F U (FF : Floats F) long64 (a : tarray F U) r,
  made long64 a -> type_range (a_type a) = Some r -> (long64 = true -> a_type a <> TInt32 /\ a_type a <> TUint32) ->
  Forall (int_in r) (a_elems a).
Proof. exact (fun F U FF => made_range_pf). Qed.
Print Assumptions C35_range_partial.
Theorem C35_refuses_partial : forall F U (FF : Floats F) long64 (a : tarray F U) r c n i,
  made long64 a -> type_range (a_type a) = Some r -> ~ r n -> (long64 = true -> a_type a <> TInt32 /\ a_type a <> TUint32) ->
  let e := match a_type a with TByte => ValueError | _ => OverflowError end in
  insert long64 a i (VInt c n) = (Raise e, a) /\ append long64 a (VInt c n) = (Raise e, a) /\
  ((- Z.of_nat (length (a_elems a)) <= i < Z.of_nat (length (a_elems a)))%Z -> setitem long64 a i (VInt c n) = (Raise e, a)).
Proof. exact (fun F U FF l a r c n i D T N L => unchanged_pf l a i _ _ (refuse_pf l a r c n D T N L)). Qed.
Print Assumptions C35_refuses_partial.
(** ... and a value of another kind is refused with TypeError: by the integer arrays what is
    no int, floats too, by the arrays of floats what is no number. *)
Theorem C35_wrong_kind : forall F U (FF : Floats F) long64 (a : tarray F U) v i, made long64 a ->
  (type_range (a_type a) <> None /\ (forall c n, v <> VInt c n)) \/ ((a_type a = TDouble \/ a_type a = TFloat) /\ exists u, v = VOther u) ->
  insert long64 a i v = (Raise TypeError, a) /\ append long64 a v = (Raise TypeError, a) /\
  ((- Z.of_nat (length (a_elems a)) <= i < Z.of_nat (length (a_elems a)))%Z -> setitem long64 a i v = (Raise TypeError, a)).
Proof.
  intros F U FF long64 a v i D H. apply unchanged_pf. destruct (made_kind_pf long64 a D) as [C|[C1 C]]; rewrite C.
  - destruct H as [[T N]|[T [u ->]]].
    + destruct v as [c n|c x|u]; [elim (N c n); reflexivity| |]; destruct (a_type a); cbn in T; try congruence; reflexivity.
    + destruct T as [-> | ->]; reflexivity.
  - destruct H as [[T N]|[T [u ->]]].
    + destruct v as [c n|c x|u]; [elim (N c n); reflexivity| |]; reflexivity.
    + reflexivity.
Qed.
Print Assumptions C35_wrong_kind.
Example C35_wrong_kind_case : exists a b : tarray unit unit, new true (FromIter [VInt (Some U8) 255]%Z) None = Ret a /\
  new true (FromIter []) (Some TDouble) = Ret b /\
  append true a (VFloat None tt) = (Raise TypeError, a) /\ append true b (VOther tt) = (Raise TypeError, b).
Proof. do 2 eexists. repeat split. Qed.
Theorem C35_wide_partial : forall F U (FF : Floats F) (a : tarray F U), made true a ->
  (a_type a = TInt32 -> Forall (int_in (signed 64)) (a_elems a)) /\ (a_type a = TUint32 -> Forall (int_in (unsigned 64)) (a_elems a)).
Proof. exact (fun F U FF => made_wide_pf). Qed.
Print Assumptions C35_wide_partial.
(** TypedArray([2**40], TypeCode.Int32) *)
Theorem C35_int32_refuted : exists (a : tarray unit unit) r, made true a /\ a_type a = TInt32 /\
  type_range (a_type a) = Some r /\ ~ Forall (int_in r) (a_elems a).
Proof. exact C35_int32_refuted_pf. Qed.
Print Assumptions C35_int32_refuted.
Example C35_example : exists a : tarray unit unit,
  new true (FromIter [VInt (Some U8) 255; VInt None 0]%Z) None = Ret a /\ a_type a = TUint8 /\
  new true (FromIter [VInt (Some U8) 255; VInt None 256]%Z) None = (Raise OverflowError : res (tarray unit unit)) /\
  new true (FromIter [VInt None 256]%Z) (Some TByte) = (Raise ValueError : res (tarray unit unit)) /\
  append true a (VInt None (-1)) = (Raise OverflowError, a).
Proof. eexists; repeat split. Qed.

(** C36: storage is shared exactly when a bytearray is given without a typecode. *)
Theorem C36_owns_partial : forall F U (FF : Floats F) long64 (h : heap F U) obj tc h' r k vs,
  nth_error h obj = Some (k, vs) -> k <> KBytes \/ tc <> None -> construct long64 h obj tc = Ret (h', r) ->
  (forall i, (i < length h)%nat -> nth_error h' i = nth_error h i) /\ (length h <= r_obj r)%nat /\
  (forall evs, (forall ev, In ev evs -> r_obj (fst ev) = r_obj r) -> forall i, (i < length h)%nat -> nth_error (run long64 h' evs) i = nth_error h i) /\
  (forall evs, (forall ev, In ev evs -> r_obj (fst ev) <> r_obj r) -> deref (run long64 h' evs) r = deref h' r).
Proof. exact (fun F U FF => owns_pf). Qed.
Print Assumptions C36_owns_partial.
Theorem C36_derived_partial : forall F U (FF : Floats F) long64 (h : heap F U) r s t h' r',
  derive_slice long64 h r s t = Ret (h', r') ->
  (forall i, (i < length h)%nat -> nth_error h' i = nth_error h i) /\ (length h <= r_obj r')%nat.
Proof. exact (fun F U FF => derive_owns_pf). Qed.
Print Assumptions C36_derived_partial.
Theorem C36_isolated : forall F U (FF : Floats F) long64 evs (h : heap F U) i,
  nth_error (run long64 h evs) i = nth_error (run long64 h (on_object i evs)) i.
Proof. exact (fun F U FF => run_isolated_pf). Qed.
Print Assumptions C36_isolated.
Theorem C36_bytearray_aliased : forall F U (FF : Floats F) long64 (h : heap F U) obj bs, nth_error h obj = Some (KBytes, bs) ->
  construct long64 h obj None = Ret (h, ARef obj TByte) /\
  (forall m, nth_error (mutate_ref long64 h (ARef obj TByte) m) obj =
     Some (let a := mutate long64 m (TArray KBytes bs TByte) in (a_kind a, a_elems a))).
Proof. exact (fun F U FF => alias_pf). Qed.
Print Assumptions C36_bytearray_aliased.
Theorem C36_bytearray_refuted : exists (h : heap unit unit) obj h' r m,
  construct true h obj None = Ret (h', r) /\ nth_error (mutate_ref true h' r m) obj <> nth_error h obj.
Proof. exact C36_bytearray_refuted_pf. Qed.
Print Assumptions C36_bytearray_refuted.
Example C36_example : exists h' r,
  construct true [(KList, [VInt None 1%Z; VInt None 2%Z] : list (pyval unit unit))] 0 (Some TInt8) = Ret (h', r) /\
  run true h' [(r, MSet 0 (VInt None 9%Z)); (ARef 0 TAny, MAppend (VInt None 3%Z))] =
    [(KList, [VInt None 1%Z; VInt None 2%Z; VInt None 3%Z]); (KArr Cb, [VInt None 9%Z; VInt None 2%Z])].
Proof. do 2 eexists. split; reflexivity. Qed.
