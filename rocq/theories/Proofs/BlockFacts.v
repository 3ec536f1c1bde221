(** Lemmas about Block. *)
From Coq Require Import List ZArith Bool Lia Sorting.Permutation Sorting.Sorted.
From Verif.Model Require Import Base PyList OptionResult Block.
From Verif.Spec Require Import ListM BlockSpec.
From Verif.Proofs Require Import KeyOrdFacts.
Import ListNotations.
Local Open Scope py_scope.

(** ** slices *)
Lemma slice_all : forall A (xs : list A), slice xs None None = xs.
Proof.
  intros A xs. unfold slice. cbn [skipn Z.to_nat]. rewrite Z.sub_0_r, Nat2Z.id. apply firstn_all.
Qed.

Lemma slice_to : forall A (xs : list A) n,
  slice xs None (Some n) = firstn (Z.to_nat (slice_bound (Z.of_nat (length xs)) n)) xs.
Proof. intros A xs n. unfold slice. cbn [skipn Z.to_nat]. rewrite Z.sub_0_r. reflexivity. Qed.

Lemma slice_bound_range : forall len b, (0 <= len -> 0 <= slice_bound len b <= len)%Z.
Proof. intros len b. unfold slice_bound. destruct (Z.ltb_spec b 0); lia. Qed.

Lemma slice_from : forall A (xs : list A) n,
  slice xs (Some n) None = skipn (Z.to_nat (slice_bound (Z.of_nat (length xs)) n)) xs.
Proof.
  intros A xs n. unfold slice. pose proof (slice_bound_range (Z.of_nat (length xs)) n ltac:(lia)).
  apply firstn_all2. rewrite skipn_length. lia.
Qed.

Lemma C20_split_pf : forall A (xs : block A) n, append (take xs n) (skip xs n) = xs.
Proof. intros A xs n. unfold append, take, skip. rewrite slice_to, slice_from. apply firstn_skipn. Qed.

Lemma C20_first_pf : forall A (xs : block A) n, (0 <= n)%Z ->
  take xs n = firstn (Z.to_nat n) xs /\ length (take xs n) = Nat.min (Z.to_nat n) (length xs).
Proof.
  intros A xs n H. unfold take. rewrite slice_to.
  assert (E : firstn (Z.to_nat (slice_bound (Z.of_nat (length xs)) n)) xs = firstn (Z.to_nat n) xs).
  { unfold slice_bound. destruct (Z.ltb_spec n 0); [lia|].
    destruct (Z.le_ge_cases n (Z.of_nat (length xs))).
    - f_equal. lia.
    - rewrite !firstn_all2; auto; lia. }
  rewrite E. split; auto. apply firstn_length.
Qed.

Lemma C21_pf : forall A (xs : block A) n, (1 <= n)%Z ->
  let k := length xs - Z.to_nat n in
  take_last xs n = skipn k xs /\ skip_last xs n = firstn k xs /\
  append (skip_last xs n) (take_last xs n) = xs /\
  length (take_last xs n) = Nat.min (Z.to_nat n) (length xs).
Proof.
  intros A xs n H k. unfold take_last, skip_last, append. rewrite slice_to, slice_from.
  replace (Z.to_nat (slice_bound (Z.of_nat (length xs)) (- n))) with k.
  2:{ unfold slice_bound, k. destruct (Z.ltb_spec (- n) 0); lia. }
  repeat split; auto.
  - apply firstn_skipn.
  - rewrite skipn_length. unfold k. lia.
Qed.

Lemma C21_zero_pf : forall A (xs : block A), take_last xs 0 = xs /\ skip_last xs 0 = [].
Proof.
  intros A xs. unfold take_last, skip_last. rewrite slice_to, slice_from. cbn. split; auto.
  - unfold slice_bound. cbn. replace (Z.max 0 (Z.min (Z.of_nat (length xs)) 0)) with 0%Z by lia. reflexivity.
  - unfold slice_bound. cbn. replace (Z.max 0 (Z.min (Z.of_nat (length xs)) 0)) with 0%Z by lia. reflexivity.
Qed.

(** ** indexing *)
Lemma index_iff : forall A (l : list A) i x, index l i = Ret x <-> at_index l i x.
Proof.
  intros A l i x. unfold index, at_index.
  set (j := if (i <? 0)%Z then (i + Z.of_nat (length l))%Z else i). split.
  - intros H. destruct (Z.ltb_spec j 0); [discriminate|]. destruct (nth_error l (Z.to_nat j)) eqn:E; [|discriminate].
    injection H as ->. apply nth_error_split in E. destruct E as (l1 & l2 & -> & L). exists l1, l2. split; auto.
    subst j. rewrite app_length in *. cbn [length] in *. destruct (Z.ltb_spec i 0); lia.
  - intros (pre & post & -> & Hi). subst j. rewrite app_length. cbn [length].
    assert (E : (if (i <? 0)%Z then (i + Z.of_nat (length pre + S (length post)))%Z else i) = Z.of_nat (length pre)).
    { destruct (Z.ltb_spec i 0); lia. }
    rewrite E. destruct (Z.ltb_spec (Z.of_nat (length pre)) 0); [lia|]. rewrite Nat2Z.id.
    rewrite nth_error_app2, Nat.sub_diag by lia. reflexivity.
Qed.

Lemma index_total : forall A (l : list A) i,
  (exists x, index l i = Ret x) \/ (index l i = Raise IndexError /\ (i < - Z.of_nat (length l) \/ Z.of_nat (length l) <= i)%Z).
Proof.
  intros A l i. unfold index. set (j := if (i <? 0)%Z then (i + Z.of_nat (length l))%Z else i).
  destruct (Z.ltb_spec j 0).
  - right. split; auto. subst j. destruct (Z.ltb_spec i 0); lia.
  - destruct (nth_error l (Z.to_nat j)) eqn:E; [left; eauto|]. right. split; auto.
    apply nth_error_None in E. subst j. destruct (Z.ltb_spec i 0); lia.
Qed.

Lemma C19_item_pf : forall A (xs : block A) i,
  (forall x, item xs i = Ret x <-> at_index xs i x) /\
  ((i < - Z.of_nat (length xs) \/ Z.of_nat (length xs) <= i)%Z <-> item xs i = Raise IndexError).
Proof.
  intros A xs i. split; [intros x; apply index_iff|]. split.
  - intros H. destruct (index_total A xs i) as [(x & E)|(E & _)]; auto. exfalso.
    apply index_iff in E. destruct E as (pre & post & -> & Hi). rewrite app_length in H. cbn in H. lia.
  - intros H. destruct (index_total A xs i) as [(x & E)|(_ & E)]; auto. unfold item in H. congruence.
Qed.

Lemma C19_append_pf : forall A (xs ys zs : block A),
  append (append xs ys) zs = append xs (append ys zs) /\ append [] xs = xs /\ append xs [] = xs /\
  length (append xs ys) = length xs + length ys /\
  (forall i, (0 <= i < Z.of_nat (length xs))%Z -> item (append xs ys) i = item xs i) /\
  (forall i, (0 <= i)%Z -> item (append xs ys) (Z.of_nat (length xs) + i) = item ys i).
Proof.
  intros A xs ys zs. unfold append. repeat split.
  - symmetry. apply app_assoc.
  - apply app_nil_r.
  - apply app_length.
  - intros i H. unfold item, index. destruct (Z.ltb_spec i 0); [lia|]. destruct (Z.ltb_spec i 0); [lia|].
    rewrite nth_error_app1 by lia. reflexivity.
  - intros i H. unfold item, index. destruct (Z.ltb_spec (Z.of_nat (length xs) + i) 0); [lia|].
    destruct (Z.ltb_spec (Z.of_nat (length xs) + i) 0); [lia|]. destruct (Z.ltb_spec i 0); [lia|]. destruct (Z.ltb_spec i 0); [lia|].
    rewrite nth_error_app2 by lia. replace (Z.to_nat (Z.of_nat (length xs) + i) - length xs) with (Z.to_nat i) by lia. reflexivity.
Qed.

Lemma C19_cons_pf : forall A (xs : block A) x,
  head (cons xs x) = Ret x /\ tail (cons xs x) = Ret xs /\ try_head (cons xs x) = Some x /\
  is_empty (cons xs x) = false /\ length (cons xs x) = S (length xs) /\
  (is_empty xs = false -> exists h t, head xs = Ret h /\ tail xs = Ret t /\ try_head xs = Some h /\ xs = cons t h) /\
  (is_empty xs = true -> head xs = Raise ValueError /\ tail xs = Raise ValueError /\ try_head xs = None /\ xs = []).
Proof.
  intros A [|y ys] x; cbn; repeat split; intros; try discriminate; auto. exists y, ys. repeat split.
Qed.

Lemma C19_contains_pf : forall A same eq (xs : block A) x,
  contains same eq xs x = true <-> exists v, In v xs /\ (same v x = true \/ eq v x = true).
Proof.
  intros A same eq. induction xs as [|v xs IH]; intros x; cbn.
  - split; [discriminate|intros (v & [] & _)].
  - destruct (same v x || eq v x) eqn:E.
    + split; auto. intros _. exists v. split; auto. now apply orb_prop.
    + rewrite IH. split.
      * intros (u & Hu & He). eauto.
      * intros (u & [<-|Hu] & He); eauto. apply orb_false_elim in E. destruct E, He; congruence.
Qed.

Lemma C19_concat_pf : forall A (bs : list (block A)), concat bs = List.concat bs.
Proof.
  intros A bs. unfold concat. assert (G : forall bs (acc : block A), fold_left (fun t s => append t s) bs acc = acc ++ List.concat bs).
  { clear. induction bs as [|b bs IH]; intros acc; cbn; [now rewrite app_nil_r|]. rewrite IH. unfold append. now rewrite app_assoc. }
  apply G.
Qed.

(** ** callbacks *)
Section Callbacks.
  Context {W A B : Type}.

  Lemma for_in_foldM : forall S (xs : list A) (s : S) (f : S -> A -> M W S), for_in xs s f ==m foldM f s xs.
  Proof.
    intros S. induction xs as [|x xs IH]; intros s f w; cbn; auto. unfold bind.
    destruct (f s x w) as [[s1|e] w1]; auto. apply IH.
  Qed.

  (** A loop whose accumulator only grows at the end. *)
  Lemma for_in_acc : forall C (f : A -> M W (list C)) (xs : list A) acc,
    for_in xs acc (fun acc x => do ys <- f x; ret (acc ++ ys)) ==m
    (do yss <- mapM f xs; ret (acc ++ List.concat yss)).
  Proof.
    intros C f. induction xs as [|x xs IH]; intros acc w; cbn.
    - unfold bind, ret. cbn. now rewrite app_nil_r.
    - unfold bind in *. destruct (f x w) as [[ys|e] w1]; cbn; auto. rewrite IH.
      destruct (mapM f xs w1) as [[yss|e] w2]; cbn; auto. rewrite app_assoc. reflexivity.
  Qed.

  Lemma for_in_ext : forall S (xs : list A) (s : S) (f g : S -> A -> M W S),
    (forall s x, f s x ==m g s x) -> for_in xs s f ==m for_in xs s g.
  Proof.
    intros S xs s f g E. revert s. induction xs as [|x xs IH]; intros s w; cbn; auto. unfold bind.
    rewrite (E s x w). destruct (g s x w) as [[s1|e] w1]; auto. apply IH.
  Qed.

  Lemma for_in_push : forall (ys : list B) acc (w : W), for_in ys acc (fun acc y => ret (acc ++ [y])) w = (Ret (acc ++ ys), w).
  Proof.
    induction ys as [|y ys IH]; intros acc w; cbn; [now rewrite app_nil_r|].
    unfold bind, ret. rewrite IH, <- app_assoc. reflexivity.
  Qed.

  (** builtins.map and the like: a plain loop unless the callback raises StopIteration *)
  Lemma for_calls_for_in : forall S (xs : list A) (s : S) (f : A -> M W B) (body : S -> A -> B -> M W S) w,
    fst (for_in xs s (fun s x => do y <- f x; body s x y) w) <> Raise StopIterationExn ->
    for_calls xs s f body w = for_in xs s (fun s x => do y <- f x; body s x y) w.
  Proof.
    intros S. induction xs as [|x xs IH]; intros s f body w N; cbn in *; auto. unfold bind in *.
    destruct (f x w) as [[y|e] w1].
    - destruct (body s x y w1) as [[s1|e] w2]; auto.
    - destruct e; auto. now contradict N.
  Qed.

  Lemma for_calls_stop : forall S (pre : list A) x post (s : S) (f : A -> M W B) (body : S -> A -> B -> M W S) w s1 w1 w2,
    for_in pre s (fun s x => do y <- f x; body s x y) w = (Ret s1, w1) -> f x w1 = (Raise StopIterationExn, w2) ->
    for_calls (pre ++ x :: post) s f body w = (Ret s1, w2).
  Proof.
    intros S. induction pre as [|z pre IH]; intros x post s f body w s1 w1 w2 E F; cbn in *.
    - injection E as <- <-. now rewrite F.
    - unfold bind in E |- *. destruct (f z w) as [[y|e] w3]; [|discriminate].
      destruct (body s z y w3) as [[s3|e] w4]; [|discriminate]. eauto.
  Qed.

  Lemma for_in_mapM : forall (f : A -> M W B) (xs : list A), for_in xs [] (fun acc x => do y <- f x; ret (acc ++ [y])) ==m mapM f xs.
  Proof.
    intros f xs. assert (G : forall (xs : list A) acc, for_in xs acc (fun acc x => do y <- f x; ret (acc ++ [y])) ==m (do ys <- mapM f xs; ret (acc ++ ys))).
    { clear. induction xs as [|x xs IH]; intros acc w; cbn.
      - unfold bind, ret. cbn. now rewrite app_nil_r.
      - unfold bind in *. destruct (f x w) as [[y|e] w1]; cbn; auto. rewrite IH. unfold ret.
        destruct (mapM f xs w1) as [[ys|e] w2]; cbn; auto. rewrite <- app_assoc. reflexivity. }
    intros w. rewrite G. unfold bind, ret. destruct (mapM f xs w) as [[ys|e] w1]; reflexivity.
  Qed.
  Lemma map_mapM : forall (xs : block A) (f : A -> M W B) w, fst (mapM f xs w) <> Raise StopIterationExn -> map xs f w = mapM f xs w.
  Proof.
    intros xs f w N. unfold map. rewrite for_calls_for_in; [apply for_in_mapM|]. now rewrite (for_in_mapM f xs w).
  Qed.
  Lemma map_stop : forall (f : A -> M W B) pre x post w ys w1 w2,
    mapM f pre w = (Ret ys, w1) -> f x w1 = (Raise StopIterationExn, w2) -> map (pre ++ x :: post) f w = (Ret ys, w2).
  Proof. intros f pre x post w ys w1 w2 E F. eapply for_calls_stop; [|exact F]. now rewrite (for_in_mapM f pre w). Qed.

  Lemma collect_loop : forall (xs : list A) (f : A -> M W (block B)) w,
    for_in xs [] (fun acc x => do mapped <- f x; for_in mapped acc (fun acc y => ret (acc ++ [y]))) w =
    (do yss <- mapM f xs; ret (List.concat yss)) w.
  Proof.
    intros xs f w. rewrite (for_in_ext _ xs [] _ (fun acc x => do ys <- f x; ret (acc ++ ys))).
    - rewrite for_in_acc. reflexivity.
    - intros s x w1. unfold bind. destruct (f x w1) as [[ys|e] w2]; auto. apply for_in_push.
  Qed.
  Lemma filter_loop : forall (p : A -> M W bool) (xs : list A),
    for_in xs [] (fun acc x => do b <- p x; ret (if b : bool then acc ++ [x] else acc)) ==m filterM p xs.
  Proof.
    intros p xs. assert (G : forall (xs : list A) acc, for_in xs acc (fun acc x => do b <- p x; ret (if b : bool then acc ++ [x] else acc)) ==m (do ys <- filterM p xs; ret (acc ++ ys))).
    { clear. induction xs as [|x xs IH]; intros acc w; cbn.
      - unfold bind, ret. cbn. now rewrite app_nil_r.
      - unfold bind in *. destruct (p x w) as [[b|e] w1]; cbn; auto. rewrite IH. unfold ret.
        destruct (filterM p xs w1) as [[ys|e] w2]; cbn; auto. destruct b; rewrite <- ?app_assoc; reflexivity. }
    intros w. rewrite G. unfold bind, ret. destruct (filterM p xs w) as [[ys|e] w1]; reflexivity.
  Qed.
End Callbacks.

Lemma collect_pf : forall W A B (xs : block A) (f : A -> M W (block B)) w, fst (mapM f xs w) <> Raise StopIterationExn ->
  collect xs f w = (do yss <- mapM f xs; ret (List.concat yss)) w.
Proof.
  intros W A B xs f w N. unfold collect. rewrite for_calls_for_in; [apply collect_loop|]. rewrite collect_loop.
  unfold bind. destruct (mapM f xs w) as [[yss|e] w1]; [discriminate|cbn in *; congruence].
Qed.
Lemma collect_stop : forall W A B (f : A -> M W (block B)) pre x post w yss w1 w2,
  mapM f pre w = (Ret yss, w1) -> f x w1 = (Raise StopIterationExn, w2) -> collect (pre ++ x :: post) f w = (Ret (List.concat yss), w2).
Proof. intros W A B f pre x post w yss w1 w2 E F. eapply for_calls_stop; [|exact F]. rewrite collect_loop. unfold bind. now rewrite E. Qed.

Lemma mapM_opt : forall W A B (f : A -> M W (option B)) xs w, mapM (fun x => do o <- f x; ret (opt_to_list o)) xs w =
  match mapM f xs w with (Ret os, w1) => (Ret (List.map opt_to_list os), w1) | (Raise e, w1) => (Raise e, w1) end.
Proof.
  intros W A B f. induction xs as [|x xs IH]; intros w; cbn; auto. unfold bind in *. destruct (f x w) as [[o|e] w1]; cbn; auto.
  rewrite IH. destruct (mapM f xs w1) as [[os|e] w2]; auto.
Qed.
Lemma choose_pf : forall W A B (xs : block A) (f : A -> M W (option B)) w, fst (mapM f xs w) <> Raise StopIterationExn ->
  choose xs f w = (do os <- mapM f xs; ret (flat_map (fun o => match o with Some y => [y] | None => [] end) os)) w.
Proof.
  intros W A B xs f w N. unfold choose. rewrite collect_pf.
  - unfold bind at 1 3. rewrite mapM_opt. destruct (mapM f xs w) as [[os|e] w1]; auto. unfold ret. now rewrite flat_map_concat_map.
  - rewrite mapM_opt. destruct (mapM f xs w) as [[os|e] w1]; [discriminate|cbn in *; congruence].
Qed.
Lemma choose_stop : forall W A B (f : A -> M W (option B)) pre x post w os w1 w2,
  mapM f pre w = (Ret os, w1) -> f x w1 = (Raise StopIterationExn, w2) ->
  choose (pre ++ x :: post) f w = (Ret (flat_map (fun o => match o with Some y => [y] | None => [] end) os), w2).
Proof.
  intros W A B f pre x post w os w1 w2 E F. unfold choose. rewrite flat_map_concat_map. eapply collect_stop.
  - rewrite mapM_opt, E. reflexivity.
  - unfold bind. now rewrite F.
Qed.

Section Callbacks2.
  Context {W A B : Type}.

  Lemma filter_pf : forall (xs : block A) (p : A -> M W bool) w, fst (filterM p xs w) <> Raise StopIterationExn -> filter xs p w = filterM p xs w.
  Proof.
    intros xs p w N. unfold filter. rewrite for_calls_for_in; [apply filter_loop|]. now rewrite (filter_loop p xs w).
  Qed.
  Lemma filter_stop : forall (p : A -> M W bool) pre x post w ys w1 w2,
    filterM p pre w = (Ret ys, w1) -> p x w1 = (Raise StopIterationExn, w2) -> filter (pre ++ x :: post) p w = (Ret ys, w2).
  Proof. intros p pre x post w ys w1 w2 E F. eapply for_calls_stop; [|exact F]. now rewrite (filter_loop p pre w). Qed.

  Lemma partition_pf : forall (xs : block A) (p : A -> M W bool), partition xs p ==m partitionM p xs.
  Proof.
    intros xs p. assert (G : forall (xs : list A) acc1 acc2,
      for_in xs (acc1, acc2) (fun '(list1, list2) x => do b <- p x; ret (if b : bool then (list1 ++ [x], list2) else (list1, list2 ++ [x]))) ==m
      (do ys <- partitionM p xs; ret (acc1 ++ fst ys, acc2 ++ snd ys))).
    { clear. induction xs as [|x xs IH]; intros acc1 acc2 w; cbn.
      - unfold bind, ret. cbn. now rewrite !app_nil_r.
      - unfold bind in *. destruct (p x w) as [[b|e] w1]; cbn; auto. unfold ret in *.
        destruct b; rewrite IH; destruct (partitionM p xs w1) as [[[ys zs]|e] w2]; cbn; auto; rewrite <- ?app_assoc; reflexivity. }
    intros w. unfold partition. rewrite G. unfold bind, ret. destruct (partitionM p xs w) as [[[ys zs]|e] w1]; reflexivity.
  Qed.

  Lemma forall_pf : forall (xs : block A) (p : A -> M W bool), forall_ xs p ==m outside (forallM p xs).
  Proof.
    intros xs p. induction xs as [|x xs IH]; intros w; cbn; auto. unfold bind, in_generator, outside in *.
    destruct (p x w) as [[[|]|e] w1]; auto. destruct e; reflexivity.
  Qed.

  Lemma reduce_pf : forall (f : A -> A -> M W A) x (xs : block A),
    reduce (x :: xs) f ==m foldM f x xs /\ reduce [] f ==m raise ValueError.
  Proof. intros f x xs. split; intros w; auto. unfold reduce. cbn. unfold fold. apply for_in_foldM. Qed.
End Callbacks2.

Lemma partition_interleave_pf : forall W A (xs : block A) (p : A -> M W bool) w ys zs w1,
  partition xs p w = (Ret (ys, zs), w1) -> interleave ys zs xs.
Proof.
  intros W A xs p w ys zs w1 H. rewrite partition_pf in H. revert w ys zs w1 H.
  induction xs as [|x xs IH]; intros w ys zs w1 H; cbn in H.
  - injection H as <- <- _. constructor.
  - unfold bind in H. destruct (p x w) as [[b|e] w2]; [|discriminate].
    destruct (partitionM p xs w2) as [[[ys1 zs1]|e] w3] eqn:E; [|discriminate].
    apply IH in E. destruct b; injection H as <- <- _; constructor; auto.
Qed.

(** ** enumerate *)
Lemma enumerate_eq : forall A (xs : list A), enumerate xs = combine (List.map Z.of_nat (seq 0 (length xs))) xs.
Proof.
  intros A xs. unfold enumerate.
  assert (G : forall (xs : list A) i acc,
    fold_left (fun '(i, acc) x => (Z.succ i, acc ++ [(i, x)])) xs (Z.of_nat i, acc) =
    (Z.of_nat (i + length xs), acc ++ combine (List.map Z.of_nat (seq i (length xs))) xs)).
  { clear. induction xs as [|x xs IH]; intros i acc; cbn [fold_left length seq List.map combine].
    - rewrite app_nil_r, Nat.add_0_r. reflexivity.
    - rewrite <- Nat2Z.inj_succ, IH, <- app_assoc. cbn. do 2 f_equal. lia. }
  change 0%Z with (Z.of_nat 0). rewrite G. reflexivity.
Qed.

Lemma nth_combine : forall A B (xs : list A) (ys : list B) i,
  nth_error (combine xs ys) i = match nth_error xs i, nth_error ys i with Some x, Some y => Some (x, y) | _, _ => None end.
Proof.
  intros A B. induction xs as [|x xs IH]; intros ys i; cbn.
  - destruct i; reflexivity.
  - destruct ys as [|y ys]; cbn.
    + destruct i; cbn; auto. destruct (nth_error xs i); auto.
    + destruct i; cbn; auto.
Qed.

Lemma indexed_nth : forall A (xs : block A) start i,
  nth_error (indexed xs start) i = option_map (fun x => (Z.of_nat i, x)) (nth_error xs i).
Proof.
  intros A xs start i. unfold indexed. rewrite enumerate_eq, nth_combine.
  destruct (nth_error xs i) eqn:E; cbn.
  - assert (i < length xs) by (apply nth_error_Some; congruence).
    rewrite (nth_error_nth' _ 0%Z) by now rewrite map_length, seq_length.
    change 0%Z with (Z.of_nat 0). rewrite map_nth, seq_nth by auto. reflexivity.
  - destruct (nth_error (List.map Z.of_nat (seq 0 (length xs))) i); auto.
Qed.

Lemma C23_refuted_pf : exists (xs : block nat) start,
  ~ (forall i, nth_error (indexed xs start) i = option_map (fun x => (start + Z.of_nat i, x)%Z) (nth_error xs i)).
Proof. exists [7], 1%Z. intros H. specialize (H 0). discriminate H. Qed.

Lemma combine_app' : forall A B (xs xs2 : list A) (ys ys2 : list B), length xs = length ys ->
  combine (xs ++ xs2) (ys ++ ys2) = combine xs ys ++ combine xs2 ys2.
Proof. intros A B. induction xs as [|x xs IH]; intros xs2 [|y ys] ys2 L; cbn in *; try discriminate; auto. rewrite IH by congruence. reflexivity. Qed.
Lemma mapM_enumerate : forall W A B (f : Z -> A -> M W B) (xs : block A),
  mapM (fun ix => f (fst ix) (snd ix)) (enumerate xs) ==m mapM (fun ix => f (Z.of_nat (fst ix)) (snd ix)) (combine (seq 0 (length xs)) xs).
Proof.
  intros W A B f xs w. rewrite enumerate_eq.
  generalize (seq 0 (length xs)). intros ns. revert xs w. induction ns as [|n ns IH]; intros [|x xs] w; cbn; auto.
  unfold bind. destruct (f (Z.of_nat n) x w) as [[y|e] w1]; auto. rewrite IH. reflexivity.
Qed.
Lemma mapi_pf : forall W A B (xs : block A) (f : Z -> A -> M W B) w,
  let m := mapM (fun ix => f (Z.of_nat (fst ix)) (snd ix)) (combine (seq 0 (length xs)) xs) in
  fst (m w) <> Raise StopIterationExn -> mapi xs f w = m w.
Proof.
  intros W A B xs f w m N. unfold mapi. subst m. rewrite <- (mapM_enumerate W A B f xs w) in *.
  now apply (map_mapM (enumerate xs) (fun ix => f (fst ix) (snd ix)) w).
Qed.
Lemma mapi_stop : forall W A B (f : Z -> A -> M W B) pre x post w ys w1 w2,
  mapM (fun ix => f (Z.of_nat (fst ix)) (snd ix)) (combine (seq 0 (length pre)) pre) w = (Ret ys, w1) ->
  f (Z.of_nat (length pre)) x w1 = (Raise StopIterationExn, w2) -> mapi (pre ++ x :: post) f w = (Ret ys, w2).
Proof.
  intros W A B f pre x post w ys w1 w2 E F. rewrite <- (mapM_enumerate W A B f pre w) in E.
  assert (Q : exists rest, enumerate (pre ++ x :: post) = enumerate pre ++ (Z.of_nat (length pre), x) :: rest).
  { rewrite !enumerate_eq, app_length, seq_app, map_app. cbn [length seq List.map Nat.add].
    rewrite combine_app' by now rewrite map_length, seq_length. eexists. cbn. reflexivity. }
  destruct Q as [rest Q]. unfold mapi. rewrite Q.
  exact (map_stop (fun ix => f (fst ix) (snd ix)) _ (Z.of_nat (length pre), x) rest w ys w1 w2 E F).
Qed.

(** ** zip, unfold *)
Lemma stop_iteration_pf : forall W A pre (x : A) post w w1 w2,
  (forall B (f : A -> M W B) ys, mapM f pre w = (Ret ys, w1) -> f x w1 = (Raise StopIterationExn, w2) ->
     map (pre ++ x :: post) f w = (Ret ys, w2)) /\
  (forall (p : A -> M W bool) ys, filterM p pre w = (Ret ys, w1) -> p x w1 = (Raise StopIterationExn, w2) ->
     filter (pre ++ x :: post) p w = (Ret ys, w2)) /\
  (forall B (f : A -> M W (option B)) os, mapM f pre w = (Ret os, w1) -> f x w1 = (Raise StopIterationExn, w2) ->
     choose (pre ++ x :: post) f w = (Ret (flat_map (fun o => match o with Some y => [y] | None => [] end) os), w2)) /\
  (forall B (f : A -> M W (block B)) yss, mapM f pre w = (Ret yss, w1) -> f x w1 = (Raise StopIterationExn, w2) ->
     collect (pre ++ x :: post) f w = (Ret (List.concat yss), w2)) /\
  (forall B (f : Z -> A -> M W B) ys, mapM (fun ix => f (Z.of_nat (fst ix)) (snd ix)) (combine (seq 0 (length pre)) pre) w = (Ret ys, w1) ->
     f (Z.of_nat (length pre)) x w1 = (Raise StopIterationExn, w2) -> mapi (pre ++ x :: post) f w = (Ret ys, w2)).
Proof.
  intros W A pre x post w w1 w2. repeat split; intros.
  - eapply map_stop; eauto.
  - eapply filter_stop; eauto.
  - eapply choose_stop; eauto.
  - eapply collect_stop; eauto.
  - eapply mapi_stop; eauto.
Qed.

Lemma zip_pf : forall A B (xs : block A) (ys : block B),
  length (zip xs ys) = Nat.min (length xs) (length ys) /\
  forall i, nth_error (zip xs ys) i = match nth_error xs i, nth_error ys i with Some x, Some y => Some (x, y) | _, _ => None end.
Proof.
  intros A B xs ys. assert (E : zip xs ys = combine xs ys).
  { revert ys. induction xs as [|x xs IH]; intros [|y ys]; cbn; auto; now rewrite IH. }
  rewrite E. split; [apply combine_length|]. apply nth_combine.
Qed.

Lemma in_generator_outside : forall W X (m : M W X) w, in_generator m w = outside m w.
Proof. intros W X m w. unfold in_generator, outside. destruct (m w) as [[x|e] w1]; auto. destruct e; reflexivity. Qed.

Section Unfold.
  Context {W S B : Type}.
  Variable f : S -> M W (option (B * S)).

  Lemma unfold_sound : forall fuel s acc w r w1, unfold fuel f s acc w = (r, w1) -> r <> Raise OutOfFuel ->
    exists r0, generates (fun s => outside (f s)) s w r0 w1 /\ r = rmap (app acc) r0.
  Proof.
    induction fuel as [|fuel IH]; intros s acc w r w1 H N; cbn in H.
    - injection H as <- <-. congruence.
    - unfold bind in H. rewrite in_generator_outside in H. destruct (outside (f s) w) as [[[[x s1]|]|e] w2] eqn:E.
      + apply IH in H; auto. destruct H as (r0 & G & ->). exists (rmap (List.cons x) r0). split.
        * eapply gen_more; eauto.
        * destruct r0 as [l|e]; cbn; auto. rewrite <- app_assoc. reflexivity.
      + injection H as <- <-. exists (Ret []). split; [now apply gen_stop|]. cbn. now rewrite app_nil_r.
      + injection H as <- <-. exists (Raise e). split; [now apply gen_raise|]. reflexivity.
  Qed.

  Lemma unfold_complete : forall s w r w1, generates (fun s => outside (f s)) s w r w1 ->
    exists fuel, forall acc, unfold fuel f s acc w = (rmap (app acc) r, w1).
  Proof.
    induction 1 as [s w w1 E|s w e w1 E|s w x s1 w1 r w2 E _ (fuel & IH)].
    - exists 1. intros acc. cbn. unfold bind. rewrite ?in_generator_outside, E. cbn. rewrite app_nil_r. reflexivity.
    - exists 1. intros acc. cbn. unfold bind. rewrite ?in_generator_outside, E. reflexivity.
    - exists (Datatypes.S fuel). intros acc. cbn. unfold bind. rewrite ?in_generator_outside, E, IH. f_equal.
      destruct r; cbn; auto. rewrite <- app_assoc. reflexivity.
  Qed.

  Lemma unfold_pf : forall s w r w1, r <> Raise OutOfFuel ->
    ((exists fuel, unfold fuel f s [] w = (r, w1)) <-> generates (fun s => outside (f s)) s w r w1).
  Proof.
    intros s w r w1 N. split.
    - intros (fuel & H). apply unfold_sound in H; auto. destruct H as (r0 & G & ->). destruct r0; exact G.
    - intros G. apply unfold_complete in G. destruct G as (fuel & G). exists fuel. rewrite G. destruct r; reflexivity.
  Qed.
End Unfold.

Lemma unfold_calls_pf : forall S B (g : S -> option (B * S)) fuel s n l n1,
  unfold fuel (fun s n => (Ret (g s), Datatypes.S n)) s [] n = (Ret l, n1) -> n1 = n + length l + 1.
Proof.
  intros S B g fuel s n l n1 H. apply unfold_sound in H; [|discriminate]. destruct H as (r0 & G & E).
  destruct r0 as [l0|e]; [|discriminate]. injection E as ->. cbn.
  remember (Ret l0) as r eqn:Er. revert l0 Er. induction G as [s w w1 E|s w e w1 E|s w x s1 w1 r w2 E G IH]; intros l0 Er.
  - injection E as _ <-. injection Er as <-. cbn. lia.
  - discriminate.
  - injection E as _ <-. destruct r as [l1|e]; [|discriminate]. cbn in Er. injection Er as <-. cbn.
    rewrite (IH l1 eq_refl). lia.
Qed.

(** ** sorting *)
Section Sorting.
  Context {K A : Type} `{KeyOrd K}.
  Local Notation le := (fun p q : K * A => ltb (fst q) (fst p) = false).

  Lemma sort_insert_perm : forall x (ys : list (K * A)), Permutation (x :: ys) (sort_insert x ys).
  Proof.
    intros x. induction ys as [|y ys IH]; cbn; auto. destruct (ltb (fst y) (fst x)); auto.
    rewrite perm_swap. now constructor.
  Qed.

  Lemma sort_items_perm : forall xs : list (K * A), Permutation xs (sort_items xs).
  Proof.
    induction xs as [|x xs IH]; cbn; auto. rewrite <- sort_insert_perm. now constructor.
  Qed.

  Lemma ltb_asym' : forall a b : K, ltb a b = true -> ltb b a = false.
  Proof.
    intros a b L. destruct (ltb b a) eqn:E; auto. pose proof (ltb_trans a b a L E). rewrite ltb_irrefl in *. discriminate.
  Qed.

  Lemma not_ltb_trans : forall a b c : K, ltb b a = false -> ltb c b = false -> ltb c a = false.
  Proof.
    intros a b c H1 H2. destruct (ltb c a) eqn:E; auto.
    destruct (ltb a b) eqn:Eab.
    - pose proof (ltb_trans c a b E Eab). congruence.
    - assert (eqb a b = true) by (apply eqb_incomparable; auto).
      rewrite (ltb_eqb_r a b c) in E by auto. congruence.
  Qed.

  Lemma sort_insert_sorted : forall x (ys : list (K * A)), StronglySorted le ys -> StronglySorted le (sort_insert x ys).
  Proof.
    intros x. induction ys as [|y ys IH]; intros S; cbn; [constructor; auto|].
    inversion S as [|? ? S1 F1]; subst. destruct (ltb (fst y) (fst x)) eqn:E.
    - constructor; auto. rewrite Forall_forall in *. intros z Hz.
      apply (Permutation_in _ (Permutation_sym (sort_insert_perm x ys))) in Hz. destruct Hz as [<-|Hz]; auto.
      now apply ltb_asym'.
    - constructor; auto. constructor; auto. rewrite Forall_forall in *. intros z Hz.
      eapply not_ltb_trans; [|apply F1; auto]. exact E.
  Qed.

  Lemma sort_items_sorted : forall xs : list (K * A), StronglySorted le (sort_items xs).
  Proof. induction xs as [|x xs IH]; cbn; [constructor|]. now apply sort_insert_sorted. Qed.

  Lemma sort_insert_filter : forall k x (ys : list (K * A)),
    List.filter (fun p => eqb (fst p) k) (sort_insert x ys) = List.filter (fun p => eqb (fst p) k) (x :: ys).
  Proof.
    intros k x. induction ys as [|y ys IH]; auto. cbn [sort_insert]. destruct (ltb (fst y) (fst x)) eqn:E; auto.
    cbn [List.filter] in *. rewrite IH. destruct (eqb (fst y) k) eqn:Ey, (eqb (fst x) k) eqn:Ex; auto.
    apply eqb_incomparable in Ey, Ex. exfalso.
    assert (Hy : ltb (fst y) (fst x) = ltb k (fst x)) by (apply ltb_eqb_l, eqb_incomparable; tauto).
    destruct Ex; congruence.
  Qed.

  Lemma sort_items_stable : forall k (xs : list (K * A)),
    List.filter (fun p => eqb (fst p) k) (sort_items xs) = List.filter (fun p => eqb (fst p) k) xs.
  Proof.
    intros k. induction xs as [|x xs IH]; auto. cbn [sort_items fold_right]. rewrite sort_insert_filter.
    cbn [List.filter]. unfold sort_items in IH. now rewrite IH.
  Qed.

  Lemma filter_rev' : forall B (p : B -> bool) l, List.filter p (rev l) = rev (List.filter p l).
  Proof.
    intros B p. induction l as [|x l IH]; cbn; auto. rewrite filter_app, IH. cbn. destruct (p x); cbn; auto. now rewrite app_nil_r.
  Qed.

  Lemma StronglySorted_snoc : forall B (R : B -> B -> Prop) l x,
    StronglySorted R l -> Forall (fun y => R y x) l -> StronglySorted R (l ++ [x]).
  Proof.
    intros B R l x S. induction S as [|y l S IH F]; intros G; cbn; [constructor; constructor|].
    inversion G; subst. constructor; auto. apply Forall_app. split; auto.
  Qed.

  Lemma StronglySorted_rev : forall B (R : B -> B -> Prop) l, StronglySorted R l -> StronglySorted (fun x y => R y x) (rev l).
  Proof.
    intros B R l S. induction S as [|x l S IH F]; cbn; [constructor|].
    apply StronglySorted_snoc; auto. apply Forall_rev. exact F.
  Qed.

  Lemma sorted_items_pf : forall (xs : list (K * A)) reverse, stably_sorts reverse xs (sorted_items xs reverse).
  Proof.
    intros xs [|]; unfold stably_sorts, sorted_items.
    - split; [|split].
      + rewrite <- Permutation_rev, <- sort_items_perm. apply Permutation_rev.
      + apply (StronglySorted_rev _ (fun p q => ltb (fst q) (fst p) = false)). apply sort_items_sorted.
      + intros k. rewrite filter_rev', sort_items_stable, filter_rev', rev_involutive. reflexivity.
    - split; [|split]; [apply sort_items_perm|apply sort_items_sorted|intros k; apply sort_items_stable].
  Qed.
End Sorting.

Lemma sort_with_pf : forall W A K (KO : KeyOrd K) (xs : block A) (func : A -> M W K) reverse w,
  match mapM func xs w with
  | (Ret keys, w1) => exists ps, sort_with xs func reverse w = (Ret (List.map snd ps), w1) /\ stably_sorts reverse (combine keys xs) ps
  | (Raise e, w1) => sort_with xs func reverse w = (Raise e, w1)
  end.
Proof.
  intros W A K KO xs func reverse w. pose proof (for_in_mapM func xs w) as L. unfold sort_with. unfold bind in *. rewrite L.
  destruct (mapM func xs w) as [[keys|e] w1]; auto. eexists. split; [reflexivity|]. apply sorted_items_pf.
Qed.

Lemma mapM_ret : forall W A B (f : A -> B) (xs : list A) (w : W), mapM (fun x => ret (f x)) xs w = (Ret (List.map f xs), w).
Proof.
  intros W A B f. induction xs as [|x xs IH]; intros w; cbn; auto. unfold bind, ret in *. rewrite IH. reflexivity.
Qed.

Lemma map_snd_combine : forall A B (xs : list A) (ys : list B), length xs = length ys -> List.map snd (combine xs ys) = ys.
Proof. intros A B. induction xs as [|x xs IH]; intros [|y ys] L; cbn in *; try lia; auto. now rewrite IH by lia. Qed.

Lemma sort_with_perm_pf : forall W A K (KO : KeyOrd K) (xs : block A) (key : A -> K) reverse (w : W),
  exists ys, sort_with xs (fun x => ret (key x)) reverse w = (Ret ys, w) /\ Permutation xs ys /\
    StronglySorted (fun x y => (if reverse then ltb (key x) (key y) else ltb (key y) (key x)) = false) ys /\
    (forall k, List.filter (fun x => eqb (key x) k) ys = List.filter (fun x => eqb (key x) k) xs).
Proof.
  intros W A K KO xs key reverse w. pose proof (sort_with_pf W A K KO xs (fun x => ret (key x)) reverse w) as H.
  rewrite mapM_ret in H. destruct H as (ps & E & P & S & F). rewrite E. eexists. split; [reflexivity|].
  assert (C : combine (List.map key xs) xs = List.map (fun x => (key x, x)) xs).
  { clear. induction xs; cbn; auto. now rewrite IHxs. }
  rewrite C in *.
  assert (K1 : forall p, In p ps -> fst p = key (snd p)).
  { intros p Hp. apply (Permutation_in _ (Permutation_sym P)) in Hp. apply in_map_iff in Hp. destruct Hp as (x & <- & _). reflexivity. }
  split; [|split].
  - apply (Permutation_map snd) in P. rewrite map_map in P. cbn in P. now rewrite map_id in P.
  - clear - S K1. induction S as [|p ps S IH F]; cbn; constructor.
    + apply IH. intros q Hq. apply K1. now right.
    + rewrite Forall_forall in *. intros y Hy. apply in_map_iff in Hy. destruct Hy as (q & <- & Hq).
      specialize (F q Hq). rewrite (K1 p (or_introl eq_refl)), (K1 q (or_intror Hq)) in F. exact F.
  - intros k. specialize (F k). apply (f_equal (List.map snd)) in F.
    assert (G : forall ps : list (K * A), (forall p, In p ps -> fst p = key (snd p)) ->
      List.map snd (List.filter (fun p => eqb (fst p) k) ps) = List.filter (fun x => eqb (key x) k) (List.map snd ps)).
    { clear. induction ps as [|p ps IH]; intros K1; cbn; auto. rewrite (K1 p (or_introl eq_refl)).
      destruct (eqb (key (snd p)) k); cbn; rewrite IH; auto; intros q Hq; apply K1; now right. }
    rewrite !G in F; auto.
    + rewrite F, map_map. cbn. now rewrite map_id.
    + intros p Hp. apply in_map_iff in Hp. destruct Hp as (x & <- & _). reflexivity.
Qed.

(** ** equality *)
Lemma tuple_eq_pf : forall A (eq : A -> A -> bool) xs ys, tuple_eq eq xs ys = true <-> elementwise eq xs ys.
Proof.
  intros A eq. unfold elementwise. induction xs as [|x xs IH]; intros [|y ys]; cbn; split; intros H; try discriminate; auto.
  - inversion H.
  - inversion H.
  - apply andb_prop in H. destruct H. constructor; auto. now apply IH.
  - inversion H; subst. apply andb_true_intro. split; auto. now apply IH.
Qed.

Lemma block_eq_pf : forall A (eq : A -> A -> bool) (xs ys : block A), (forall x y, eq x y = eq y x) ->
  (block_eq eq xs ys = true <-> elementwise eq xs ys) /\
  (block_eq_tuple eq xs ys = true <-> elementwise eq xs ys).
Proof.
  intros A eq xs ys S. split; [|apply tuple_eq_pf]. unfold block_eq. rewrite tuple_eq_pf. unfold elementwise. split; intros H.
  - revert xs H. induction ys as [|y ys IH]; intros [|x xs] H; inversion H; subst; constructor; auto. now rewrite S.
  - revert xs H. induction ys as [|y ys IH]; intros [|x xs] H; inversion H; subst; constructor; auto. now rewrite S.
Qed.

Lemma block_eq_laws_pf : forall A (eq : A -> A -> bool),
  (forall x, eq x x = true) -> (forall x y, eq x y = eq y x) -> (forall x y z, eq x y = true -> eq y z = true -> eq x z = true) ->
  forall xs ys zs : block A,
    block_eq eq xs xs = true /\ block_eq eq xs ys = block_eq eq ys xs /\
    (block_eq eq xs ys = true -> block_eq eq ys zs = true -> block_eq eq xs zs = true) /\
    (block_eq eq xs ys = true -> length xs = length ys).
Proof.
  intros A eq R S T.
  assert (Rf : forall xs : list A, tuple_eq eq xs xs = true) by (induction xs; cbn; auto; now rewrite R, IHxs).
  assert (Sy : forall xs ys : list A, tuple_eq eq xs ys = tuple_eq eq ys xs).
  { induction xs as [|x xs IH]; intros [|y ys]; cbn; auto. now rewrite S, IH. }
  assert (Tr : forall xs ys zs : list A, tuple_eq eq xs ys = true -> tuple_eq eq ys zs = true -> tuple_eq eq xs zs = true).
  { induction xs as [|x xs IH]; intros [|y ys] [|z zs]; cbn; intros; try discriminate; auto.
    apply andb_prop in H, H0. destruct H, H0. apply andb_true_intro. split; eauto. }
  intros xs ys zs. unfold block_eq. repeat split; auto.
  - intros H1 H2. eapply Tr; eauto.
  - intros H. apply tuple_eq_pf in H. unfold elementwise in H. clear - H. induction H; cbn; auto.
Qed.

(** ** range *)
Lemma range_pf : forall start stop step, step <> 0%Z ->
  exists l, range start stop step = Ret l /\
    (forall i x, nth_error l i = Some x -> x = (start + Z.of_nat i * step)%Z) /\
    (forall x, In x l <-> exists i, (0 <= i /\ x = start + i * step /\ if Z.ltb 0 step then x < stop else stop < x)%Z).
Proof.
  intros start stop step N. unfold range, py_range. destruct (Z.eqb_spec step 0); [lia|]. eexists. split; [reflexivity|]. split.
  - intros i x E. pose proof E as L. apply (nth_error_In) in L. 
    assert (i < range_len start stop step).
    { assert (X : nth_error (List.map (fun i => (start + Z.of_nat i * step)%Z) (seq 0 (range_len start stop step))) i <> None) by congruence.
      apply nth_error_Some in X. now rewrite map_length, seq_length in X. }
    rewrite (nth_error_nth' _ (start + Z.of_nat 0 * step)%Z) in E by now rewrite map_length, seq_length.
    rewrite (map_nth (fun i => (start + Z.of_nat i * step)%Z)), seq_nth in E by auto. injection E as <-. reflexivity.
  - intros x. rewrite in_map_iff. unfold range_len. split.
    + intros (i & <- & Hi). apply in_seq in Hi. exists (Z.of_nat i). split; [lia|]. split; auto.
      destruct (Z.ltb_spec 0 step).
      * pose proof (Z.div_le_mono (stop - start + step - 1) (stop - start + step - 1) step).
        assert (X : (Z.of_nat i < (stop - start + step - 1) / step)%Z) by lia.
        assert (Y : (step * ((stop - start + step - 1) / step) <= stop - start + step - 1)%Z) by (apply Z.mul_div_le; lia).
        nia.
      * assert (X : (Z.of_nat i < (start - stop - step - 1) / - step)%Z) by lia.
        assert (Y : (- step * ((start - stop - step - 1) / - step) <= start - stop - step - 1)%Z) by (apply Z.mul_div_le; lia).
        nia.
    + intros (i & Hi & -> & C). exists (Z.to_nat i). rewrite Z2Nat.id by lia. split; auto. apply in_seq. split; [lia|].
      rewrite Nat.add_0_l. destruct (Z.ltb_spec 0 step).
      * assert (X : (i + 1 <= (stop - start + step - 1) / step)%Z) by (apply Z.div_le_lower_bound; nia). lia.
      * assert (X : (i + 1 <= (start - stop - step - 1) / - step)%Z) by (apply Z.div_le_lower_bound; nia). lia.
Qed.

(** ** starmap *)
Lemma mapM_Args : forall W X B (f : list X -> M W B) xs w, mapM (call_star f) (List.map Args xs) w = mapM f xs w.
Proof.
  intros W X B f. induction xs as [|x xs IH]; intros w; cbn; [reflexivity|].
  unfold bind. destruct (f x w) as [[y|e] w1]; [|reflexivity]. now rewrite IH.
Qed.
Lemma starmap_pf : forall {W X B} (xs : list (list X)) (f : list X -> M W B) w,
  fst (mapM f xs w) <> Raise StopIterationExn -> starmap (List.map Args xs) f w = mapM f xs w.
Proof.
  intros W X B xs f w N. rewrite <- mapM_Args in *. exact (map_mapM (List.map Args xs) (call_star f) w N).
Qed.
Lemma mapM_not_iterable : forall W X B (f : list X -> M W B) xs x rest w,
  mapM (call_star f) (List.map Args xs ++ NotIterable x :: rest) w = (do _ <- mapM f xs; raise TypeError) w.
Proof.
  intros W X B f xs x rest. induction xs as [|y xs IH]; intros w; cbn; [reflexivity|].
  unfold bind in *. destruct (f y w) as [[z|e] w1]; [|reflexivity]. rewrite IH.
  destruct (mapM f xs w1) as [[zs|e] w2]; reflexivity.
Qed.
Lemma starmap_not_iterable_pf : forall {W X B} (xs : list (list X)) x (rest : list (star X)) (f : list X -> M W B) w,
  fst (mapM f xs w) <> Raise StopIterationExn ->
  starmap (List.map Args xs ++ NotIterable x :: rest) f w = (do _ <- mapM f xs; raise TypeError) w.
Proof.
  intros W X B xs x rest f w N. rewrite <- mapM_not_iterable with (rest := rest) (x := x).
  apply (map_mapM _ (call_star f)). rewrite mapM_not_iterable. unfold bind.
  destruct (mapM f xs w) as [[zs|e] w2]; [discriminate|exact N].
Qed.
