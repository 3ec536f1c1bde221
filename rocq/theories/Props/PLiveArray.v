(** Property theorems C111 (callbacks that change the TypedArray they are called on).
    [peek w] is what the array's storage holds in the world [w], [fuel] a number of
    elements at which the model gives up; with [fuel] above the length of the array it
    gives up only where the array grows under way. *)
From Coq Require Import List ZArith Bool Lia.
From Verif.Model Require Import Base PyList OptionResult Array LiveArray.
From Verif.Spec Require Import LiveSpec.
From Verif.Proofs Require Import LiveFacts.
Import ListNotations.
Local Open Scope py_scope.

(** C111: callbacks that leave the array alone, or only change positions that have been
    visited, see the array as it was at the call; others do not. *)
Theorem C111_hands_off_partial : forall F U W (FF : Floats F) long64 (peek : W -> list (pyval F U)) (a : tarray F U) w fuel,
  peek w = a_elems a -> length (a_elems a) < fuel ->
  (forall mapping, hands_off peek mapping -> live_map long64 peek fuel mapping w = map long64 a mapping w) /\
  (forall mapping, hands_off peek mapping -> live_collect long64 peek fuel mapping w = collect long64 a mapping w) /\
  (forall chooser, hands_off peek chooser -> live_choose long64 peek fuel chooser w = choose long64 a chooser w) /\
  (forall predicate, hands_off peek predicate -> live_filter long64 peek fuel (a_type a) predicate w = filter long64 a predicate w) /\
  (forall predicate, hands_off peek predicate -> live_forall peek fuel predicate w = forall_ a predicate w) /\
  (forall total projection, hands_off peek projection ->
     live_sum_by long64 peek fuel total projection w = sum_by long64 total a projection w) /\
  (forall S (folder : S -> pyval F U -> M W S) state, (forall s, hands_off peek (folder s)) ->
     live_fold peek fuel folder state w = fold a folder state w).
Proof.
  exact (fun F U W FF l peek a w fuel E L =>
    conj (fun f Ho => live_map_off l peek f a w fuel Ho E L) (conj (fun f Ho => live_collect_off l peek f a w fuel Ho E L)
    (conj (fun f Ho => live_choose_off l peek f a w fuel Ho E L) (conj (fun f Ho => live_filter_off l peek f a w fuel Ho E L)
    (conj (fun f Ho => live_forall_off peek f a w fuel Ho E L) (conj (fun t f Ho => live_sum_by_off l peek t f a w fuel Ho E L)
    (fun S f s Ho => live_fold_behind peek S (fun _ _ => True) f s a w fuel (fun s i x w _ _ => conj (f_equal (skipn (Datatypes.S i)) (Ho s x w)) I) I E L))))))).
Qed.
Print Assumptions C111_hands_off_partial.
Theorem C111_behind_map_partial : forall F U W (FF : Floats F) long64 (peek : W -> list (pyval F U)) at_position mapping (a : tarray F U) w fuel,
  only_behind peek at_position mapping -> at_position 0 w -> peek w = a_elems a -> length (a_elems a) < fuel ->
  live_map long64 peek fuel mapping w = map long64 a mapping w.
Proof. exact (fun F U W FF => live_map_behind). Qed.
Print Assumptions C111_behind_map_partial.
Theorem C111_behind_fold_partial : forall F U W (peek : W -> list (pyval F U)) S at_position (folder : S -> pyval F U -> M W S) state (a : tarray F U) w fuel,
  (forall s, only_behind peek at_position (folder s)) -> at_position 0 w -> peek w = a_elems a -> length (a_elems a) < fuel ->
  live_fold peek fuel folder state w = fold a folder state w.
Proof. exact (fun F U W => live_fold_behind). Qed.
Print Assumptions C111_behind_fold_partial.
(** A callback that writes back at the position it is called for: the world is the storage
    and the number of calls so far. *)
Definition write_back {A} (g : A -> A) (x : A) : M (list A * nat) A :=
  fun '(l, n) => (Ret (g x), (firstn n l ++ g x :: skipn (S n) l, S n)).
Example C111_write_back_case : forall A (g : A -> A),
  only_behind fst (fun i (w : list A * nat) => snd w = i) (write_back g).
Proof.
  intros A g i x [l n] E N. cbn [fst snd] in *. subst n. split; [|reflexivity]. unfold write_back. cbn [snd fst].
  assert (L : i < length l) by (apply nth_error_Some; congruence).
  rewrite skipn_app, firstn_length, Nat.min_l by lia. rewrite skipn_all2 by (rewrite firstn_length; lia).
  replace (S i - i) with 1 by lia. reflexivity.
Qed.
Example C111_write_back_runs : forall F U,
  let v n := @VInt F U None n in
  fst (live_fold (fst : list (pyval F U) * nat -> _) 4 (fun s x => do y <- write_back (fun _ => v 0%Z) x; ret (s ++ [x])) [] ([v 1%Z; v 2%Z; v 3%Z], 0)) =
  Ret [v 1%Z; v 2%Z; v 3%Z].
Proof. reflexivity. Qed.

(** A callback that pushes an element each time: map never comes back, for no array but the
    empty one. *)
Theorem C111_push_refuted : forall F U (FF : Floats F) long64 fuel (elems : list (pyval F U)), elems <> [] ->
  fst (live_map long64 (fun w => w) fuel (fun x w => (Ret x, w ++ [x])) elems) = Raise OutOfFuel.
Proof.
  intros F U FF l fuel elems N. unfold live_map, bind.
  assert (L : 0 < length elems) by (destruct elems; [congruence|cbn; lia]).
  pose proof (live_append_never _ fuel 0 [] elems L) as E. destruct (live_calls _ _ _ _ _ _ _) as [[ys|e] w]; cbn in *; [discriminate|].
  congruence.
Qed.
Print Assumptions C111_push_refuted.
(** A callback that deletes the first element each time sees every other element. *)
Theorem C111_delete_refuted : forall F U (a : tarray F U) fuel, length (a_elems a) < fuel ->
  fst (live_fold (fun w => w) fuel (fun s x w => (Ret (s ++ [x]), tl w)) [] (a_elems a)) = Ret (every_other (a_elems a)) /\
  fst (fold a (fun s x w => (Ret (s ++ [x]), tl w)) [] (a_elems a)) = Ret (a_elems a).
Proof.
  intros F U a fuel L. split.
  - unfold live_fold. now rewrite live_drop by exact L.
  - apply (fold_collects (a_elems a) [] (a_elems a)).
Qed.
Print Assumptions C111_delete_refuted.
Example C111_delete_case : forall F U,
  let v n := @VInt F U None n in every_other [v 1%Z; v 2%Z; v 3%Z; v 4%Z; v 5%Z] = [v 1%Z; v 3%Z; v 5%Z].
Proof. reflexivity. Qed.
