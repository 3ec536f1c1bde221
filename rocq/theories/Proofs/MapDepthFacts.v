(** Facts about the stack that map operations need (C101). *)
From Coq Require Import List ZArith Bool Arith Lia.
From Verif.Model Require Import Base MapTree Map MapDepth.
From Verif.Spec Require Import MapSpec ListM KeyInstances MapDepthSpec.
From Verif.Proofs Require Import KeyOrdFacts MapTreeFacts MapTreeMonadic MapFacts MapMain MapLinear.
Import ListNotations.
Local Open Scope nat_scope.
Local Open Scope py_scope.

Definition fits {K V} (d : nat) (m : tree K V) : Prop := 1 <= d /\ depth m <= d.

Lemma fits_node : forall K V d (k : K) (v : V) l r h, hok (Node k v l r h) -> fits d (Node k v l r h) ->
  exists d', d = S d' /\ hok l /\ hok r /\ fits d' l /\ fits d' r.
Proof.
  intros K V d k v l r h (Hl & Hr & Eh & H2) [F1 F2]. destruct d as [|d]; [lia|]. exists d. cbn [depth] in F2.
  rewrite (hok_depth l Hl), (hok_depth r Hr) in Eh. unfold fits. repeat split; auto; lia.
Qed.
Lemma fits_pos : forall K V d (m : tree K V), fits d m -> exists d', d = S d'.
Proof. intros K V [|d] m [F _]; [lia|eauto]. Qed.

(** Case analysis for one call: the frame is there, and the subtrees fit. *)
Ltac enter m :=
  match goal with
  | Hk : hok (Node _ _ _ _ _), F : fits ?d (Node _ _ _ _ _) |- _ =>
      destruct (fits_node _ _ _ _ _ _ _ _ Hk F) as (d' & -> & Hl & Hr & Fl & Fr)
  | F : fits ?d _ |- _ => destruct (fits_pos _ _ _ _ F) as (d' & ->)
  end.

Section Depth.
  Context {K V : Type} `{KO : KeyOrd K}.
  Implicit Types (m l r t : tree K V).

  Lemma add_in_ok : forall m d k v, hok m -> fits d m -> add_in d k v m = add k v m.
  Proof.
    induction m as [|k1 v1|k1 v1 l IHl r IHr h]; intros d k v Hk F; enter m; try reflexivity.
    cbn [add_in frame add]. rewrite IHl, IHr by auto. reflexivity.
  Qed.
  Lemma try_find_in_ok : forall m d k, hok m -> fits d m -> try_find_in d k m = Ret (try_find k m).
  Proof.
    induction m as [|k1 v1|k1 v1 l IHl r IHr h]; intros d k Hk F; enter m; try reflexivity.
    cbn [try_find_in frame try_find]. rewrite IHl, IHr by auto. destruct (eqb k k1), (ltb k k1); reflexivity.
  Qed.
  Lemma mem_in_ok : forall m d k, hok m -> fits d m -> mem_in d k m = Ret (mem k m).
  Proof.
    induction m as [|k1 v1|k1 v1 l IHl r IHr h]; intros d k Hk F; enter m; try reflexivity.
    cbn [mem_in frame mem]. rewrite IHl, IHr by auto. destruct (ltb k k1), (eqb k k1); reflexivity.
  Qed.
  Lemma size_in_ok : forall m d acc, hok m -> fits d m -> size_in d acc m = Ret (size_aux acc m).
  Proof.
    induction m as [|k1 v1|k1 v1 l IHl r IHr h]; intros d acc Hk F; enter m; try reflexivity.
    cbn [size_in frame size_aux]. rewrite IHl by auto. cbn [rbind]. rewrite IHr by auto. reflexivity.
  Qed.
  Lemma to_list_in_ok : forall m d acc, hok m -> fits d m -> to_list_in d m acc = Ret (to_list_loop m acc).
  Proof.
    induction m as [|k1 v1|k1 v1 l IHl r IHr h]; intros d acc Hk F; enter m; try reflexivity.
    cbn [to_list_in frame to_list_loop]. rewrite IHr by auto. cbn [rbind]. rewrite IHl by auto. reflexivity.
  Qed.
  Lemma splice_in_ok : forall m d, hok m -> fits d m -> splice_in d m = splice_out_successor m.
  Proof.
    induction m as [|k1 v1|k1 v1 l IHl r IHr h]; intros d Hk F; enter m; try reflexivity.
    cbn [splice_in frame splice_out_successor]. rewrite IHl by auto. reflexivity.
  Qed.
  Lemma remove_in_ok : forall m d k, hok m -> fits d m -> remove_in d k m = remove k m.
  Proof.
    induction m as [|k1 v1|k1 v1 l IHl r IHr h]; intros d k Hk F; enter m; try reflexivity.
    cbn [remove_in frame remove]. rewrite IHl, IHr, splice_in_ok by auto. reflexivity.
  Qed.
  Lemma change_in_ok : forall W m d k (u : option V -> M W (option V)) w, hok m -> fits d m -> change_in d k u m w = change k u m w.
  Proof.
    induction m as [|k1 v1|k1 v1 l IHl r IHr h]; intros d k u w Hk F; enter m; try reflexivity.
    cbn [change_in framem change]. rewrite splice_in_ok by auto. unfold bind. destruct (ltb k k1); [rewrite IHl by auto; reflexivity|].
    destruct (eqb k k1); [reflexivity|]. rewrite IHr by auto. reflexivity.
  Qed.
  Lemma iter_in_ok : forall W m d (fn : K -> V -> M W unit) w, hok m -> fits d m -> iter_in d fn m w = iter fn m w.
  Proof.
    induction m as [|k1 v1|k1 v1 l IHl r IHr h]; intros d fn w Hk F; enter m; try reflexivity.
    cbn [iter_in framem iter]. unfold bind. rewrite IHl by auto. destruct (iter fn l w) as [[x|e] w1]; [|reflexivity].
    destruct (fn k1 v1 w1) as [[y|e] w2]; [|reflexivity]. apply IHr; auto.
  Qed.
  Lemma try_pick_in_ok : forall W R m d (f : K -> V -> M W (option R)) w, hok m -> fits d m -> try_pick_in d f m w = try_pick f m w.
  Proof.
    induction m as [|k1 v1|k1 v1 l IHl r IHr h]; intros d f w Hk F; enter m; try reflexivity.
    cbn [try_pick_in framem try_pick]. unfold bind. rewrite IHl by auto. destruct (try_pick f l w) as [[[x|]|e] w1]; try reflexivity.
    destruct (f k1 v1 w1) as [[[y|]|e] w2]; try reflexivity. apply IHr; auto.
  Qed.
  Lemma exists_in_ok : forall W m d (f : K -> V -> M W bool) w, hok m -> fits d m -> exists_in d f m w = exists_ f m w.
  Proof.
    induction m as [|k1 v1|k1 v1 l IHl r IHr h]; intros d f w Hk F; enter m; try reflexivity.
    cbn [exists_in framem exists_]. unfold bind. rewrite IHl by auto. destruct (exists_ f l w) as [[[]|e] w1]; try reflexivity.
    destruct (f k1 v1 w1) as [[[]|e] w2]; try reflexivity. apply IHr; auto.
  Qed.
  Lemma forall_in_ok : forall W m d (f : K -> V -> M W bool) w, hok m -> fits d m -> forall_in d f m w = forall_ f m w.
  Proof.
    induction m as [|k1 v1|k1 v1 l IHl r IHr h]; intros d f w Hk F; enter m; try reflexivity.
    cbn [forall_in framem forall_]. unfold bind. rewrite IHl by auto. destruct (forall_ f l w) as [[[]|e] w1]; try reflexivity.
    destruct (f k1 v1 w1) as [[[]|e] w2]; try reflexivity. apply IHr; auto.
  Qed.
  Lemma fold_in_ok : forall W R m d (f : R -> K * V -> M W R) x w, hok m -> fits d m -> fold_in d f x m w = fold f x m w.
  Proof.
    induction m as [|k1 v1|k1 v1 l IHl r IHr h]; intros d f x w Hk F; enter m; try reflexivity.
    cbn [fold_in framem fold]. unfold bind. rewrite IHl by auto. destruct (fold f x l w) as [[y|e] w1]; try reflexivity.
    destruct (f y (k1, v1) w1) as [[z|e] w2]; try reflexivity. apply IHr; auto.
  Qed.
  Lemma fold_back_in_ok : forall W R m d (f : K * V -> R -> M W R) x w, hok m -> fits d m -> fold_back_in d f m x w = fold_back f m x w.
  Proof.
    induction m as [|k1 v1|k1 v1 l IHl r IHr h]; intros d f x w Hk F; enter m; try reflexivity.
    cbn [fold_back_in framem fold_back]. unfold bind. rewrite IHr by auto. destruct (fold_back f r x w) as [[y|e] w1]; try reflexivity.
    destruct (f (k1, v1) y w1) as [[z|e] w2]; try reflexivity. apply IHl; auto.
  Qed.
  Lemma map_in_ok : forall W R m d (f : K -> V -> M W R) w, hok m -> fits d m -> map_in d f m w = map f m w.
  Proof.
    induction m as [|k1 v1|k1 v1 l IHl r IHr h]; intros d f w Hk F; enter m; try reflexivity.
    cbn [map_in framem map]. unfold bind. rewrite IHl by auto. destruct (map f l w) as [[y|e] w1]; try reflexivity.
    destruct (f k1 v1 w1) as [[z|e] w2]; try reflexivity. rewrite IHr by auto. reflexivity.
  Qed.

  (** ** filter, partition, of_list: the trees under construction *)
  Definition good (n : nat) (a : tree K V) : Prop := Wf a /\ balanced a /\ length (elements a) <= n.
  Definition room (n : nat) : nat := 2 * Nat.log2 (n + 1) + 1.
  Lemma good_depth : forall n a, good n a -> depth a <= room n.
  Proof.
    intros n a (Hw & B & L). pose proof (balanced_minsize a B) as M1. pose proof (minsize_pow (depth a)) as M2. unfold room.
    assert (P : 2 ^ (depth a / 2) <= n + 1) by lia. apply Nat.log2_le_mono in P. rewrite Nat.log2_pow2 in P by lia.
    pose proof (Nat.div_mod_eq (depth a) 2). pose proof (Nat.mod_upper_bound (depth a) 2). lia.
  Qed.
  Lemma good_le : forall n n' a, good n a -> n <= n' -> good n' a.
  Proof. intros n n' a (A & B & C) L. repeat split; try apply A; auto; lia. Qed.
  Lemma al_insert_length : forall (k : K) (v : V) (xs : list (K * V)), length (al_insert k v xs) <= S (length xs).
  Proof.
    intros k v. induction xs as [|[k1 v1] xs IH]; cbn; [lia|]. destruct (ltb k k1); [cbn; lia|]. destruct (eqb k k1); cbn; lia.
  Qed.
  Lemma add_good : forall n k v a t, good n a -> add k v a = Ret t -> good (S n) t.
  Proof.
    intros n k v a t (A & B & C) E. destruct (add_bal' k v a t A B E) as [A' B']. repeat split; try apply A'; auto.
    destruct (add_ok' k v a t (proj1 A) (proj2 A) E) as (_ & El & _). rewrite El. pose proof (al_insert_length k v (elements a)). lia.
  Qed.
  Lemma room_mono : forall n n', n <= n' -> room n <= room n'.
  Proof. intros n n' L. unfold room. pose proof (Nat.log2_le_mono (n + 1) (n' + 1)). lia. Qed.
  Lemma room_pos : forall n, 1 <= room n.
  Proof. intros; unfold room; lia. Qed.
  Lemma add_in_good : forall n d k v a, good n a -> room n <= d -> add_in d k v a = add k v a.
  Proof.
    intros n d k v a G R. apply add_in_ok; [apply G|]. pose proof (good_depth n a G). pose proof (room_pos n). split; lia.
  Qed.

  Lemma filter1_in_ok : forall W n d (p : K -> V -> M W bool) k v a w, good n a -> S (room n) <= d ->
    filter1_in d p k v a w = filter1 p k v a w /\ (forall t w', filter1 p k v a w = (Ret t, w') -> good (S n) t).
  Proof.
    intros W n d p k v a w G R. destruct d as [|d]; [lia|]. unfold filter1_in, framem, filter1, bind.
    destruct (p k v w) as [[[]|e] w1]; cbn.
    - rewrite (add_in_good n) by (auto; lia). split; [reflexivity|]. intros t w' E. injection E as E <-. eapply add_good; eauto.
    - split; [reflexivity|]. intros t w' E. injection E as <- <-. eapply good_le; eauto.
    - split; [reflexivity|]. discriminate.
  Qed.
  Lemma filter_in_ok : forall W (p : K -> V -> M W bool) N m n d a w, hok m -> good n a -> n + length (elements m) <= N ->
    Nat.max 1 (depth m) + S (room N) <= d ->
    filter_in d p m a w = filter_aux p m a w /\
    (forall t w', filter_aux p m a w = (Ret t, w') -> good (n + length (elements m)) t).
  Proof.
    intros W p N. induction m as [|k1 v1|k1 v1 l IHl r IHr h]; intros n d a w Hk G L D.
    - destruct d as [|d]; [lia|]. cbn. split; [reflexivity|]. intros t w' E. injection E as <- <-. rewrite Nat.add_0_r. exact G.
    - destruct d as [|d]; [lia|]. cbn [filter_in framem filter_aux elements length] in *.
      pose proof (room_mono n N ltac:(lia)). rewrite Nat.add_1_r. apply filter1_in_ok; auto. cbn [depth] in *. lia.
    - destruct d as [|d]; [lia|]. destruct (fits_node _ _ (depth (Node k1 v1 l r h)) k1 v1 l r h Hk) as (d' & E' & Hl & Hr & Fl & Fr).
      { destruct Hk as (Hl & Hr & Eh & H2). split; cbn [depth]; lia. }
      destruct Fl as [Fl1 Fl], Fr as [Fr1 Fr]. cbn [elements] in *. rewrite app_length in *. cbn [length] in *.
      cbn [filter_in framem filter_aux]. unfold bind.
      destruct (IHl n d a w Hl G) as [El Gl]; [lia|lia|]. rewrite El.
      destruct (filter_aux p l a w) as [[a1|e] w1]; [|split; [reflexivity|discriminate]].
      specialize (Gl a1 w1 eq_refl).
      pose proof (room_mono (n + length (elements l)) N ltac:(lia)).
      destruct (filter1_in_ok W _ d p k1 v1 a1 w1 Gl) as [E1 G1]; [lia|]. rewrite E1.
      destruct (filter1 p k1 v1 a1 w1) as [[a2|e] w2]; [|split; [reflexivity|discriminate]].
      specialize (G1 a2 w2 eq_refl).
      destruct (IHr _ d a2 w2 Hr G1) as [Er Gr]; [lia|lia|]. split; [exact Er|].
      intros t w' E. specialize (Gr t w' E). eapply good_le; [exact Gr|lia].
  Qed.

  Lemma partition1_in_ok : forall W n d (p : K -> V -> M W bool) k v a1 a2 w, good n a1 -> good n a2 -> S (room n) <= d ->
    partition1_in d p k v (a1, a2) w = partition1 p k v (a1, a2) w /\
    (forall t1 t2 w', partition1 p k v (a1, a2) w = (Ret (t1, t2), w') -> good (S n) t1 /\ good (S n) t2).
  Proof.
    intros W n d p k v a1 a2 w G1 G2 R. destruct d as [|d]; [lia|]. unfold partition1_in, framem, partition1, bind, lift, ret.
    destruct (p k v w) as [[[]|e] w1].
    - rewrite (add_in_good n) by (auto; lia). split; [reflexivity|]. intros t1 t2 w' E.
      destruct (add k v a1) as [t|e] eqn:A; [|discriminate]. injection E as <- <- <-.
      split; [exact (add_good n k v a1 t G1 A)|apply (good_le n); auto].
    - rewrite (add_in_good n) by (auto; lia). split; [reflexivity|]. intros t1 t2 w' E.
      destruct (add k v a2) as [t|e] eqn:A; [|discriminate]. injection E as <- <- <-.
      split; [apply (good_le n); auto|exact (add_good n k v a2 t G2 A)].
    - split; [reflexivity|]. discriminate.
  Qed.
  Lemma partition_in_ok : forall W (p : K -> V -> M W bool) N m n d a1 a2 w, hok m -> good n a1 -> good n a2 ->
    n + length (elements m) <= N -> Nat.max 1 (depth m) + S (room N) <= d ->
    partition_in d p m (a1, a2) w = partition_aux p m (a1, a2) w /\
    (forall t1 t2 w', partition_aux p m (a1, a2) w = (Ret (t1, t2), w') ->
       good (n + length (elements m)) t1 /\ good (n + length (elements m)) t2).
  Proof.
    intros W p N. induction m as [|k1 v1|k1 v1 l IHl r IHr h]; intros n d a1 a2 w Hk G1 G2 L D.
    - destruct d as [|d]; [lia|]. cbn. split; [reflexivity|]. intros t1 t2 w' E. injection E as <- <- <-. rewrite Nat.add_0_r. auto.
    - destruct d as [|d]; [lia|]. cbn [partition_in framem partition_aux elements length] in *.
      pose proof (room_mono n N ltac:(lia)). rewrite Nat.add_1_r. apply partition1_in_ok; auto. cbn [depth] in *. lia.
    - destruct d as [|d]; [lia|]. destruct (fits_node _ _ (depth (Node k1 v1 l r h)) k1 v1 l r h Hk) as (d' & E' & Hl & Hr & Fl & Fr).
      { destruct Hk as (Hl & Hr & Eh & H2). split; cbn [depth]; lia. }
      destruct Fl as [Fl1 Fl], Fr as [Fr1 Fr]. cbn [elements] in *. rewrite app_length in *. cbn [length] in *.
      cbn [partition_in framem partition_aux]. unfold bind.
      destruct (IHr n d a1 a2 w Hr G1 G2) as [Er Gr]; [lia|lia|]. rewrite Er.
      destruct (partition_aux p r (a1, a2) w) as [[[b1 b2]|e] w1]; [|split; [reflexivity|discriminate]].
      destruct (Gr b1 b2 w1 eq_refl) as [Gb1 Gb2].
      pose proof (room_mono (n + length (elements r)) N ltac:(lia)).
      destruct (partition1_in_ok W _ d p k1 v1 b1 b2 w1 Gb1 Gb2) as [E1 Gp]; [lia|]. rewrite E1.
      destruct (partition1 p k1 v1 (b1, b2) w1) as [[[c1 c2]|e] w2]; [|split; [reflexivity|discriminate]].
      destruct (Gp c1 c2 w2 eq_refl) as [Gc1 Gc2].
      destruct (IHl _ d c1 c2 w2 Hl Gc1 Gc2) as [El Gl]; [lia|lia|]. split; [exact El|].
      intros t1 t2 w' E. destruct (Gl t1 t2 w' E) as [A B]. split; eapply good_le; eauto; lia.
  Qed.
  Lemma of_list_in_ok : forall N (xs : list (K * V)) n d a, good n a -> n + length xs <= N -> S (room N) <= d ->
    of_list_in d a xs = of_list_from a xs.
  Proof.
    intros N. induction xs as [|[k v] xs IH]; intros n d a G L D; [reflexivity|]. cbn [length] in L.
    destruct d as [|d]; [lia|]. cbn [of_list_in frame of_list_from]. pose proof (room_mono n N ltac:(lia)).
    rewrite (add_in_good n) by (auto; lia). destruct (add k v a) as [t|e] eqn:A; [|reflexivity].
    cbn [rbind]. apply (IH (S n)); [eapply add_good; eauto|lia|lia].
  Qed.
  Lemma good_empty : good 0 (Empty : tree K V).
  Proof. repeat split; cbn; auto. apply Wf_Empty. Qed.

  (** ** What is needed *)
  Lemma try_find_in_exact : forall m d k,
    try_find_in d k m = if d <? entered k m then Raise RecursionError else Ret (try_find k m).
  Proof.
    induction m as [|k1 v1|k1 v1 l IHl r IHr h]; intros [|d] k; cbn [try_find_in frame entered try_find]; try reflexivity.
    - destruct (eqb k k1); [reflexivity|]. cbn. reflexivity.
    - destruct (eqb k k1); [reflexivity|]. destruct (ltb k k1); [rewrite IHl|rewrite IHr]; reflexivity.
  Qed.
  Lemma entered_depth : forall m k, hok m -> entered k m <= Nat.max 1 (depth m).
  Proof.
    induction m as [|k1 v1|k1 v1 l IHl r IHr h]; intros k Hk; cbn [entered depth]; try lia.
    destruct Hk as (Hl & Hr & Eh & H2). rewrite (hok_depth l Hl), (hok_depth r Hr) in Eh.
    specialize (IHl k Hl). specialize (IHr k Hr). destruct (eqb k k1); [lia|]. destruct (ltb k k1); lia.
  Qed.
  Lemma hok_node_depth : forall k v l r h, hok (Node k v l r h) -> 1 <= Nat.max (depth l) (depth r).
  Proof. intros k v l r h (Hl & Hr & Eh & H2). rewrite (hok_depth l Hl), (hok_depth r Hr) in Eh. lia. Qed.

  Lemma size_in_needed : forall m d acc, hok m -> d < Nat.max 1 (depth m) -> size_in d acc m = Raise RecursionError.
  Proof.
    induction m as [|k1 v1|k1 v1 l IHl r IHr h]; intros [|d] acc Hk D; cbn [depth size_in frame] in *; try reflexivity; try lia.
    pose proof (hok_node_depth _ _ _ _ _ Hk) as P. destruct Hk as (Hl & Hr & Eh & H2).
    destruct (le_lt_dec (Nat.max 1 (depth l)) d) as [A|A].
    - rewrite size_in_ok by (auto; split; lia). cbn [rbind]. apply IHr; auto. lia.
    - rewrite IHl; auto.
  Qed.
  Lemma to_list_in_needed : forall m d acc, hok m -> d < Nat.max 1 (depth m) -> to_list_in d m acc = Raise RecursionError.
  Proof.
    induction m as [|k1 v1|k1 v1 l IHl r IHr h]; intros [|d] acc Hk D; cbn [depth to_list_in frame] in *; try reflexivity; try lia.
    pose proof (hok_node_depth _ _ _ _ _ Hk) as P. destruct Hk as (Hl & Hr & Eh & H2).
    destruct (le_lt_dec (Nat.max 1 (depth r)) d) as [A|A].
    - rewrite to_list_in_ok by (auto; split; lia). cbn [rbind]. apply IHl; auto. lia.
    - rewrite IHr; auto.
  Qed.
  Lemma iter_quiet : forall W m (fn : K -> V -> M W unit), (forall k v, quiet (fn k v)) -> quiet (iter fn m).
  Proof.
    induction m as [|k1 v1|k1 v1 l IHl r IHr h]; intros fn Q w; cbn [iter].
    - eexists _, _; reflexivity.
    - apply Q.
    - unfold bind. destruct (IHl fn Q w) as (x & w1 & ->). destruct (Q k1 v1 w1) as (y & w2 & ->). apply (IHr fn Q).
  Qed.
  Lemma iter_in_needed : forall W (fn : K -> V -> M W unit) m d w, (forall k v, quiet (fn k v)) -> hok m ->
    d < Nat.max 1 (depth m) -> fst (iter_in d fn m w) = Raise RecursionError.
  Proof.
    intros W fn. induction m as [|k1 v1|k1 v1 l IHl r IHr h]; intros [|d] w Q Hk D; cbn [depth iter_in framem] in *; try reflexivity; try lia.
    pose proof (hok_node_depth _ _ _ _ _ Hk) as P. destruct Hk as (Hl & Hr & Eh & H2). unfold bind.
    destruct (le_lt_dec (Nat.max 1 (depth l)) d) as [A|A].
    - rewrite iter_in_ok by (auto; split; lia). destruct (iter_quiet W l fn Q w) as (x & w1 & ->).
      destruct (Q k1 v1 w1) as (y & w2 & ->). apply IHr; auto. lia.
    - specialize (IHl d w Q Hl A). destruct (iter_in d fn l w) as [c w1]. cbn in IHl. subst. reflexivity.
  Qed.
End Depth.

Section Main.
  Context {K V : Type} `{KO : KeyOrd K}.
  Implicit Types (m t : tree K V).

  Lemma Reach_hok : forall m, Reach m -> hok m.
  Proof. intros m R. apply (Reach_Wf V m R). Qed.
  Lemma Reach_fits : forall m d, Nat.max 1 (depth m) <= d -> fits d m.
  Proof. intros m d L. split; lia. Qed.
  Lemma C101_needed_lookup_pf : forall m d k, Reach m ->
    try_find_in d k m = (if d <? entered k m then Raise RecursionError else Ret (try_find k m)) /\
    entered k m <= Nat.max 1 (depth m).
  Proof. intros m d k R. split; [apply try_find_in_exact|apply entered_depth, Reach_hok, R]. Qed.
  Lemma len_elements : forall m, len m = length (elements m).
  Proof. intros m. apply size_elements. Qed.
  Lemma C101_filter_pf : forall W (p : K -> V -> M W bool) m d w, Reach m ->
    Nat.max 1 (depth m) + 2 * Nat.log2 (len m + 1) + 2 <= d ->
    filter_in d p m Empty w = filter p m w /\ partition_in d p m (Empty, Empty) w = partition p m w.
  Proof.
    intros W p m d w R D. pose proof (Reach_hok m R) as Hk. rewrite len_elements in D. split.
    - apply (filter_in_ok W p (length (elements m)) m 0); auto using good_empty. unfold room. lia.
    - apply (partition_in_ok W p (length (elements m)) m 0); auto using good_empty. unfold room. lia.
  Qed.
  Lemma C101_of_list_pf : forall (xs : list (K * V)) d, 2 * Nat.log2 (length xs + 1) + 2 <= d -> of_list_in d Empty xs = of_list xs.
  Proof. intros xs d D. apply (of_list_in_ok (length xs) xs 0); auto using good_empty. unfold room. lia. Qed.
  Lemma entered_found : forall k m v n, search k m = (Some v, n) -> entered k m = n.
  Proof.
    intros k. induction m as [|k1 v1|k1 v1 l IHl r IHr h]; intros v n E; cbn [search entered] in *; try discriminate.
    - congruence.
    - destruct (eqb k k1); [congruence|]. destruct (ltb k k1).
      + destruct (search k l) as [o n'] eqn:S'. injection E as -> <-. now rewrite (IHl v n').
      + destruct (search k r) as [o n'] eqn:S'. injection E as -> <-. now rewrite (IHr v n').
  Qed.
End Main.

Lemma C101_refuted_pf : forall d, exists (m : tree nat nat) k v, Reach m /\ len m = S d /\ try_find k m = Some v /\
  try_find_in d k m = Raise RecursionError.
Proof.
  intros d. destruct (C08_linear_pf (S d) ltac:(lia)) as (m & k & v & R & L & D & T & Se). exists m, k, v. repeat split; auto.
  rewrite try_find_in_exact, (entered_found k m v (S d) Se). assert (d <? S d = true) as -> by (apply Nat.ltb_lt; lia). reflexivity.
Qed.
