From Coq Require Import List ZArith Bool Lia.
From Verif.Model Require Import Base ValueEq.
From Verif.Spec Require Import EqSpec.
Import ListNotations.

Lemma depth_in x xs n : In x xs -> S (list_max (map depth xs)) < S n -> depth x < n.
Proof.
  intros I L. assert (H : depth x <= list_max (map depth xs)); [|lia].
  induction xs as [|y xs IH]; [destruct I|]. cbn [map list_max fold_right] in *. destruct I as [->|I]; [unfold list_max in *; cbn; lia|].
  assert (K := IH I). unfold list_max in *. cbn in *. assert (depth x <= fold_right Nat.max 0 (map depth xs)) by (apply K; lia). lia.
Qed.
Lemma depth_in2 (kv : Z * value) b n : In kv b -> S (list_max (map (fun kv => depth (snd kv)) b)) < S n -> depth (snd kv) < n.
Proof.
  intros I L. apply (depth_in (snd kv) (map snd b)); [apply in_map; exact I|]. rewrite map_map. exact L.
Qed.
Lemma every_in p x xs : forallb (everywhere p) xs = true -> In x xs -> everywhere p x = true.
Proof. rewrite forallb_forall. auto. Qed.
Lemma every_top p x : everywhere p x = true -> p x = true.
Proof. destruct x; cbn; intros H; apply andb_prop in H; apply H. Qed.

Lemma tells_raise P e : ~ tells (Raise e) P.
Proof. intros (b & H & _). discriminate H. Qed.
Lemma tells_false P : ~ P -> tells (Ret false) P.
Proof. intros H. exists false. split; [reflexivity|]. split; [discriminate|intros K; destruct (H K)]. Qed.
Lemma tells_true (P : Prop) : P -> tells (Ret true) P.
Proof. intros H. exists true. split; [reflexivity|]. split; auto. Qed.
Lemma tells_iff r (P Q : Prop) : (P <-> Q) -> tells r P -> tells r Q.
Proof. intros E (b & H & K). exists b. split; [exact H|]. rewrite K. exact E. Qed.
Lemma tells_and r s (P Q : Prop) : tells r P -> (P -> tells s Q) ->
  tells (rbind r (fun b : bool => if b then s else Ret false)) (P /\ Q).
Proof.
  intros (b & -> & H) K. cbn. destruct b.
  - assert (p : P) by (apply H; reflexivity). eapply tells_iff; [|apply (K p)]. tauto.
  - apply tells_false. intros (p & _). apply H in p. discriminate p.
Qed.

Section Tuples.
  Context (eq : value -> value -> res bool) (g : value -> value).
  Lemma tuples_tells xs ys :
    (forall x y, In x xs -> In y ys -> tells (eq x y) (g x = g y)) -> tells (tuples_eq eq xs ys) (map g xs = map g ys).
  Proof.
    revert ys; induction xs as [|x xs IH]; intros [|y ys] H; cbn [tuples_eq map].
    - apply tells_true. reflexivity.
    - apply tells_false. discriminate.
    - apply tells_false. discriminate.
    - eapply tells_iff; [|apply tells_and; [apply H; left; reflexivity|intros _; apply IH; intros a b A B; apply H; right; assumption]].
      split; [intros [-> ->]; reflexivity|intros E; injection E; auto].
  Qed.
  Lemma tuples_total xs ys :
    (forall x y, In x xs -> In y ys -> exists b, eq x y = Ret b) -> exists b, tuples_eq eq xs ys = Ret b.
  Proof.
    revert ys; induction xs as [|x xs IH]; intros [|y ys] H; cbn [tuples_eq]; eauto.
    destruct (H x y) as (b & ->); [left; reflexivity|left; reflexivity|]. cbn. destruct b; eauto.
    apply IH. intros a c A B. apply H; right; assumption.
  Qed.
  Lemma tuples_refl xs : (forall x, In x xs -> eq x x = Ret true) -> tuples_eq eq xs xs = Ret true.
  Proof.
    induction xs as [|x xs IH]; intros H; [reflexivity|]. cbn [tuples_eq]. rewrite H by (left; reflexivity). cbn.
    apply IH. intros y Y. apply H. right. exact Y.
  Qed.
  Lemma items_tuples pre xs ys o : (forall i, i < length pre + length ys -> item_of o i = match nth_error (pre ++ ys) i with Some x => Ret x | None => Raise IndexError end) ->
    length xs = length ys -> array_items_eq eq (length pre) xs o = tuples_eq eq xs ys.
  Proof.
    revert pre ys; induction xs as [|x xs IH]; intros pre [|y ys] H L; try discriminate L; [reflexivity|]. cbn [array_items_eq tuples_eq].
    rewrite H by (cbn; lia). rewrite nth_error_app2, Nat.sub_diag by lia. cbn [nth_error rbind]. destruct (eq x y) as [[]|]; cbn; [|reflexivity|reflexivity].
    replace (S (length pre)) with (length (pre ++ [y])) by (rewrite app_length; cbn; lia). apply IH.
    - intros i Hi. rewrite <- app_assoc. cbn. apply H. rewrite app_length in Hi. cbn in *. lia.
    - cbn in L. lia.
  Qed.
  Definition items (o : value) : option (list value) :=
    match o with VTuple l | VList l | VBlock l | VArray l => Some l | _ => None end.
  Lemma array_lists xs o ys : items o = Some ys -> array_eq eq xs o = lists_eq eq xs ys.
  Proof.
    intros E. assert (L : len_of o = Ret (length ys)) by (destruct o; cbn in E |- *; congruence).
    unfold array_eq, lists_eq. rewrite L. cbn [rbind]. destruct (Nat.eqb_spec (length xs) (length ys)) as [H|H]; [|reflexivity].
    apply (items_tuples []); [|exact H]. intros i _. destruct o; try discriminate E; injection E as ->; reflexivity.
  Qed.
  Lemma lists_tells xs ys :
    (forall x y, In x xs -> In y ys -> tells (eq x y) (g x = g y)) -> tells (lists_eq eq xs ys) (map g xs = map g ys).
  Proof.
    intros H. unfold lists_eq. destruct (Nat.eqb_spec (length xs) (length ys)) as [L|L]; [apply tuples_tells, H|].
    apply tells_false. intros E. apply (f_equal (@length _)) in E. rewrite !map_length in E. exact (L E).
  Qed.
  Lemma maps_total a b : (forall x y, In x a -> In y b -> exists r, eq (snd x) (snd y) = Ret r) -> exists r, maps_eq eq a b = Ret r.
  Proof.
    revert b; induction a as [|[k x] a IH]; intros [|[l y] b] H; cbn [maps_eq]; eauto.
    destruct (Z.eqb k l); cbn; eauto. destruct (H (k, x) (l, y)) as (r & E); [left; reflexivity|left; reflexivity|].
    cbn in E. rewrite E. cbn. destruct r; eauto. apply IH. intros p q P Q. apply H; right; assumption.
  Qed.
  Lemma maps_refl a : (forall x, In x a -> eq (snd x) (snd x) = Ret true) -> maps_eq eq a a = Ret true.
  Proof.
    induction a as [|[k x] a IH]; intros H; [reflexivity|]. cbn [maps_eq]. rewrite Z.eqb_refl. assert (E := H (k, x) (or_introl eq_refl)). cbn in E. rewrite E. cbn.
    apply IH. intros y Y. apply H. right. exact Y.
  Qed.
  Lemma maps_tells a b : length a = length b ->
    (forall x y, In x a -> In y b -> tells (eq (snd x) (snd y)) (g (snd x) = g (snd y))) ->
    tells (maps_eq eq a b) (map (fun kv => (fst kv, g (snd kv))) a = map (fun kv => (fst kv, g (snd kv))) b).
  Proof.
    revert b; induction a as [|[k x] a IH]; intros [|[l y] b] L H; try discriminate L; cbn [maps_eq map fst snd].
    - apply tells_true. reflexivity.
    - eapply tells_iff; [|apply (tells_and _ _ (k = l /\ g x = g y)); [|intros _; apply IH; [cbn in L; lia|intros p q P Q; apply H; right; assumption]]].
      + split; [intros [[-> ->] ->]; reflexivity|]. intros E. injection E. auto.
      + destruct (Z.eqb_spec k l) as [->|N]; [|apply tells_false; tauto].
        eapply tells_iff; [|apply (H (l, x) (l, y)); left; reflexivity]. cbn. tauto.
  Qed.
End Tuples.

Lemma reflexive_pf fuel x : depth x < fuel -> py_eq fuel x x = Ret true.
Proof.
  revert x; induction fuel as [|n IH]; intros x D; [lia|].
  destruct x as [k| |xs|xs|xs|xs|i|[a|]|ok a|b]; cbn [py_eq]; cbn [depth] in D.
  - rewrite Z.eqb_refl. reflexivity.
  - reflexivity.
  - apply tuples_refl. intros x I. apply IH, (depth_in x xs); assumption.
  - unfold lists_eq. rewrite Nat.eqb_refl. apply tuples_refl. intros x I. apply IH, (depth_in x xs); assumption.
  - apply tuples_refl. intros x I. apply IH, (depth_in x xs); assumption.
  - rewrite (array_lists _ xs (VArray xs) xs eq_refl). unfold lists_eq. rewrite Nat.eqb_refl. apply tuples_refl. intros x I. apply IH, (depth_in x xs); assumption.
  - rewrite Nat.eqb_refl. reflexivity.
  - apply IH. lia.
  - reflexivity.
  - rewrite eqb_reflx. apply IH. lia.
  - apply maps_refl. intros x I. apply IH, (depth_in2 x b); assumption.
Qed.

Lemma total_pf fuel x y : depth x < fuel -> depth y < fuel -> everywhere not_array x = true -> everywhere not_array y = true ->
  exists b, py_eq fuel x y = Ret b.
Proof.
  revert x y; induction fuel as [|n IH]; intros x y D1 D2 N1 N2; [lia|].
  assert (T : forall xs ys, S (list_max (map depth xs)) < S n -> S (list_max (map depth ys)) < S n ->
    forallb (everywhere not_array) xs = true -> forallb (everywhere not_array) ys = true -> exists b, tuples_eq (py_eq n) xs ys = Ret b).
  { intros xs ys A B F G. apply tuples_total. intros p q P Q. apply IH; [apply (depth_in p xs); assumption|apply (depth_in q ys); assumption|apply (every_in _ p xs); assumption|apply (every_in _ q ys); assumption]. }
  destruct x as [k| |xs|xs|xs|xs|i|[a|]|ok a|b]; destruct y as [k'| |ys|ys|ys|ys|i'|[a'|]|ok' a'|b']; cbn [py_eq]; cbn [depth] in D1, D2; cbn [everywhere not_array andb] in N1, N2;
    try discriminate N1; try discriminate N2; eauto; try (apply T; assumption).
  - unfold lists_eq. destruct (Nat.eqb _ _); eauto.
  - apply IH; try lia; assumption.
  - destruct (Bool.eqb ok ok'); [|eauto]. apply IH; try lia; assumption.
  - apply maps_total. intros p q P Q. rewrite forallb_forall in N1, N2. apply IH; [apply (depth_in2 p b); assumption|apply (depth_in2 q b'); assumption|apply (N1 _ P)|apply (N2 _ Q)].
Qed.

Lemma equal_pf fuel x y : depth x < fuel -> depth y < fuel -> everywhere not_array_or_map x = true -> everywhere not_array_or_map y = true ->
  tells (py_eq fuel x y) (plain x = plain y).
Proof.
  revert x y; induction fuel as [|n IH]; intros x y D1 D2 N1 N2; [lia|].
  assert (T : forall xs ys, S (list_max (map depth xs)) < S n -> S (list_max (map depth ys)) < S n ->
    forallb (everywhere not_array_or_map) xs = true -> forallb (everywhere not_array_or_map) ys = true ->
    forall p q, In p xs -> In q ys -> tells (py_eq n p q) (plain p = plain q)).
  { intros xs ys A B F G p q P Q. apply IH; [apply (depth_in p xs); assumption|apply (depth_in q ys); assumption|apply (every_in _ p xs); assumption|apply (every_in _ q ys); assumption]. }
  destruct x as [k| |xs|xs|xs|xs|i|[a|]|ok a|b]; destruct y as [k'| |ys|ys|ys|ys|i'|[a'|]|ok' a'|b']; cbn [py_eq plain]; cbn [depth] in D1, D2; cbn [everywhere not_array_or_map andb] in N1, N2;
    try discriminate N1; try discriminate N2; try (apply tells_false; discriminate); try (apply tells_true; reflexivity).
  - exists (k =? k')%Z. split; [reflexivity|]. rewrite Z.eqb_eq. split; congruence.
  - eapply tells_iff; [|apply tuples_tells, (T xs ys); assumption]. split; congruence.
  - eapply tells_iff; [|apply tuples_tells, (T ys xs); assumption]. split; congruence.
  - eapply tells_iff; [|apply lists_tells, (T xs ys); assumption]. split; congruence.
  - eapply tells_iff; [|apply tuples_tells, (T xs ys); assumption]. split; congruence.
  - eapply tells_iff; [|apply tuples_tells, (T ys xs); assumption]. split; congruence.
  - exists (Nat.eqb i i'). split; [reflexivity|]. rewrite Nat.eqb_eq. split; congruence.
  - eapply tells_iff; [|apply IH; try lia; assumption]. split; congruence.
  - destruct (Bool.eqb ok ok') eqn:E.
    + apply eqb_prop in E. subst ok'. eapply tells_iff; [|apply IH; try lia; assumption]. split; congruence.
    + apply tells_false. intros H. injection H. intros _ ->. rewrite eqb_reflx in E. discriminate E.
Qed.

Section Simple.
  Context (fuel : nat) (xs ys : list value).
  Context (small : forall x, In x xs \/ In x ys -> depth x < fuel) (free : forall x, In x xs \/ In x ys -> everywhere not_array_or_map x = true).
  Lemma elements_pf x y : In x xs -> In y ys -> tells (py_eq fuel x y) (plain x = plain y).
  Proof. intros P Q. apply equal_pf; auto. Qed.
  Lemma array_pf o : o = VTuple ys \/ o = VList ys \/ o = VBlock ys \/ o = VArray ys ->
    tells (py_eq (S fuel) (VArray xs) o) (map plain xs = map plain ys) /\ tells (py_eq (S fuel) o (VArray xs)) (map plain xs = map plain ys).
  Proof.
    intros H. assert (I : items o = Some ys) by (destruct H as [->|[->|[->| ->]]]; reflexivity).
    assert (T : tells (lists_eq (py_eq fuel) xs ys) (map plain xs = map plain ys)) by (apply lists_tells, elements_pf).
    assert (U : tells (lists_eq (py_eq fuel) ys xs) (map plain xs = map plain ys)).
    { apply (tells_iff _ (map plain ys = map plain xs)); [split; congruence|]. apply lists_tells. intros p q P Q. apply equal_pf; auto. }
    split; [cbn [py_eq]; rewrite (array_lists _ _ _ _ I); exact T|].
    destruct H as [->|[->|[->| ->]]]; cbn [py_eq].
    - rewrite (array_lists _ _ (VTuple ys) ys eq_refl). exact T.
    - rewrite (array_lists _ _ (VList ys) ys eq_refl). exact T.
    - rewrite (array_lists _ _ (VTuple ys) ys eq_refl). exact T.
    - rewrite (array_lists _ _ (VArray xs) xs eq_refl). exact U.
  Qed.
End Simple.

Lemma maps_pf fuel a b : length a = length b ->
  (forall kv, In kv a \/ In kv b -> depth (snd kv) < fuel) -> (forall kv, In kv a \/ In kv b -> everywhere not_array_or_map (snd kv) = true) ->
  tells (py_eq (S fuel) (VMap a) (VMap b)) (plain (VMap a) = plain (VMap b)).
Proof.
  intros L D N. cbn [py_eq plain]. eapply tells_iff; [|apply (maps_tells _ plain); [exact L|]].
  - split; congruence.
  - intros x y P Q. apply equal_pf; auto.
Qed.

Lemma contains_pf fuel xs v : (forall x, In x (v :: xs) -> depth x < fuel) -> (forall x, In x (v :: xs) -> everywhere not_array_or_map x = true) ->
  tells (py_contains fuel xs v) (exists x, In x xs /\ plain x = plain v).
Proof.
  induction xs as [|x xs IH]; intros D N; cbn [py_contains].
  - apply tells_false. intros (x & [] & _).
  - destruct (equal_pf fuel x v) as (b & E & B); [apply D; cbn; auto|apply D; cbn; auto|apply N; cbn; auto|apply N; cbn; auto|].
    rewrite E. cbn. destruct b.
    + apply tells_true. exists x. split; [left; reflexivity|]. apply B. reflexivity.
    + eapply tells_iff; [|apply IH].
      * split; [intros (y & Y & P); exists y; split; [right; exact Y|exact P]|].
        intros (y & [<-|Y] & P); [apply B in P; discriminate P|exists y; auto].
      * intros y [->|Y]; apply D; cbn; auto.
      * intros y [->|Y]; apply N; cbn; auto.
Qed.

Lemma plain_same x : everywhere not_list_block_array x = true -> plain x = x.
Proof.
  assert (G : forall n x, depth x < n -> everywhere not_list_block_array x = true -> plain x = x); [|intros H; apply (G (S (depth x))); [lia|exact H]].
  clear x. induction n as [|n IH]; intros x D H; [lia|].
  destruct x as [k| |xs|xs|xs|xs|i|[a|]|ok a|b]; cbn [plain]; cbn [depth] in D; cbn [everywhere not_list_block_array andb] in H; try discriminate H; try reflexivity.
  - f_equal. rewrite <- (map_id xs) at 2. apply map_ext_in. intros x I. apply IH; [eapply depth_in; eassumption|eapply every_in; eassumption].
  - do 2 f_equal. apply IH; [lia|exact H].
  - f_equal. apply IH; [lia|exact H].
  - f_equal. rewrite <- (map_id b) at 2. apply map_ext_in. intros [k x] I. cbn. f_equal.
    rewrite forallb_forall in H. apply IH; [apply (depth_in2 (k, x) b); assumption|apply (H _ I)].
Qed.

Section Hash.
  Context (num_hash : Z -> Z) (none_hash : Z) (id_hash : nat -> Z) (tuple_hash : list Z -> Z) (case_hash : bool -> bool -> Z -> Z).
  Notation hash := (py_hash num_hash none_hash id_hash tuple_hash case_hash).
  Lemma hashable_pf x : if everywhere not_list_block_array x then exists h, hash x = Ret h else hash x = Raise TypeError.
  Proof.
    assert (G : forall n x, depth x < n -> if everywhere not_list_block_array x then exists h, hash x = Ret h else hash x = Raise TypeError); [|apply (G (S (depth x))); lia].
    clear x. induction n as [|n IH]; intros x D; [lia|].
    destruct x as [k| |xs|xs|xs|xs|i|[a|]|ok a|b]; cbn [py_hash]; cbn [depth] in D; cbn [everywhere not_list_block_array andb]; eauto.
    - assert (E : forall x, In x xs -> if everywhere not_list_block_array x then exists h, hash x = Ret h else hash x = Raise TypeError)
        by (intros x I; apply IH, (depth_in x xs); assumption). clear D.
      match goal with |- context [rmap _ ((?f) xs)] => set (go := f) end.
      assert (K : if forallb (everywhere not_list_block_array) xs then exists hs, go xs = Ret hs else go xs = Raise TypeError).
      { induction xs as [|x xs IHx]; [exists []; reflexivity|]. assert (K := IHx (fun y Y => E y (or_intror Y))). specialize (E x (or_introl eq_refl)).
        cbn [forallb go]. fold go. destruct (everywhere not_list_block_array x); cbn [andb]; [|rewrite E; reflexivity].
        destruct E as (h & ->). cbn [rbind]. destruct (forallb _ xs); [destruct K as (hs & ->); cbn; eauto|rewrite K; reflexivity]. }
      destruct (forallb _ xs); [destruct K as (hs & ->); cbn; eauto|rewrite K; reflexivity].
    - assert (E := IH a ltac:(lia)). destruct (everywhere _ a); [destruct E as (h & ->); cbn; eauto|rewrite E; reflexivity].
    - assert (E := IH a ltac:(lia)). destruct (everywhere _ a); [destruct E as (h & ->); cbn; eauto|rewrite E; reflexivity].
    - assert (E : forall kv, In kv b -> if everywhere not_list_block_array (snd kv) then exists h, hash (snd kv) = Ret h else hash (snd kv) = Raise TypeError)
        by (intros kv I; apply IH, (depth_in2 kv b); assumption). clear D.
      generalize 0%Z. induction b as [|[k v] b IHb]; intros acc; [cbn; eauto|].
      assert (K := fun acc => IHb (fun y Y => E y (or_intror Y)) acc). specialize (E (k, v) (or_introl eq_refl)). cbn [snd] in E.
      cbn [forallb snd]. destruct (everywhere not_list_block_array v); cbn [andb]; [|rewrite E; reflexivity].
      destruct E as (h & E). destruct (forallb _ b); rewrite E; cbn [rbind]; apply K.
  Qed.
  Lemma hash_pf fuel x y h k : depth x < fuel -> depth y < fuel -> everywhere not_array_or_map x = true -> everywhere not_array_or_map y = true ->
    py_eq fuel x y = Ret true -> hash x = Ret h -> hash y = Ret k -> h = k.
  Proof.
    intros D1 D2 N1 N2 E H K. destruct (equal_pf fuel x y D1 D2 N1 N2) as (b & B & P). rewrite E in B. injection B as <-.
    assert (Q : plain x = plain y) by (apply P; reflexivity).
    assert (X := hashable_pf x). assert (Y := hashable_pf y).
    destruct (everywhere not_list_block_array x) eqn:A; [|congruence].
    destruct (everywhere not_list_block_array y) eqn:C; [|congruence].
    rewrite !plain_same in Q by assumption. congruence.
  Qed.
End Hash.
