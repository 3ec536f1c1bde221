(** Lemmas about the methods that Map inherits from Mapping, and about the set of its keys. *)
From Coq Require Import List ZArith Bool Arith Lia.
From Verif.Model Require Import Base MapTree Map Inherited.
From Verif.Spec Require Import ListM MapSpec InheritSpec.
From Verif.Proofs Require Import KeyOrdFacts MapTreeFacts MapFacts MapMain InheritFacts.
Import ListNotations.
Local Open Scope list_scope.
Local Open Scope nat_scope.
Local Open Scope py_scope.

Section Sets.
  Context {K : Type} `{KeyOrd K}.
  Implicit Types l s : list K.
  Lemma set_in_has : forall k s, set_in k s = true <-> has k s.
  Proof. intros k s. unfold set_in, has. rewrite existsb_exists. reflexivity. Qed.
  Lemma has_app : forall k l s, has k (l ++ s) <-> has k l \/ has k s.
  Proof.
    intros k l s. unfold has. split.
    - intros (x & I & E). apply in_app_iff in I. destruct I; [left|right]; eauto.
    - intros [(x & I & E)|(x & I & E)]; exists x; rewrite in_app_iff; auto.
  Qed.
  Lemma has_eqb : forall k k' l, eqb k k' = true -> has k l -> has k' l.
  Proof. intros k k' l E (x & I & Q). exists x. split; [exact I|]. rewrite <- (eqb_cong_l _ _ x E). exact Q. Qed.
  Lemma distinct_snoc : forall l k, distinct l -> ~ has k l -> distinct (l ++ [k]).
  Proof.
    induction 1 as [|x l F D IH]; intros N; cbn; [repeat constructor|]. constructor.
    - apply Forall_app. split; [exact F|]. repeat constructor. destruct (eqb x k) eqn:E; [|reflexivity]. exfalso. apply N. exists x. rewrite eqb_sym. cbn; auto.
    - apply IH. intros (y & I & Q). apply N. exists y. cbn; auto.
  Qed.
  Lemma pyset_ok : forall l, distinct (pyset l) /\ forall k, has k (pyset l) <-> has k l.
  Proof.
    intros l. unfold pyset.
    assert (G : forall acc, distinct acc -> distinct (fold_left (fun s k => if set_in k s then s else s ++ [k]) l acc) /\
              forall k, has k (fold_left (fun s k => if set_in k s then s else s ++ [k]) l acc) <-> has k acc \/ has k l).
    { induction l as [|x l IH]; intros acc D; cbn [fold_left].
      - split; [exact D|]. intros k. split; [auto|]. intros [Q|(y & [] & _)]. exact Q.
      - assert (T : distinct (if set_in x acc then acc else acc ++ [x]) /\ forall k, has k (if set_in x acc then acc else acc ++ [x]) <-> has k acc \/ eqb k x = true).
        { destruct (set_in x acc) eqn:E.
          - split; [exact D|]. intros k. split; [auto|]. intros [Q|Q]; [exact Q|]. apply set_in_has in E. apply (has_eqb x k); [now rewrite eqb_sym|exact E].
          - split; [apply distinct_snoc; [exact D|]; intros Q; apply set_in_has in Q; congruence|]. intros k. rewrite has_app. split; (intros [Q|Q]; [auto|right]).
            + destruct Q as (y & [<-|[]] & Q). exact Q.
            + exists x. cbn; auto. }
        destruct T as [T1 T2]. destruct (IH _ T1) as [I1 I2]. split; [exact I1|]. intros k. rewrite I2, T2. split.
        + intros [[Q|Q]|Q]; auto; right; [exists x; cbn; auto|]. destruct Q as (y & I & Q). exists y. cbn; auto.
        + intros [Q|(y & [<-|I] & Q)]; auto. right. exists y. auto. }
    destruct (G []) as [G1 G2]; [constructor|]. split; [exact G1|]. intros k. rewrite G2. split; [intros [(y & [] & _)|Q]; exact Q|auto].
  Qed.
  (** no injection into fewer elements *)
  Lemma pigeon : forall l s, distinct l -> (forall k, has k l -> has k s) -> List.length l <= List.length s.
  Proof.
    intros l s D. revert s. induction D as [|x l F D IH]; intros s Q; [cbn; lia|].
    destruct (Q x) as (y & I & E); [exists x; split; [cbn; auto|apply eqb_refl]|].
    apply in_split in I. destruct I as (s1 & s2 & ->). rewrite app_length. cbn [List.length]. rewrite Nat.add_succ_r, <- app_length. apply le_n_S, IH.
    intros k (z & I & Ez). destruct (Q k) as (u & Iu & Eu); [exists z; cbn; auto|].
    apply in_app_iff in Iu. destruct Iu as [Iu|[<-|Iu]].
    - exists u. rewrite in_app_iff. auto.
    - exfalso. pose proof (proj1 (Forall_forall _ _) F z I) as Fz. cbn in Fz.
      assert (eqb x z = true); [|congruence].
      rewrite (eqb_cong_l x y z E). rewrite eqb_sym, <- (eqb_cong_l k z y Ez). exact Eu.
    - exists u. rewrite in_app_iff. auto.
  Qed.
  Lemma forallb_false : forall (p : K -> bool) l, forallb p l = false -> exists k, In k l /\ p k = false.
  Proof.
    intros p l. induction l as [|x l IH]; cbn; [discriminate|]. destruct (p x) eqn:E; [|eauto]. intros Q. destruct (IH Q) as (k & I & P). eauto.
  Qed.
  Lemma has_self : forall k l, In k l -> has k l.
  Proof. intros k l I. exists k. split; [exact I|apply eqb_refl]. Qed.
  Lemma filter_has : forall (p : K -> bool) l k, (forall a b, eqb a b = true -> p a = p b) -> (has k (List.filter p l) <-> has k l /\ p k = true).
  Proof.
    intros p l k C. split.
    - intros (x & I & E). apply filter_In in I. destruct I as [I P]. split; [exists x; auto|]. now rewrite (C k x E).
    - intros ((x & I & E) & P). exists x. rewrite filter_In. repeat split; auto. now rewrite <- (C k x E).
  Qed.
  Lemma set_in_cong : forall s a b, eqb a b = true -> set_in a s = set_in b s.
  Proof.
    intros s a b E. apply eq_true_iff_eq. rewrite !set_in_has. split; apply has_eqb; [exact E|now rewrite eqb_sym].
  Qed.
End Sets.

Section Maps.
  Context {K V : Type} `{KeyOrd K}.
  Implicit Types m : tree K V.
  Notation ks m := (List.map fst (to_list m)).

  Lemma mem_has : forall m k, Reach m -> (mem k m = true <-> has k (ks m)).
  Proof.
    intros m k R. destruct (reach_facts m R) as (_ & _ & _ & _ & M). rewrite M. unfold has, assoc. split.
    - destruct (List.find _ _) as [[k' v]|] eqn:E; [|discriminate]. intros _. apply find_some in E. destruct E as [I E].
      exists k'. split; [now apply (in_map fst) in I|exact E].
    - intros (k' & I & E). apply in_map_iff in I. destruct I as ([k2 v] & <- & I). destruct (List.find _ _) eqn:Q; [reflexivity|].
      pose proof (find_none _ _ Q _ I) as Z. cbn in *. congruence.
  Qed.
  Lemma mem_cong : forall m a b, Reach m -> eqb a b = true -> mem a m = mem b m.
  Proof.
    intros m a b R E. apply eq_true_iff_eq. rewrite !mem_has by exact R. split; apply has_eqb; [exact E|now rewrite eqb_sym].
  Qed.
  Lemma keys_distinct : forall l : list (K * V), ascending l -> distinct (List.map fst l).
  Proof.
    induction 1 as [|x l S IH F]; cbn; [constructor|]. constructor; [|exact IH].
    apply Forall_forall. intros k I. apply in_map_iff in I. destruct I as (y & <- & I). apply ltb_eqb_false. exact (proj1 (Forall_forall _ _) F y I).
  Qed.
  Lemma keys_facts : forall m n fuel, Reach m -> len m < n -> depth m + 2 <= fuel ->
    keys n fuel m = Ret (ks m) /\ distinct (ks m) /\ len m = List.length (ks m).
  Proof.
    intros m n fuel R Ln Lf. destruct (C05_pf m R) as (S & _ & P). destruct (P n fuel Ln Lf) as (_ & E & _). split; [exact E|].
    split; [now apply keys_distinct|]. rewrite map_length. apply (reach_facts m R).
  Qed.

  Lemma get_pf : forall m k d, Reach m -> map_get k d m = Ret (match assoc k (to_list m) with Some (_, v) => v | None => d end).
  Proof.
    intros m k d R. destruct (reach_facts m R) as (_ & _ & _ & T & _). unfold map_get, getitem. rewrite find_eq, T.
    destruct (assoc k (to_list m)) as [[k' v]|]; reflexivity.
  Qed.
  Lemma getitem_In : forall m k v, Reach m -> In (k, v) (to_list m) -> getitem k m = Ret v.
  Proof.
    intros m k v R I. destruct (reach_facts m R) as (S & _ & _ & T & _). unfold getitem. rewrite find_eq, T.
    pose proof (assoc_ascending_In _ S _ I) as A. cbn in A. rewrite A. reflexivity.
  Qed.
  Lemma keys_view_pf : forall m n fuel, Reach m -> len m < n -> depth m + 2 <= fuel ->
    keys_iter n fuel m = Ret (ks m) /\ keys_len m = List.length (ks m) /\ forall k, keys_in k m = true <-> has k (ks m).
  Proof.
    intros m n fuel R Ln Lf. destruct (keys_facts m n fuel R Ln Lf) as (E & _ & L). repeat split; auto; apply mem_has; exact R.
  Qed.
  Lemma values_iter_pf : forall m n fuel, Reach m -> len m < n -> depth m + 2 <= fuel -> values_iter n fuel m = Ret (List.map snd (to_list m)).
  Proof.
    intros m n fuel R Ln Lf. destruct (keys_facts m n fuel R Ln Lf) as (E & _). unfold values_iter. rewrite E. cbn [rbind].
    assert (G : forall l, (forall x, In x l -> In x (to_list m)) ->
      (fix go (ks : list K) : res (list V) := match ks with [] => Ret [] | k :: ks => dor v <- getitem k m; dor vs <- go ks; Ret (v :: vs) end) (List.map fst l) = Ret (List.map snd l)).
    { induction l as [|[k v] l IH]; intros I; [reflexivity|]. cbn [List.map fst snd]. rewrite (getitem_In m k v R) by (apply I; cbn; auto).
      cbn [rbind]. rewrite IH by (intros; apply I; cbn; auto). reflexivity. }
    apply G. auto.
  Qed.
  Lemma values_in_pf : forall W (eq : V -> M W bool) m n fuel, Reach m -> len m < n -> depth m + 2 <= fuel ->
    values_in n fuel eq m ==m existsM eq (List.map snd (to_list m)).
  Proof.
    intros W eq m n fuel R Ln Lf w. destruct (keys_facts m n fuel R Ln Lf) as (E & _). unfold values_in. rewrite E. unfold bind at 1, lift at 1.
    assert (G : forall l, (forall x, In x l -> In x (to_list m)) -> forall w,
      (fix go (ks : list K) : M W bool := match ks with [] => ret false | k :: ks => do v <- lift (getitem k m); do b <- eq v; if b : bool then ret true else go ks end) (List.map fst l) w
      = existsM eq (List.map snd l) w).
    { induction l as [|[k v] l IH]; intros I w0; [reflexivity|]. cbn [List.map fst snd existsM]. rewrite (getitem_In m k v R) by (apply I; cbn; auto).
      unfold bind at 1, lift at 1. unfold bind. destruct (eq v w0) as [[[]|e] w1]; try reflexivity. apply IH. intros; apply I; cbn; auto. }
    apply G. auto.
  Qed.

  (** dict(m) and items() *)
  Lemma dict_pairs_ok : forall hashable (l acc : list (K * V)), ascending (acc ++ l) -> (forall x, In x l -> hashable (fst x) = true) ->
    dict_pairs hashable l acc = Ret (acc ++ l).
  Proof.
    intros hashable l. induction l as [|[k v] l IH]; intros acc S Hs; cbn [dict_pairs]; [now rewrite app_nil_r|].
    pose proof (Hs (k, v) (or_introl eq_refl)) as Hk. cbn in Hk. rewrite Hk. pose proof S as S'. apply ascending_app in S'. destruct S' as (_ & _ & L & _).
    rewrite pydict_set_app by exact L. rewrite IH; rewrite <- ?app_assoc; auto. intros x I. apply Hs. cbn; auto.
  Qed.
  Lemma dict_of_pairs : forall hashable m (l acc : list (K * V)), Reach m -> (forall x, In x l -> In x (to_list m)) ->
    dict_of hashable m (List.map fst l) acc = dict_pairs hashable l acc.
  Proof.
    intros hashable m l. induction l as [|[k v] l IH]; intros acc R I; [reflexivity|]. cbn [List.map dict_of dict_pairs fst].
    rewrite (getitem_In m k v R) by (apply I; cbn; auto). cbn [rbind]. destruct (hashable k); [|reflexivity]. apply IH; auto. intros; apply I; cbn; auto.
  Qed.
  Lemma dict_same : forall hashable m n fuel, Reach m -> len m < n -> depth m + 2 <= fuel ->
    to_dict hashable n fuel m = dict_pairs hashable (to_list m) [] /\ items_hashed hashable n fuel m = dict_pairs hashable (to_list m) [].
  Proof.
    intros hashable m n fuel R Ln Lf. destruct (C05_pf m R) as (S & _ & P). destruct (P n fuel Ln Lf) as (E1 & E2 & _).
    unfold to_dict, items_hashed. rewrite E1, E2. cbn [rbind]. split; [|reflexivity]. apply dict_of_pairs; auto.
  Qed.
  Lemma dict_pf : forall hashable m n fuel, Reach m -> len m < n -> depth m + 2 <= fuel -> (forall k v, In (k, v) (to_list m) -> hashable k = true) ->
    to_dict hashable n fuel m = Ret (to_list m) /\ items_hashed hashable n fuel m = Ret (to_list m).
  Proof.
    intros hashable m n fuel R Ln Lf Hs. destruct (dict_same hashable m n fuel R Ln Lf) as [-> ->].
    rewrite (dict_pairs_ok hashable (to_list m) []); auto.
    - apply (C05_pf m R).
    - intros [k v] I. exact (Hs k v I).
  Qed.
  Lemma unhashable_pf : forall hashable m n fuel k v, Reach m -> len m < n -> depth m + 2 <= fuel -> In (k, v) (to_list m) -> hashable k = false ->
    to_dict hashable n fuel m = Raise TypeError /\ items_hashed hashable n fuel m = Raise TypeError.
  Proof.
    intros hashable m n fuel k v R Ln Lf I Hk. destruct (dict_same hashable m n fuel R Ln Lf) as [-> ->].
    assert (G : forall l acc, In (k, v) l -> dict_pairs hashable l acc = Raise TypeError).
    { induction l as [|[k' v'] l IH]; intros acc Il; [destruct Il|]. cbn [dict_pairs]. destruct Il as [E|Il].
      - injection E as -> ->. rewrite Hk. reflexivity.
      - destruct (hashable k'); [now apply IH|reflexivity]. }
    rewrite (G _ _ I). auto.
  Qed.

  (** comparisons of the set of keys *)
  Section Compare.
    Variables (m : tree K V) (n fuel : nat) (s : list K).
    Hypotheses (R : Reach m) (Ln : len m < n) (Lf : depth m + 2 <= fuel) (Ds : distinct s).
    Lemma keys_le_pf : exists b, keys_le n fuel m s = Ret b /\ (b = true <-> forall k, has k (ks m) -> has k s).
    Proof.
      destruct (keys_facts m n fuel R Ln Lf) as (E & D & L). unfold keys_le. destruct (Nat.ltb_spec (List.length s) (len m)) as [C|C].
      - exists false. split; [reflexivity|]. split; [discriminate|]. intros Q. apply pigeon in Q; [lia|exact D].
      - rewrite E. cbn [rbind]. eexists. split; [reflexivity|]. rewrite forallb_forall. split.
        + intros Q k (k' & I & Ek). specialize (Q k' I). apply set_in_has in Q. apply (has_eqb k' k); [now rewrite eqb_sym|exact Q].
        + intros Q k I. apply set_in_has, Q, has_self, I.
    Qed.
    Lemma keys_ge_pf : keys_ge m s = true <-> forall k, has k s -> has k (ks m).
    Proof.
      destruct (keys_facts m n fuel R Ln Lf) as (_ & D & L). unfold keys_ge. destruct (Nat.ltb_spec (len m) (List.length s)) as [C|C].
      - split; [discriminate|]. intros Q. apply pigeon in Q; [lia|exact Ds].
      - rewrite forallb_forall. split.
        + intros Q k (k' & I & Ek). specialize (Q k' I). apply (mem_has m k' R) in Q. apply (has_eqb k' k); [now rewrite eqb_sym|exact Q].
        + intros Q k I. apply (mem_has m k R), Q, has_self, I.
    Qed.
    Lemma has_dec : forall k (l : list K), has k l \/ ~ has k l.
    Proof. intros k l. destruct (set_in k l) eqn:E; [left; now apply set_in_has|right]. intros Q. apply set_in_has in Q. congruence. Qed.
    Lemma larger_has_more : forall l1 l2 : list K, distinct l2 -> List.length l1 < List.length l2 -> exists k, has k l2 /\ ~ has k l1.
    Proof.
      intros l1 l2 D2 L. destruct (forallb (fun k => set_in k l1) l2) eqn:E.
      - exfalso. rewrite forallb_forall in E. assert (List.length l2 <= List.length l1); [|lia]. apply pigeon; [exact D2|].
        intros k (k' & I & Ek). specialize (E k' I). apply set_in_has in E. apply (has_eqb k' k); [now rewrite eqb_sym|exact E].
      - apply forallb_false in E. destruct E as (k & I & E). exists k. split; [now apply has_self|]. intros Q. apply set_in_has in Q. congruence.
    Qed.
    Lemma equal_sizes : forall l1 l2 : list K, distinct l1 -> distinct l2 -> (forall k, has k l1 -> has k l2) -> List.length l1 = List.length l2 -> forall k, has k l2 -> has k l1.
    Proof.
      intros l1 l2 D1 D2 Q L k Hk. destruct (has_dec k l1) as [|N]; [assumption|]. exfalso.
      assert (S (List.length l1) <= List.length l2); [|lia].
      change (S (List.length l1)) with (List.length (k :: l1)). apply pigeon.
      - constructor; [|exact D1]. apply Forall_forall. intros x I. destruct (eqb k x) eqn:E; [|reflexivity]. exfalso. apply N. exists x. auto.
      - intros k' (x & [<-|I] & E); [apply (has_eqb k k'); [now rewrite eqb_sym|exact Hk]|]. apply Q. exists x. auto.
    Qed.
    Lemma keys_lt_pf : exists b, keys_lt n fuel m s = Ret b /\
      (b = true <-> (forall k, has k (ks m) -> has k s) /\ exists k, has k s /\ ~ has k (ks m)).
    Proof.
      destruct (keys_facts m n fuel R Ln Lf) as (_ & D & L). destruct keys_le_pf as (b & E & Q). unfold keys_lt.
      destruct (Nat.ltb_spec (len m) (List.length s)) as [C|C].
      - exists b. split; [exact E|]. rewrite Q. split; [|tauto]. intros S. split; [exact S|]. apply larger_has_more; [exact Ds|lia].
      - exists false. split; [reflexivity|]. split; [discriminate|]. intros (S & k & Hk & N). exfalso. apply N.
        apply (equal_sizes (ks m) s); auto. pose proof (pigeon _ _ D S). lia.
    Qed.
    Lemma keys_gt_pf : keys_gt m s = true <-> (forall k, has k s -> has k (ks m)) /\ exists k, has k (ks m) /\ ~ has k s.
    Proof.
      destruct (keys_facts m n fuel R Ln Lf) as (_ & D & L). pose proof keys_ge_pf as Q. unfold keys_gt.
      destruct (Nat.ltb_spec (List.length s) (len m)) as [C|C].
      - rewrite Q. split; [|tauto]. intros S. split; [exact S|]. apply larger_has_more; [exact D|lia].
      - split; [discriminate|]. intros (S & k & Hk & N). exfalso. apply N.
        apply (equal_sizes s (ks m)); auto. pose proof (pigeon _ _ Ds S). lia.
    Qed.
    Lemma keys_eq_pf : exists b, keys_eq n fuel m s = Ret b /\ (b = true <-> forall k, has k (ks m) <-> has k s).
    Proof.
      destruct (keys_facts m n fuel R Ln Lf) as (_ & D & L). destruct keys_le_pf as (b & E & Q). unfold keys_eq.
      destruct (Nat.eqb_spec (len m) (List.length s)) as [C|C].
      - exists b. split; [exact E|]. rewrite Q. split.
        + intros S k. split; [apply S|]. apply (equal_sizes (ks m) s); auto. lia.
        + intros S k. apply S.
      - exists false. split; [reflexivity|]. split; [discriminate|]. intros S. exfalso. apply C.
        pose proof (pigeon (ks m) s D (fun k => proj1 (S k))). pose proof (pigeon s (ks m) Ds (fun k => proj2 (S k))). lia.
    Qed.
    Lemma keys_isdisjoint_pf : keys_isdisjoint m s = true <-> forall k, ~ (has k (ks m) /\ has k s).
    Proof.
      unfold keys_isdisjoint. rewrite forallb_forall. split.
      - intros Q k [Hm (k' & I & E)]. specialize (Q k' I). apply (mem_has m k R) in Hm. rewrite (mem_cong m k k' R E) in Hm. rewrite Hm in Q. discriminate.
      - intros Q k I. destruct (mem k m) eqn:E; [|reflexivity]. exfalso. apply (Q k). split; [now apply (mem_has m k R)|now apply has_self].
    Qed.
    Lemma keys_and_pf : distinct (keys_and m s) /\ forall k, has k (keys_and m s) <-> has k (ks m) /\ has k s.
    Proof.
      unfold keys_and. destruct (pyset_ok (List.filter (fun k => mem k m) s)) as [D Q]. split; [exact D|]. intros k. rewrite Q, filter_has by (intros; now apply mem_cong).
      rewrite (mem_has m k R). tauto.
    Qed.
    Lemma keys_or_pf : exists l, keys_or n fuel m s = Ret l /\ distinct l /\ forall k, has k l <-> has k (ks m) \/ has k s.
    Proof.
      destruct (keys_facts m n fuel R Ln Lf) as (E & _). unfold keys_or. rewrite E. cbn [rbind]. eexists. split; [reflexivity|].
      destruct (pyset_ok (ks m ++ s)) as [D Q]. split; [exact D|]. intros k. rewrite Q. apply has_app.
    Qed.
    Lemma keys_sub_pf : exists l, keys_sub n fuel m s = Ret l /\ distinct l /\ forall k, has k l <-> has k (ks m) /\ ~ has k s.
    Proof.
      destruct (keys_facts m n fuel R Ln Lf) as (E & _). unfold keys_sub. rewrite E. cbn [rbind]. eexists. split; [reflexivity|].
      destruct (pyset_ok (List.filter (fun k => negb (set_in k s)) (ks m))) as [D Q]. split; [exact D|]. intros k.
      rewrite Q, filter_has by (intros; f_equal; now apply set_in_cong). rewrite negb_true_iff, <- not_true_iff_false, set_in_has. reflexivity.
    Qed.
    Lemma keys_rsub_pf : distinct (keys_rsub m s) /\ forall k, has k (keys_rsub m s) <-> has k s /\ ~ has k (ks m).
    Proof.
      unfold keys_rsub. destruct (pyset_ok (List.filter (fun k => negb (mem k m)) s)) as [D Q]. split; [exact D|]. intros k.
      rewrite Q, filter_has by (intros; f_equal; now apply mem_cong). rewrite negb_true_iff, <- not_true_iff_false, (mem_has m k R). reflexivity.
    Qed.
    Lemma keys_xor_pf : exists l, keys_xor n fuel m s = Ret l /\ distinct l /\
      forall k, has k l <-> (has k (ks m) /\ ~ has k s) \/ (has k s /\ ~ has k (ks m)).
    Proof.
      destruct keys_sub_pf as (l & E & _ & Q). unfold keys_xor. rewrite E. cbn [rbind]. eexists. split; [reflexivity|].
      destruct (pyset_ok (l ++ keys_rsub m s)) as [D T]. split; [exact D|]. intros k. rewrite T, has_app, Q, (proj2 keys_rsub_pf k). reflexivity.
    Qed.
  End Compare.
End Maps.

Lemma nth_error_backwards : forall A (xs : list A) i, i < List.length xs -> nth_error (rev xs) i = nth_error xs (List.length xs - S i).
Proof.
  intros A xs. induction xs as [|x xs IH]; intros i L; [cbn in L; lia|]. cbn [rev List.length] in *.
  destruct (Nat.eq_dec i (List.length xs)) as [->|N].
  - rewrite nth_error_app2 by (rewrite rev_length; auto). rewrite rev_length, Nat.sub_diag. replace (S (List.length xs) - S (List.length xs)) with 0 by lia. reflexivity.
  - rewrite nth_error_app1 by (rewrite rev_length; lia). rewrite IH by lia. replace (S (List.length xs) - S i) with (S (List.length xs - S i)) by lia. reflexivity.
Qed.
Lemma block_reversed_pf : forall A (xs : Block.block A),
  block_reversed xs = Ret (rev xs) /\
  forall i, i < List.length xs -> Block.item xs (- Z.of_nat (S i)) = match nth_error (rev xs) i with Some x => Ret x | None => Raise IndexError end.
Proof.
  intros A xs. split; [apply reversed_index|]. intros i L. rewrite nth_error_backwards by exact L. unfold Block.item, PyList.index.
  destruct (Z.ltb_spec (- Z.of_nat (S i)) 0); [|lia]. destruct (Z.ltb_spec (- Z.of_nat (S i) + Z.of_nat (List.length xs)) 0); [lia|].
  replace (Z.to_nat (- Z.of_nat (S i) + Z.of_nat (List.length xs))) with (List.length xs - S i) by lia. reflexivity.
Qed.
