(** Order and association-list facts used by the Map proofs. *)
From Coq Require Import List ZArith Bool Arith Lia Sorting.Sorted.
From Verif.Model Require Import Base.
From Verif.Spec Require Import MapSpec.
Import ListNotations.

Section Keys.
  Context {K : Type} `{KeyOrd K}.

  Lemma eqb_refl : forall a : K, eqb a a = true.
  Proof. intros a. apply eqb_incomparable. split; apply ltb_irrefl. Qed.

  Lemma eqb_sym : forall a b : K, eqb a b = eqb b a.
  Proof.
    intros a b. destruct (eqb a b) eqn:E1, (eqb b a) eqn:E2; auto.
    - apply eqb_incomparable in E1. assert (eqb b a = true) by (apply eqb_incomparable; tauto). congruence.
    - apply eqb_incomparable in E2. assert (eqb a b = true) by (apply eqb_incomparable; tauto). congruence.
  Qed.

  Lemma ltb_eqb_false : forall a b : K, ltb a b = true -> eqb a b = false.
  Proof.
    intros a b L. destruct (eqb a b) eqn:E; auto.
    apply eqb_incomparable in E. destruct E; congruence.
  Qed.

  Lemma ltb_eqb_false' : forall a b : K, ltb a b = true -> eqb b a = false.
  Proof. intros. rewrite eqb_sym. now apply ltb_eqb_false. Qed.

  Lemma ltb_asym : forall a b : K, ltb a b = true -> ltb b a = false.
  Proof.
    intros a b L. destruct (ltb b a) eqn:E; auto.
    pose proof (ltb_trans _ _ _ L E). rewrite ltb_irrefl in *. discriminate.
  Qed.

  Lemma ltb_total : forall a b : K, ltb a b = false -> eqb a b = false -> ltb b a = true.
  Proof.
    intros a b L E. destruct (ltb b a) eqn:E'; auto.
    assert (eqb a b = true) by (apply eqb_incomparable; auto). congruence.
  Qed.

  Lemma eqb_cong_l : forall a b c : K, eqb a b = true -> eqb a c = eqb b c.
  Proof.
    intros a b c E.
    destruct (eqb a c) eqn:E1, (eqb b c) eqn:E2; auto.
    - apply eqb_incomparable in E1. destruct E1 as [L1 L2].
      rewrite (ltb_eqb_l _ _ c E) in L1. rewrite (ltb_eqb_r _ _ c E) in L2.
      assert (eqb b c = true) by (apply eqb_incomparable; auto). congruence.
    - apply eqb_incomparable in E2. destruct E2 as [L1 L2].
      rewrite <- (ltb_eqb_l _ _ c E) in L1. rewrite <- (ltb_eqb_r _ _ c E) in L2.
      assert (eqb a c = true) by (apply eqb_incomparable; auto). congruence.
  Qed.

  Lemma eqb_cong_r : forall a b c : K, eqb a b = true -> eqb c a = eqb c b.
  Proof. intros. rewrite (eqb_sym c a), (eqb_sym c b). now apply eqb_cong_l. Qed.

  Context {V : Type}.

  Definition all_lt (l : list (K * V)) (k : K) : Prop := Forall (fun kv => ltb (fst kv) k = true) l.
  Definition all_gt (l : list (K * V)) (k : K) : Prop := Forall (fun kv => ltb k (fst kv) = true) l.

  Lemma ascending_app : forall (l1 l2 : list (K * V)) k v,
    ascending (l1 ++ (k, v) :: l2) <->
    (ascending l1 /\ ascending l2 /\ all_lt l1 k /\ all_gt l2 k).
  Proof.
    unfold ascending, all_lt, all_gt.
    induction l1 as [|[a b] l1 IH]; intros l2 k v; simpl.
    - split.
      + intros S. inversion S; subst. repeat split; auto; constructor.
      + intros (_ & S & _ & F). constructor; auto.
    - split.
      + intros S. inversion S as [|? ? S' F]; subst.
        apply IH in S'. destruct S' as (S1 & S2 & L & G).
        apply Forall_app in F. destruct F as [F1 F2]. inversion F2; subst. simpl in *.
        repeat split; auto; constructor; auto.
      + intros (S1 & S2 & L & G).
        inversion S1 as [|? ? S1' F]; subst. inversion L; subst. simpl in *.
        constructor.
        * apply IH. auto.
        * apply Forall_app. split; auto. constructor; auto.
          eapply Forall_impl; [|exact G]. simpl. intros. eapply ltb_trans; eauto.
  Qed.

  Lemma ascending_app_gen : forall (l1 l2 : list (K * V)),
    ascending (l1 ++ l2) <->
    (ascending l1 /\ ascending l2 /\ forall a b, In a l1 -> In b l2 -> ltb (fst a) (fst b) = true).
  Proof.
    unfold ascending. induction l1 as [|a l1 IH]; intros l2; simpl.
    - split; [|tauto]. intros; split; [constructor|]. split; [assumption|]. intros a b [].
    - split.
      + intros S. inversion S as [|? ? S' F]; subst. apply IH in S'. destruct S' as (S1 & S2 & X).
        apply Forall_app in F. destruct F as [F1 F2].
        repeat split; auto. constructor; auto.
        intros x y [->|I] J; auto. rewrite Forall_forall in F2. auto.
      + intros (S1 & S2 & X). inversion S1; subst. constructor.
        * apply IH; auto.
        * apply Forall_app; split; auto. apply Forall_forall. auto.
  Qed.

  Lemma all_gt_trans : forall (l : list (K * V)) a b, ltb a b = true -> all_gt l b -> all_gt l a.
  Proof. unfold all_gt. intros. eapply Forall_impl; [|eassumption]. simpl. intros. eapply ltb_trans; eauto. Qed.

  Lemma all_lt_trans : forall (l : list (K * V)) a b, ltb a b = true -> all_lt l a -> all_lt l b.
  Proof. unfold all_lt. intros. eapply Forall_impl; [|eassumption]. simpl. intros. eapply ltb_trans; eauto. Qed.

  Lemma all_lt_eqb : forall (l : list (K * V)) a b, eqb a b = true -> all_lt l a -> all_lt l b.
  Proof. unfold all_lt. intros. eapply Forall_impl; [|eassumption]. simpl. intros. erewrite <- ltb_eqb_r; eauto. Qed.

  Lemma all_gt_eqb : forall (l : list (K * V)) a b, eqb a b = true -> all_gt l a -> all_gt l b.
  Proof. unfold all_gt. intros. eapply Forall_impl; [|eassumption]. simpl. intros. erewrite <- ltb_eqb_l; eauto. Qed.

  (** association lists *)
  Fixpoint al_insert (k : K) (v : V) (l : list (K * V)) : list (K * V) :=
    match l with
    | [] => [(k, v)]
    | (k', v') :: t =>
        if ltb k k' then (k, v) :: l
        else if eqb k k' then (k, v) :: t
        else (k', v') :: al_insert k v t
    end.

  Definition al_remove (k : K) (l : list (K * V)) : list (K * V) :=
    List.filter (fun kv => negb (eqb k (fst kv))) l.

  Lemma assoc_app : forall k (l1 l2 : list (K * V)),
    assoc k (l1 ++ l2) = match assoc k l1 with Some x => Some x | None => assoc k l2 end.
  Proof.
    unfold assoc. induction l1 as [|x l1 IH]; intros l2; simpl; auto.
    destruct (eqb k (fst x)); auto.
  Qed.

  Lemma assoc_all_lt : forall k (l : list (K * V)), all_lt l k -> assoc k l = None.
  Proof.
    unfold assoc, all_lt. induction 1 as [|x l L F IH]; simpl; auto.
    rewrite (ltb_eqb_false' _ _ L). auto.
  Qed.

  Lemma assoc_all_gt : forall k (l : list (K * V)), all_gt l k -> assoc k l = None.
  Proof.
    unfold assoc, all_gt. induction 1 as [|x l L F IH]; simpl; auto.
    rewrite (ltb_eqb_false _ _ L). auto.
  Qed.

  Lemma assoc_eqb : forall k k' (l : list (K * V)), eqb k k' = true -> assoc k l = assoc k' l.
  Proof.
    unfold assoc. induction l as [|x l IH]; intros E; simpl; auto.
    rewrite (eqb_cong_l _ _ (fst x) E). destruct (eqb k' (fst x)); auto.
  Qed.

  Lemma al_insert_app_lt : forall k v key value (l1 l2 : list (K * V)),
    ltb k key = true ->
    al_insert k v (l1 ++ (key, value) :: l2) = al_insert k v l1 ++ (key, value) :: l2.
  Proof.
    induction l1 as [|[a b] l1 IH]; intros l2 L; simpl.
    - now rewrite L.
    - destruct (ltb k a); auto. destruct (eqb k a); auto. simpl. now rewrite IH.
  Qed.

  Lemma al_insert_app_skip : forall k v (l1 l2 : list (K * V)),
    all_lt l1 k -> al_insert k v (l1 ++ l2) = l1 ++ al_insert k v l2.
  Proof.
    induction l1 as [|[a b] l1 IH]; intros l2 L; simpl; auto.
    inversion L; subst; simpl in *.
    rewrite (ltb_asym _ _ H2), (ltb_eqb_false' _ _ H2), IH; auto.
  Qed.

  Lemma Forall_al_insert : forall (P : K * V -> Prop) k v l,
    P (k, v) -> Forall P l -> Forall P (al_insert k v l).
  Proof.
    induction l as [|[a b] l IH]; intros Hk F; simpl; auto.
    inversion F; subst. destruct (ltb k a); auto. destruct (eqb k a); auto.
  Qed.

  Lemma ascending_al_insert : forall k (v : V) l, ascending l -> ascending (al_insert k v l).
  Proof.
    unfold ascending. induction l as [|[a b] l IH]; intros S; simpl.
    - constructor; constructor.
    - inversion S as [|? ? S' F]; subst.
      destruct (ltb k a) eqn:L.
      + constructor; auto. constructor; auto. simpl.
        eapply Forall_impl; [|exact F]. simpl. intros. eapply ltb_trans; eauto.
      + destruct (eqb k a) eqn:E.
        * constructor; auto. eapply Forall_impl; [|exact F]. simpl. intros x Hx.
          now rewrite (ltb_eqb_l _ _ (fst x) E).
        * constructor; auto. apply Forall_al_insert; auto. simpl. now apply ltb_total.
  Qed.

  Lemma assoc_al_insert : forall k v k' l, ascending l ->
    assoc k' (al_insert k v l) = if eqb k' k then Some (k, v) else assoc k' l.
  Proof.
    unfold assoc. induction l as [|[a b] l IH]; intros S; simpl.
    - destruct (eqb k' k); auto.
    - inversion S as [|? ? S' F]; subst.
      destruct (ltb k a) eqn:L; simpl.
      + destruct (eqb k' k); auto.
      + destruct (eqb k a) eqn:E; simpl.
        * rewrite (eqb_cong_r _ _ k' E). destruct (eqb k' a) eqn:E'; auto.
        * destruct (eqb k' a) eqn:E'; auto.
          destruct (eqb k' k) eqn:E2; auto.
          rewrite (eqb_cong_l _ _ a E2) in E'. congruence.
  Qed.

  Lemma al_remove_app : forall k (l1 l2 : list (K * V)),
    al_remove k (l1 ++ l2) = al_remove k l1 ++ al_remove k l2.
  Proof. intros. apply filter_app. Qed.

  Lemma al_remove_all_lt : forall k (l : list (K * V)), all_lt l k -> al_remove k l = l.
  Proof.
    unfold al_remove. induction 1 as [|x l L F IH]; simpl; auto.
    rewrite (ltb_eqb_false' _ _ L), IH. reflexivity.
  Qed.

  Lemma al_remove_all_gt : forall k (l : list (K * V)), all_gt l k -> al_remove k l = l.
  Proof.
    unfold al_remove. induction 1 as [|x l L F IH]; simpl; auto.
    rewrite (ltb_eqb_false _ _ L), IH. reflexivity.
  Qed.

  Lemma ascending_filter : forall (p : K * V -> bool) l, ascending l -> ascending (List.filter p l).
  Proof.
    unfold ascending. induction 1 as [|x l S IH F]; simpl; [constructor|].
    destruct (p x); auto. constructor; auto.
    rewrite Forall_forall in *. intros y Hy. apply filter_In in Hy. apply F. tauto.
  Qed.

  Lemma assoc_al_remove : forall k k' l,
    assoc k' (al_remove k l) = if eqb k' k then None else assoc k' l.
  Proof.
    unfold assoc, al_remove. induction l as [|[a b] l IH]; simpl.
    - destruct (eqb k' k); auto.
    - destruct (eqb k a) eqn:E; simpl.
      + rewrite IH. destruct (eqb k' k) eqn:E1; auto.
        destruct (eqb k' a) eqn:E2; auto.
        rewrite (eqb_cong_r _ _ k' E) in E1. congruence.
      + destruct (eqb k' a) eqn:E2; auto.
        destruct (eqb k' k) eqn:E1; auto.
        rewrite (eqb_cong_l _ _ a E1) in E2. congruence.
  Qed.

  Lemma assoc_In : forall k (x : K * V) l, assoc k l = Some x -> In x l /\ eqb k (fst x) = true.
  Proof. unfold assoc. intros. apply find_some in H0. auto. Qed.

  Lemma assoc_ascending_In : forall l : list (K * V), ascending l -> forall x, In x l -> assoc (fst x) l = Some x.
  Proof.
    unfold ascending, assoc. induction 1 as [|y l S IH F]; intros x I; [contradiction|].
    simpl. destruct I as [->|I].
    - now rewrite eqb_refl.
    - rewrite Forall_forall in F. rewrite (ltb_eqb_false' _ _ (F _ I)). auto.
  Qed.

  Lemma assoc_filter : forall (p : K -> V -> bool) k l, ascending l ->
    assoc k (List.filter (fun kv => p (fst kv) (snd kv)) l) =
    match assoc k l with Some (a, b) => if p a b then Some (a, b) else None | None => None end.
  Proof.
    unfold assoc. induction 1 as [|[a b] l S IH F]; simpl; auto.
    destruct (eqb k a) eqn:E; simpl.
    - destruct (p a b); simpl.
      + now rewrite E.
      + rewrite IH. fold (assoc k l).
        rewrite assoc_all_gt; auto. apply (all_gt_eqb l a k); [now rewrite eqb_sym|]. exact F.
    - destruct (p a b); simpl; [rewrite E|]; auto.
  Qed.

  (** Two ascending lists with the same lookups are the same list. *)
  Lemma ascending_ext : forall l1 l2 : list (K * V), ascending l1 -> ascending l2 ->
    (forall k, assoc k l1 = assoc k l2) -> l1 = l2.
  Proof.
    induction l1 as [|x l1 IH]; intros [|y l2] S1 S2 E; auto.
    - specialize (E (fst y)). unfold assoc in E; simpl in E. rewrite eqb_refl in E. discriminate.
    - specialize (E (fst x)). unfold assoc in E; simpl in E. rewrite eqb_refl in E. discriminate.
    - inversion S1 as [|? ? S1' F1]; inversion S2 as [|? ? S2' F2]; subst.
      rewrite Forall_forall in F1, F2.
      assert (x = y).
      { pose proof (E (fst x)) as Ex. pose proof (E (fst y)) as Ey.
        rewrite (assoc_ascending_In _ S1 x) in Ex by (left; auto).
        rewrite (assoc_ascending_In _ S2 y) in Ey by (left; auto).
        symmetry in Ex. apply assoc_In in Ex. apply assoc_In in Ey.
        destruct Ex as [Ix _], Ey as [Iy _].
        destruct Ix as [->|Ix]; auto. destruct Iy as [->|Iy]; auto.
        pose proof (ltb_asym _ _ (F1 _ Iy)). rewrite (F2 _ Ix) in *. discriminate. }
      subst y. f_equal. apply IH; auto.
      intros k. pose proof (E k) as Ek. unfold assoc in Ek; simpl in Ek.
      destruct (eqb k (fst x)) eqn:Q; auto.
      assert (all_gt l1 k) by (apply (all_gt_eqb l1 (fst x) k); [now rewrite eqb_sym|]; apply Forall_forall; auto).
      assert (all_gt l2 k) by (apply (all_gt_eqb l2 (fst x) k); [now rewrite eqb_sym|]; apply Forall_forall; auto).
      now rewrite !assoc_all_gt.
  Qed.
End Keys.
