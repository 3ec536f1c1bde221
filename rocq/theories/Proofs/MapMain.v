(** Lemmas behind the Map property theorems (Props/PMap.v). *)
From Coq Require Import List ZArith Bool Arith Lia Sorting.Sorted.
From Verif.Model Require Import Base MapTree Map.
From Verif.Spec Require Import MapSpec ListM.
From Verif.Proofs Require Import KeyOrdFacts MapTreeFacts MapTreeMonadic MapFacts.
Import ListNotations.
Local Open Scope nat_scope.
Local Open Scope list_scope.
Local Open Scope py_scope.

Lemma Forall2_length : forall A B (R : A -> B -> Prop) l1 l2, Forall2 R l1 l2 -> length l1 = length l2.
Proof. induction 1; simpl; auto. Qed.

Section Main.
  Context {K V : Type} `{KeyOrd K}.
  Implicit Types (m t : tree K V).

  Lemma to_seq_ok : forall m n fuel, length (elements m) < n -> depth m + 2 <= fuel ->
    to_seq n fuel m = Ret (elements m).
  Proof.
    intros m n fuel Hn Hf. unfold to_seq.
    destruct (mk_iterator_ok m fuel Hf) as (s & -> & R & Sp & Sh & F). simpl. rewrite <- F in *.
    apply (drain_ok n s fuel (depth m)); auto.
  Qed.

  Lemma pydict_set_app : forall (d : list (K * V)) k v, all_lt d k -> pydict_set d k v = d ++ [(k, v)].
  Proof.
    induction d as [|[a b] d IH]; intros k v L; simpl; auto.
    inversion L; subst; simpl in *. rewrite (ltb_eqb_false _ _ H2), IH; auto.
  Qed.

  Lemma pydict_ascending : forall l : list (K * V), ascending l -> pydict l = l.
  Proof.
    intros l S. unfold pydict.
    assert (G : forall acc, ascending (acc ++ l) ->
      fold_left (fun d kv => pydict_set d (fst kv) (snd kv)) l acc = acc ++ l).
    { clear S. induction l as [|[k v] l IH]; intros acc S; simpl.
      - now rewrite app_nil_r.
      - pose proof S as S'. apply ascending_app in S'. destruct S' as (_ & _ & L & _).
        rewrite pydict_set_app by auto. rewrite IH; rewrite <- app_assoc; auto. }
    apply (G []). exact S.
  Qed.

  Lemma items_ok : forall m n fuel, Wf m -> length (elements m) < n -> depth m + 2 <= fuel ->
    items n fuel m = Ret (elements m).
  Proof.
    intros m n fuel [_ S] Hn Hf. unfold items. rewrite to_seq_ok by auto. simpl.
    now rewrite pydict_ascending.
  Qed.

  Lemma try_find_lists : forall m d, Wf m -> lists (elements m) d -> forall k, try_find k m = option_map snd (d k).
  Proof. intros m d [_ S] [_ A] k. rewrite try_find_assoc by auto. now rewrite A. Qed.

  Lemma mem_lists : forall m d, Wf m -> lists (elements m) d ->
    forall k, mem k m = match d k with Some _ => true | None => false end.
  Proof. intros m d [_ S] [_ A] k. rewrite mem_assoc by auto. now rewrite A. Qed.

  Lemma is_empty_elements : forall m, is_empty m = match elements m with [] => true | _ => false end.
  Proof.
    destruct m as [|k v|k v l r h]; simpl; auto. destruct (elements l); reflexivity.
  Qed.

  (** C01 *)
  Lemma C01_pf : forall os : list (op K V),
    let m := m_run os in let d := d_run os in
    (forall k, try_find k m = option_map snd (d k)) /\
    (forall k, find k m = match d k with Some (_, v) => Ret v | None => Raise KeyError end) /\
    (forall k, mem k m = match d k with Some _ => true | None => false end) /\
    lists (to_list m) d /\
    len m = length (to_list m) /\
    (is_empty m = true <-> forall k, d k = None) /\
    (forall n fuel, len m < n -> depth m + 2 <= fuel -> to_seq n fuel m = Ret (to_list m)).
  Proof.
    intros os m d. destruct (m_run_ok os) as [Hw L]. fold m d in Hw, L.
    pose proof (try_find_lists m d Hw L) as TF.
    rewrite to_list_elements. unfold len. rewrite size_elements.
    repeat split; auto.
    - intros k. unfold find. rewrite TF. destruct (d k) as [[? ?]|]; reflexivity.
    - now apply mem_lists.
    - apply L.
    - apply L.
    - rewrite is_empty_elements. intros E k. destruct L as [_ A]. rewrite <- A.
      destruct (elements m); [reflexivity|discriminate].
    - rewrite is_empty_elements. intros E. destruct L as [_ A].
      destruct (elements m) as [|x l]; auto.
      specialize (A (fst x)). rewrite E in A. unfold assoc in A. simpl in A. rewrite eqb_refl in A. discriminate.
    - intros. apply to_seq_ok; auto.
  Qed.

  Lemma C01_truth_pf : forall os : list (op K V),
    let m := m_run os in let d := d_run os in
    (map_bool m = true <-> exists k kv, d k = Some kv) /\
    (forall n fuel, len m < n -> depth m + 2 <= fuel -> exists l, items n fuel m = Ret l /\ lists l d).
  Proof.
    intros os m d. destruct (m_run_ok os) as [Hw L]. fold m d in Hw, L. split.
    - unfold map_bool. rewrite is_empty_elements. destruct L as [_ A]. destruct (elements m) as [|x l]; simpl.
      + split; [discriminate|]. intros (k & kv & E). rewrite <- A in E. discriminate.
      + split; auto. intros _. exists (fst x). eexists. rewrite <- A. unfold assoc. simpl. rewrite eqb_refl. reflexivity.
    - intros n fuel Hn Hf. exists (elements m). split; auto. apply items_ok; auto. unfold len in Hn. now rewrite size_elements in Hn.
  Qed.

  Lemma find_eq : forall k m, find k m = match try_find k m with Some v => Ret v | None => Raise KeyError end.
  Proof. reflexivity. Qed.

  (** C02 *)
  Lemma C02_pf : forall m k v, Reach m ->
    exists m', add k v m = Ret m' /\
      (forall k', try_find k' m' = if eqb k' k then Some v else try_find k' m) /\
      (forall k', mem k' m' = eqb k' k || mem k' m) /\
      (forall k', assoc k' (to_list m') = if eqb k' k then Some (k, v) else assoc k' (to_list m)) /\
      len m' = if mem k m then len m else S (len m).
  Proof.
    intros m k v R. pose proof (Reach_Wf V m R) as Hw.
    destruct (Wf_add k v m Hw) as (t & E & Ht & El). exists t. split; auto.
    destruct Hw as [Hh S], Ht as [Hht St].
    assert (A : forall k', assoc k' (elements t) = if eqb k' k then Some (k, v) else assoc k' (elements m)).
    { intros k'. rewrite El. now apply assoc_al_insert. }
    repeat split.
    - intros k'. rewrite !try_find_assoc, A by auto. destruct (eqb k' k); reflexivity.
    - intros k'. rewrite !mem_assoc, A by auto. destruct (eqb k' k); reflexivity.
    - intros k'. rewrite !to_list_elements. apply A.
    - unfold len. rewrite !size_elements, El, mem_assoc by auto.
      clear - S. revert S. generalize (elements m) as l. intros l. unfold assoc.
      induction 1 as [|[a b] l S IH F]; simpl; auto.
      destruct (ltb k a) eqn:L.
      + rewrite (ltb_eqb_false _ _ L). fold (assoc k l).
        rewrite assoc_all_gt; auto. eapply all_gt_trans; [exact L|exact F].
      + destruct (eqb k a) eqn:E; auto. simpl. rewrite IH. destruct (List.find _ l); auto.
  Qed.

  Lemma length_al_remove : forall k (l : list (K * V)), ascending l ->
    length (al_remove k l) = match assoc k l with Some _ => pred (length l) | None => length l end.
  Proof.
    intros k l S. unfold al_remove, assoc. induction S as [|[a b] l S IH F]; simpl; auto.
    destruct (eqb k a) eqn:E; simpl.
    - fold (al_remove k l). rewrite al_remove_all_gt; auto.
      eapply all_gt_eqb; [|exact F]. now rewrite eqb_sym.
    - rewrite IH. destruct (List.find _ l) eqn:Fd; auto.
      destruct l; simpl in *; [discriminate|reflexivity].
  Qed.

  (** C03 *)
  Lemma C03_pf : forall m k, Reach m ->
    exists m', remove k m = Ret m' /\
      (forall k', try_find k' m' = if eqb k' k then None else try_find k' m) /\
      (forall k', mem k' m' = negb (eqb k' k) && mem k' m) /\
      (forall k', assoc k' (to_list m') = if eqb k' k then None else assoc k' (to_list m)) /\
      (mem k m = false -> to_list m' = to_list m) /\
      len m' = if mem k m then pred (len m) else len m.
  Proof.
    intros m k R. pose proof (Reach_Wf V m R) as Hw. destruct Hw as [Hh S].
    destruct (remove_ok k m Hh S) as (t & E & Hht & El & _). exists t. split; auto.
    assert (A : forall k', assoc k' (elements t) = if eqb k' k then None else assoc k' (elements m)).
    { intros k'. rewrite El. apply assoc_al_remove. }
    assert (St : ascending (elements t)) by (rewrite El; now apply ascending_filter).
    repeat split.
    - intros k'. rewrite !try_find_assoc, A by auto. destruct (eqb k' k); reflexivity.
    - intros k'. rewrite !mem_assoc, A by auto. destruct (eqb k' k); reflexivity.
    - intros k'. rewrite !to_list_elements. apply A.
    - intros Hm. rewrite !to_list_elements. apply ascending_ext; auto. intros k'. rewrite A.
      destruct (eqb k' k) eqn:Q; auto. rewrite (assoc_eqb _ _ _ Q).
      rewrite mem_assoc in Hm by auto. destruct (assoc k (elements m)); [discriminate|reflexivity].
    - unfold len. rewrite !size_elements, El, mem_assoc, length_al_remove by auto.
      destruct (assoc k (elements m)); reflexivity.
  Qed.

  (** C04 *)
  Lemma C04_some_pf : forall W m k (u : option V -> M W (option V)) w v w', Reach m ->
    u (try_find k m) w = (Ret (Some v), w') ->
    exists m', change k u m w = (Ret m', w') /\
      (forall k', assoc k' (to_list m') = if eqb k' k then Some (k, v) else assoc k' (to_list m)) /\
      (forall k', try_find k' m' = if eqb k' k then Some v else try_find k' m).
  Proof.
    intros W m k u w v w' R E. pose proof (Reach_Wf V m R) as Hw.
    pose proof (change_ok k u m w Hw) as C. destruct Hw as [Hh S].
    rewrite try_find_assoc in E by auto. rewrite E in C.
    destruct C as (t & Et & Ht & El & _). exists t. split; auto.
    assert (A : forall k', assoc k' (elements t) = if eqb k' k then Some (k, v) else assoc k' (elements m)).
    { intros k'. rewrite El. now apply assoc_al_insert. }
    assert (St : ascending (elements t)) by (rewrite El; now apply ascending_al_insert).
    split; intros k'.
    - rewrite !to_list_elements. apply A.
    - rewrite !try_find_assoc, A by auto. destruct (eqb k' k); reflexivity.
  Qed.

  Lemma C04_none_pf : forall W m k (u : option V -> M W (option V)) w w', Reach m ->
    u (try_find k m) w = (Ret None, w') ->
    (exists m', change k u m w = (Ret m', w') /\
      (forall k', assoc k' (to_list m') = if eqb k' k then None else assoc k' (to_list m)) /\
      (forall k', try_find k' m' = if eqb k' k then None else try_find k' m)) \/
    (mem k m = false /\ change k u m w = (Raise EffectErrorExn, w')).
  Proof.
    intros W m k u w w' R E. pose proof (Reach_Wf V m R) as Hw.
    pose proof (change_ok k u m w Hw) as C. destruct Hw as [Hh S].
    rewrite try_find_assoc in E by auto. rewrite E in C.
    destruct (ends_at_empty k m) eqn:X.
    - right. split; auto. rewrite mem_assoc, ends_at_empty_absent by auto. reflexivity.
    - left. destruct C as (t & Et & Ht & El & _). exists t. split; auto.
      assert (A : forall k', assoc k' (elements t) = if eqb k' k then None else assoc k' (elements m)).
      { intros k'. rewrite El. now apply assoc_al_remove. }
      assert (St : ascending (elements t)) by (rewrite El; now apply ascending_filter).
      split; intros k'.
      + rewrite !to_list_elements. apply A.
      + rewrite !try_find_assoc, A by auto. destruct (eqb k' k); reflexivity.
  Qed.

  Lemma al_remove_absent : forall k (l : list (K * V)), assoc k l = None -> al_remove k l = l.
  Proof.
    intros k. unfold assoc, al_remove. induction l as [|x l IH]; cbn; [reflexivity|].
    destruct (eqb k (fst x)); [discriminate|]. intros E. cbn. now rewrite IH.
  Qed.
  Lemma ends_falls_off : forall k m, ends_at_empty k m = true <-> falls_off k m.
  Proof.
    induction m as [|key value|key value l IHl r IHr h]; cbn [ends_at_empty].
    - split; [constructor|reflexivity].
    - split; [discriminate|intros F; inversion F].
    - destruct (ltb k key) eqn:L.
      + rewrite IHl. split; [now apply fo_left|]. intros F. inversion F; subst; [assumption|].
        pose proof (ltb_asym _ _ L). congruence.
      + destruct (eqb k key) eqn:E.
        * split; [discriminate|]. intros F. inversion F; subst; [congruence|].
          match goal with X : ltb key k = true |- _ => pose proof (ltb_eqb_false' _ _ X) end. congruence.
        * rewrite IHr. split; [apply fo_right, ltb_total; assumption|]. intros F. inversion F; subst; [congruence|assumption].
  Qed.
  Lemma C04_absent_pf : forall W m k (u : option V -> M W (option V)) w w', Reach m -> mem k m = false ->
    u None w = (Ret None, w') ->
    (falls_off k m -> change k u m w = (Raise EffectErrorExn, w')) /\
    (~ falls_off k m -> exists m', change k u m w = (Ret m', w') /\ to_list m' = to_list m).
  Proof.
    intros W m k u w w' R N E. pose proof (Reach_Wf V m R) as Hw.
    pose proof (change_ok k u m w Hw) as C. destruct Hw as [Hh S]. rewrite mem_assoc in N by auto.
    destruct (assoc k (elements m)) eqn:A; [discriminate|]. cbn in C. rewrite E in C.
    rewrite <- ends_falls_off. destruct (ends_at_empty k m).
    - split; [intros _; exact C|intros X; now contradiction X].
    - split; [discriminate|]. intros _. destruct C as (t & Et & Ht & El & _). exists t. split; [exact Et|].
      rewrite !to_list_elements, El. apply al_remove_absent. exact A.
  Qed.

  Lemma C04_raise_pf : forall W m k (u : option V -> M W (option V)) w e w', Reach m ->
    u (try_find k m) w = (Raise e, w') -> change k u m w = (Raise e, w').
  Proof.
    intros W m k u w e w' R E. pose proof (Reach_Wf V m R) as Hw.
    pose proof (change_ok k u m w Hw) as C. destruct Hw as [Hh S].
    rewrite try_find_assoc in E by auto. now rewrite E in C.
  Qed.

  (** C05 *)
  Lemma C05_pf : forall m, Reach m ->
    ascending (to_list m) /\
    (forall k v, (exists k', eqb k k' = true /\ In (k', v) (to_list m)) <-> try_find k m = Some v) /\
    (forall n fuel, len m < n -> depth m + 2 <= fuel ->
       to_seq n fuel m = Ret (to_list m) /\
       keys n fuel m = Ret (List.map fst (to_list m)) /\
       items n fuel m = Ret (to_list m)).
  Proof.
    intros m R. pose proof (Reach_Wf V m R) as Hw. pose proof Hw as [Hh S].
    rewrite to_list_elements. split; auto. split.
    - intros k v. rewrite try_find_assoc by auto. split.
      + intros (k' & E & I). rewrite (assoc_eqb _ _ _ E).
        pose proof (assoc_ascending_In _ S _ I) as A. simpl in A. now rewrite A.
      + destruct (assoc k (elements m)) as [[k' v']|] eqn:A; simpl; [|discriminate].
        intros [= ->]. apply assoc_In in A. destruct A as [I E]. eauto.
    - intros n fuel Hn Hf. unfold len in Hn. rewrite size_elements in Hn.
      split; [now apply to_seq_ok|]. split; [|now apply items_ok].
      unfold keys. now rewrite to_seq_ok.
  Qed.

  (** C06 *)
  Lemma C06_pf : forall m, Reach m ->
    (forall k v, exists m', add k v m = Ret m') /\
    (forall k, exists m', remove k m = Ret m') /\
    (forall W (p : K -> V -> M W bool) w e w', filter p m w = (Raise e, w') ->
       exists k v w1, In (k, v) (to_list m) /\ p k v w1 = (Raise e, w')) /\
    (forall W (p : K -> V -> M W bool) w e w', partition p m w = (Raise e, w') ->
       exists k v w1, In (k, v) (to_list m) /\ p k v w1 = (Raise e, w')) /\
    (forall W (u : option V -> M W (option V)) k w e w', change k u m w = (Raise e, w') ->
       e = EffectErrorExn \/ u (try_find k m) w = (Raise e, w')) /\
    (forall n fuel, len m < n -> depth m + 2 <= fuel -> exists l, to_seq n fuel m = Ret l).
  Proof.
    intros m R. pose proof (Reach_Wf V m R) as Hw. pose proof Hw as [Hh S].
    assert (FR : forall W (p : K * V -> M W bool) l w e w', filterM p l w = (Raise e, w') ->
      exists x w1, In x l /\ p x w1 = (Raise e, w')).
    { induction l as [|x l IH]; intros w e w' E; simpl in E; [discriminate|].
      unfold bind, ret in E. destruct (p x w) as [[b|e1] w1] eqn:P.
      - destruct (filterM p l w1) as [[ys|e1] w2] eqn:F; [discriminate|].
        injection E as -> ->. destruct (IH _ _ _ F) as (y & w3 & I & Q). exists y, w3. split; [right|]; auto.
      - injection E as -> ->. exists x, w. split; [left|]; auto. }
    assert (PR : forall W (p : K * V -> M W bool) l w e w', partitionM p l w = (Raise e, w') ->
      exists x w1, In x l /\ p x w1 = (Raise e, w')).
    { induction l as [|x l IH]; intros w e w' E; simpl in E; [discriminate|].
      unfold bind, ret in E. destruct (p x w) as [[b|e1] w1] eqn:P.
      - destruct (partitionM p l w1) as [[[ys zs]|e1] w2] eqn:F; [discriminate|].
        injection E as -> ->. destruct (IH _ _ _ F) as (y & w3 & I & Q). exists y, w3. split; [right|]; auto.
      - injection E as -> ->. exists x, w. split; [left|]; auto. }
    repeat split.
    - intros k v. destruct (Wf_add k v m Hw) as (t & E & _). eauto.
    - intros k. destruct (remove_ok k m Hh S) as (t & E & _). eauto.
    - intros W p w e w' E. pose proof (filter_ok p m w Hw) as F.
      destruct (filterM _ _ w) as [[ys|e1] w1] eqn:FE.
      + destruct F as (t & Et & _). congruence.
      + rewrite E in F. injection F as <- <-.
        destruct (FR _ _ _ _ _ _ FE) as ([k v] & w2 & I & P). rewrite to_list_elements. eauto.
    - intros W p w e w' E. pose proof (partition_ok p m w Hw) as F.
      destruct (partitionM _ _ w) as [[[ys zs]|e1] w1] eqn:FE.
      + destruct F as (t1 & t2 & Et & _). congruence.
      + rewrite E in F. injection F as <- <-.
        destruct (PR _ _ _ _ _ _ FE) as ([k v] & w2 & I & P). apply in_rev in I. rewrite to_list_elements. eauto.
    - intros W u k w e w' E. pose proof (change_ok k u m w Hw) as C.
      rewrite try_find_assoc by auto.
      destruct (u _ w) as [[[v|]|e1] w1].
      + destruct C as (t & Et & _). congruence.
      + destruct (ends_at_empty k m).
        * left. congruence.
        * destruct C as (t & Et & _). congruence.
      + right. congruence.
    - intros n fuel Hn Hf. unfold len in Hn. rewrite size_elements in Hn. eexists. now apply to_seq_ok.
  Qed.

  (** C07 *)
  Lemma C07_height_pf : forall m, Reach m -> height m = depth m.
  Proof. intros m R. apply hok_depth. apply (Reach_Wf V m R). Qed.

  Lemma C07_log_pf : forall m, ReachAdd m -> balanced m /\ 2 ^ (depth m / 2) <= len m + 1.
  Proof.
    intros m R. destruct (ReachAdd_balanced K _ V m R) as [Hw B]. split; auto.
    unfold len. rewrite size_elements. pose proof (balanced_minsize m B). pose proof (minsize_pow (depth m)). lia.
  Qed.

  Lemma C07_log2_pf : forall m, ReachAdd m -> depth m <= 2 * Nat.log2 (len m + 1) + 1.
  Proof.
    intros m R. destruct (C07_log_pf m R) as [_ P].
    apply Nat.log2_le_mono in P. rewrite Nat.log2_pow2 in P by lia.
    pose proof (Nat.div_mod_eq (depth m) 2). pose proof (Nat.mod_upper_bound (depth m) 2). lia.
  Qed.

  Lemma search_ok : forall m k, fst (search k m) = try_find k m /\ snd (search k m) <= depth m.
  Proof.
    induction m as [|k1 v1|k1 v1 l IHl r IHr h]; intros k; simpl; auto.
    specialize (IHl k). specialize (IHr k).
    destruct (eqb k k1); simpl; [split; auto; lia|].
    destruct (ltb k k1).
    - destruct (search k l) as [o n]; simpl in *. split; [tauto|lia].
    - destruct (search k r) as [o n]; simpl in *. split; [tauto|lia].
  Qed.

  Lemma C08_height_pf : forall m k, Reach m -> exists m', remove k m = Ret m' /\ depth m' <= depth m.
  Proof.
    intros m k R. destruct (Reach_Wf V m R) as [Hh S].
    destruct (remove_ok k m Hh S) as (t & E & Ht & _ & L). exists t. split; auto.
    now rewrite <- !hok_depth.
  Qed.

  Lemma C09_pf : forall m k, Reach m ->
    (forall v, getitem k m = Ret v <-> try_find k m = Some v) /\
    (getitem k m = Raise KeyError <-> try_find k m = None) /\
    (mem k m = true <-> exists v, try_find k m = Some v).
  Proof.
    intros m k R. destruct (Reach_Wf V m R) as [Hh S].
    unfold getitem, find. rewrite mem_assoc by auto. rewrite try_find_assoc by auto.
    destruct (assoc k (elements m)) as [[a b]|]; simpl; repeat split; intros; try congruence; eauto.
    destruct H0; discriminate.
  Qed.

  (** C10 *)
  Lemma C10_filter_pf : forall W (p : K -> V -> M W bool) m w, Reach m ->
    match filterM (fun kv => p (fst kv) (snd kv)) (to_list m) w with
    | (Ret kept, w') => exists m', filter p m w = (Ret m', w') /\ to_list m' = kept
    | (Raise e, w') => filter p m w = (Raise e, w')
    end.
  Proof.
    intros W p m w R. pose proof (filter_ok p m w (Reach_Wf V m R)) as F. unfold uncurry in F.
    rewrite to_list_elements. destruct (filterM _ _ w) as [[ys|e] w1]; auto.
    destruct F as (t & E & _ & El). exists t. rewrite to_list_elements. auto.
  Qed.

  Lemma C10_partition_pf : forall W (p : K -> V -> M W bool) m w, Reach m ->
    match partitionM (fun kv => p (fst kv) (snd kv)) (rev (to_list m)) w with
    | (Ret (yes, no), w') =>
        exists m1 m2, partition p m w = (Ret (m1, m2), w') /\ to_list m1 = rev yes /\ to_list m2 = rev no
    | (Raise e, w') => partition p m w = (Raise e, w')
    end.
  Proof.
    intros W p m w R. pose proof (partition_ok p m w (Reach_Wf V m R)) as F. unfold uncurry in F.
    rewrite to_list_elements. destruct (partitionM _ _ w) as [[[ys zs]|e] w1]; auto.
    destruct F as (t1 & t2 & E & _ & _ & El1 & El2). exists t1, t2. rewrite !to_list_elements. auto.
  Qed.

  (** C11 *)
  Lemma C11_pf : forall W R' (f : K -> V -> M W R') m w,
    match mapM (fun kv => do y <- f (fst kv) (snd kv); ret (fst kv, y)) (to_list m) w with
    | (Ret l', w') => exists m' : tree K R', map f m w = (Ret m', w') /\ to_list m' = l' /\ depth m' = depth m
    | (Raise e, w') => map f m w = (Raise e, w')
    end.
  Proof.
    intros W R' f m w. pose proof (map_mapM f m w) as F. rewrite to_list_elements.
    destruct (mapM _ _ w) as [[ys|e] w1]; auto.
    destruct F as (t & E & El & _ & _ & D & _). exists t.
    rewrite (to_list_elements (V := R')). auto.
  Qed.

  Lemma C12_fold_pf : forall W R' (f : R' -> K * V -> M W R') m x w,
    fold f x m w = foldM f x (to_list m) w.
  Proof. intros. rewrite to_list_elements. apply fold_foldM. Qed.

  Lemma C12_fold_back_pf : forall W R' (f : K * V -> R' -> M W R') m x w,
    fold_back f m x w = foldM (fun x kv => f kv x) x (rev (to_list m)) w.
  Proof. intros. rewrite to_list_elements. apply fold_back_foldM. Qed.

  Lemma C12_iter_pf : forall W (f : K -> V -> M W unit) m w,
    iter f m w = iterM (fun kv => f (fst kv) (snd kv)) (to_list m) w.
  Proof. intros. rewrite to_list_elements. apply iter_iterM. Qed.

  Lemma C13_try_pick_pf : forall W R' (f : K -> V -> M W (option R')) m w,
    try_pick f m w = firstM (fun kv => f (fst kv) (snd kv)) (to_list m) w.
  Proof. intros. rewrite to_list_elements. apply try_pick_firstM. Qed.

  Lemma C13_exists_pf : forall W (f : K -> V -> M W bool) m w,
    exists_ f m w = existsM (fun kv => f (fst kv) (snd kv)) (to_list m) w.
  Proof. intros. rewrite to_list_elements. apply exists_existsM. Qed.

  Lemma C13_forall_pf : forall W (f : K -> V -> M W bool) m w,
    forall_ f m w = forallM (fun kv => f (fst kv) (snd kv)) (to_list m) w.
  Proof. intros. rewrite to_list_elements. apply forall_forallM. Qed.

  Lemma C14_pf : forall W R' (f : K -> V -> M W (option R')) m w,
    pick f m w =
    match firstM (fun kv => f (fst kv) (snd kv)) (to_list m) w with
    | (Ret (Some r), w') => (Ret r, w')
    | (Ret None, w') => (Raise EffectErrorExn, w')
    | (Raise e, w') => (Raise e, w')
    end.
  Proof.
    intros. unfold pick, bind. rewrite C13_try_pick_pf.
    destruct (firstM _ _ w) as [[[r|]|e] w']; reflexivity.
  Qed.

  (** C15/C16 *)
  Definition same_binding (veq : V -> V -> bool) (a b : K * V) : Prop :=
    eqb (fst a) (fst b) = true /\ veq (snd a) (snd b) = true.

  Fixpoint prefixb (veq : V -> V -> bool) (l1 l2 : list (K * V)) : bool :=
    match l1, l2 with
    | [], _ => true
    | _ :: _, [] => false
    | a :: l1, b :: l2 => eqb (fst a) (fst b) && veq (snd a) (snd b) && prefixb veq l1 l2
    end.

  Lemma eq_loop_ok : forall veq n fuel d1 d2 s1 s2,
    ready s1 -> spaced s1 -> shallow d1 s1 -> d1 + 2 <= fuel ->
    ready s2 -> spaced s2 -> shallow d2 s2 -> d2 + 2 <= fuel ->
    length (fringe s1) < n ->
    eq_loop veq n fuel s1 s2 = Ret (prefixb veq (fringe s1) (fringe s2)).
  Proof.
    intros veq. induction n as [|n IH]; intros fuel d1 d2 s1 s2 R1 Sp1 Sh1 F1 R2 Sp2 Sh2 F2 Hn; [lia|].
    simpl. pose proof (iter_next_ok s1 fuel d1 R1 Sp1 Sh1 F1) as I1.
    destruct (fringe s1) as [|[k1 v1] l1] eqn:E1.
    - rewrite I1. reflexivity.
    - destruct I1 as (s1' & -> & R1' & Sp1' & Sh1' & E1'). simpl.
      pose proof (iter_next_ok s2 fuel d2 R2 Sp2 Sh2 F2) as I2.
      destruct (fringe s2) as [|[k2 v2] l2] eqn:E2.
      + rewrite I2. reflexivity.
      + destruct I2 as (s2' & -> & R2' & Sp2' & Sh2' & E2'). simpl.
        destruct (eqb k1 k2 && veq v1 v2); simpl; auto.
        rewrite (IH fuel d1 d2), E1', E2'; auto. rewrite E1'. simpl in Hn. lia.
  Qed.

  Lemma map_eq_prefixb : forall veq m1 m2 n fuel,
    length (elements m1) < n -> depth m1 + 2 <= fuel -> depth m2 + 2 <= fuel ->
    map_eq veq n fuel m1 m2 = Ret (prefixb veq (elements m1) (elements m2)).
  Proof.
    intros veq m1 m2 n fuel Hn F1 F2. unfold map_eq.
    destruct (mk_iterator_ok m2 fuel F2) as (s2 & -> & R2 & Sp2 & Sh2 & E2). simpl.
    destruct (mk_iterator_ok m1 fuel F1) as (s1 & -> & R1 & Sp1 & Sh1 & E1). simpl.
    rewrite (eq_loop_ok veq n fuel (depth m1) (depth m2)); auto.
    - now rewrite E1, E2.
    - now rewrite E1.
  Qed.

  Lemma prefixb_spec : forall veq l1 l2, prefixb veq l1 l2 = true <->
    exists front back, l2 = front ++ back /\ Forall2 (same_binding veq) l1 front.
  Proof.
    induction l1 as [|a l1 IH]; intros l2; simpl.
    - split; auto. intros _. exists [], l2. auto.
    - destruct l2 as [|b l2].
      + split; [discriminate|]. intros (f & bk & E & F). inversion F; subst. discriminate.
      + rewrite !andb_true_iff, IH. split.
        * intros [[E1 E2] (f & bk & -> & F)]. exists (b :: f), bk. split; auto. constructor; auto. split; auto.
        * intros (f & bk & E & F). inversion F; subst. simpl in E. injection E as -> ->.
          destruct H2. split; [auto|]. eauto.
  Qed.

  Lemma C15_prefix_pf : forall veq m1 m2 n fuel,
    len m1 < n -> depth m1 + 2 <= fuel -> depth m2 + 2 <= fuel ->
    exists b, map_eq veq n fuel m1 m2 = Ret b /\
      (b = true <-> exists front back, to_list m2 = front ++ back /\
         Forall2 (fun x y => eqb (fst x) (fst y) = true /\ veq (snd x) (snd y) = true) (to_list m1) front).
  Proof.
    intros veq m1 m2 n fuel Hn F1 F2. unfold len in Hn. rewrite size_elements in Hn.
    rewrite map_eq_prefixb by auto. eexists; split; [reflexivity|].
    rewrite !to_list_elements. apply prefixb_spec.
  Qed.

  Lemma C15_same_len_pf : forall veq m1 m2 n fuel,
    len m1 < n -> depth m1 + 2 <= fuel -> depth m2 + 2 <= fuel -> len m1 = len m2 ->
    exists b, map_eq veq n fuel m1 m2 = Ret b /\
      (b = true <->
         Forall2 (fun x y => eqb (fst x) (fst y) = true /\ veq (snd x) (snd y) = true) (to_list m1) (to_list m2)).
  Proof.
    intros veq m1 m2 n fuel Hn F1 F2 E. unfold len in *. rewrite !size_elements in *.
    rewrite map_eq_prefixb by auto. eexists; split; [reflexivity|].
    rewrite !to_list_elements, prefixb_spec. split.
    - intros (f & bk & El & F). assert (bk = []) as ->.
      { apply Forall2_length in F. rewrite El, app_length in E. destruct bk; auto. simpl in E. lia. }
      rewrite app_nil_r in El. now rewrite El.
    - intros F. exists (elements m2), []. rewrite app_nil_r. auto.
  Qed.

  Definition opt_related (veq : V -> V -> bool) (a b : option V) : Prop :=
    match a, b with
    | Some x, Some y => veq x y = true
    | None, None => True
    | _, _ => False
    end.

  Lemma lookups_Forall2 : forall veq (l1 l2 : list (K * V)), ascending l1 -> ascending l2 ->
    (forall k, opt_related veq (option_map snd (assoc k l1)) (option_map snd (assoc k l2))) ->
    Forall2 (same_binding veq) l1 l2.
  Proof.
    intros veq. induction l1 as [|x l1 IH]; intros [|y l2] S1 S2 E.
    - constructor.
    - specialize (E (fst y)). unfold assoc in E. simpl in E. rewrite eqb_refl in E. contradiction.
    - specialize (E (fst x)). unfold assoc in E. simpl in E. rewrite eqb_refl in E. contradiction.
    - inversion S1 as [|? ? S1' F1]; inversion S2 as [|? ? S2' F2]; subst.
      assert (Q : eqb (fst x) (fst y) = true).
      { destruct (ltb (fst x) (fst y)) eqn:L.
        - specialize (E (fst x)). rewrite (assoc_all_gt (fst x) (y :: l2)) in E.
          + unfold assoc in E. simpl in E. rewrite eqb_refl in E. contradiction.
          + constructor; auto. eapply all_gt_trans; [exact L|exact F2].
        - destruct (ltb (fst y) (fst x)) eqn:L2.
          + specialize (E (fst y)). rewrite (assoc_all_gt (fst y) (x :: l1)) in E.
            * unfold assoc in E. simpl in E. rewrite eqb_refl in E. contradiction.
            * constructor; auto. eapply all_gt_trans; [exact L2|exact F1].
          + apply eqb_incomparable. auto. }
      constructor.
      + split; auto. specialize (E (fst x)). unfold assoc in E. simpl in E. now rewrite eqb_refl, Q in E.
      + apply IH; auto. intros k. specialize (E k). unfold assoc in E. simpl in E.
        rewrite (eqb_cong_r _ _ k Q) in E.
        destruct (eqb k (fst y)) eqn:Ky; [|exact E].
        rewrite !assoc_all_gt; simpl; auto.
        * eapply all_gt_eqb; [|exact F2]. now rewrite eqb_sym.
        * eapply all_gt_eqb; [|exact F1]. rewrite eqb_sym. now rewrite (eqb_cong_r _ _ k Q).
  Qed.

  Lemma Forall2_prefixb : forall veq l1 l2, Forall2 (same_binding veq) l1 l2 -> prefixb veq l1 l2 = true.
  Proof. intros. apply prefixb_spec. exists l2, []. rewrite app_nil_r. auto. Qed.

  Definition hash_list (khash : K -> Z) (vhash : V -> Z) (l : list (K * V)) (h : Z) : Z :=
    fold_left (fun h kv => combine_hash (combine_hash h (khash (fst kv))) (vhash (snd kv))) l h.

  Lemma hash_loop_ok : forall khash vhash n fuel d s h,
    ready s -> spaced s -> shallow d s -> d + 2 <= fuel -> length (fringe s) < n ->
    hash_loop khash vhash n fuel h s = Ret (hash_list khash vhash (fringe s) h).
  Proof.
    intros khash vhash. induction n as [|n IH]; intros fuel d s h R Sp Sh F Hn; [lia|].
    simpl. pose proof (iter_next_ok s fuel d R Sp Sh F) as I.
    destruct (fringe s) as [|[k v] l] eqn:E.
    - rewrite I. reflexivity.
    - destruct I as (s' & -> & R' & Sp' & Sh' & E'). simpl.
      rewrite (IH fuel d), E'; auto. rewrite E'. simpl in Hn. lia.
  Qed.

  Lemma map_hash_ok : forall khash vhash m n fuel, length (elements m) < n -> depth m + 2 <= fuel ->
    map_hash khash vhash n fuel m = Ret (hash_list khash vhash (elements m) 0%Z).
  Proof.
    intros. unfold map_hash. destruct (mk_iterator_ok m fuel H1) as (s & -> & R & Sp & Sh & E). simpl.
    rewrite (hash_loop_ok khash vhash n fuel (depth m)), E; auto. now rewrite E.
  Qed.

  (** The hash tells apart maps that differ in the hash of one value. *)
  Definition same_hashes (khash : K -> Z) (vhash : V -> Z) (x y : K * V) : Prop :=
    khash (fst x) = khash (fst y) /\ vhash (snd x) = vhash (snd y).
  Lemma hash_list_start : forall khash vhash l1 l2, Forall2 (same_hashes khash vhash) l1 l2 ->
    forall h1 h2, h1 <> h2 -> hash_list khash vhash l1 h1 <> hash_list khash vhash l2 h2.
  Proof.
    intros khash vhash l1 l2 F. induction F as [|x y l1 l2 [Q1 Q2] F IH]; intros h1 h2 N; simpl; auto.
    apply IH. rewrite Q1, Q2. unfold combine_hash. rewrite !Z.shiftl_mul_pow2 by lia. lia.
  Qed.
  Lemma hash_list_differs : forall khash vhash k l1 l2, ascending l1 ->
    (forall k1 k2, eqb k1 k2 = true -> khash k1 = khash k2) ->
    Forall2 (fun x y => eqb (fst x) (fst y) = true /\ (eqb k (fst x) = false -> vhash (snd x) = vhash (snd y))
                        /\ (eqb k (fst x) = true -> vhash (snd x) <> vhash (snd y))) l1 l2 ->
    assoc k l1 <> None -> forall h, hash_list khash vhash l1 h <> hash_list khash vhash l2 h.
  Proof.
    intros khash vhash k l1 l2 S Hk F. induction F as [|x y l1 l2 (Q & E & N) F IH]; intros A h; [now destruct A|].
    inversion S as [|? ? S1 G]; subst. unfold assoc in A. simpl in *. rewrite (Hk _ _ Q).
    destruct (eqb k (fst x)) eqn:Kx.
    - apply hash_list_start.
      + assert (G' : all_gt l1 k) by (eapply all_gt_eqb; [|exact G]; now rewrite eqb_sym).
        clear - F G' Hk. induction F as [|a b l1 l2 (Q & E & N) F IH]; constructor.
        * inversion G'; subst. split; [now apply Hk|]. apply E. now apply ltb_eqb_false.
        * apply IH. now inversion G'.
      + specialize (N eq_refl). unfold combine_hash. lia.
    - rewrite (E eq_refl). now apply IH.
  Qed.
  Lemma lookups_Forall2_at : forall (vhash : V -> Z) k (l1 l2 : list (K * V)), ascending l1 -> ascending l2 ->
    Forall2 (same_binding (fun _ _ => true)) l1 l2 ->
    (forall k' x y, assoc k' l1 = Some x -> assoc k' l2 = Some y ->
       if eqb k k' then vhash (snd x) <> vhash (snd y) else vhash (snd x) = vhash (snd y)) ->
    Forall2 (fun x y => eqb (fst x) (fst y) = true /\ (eqb k (fst x) = false -> vhash (snd x) = vhash (snd y))
                        /\ (eqb k (fst x) = true -> vhash (snd x) <> vhash (snd y))) l1 l2.
  Proof.
    intros vhash k l1 l2 S1 S2 F. induction F as [|x y l1 l2 [Q _] F IH]; intros E; constructor.
    - specialize (E (fst x) x y). unfold assoc in E. simpl in E. rewrite eqb_refl, Q in E. specialize (E eq_refl eq_refl).
      split; auto. split; intros B; now rewrite B in E.
    - inversion S1 as [|? ? S1' G1]; inversion S2 as [|? ? S2' G2]; subst. apply IH; auto. intros k' a b A B.
      apply (E k').
      + unfold assoc. simpl. destruct (eqb k' (fst x)) eqn:Kx; auto.
        rewrite assoc_all_gt in A; [discriminate|]. eapply all_gt_eqb; [|exact G1]. now rewrite eqb_sym.
      + unfold assoc. simpl. destruct (eqb k' (fst y)) eqn:Ky; auto.
        rewrite assoc_all_gt in B; [discriminate|]. eapply all_gt_eqb; [|exact G2]. now rewrite eqb_sym.
  Qed.
  Lemma C16_hash_pf : forall khash vhash k v1 v2 m1 m2 n fuel, Reach m1 -> Reach m2 ->
    (forall k1 k2, eqb k1 k2 = true -> khash k1 = khash k2) ->
    try_find k m1 = Some v1 -> try_find k m2 = Some v2 -> vhash v1 <> vhash v2 ->
    (forall k', eqb k k' = false -> option_map vhash (try_find k' m1) = option_map vhash (try_find k' m2)) ->
    len m1 < n -> depth m1 + 2 <= fuel -> depth m2 + 2 <= fuel ->
    exists h1 h2, map_hash khash vhash n fuel m1 = Ret h1 /\ map_hash khash vhash n fuel m2 = Ret h2 /\ h1 <> h2.
  Proof.
    intros khash vhash k v1 v2 m1 m2 n fuel R1 R2 Hk T1 T2 N O Hn F1 F2.
    destruct (Reach_Wf V m1 R1) as [_ S1]. destruct (Reach_Wf V m2 R2) as [_ S2].
    unfold len in *. rewrite !size_elements in *. rewrite try_find_assoc in T1, T2 by auto.
    assert (O' : forall k', eqb k k' = false -> option_map vhash (option_map snd (assoc k' (elements m1))) = option_map vhash (option_map snd (assoc k' (elements m2)))).
    { intros k' B. specialize (O k' B). now rewrite !try_find_assoc in O by auto. }
    assert (C : forall k', eqb k k' = true -> forall l : list (K * V), assoc k' l = assoc k l).
    { intros k' B l. unfold assoc. induction l as [|a l IH]; simpl; auto. now rewrite <- (eqb_cong_l _ _ (fst a) B), IH. }
    assert (F : Forall2 (same_binding (fun _ _ => true)) (elements m1) (elements m2)).
    { apply lookups_Forall2; auto. intros k'. destruct (eqb k k') eqn:B.
      - rewrite !(C k' B). rewrite T1, T2. reflexivity.
      - specialize (O' k' B). now destruct (assoc k' (elements m1)), (assoc k' (elements m2)). }
    do 2 eexists. split; [apply map_hash_ok; auto|].
    split; [apply map_hash_ok; auto; rewrite <- (Forall2_length _ _ _ _ _ F); auto|].
    apply hash_list_differs with (k := k); auto.
    - apply lookups_Forall2_at; auto. intros k' x y A B. destruct (eqb k k') eqn:Q.
      + rewrite !(C k' Q) in *. rewrite A in T1. rewrite B in T2. simpl in *. congruence.
      + specialize (O' k' Q). rewrite A, B in O'. simpl in O'. congruence.
    - intros A. now rewrite A in T1.
  Qed.

  Lemma C16_pf : forall veq khash vhash show m1 m2 n fuel, Reach m1 -> Reach m2 ->
    (forall k1 k2, eqb k1 k2 = true -> khash k1 = khash k2) ->
    (forall v1 v2, veq v1 v2 = true -> veq v2 v1 = true /\ vhash v1 = vhash v2) ->
    (forall a b, eqb (fst a) (fst b) = true -> veq (snd a) (snd b) = true -> show a = show b) ->
    (forall k, match try_find k m1, try_find k m2 with
               | Some v1, Some v2 => veq v1 v2 = true
               | None, None => True
               | _, _ => False
               end) ->
    len m1 < n -> depth m1 + 2 <= fuel -> depth m2 + 2 <= fuel ->
    len m1 = len m2 /\
    map_eq veq n fuel m1 m2 = Ret true /\ map_eq veq n fuel m2 m1 = Ret true /\
    map_hash khash vhash n fuel m1 = map_hash khash vhash n fuel m2 /\
    map_str show n fuel m1 = map_str show n fuel m2.
  Proof.
    intros veq khash vhash show m1 m2 n fuel R1 R2 Hk Hv Hs E Hn F1 F2.
    destruct (Reach_Wf V m1 R1) as [_ S1]. destruct (Reach_Wf V m2 R2) as [_ S2].
    unfold len in *. rewrite !size_elements in *.
    assert (F : Forall2 (same_binding veq) (elements m1) (elements m2)).
    { apply lookups_Forall2; auto. intros k. specialize (E k). rewrite !try_find_assoc in E by auto. exact E. }
    assert (L : length (elements m1) = length (elements m2)) by (eapply Forall2_length; eauto).
    assert (F' : Forall2 (same_binding veq) (elements m2) (elements m1)).
    { clear - F Hv. induction F as [|x y l1 l2 [Q1 Q2] F IH]; constructor; auto.
      split; [now rewrite eqb_sym|now apply Hv]. }
    split; auto. rewrite !map_eq_prefixb, !Forall2_prefixb by (auto; lia). split; auto. split; auto.
    rewrite !map_hash_ok by (auto; lia). split.
    - f_equal. generalize 0%Z. clear - F Hk Hv.
      induction F as [|x y l1 l2 [Q1 Q2] F IH]; intros z; simpl; auto.
      rewrite (Hk _ _ Q1). destruct (Hv _ _ Q2) as [_ ->]. apply IH.
    - unfold map_str. rewrite !to_seq_ok by (auto; lia). unfold rmap.
      assert (Em : List.map show (elements m1) = List.map show (elements m2)).
      { clear - F Hs. induction F as [|x y l1 l2 [Q1 Q2] F IH]; simpl; auto. rewrite (Hs x y) by auto. now rewrite IH. }
      now rewrite Em.
  Qed.

  (** C17 *)
  Lemma C17_pf : forall xs : list (K * V),
    exists m, of_list xs = Ret m /\ of_seq None xs = Ret m /\
      lists (to_list m) (d_of_list xs) /\
      (forall k, try_find k m = option_map snd (List.find (fun kv => eqb k (fst kv)) (rev xs))).
  Proof.
    intros xs. destruct (of_list_ok V xs) as (t & E & Ht & El). exists t. split; auto.
    assert (L : lists (elements t) (d_of_list xs)) by (rewrite El; apply lists_ins_all, lists_nil).
    split.
    - unfold of_seq. rewrite mk_from_iterator_ok; auto using Wf_Empty.
    - rewrite to_list_elements. split; auto. intros k.
      rewrite (try_find_lists t _ Ht L). f_equal.
      clear. unfold d_of_list. induction xs as [|[a b] xs IH] using rev_ind; auto.
      rewrite fold_left_app, rev_app_distr. simpl. unfold d_add at 1. destruct (eqb k a); auto.
  Qed.

  Lemma C17_roundtrip_pf : forall m, Reach m -> exists m', of_list (to_list m) = Ret m' /\ to_list m' = to_list m.
  Proof.
    intros m R. destruct (Reach_Wf V m R) as [_ S].
    destruct (of_list_ok V (to_list m)) as (t & E & Ht & El). exists t. split; auto.
    rewrite !to_list_elements in *. rewrite El. apply ins_all_ascending. exact S.
  Qed.

  Lemma C18_pf : forall limit (xs : list (K * V)),
    (length xs < limit -> of_seq (Some limit) xs = of_list xs) /\
    (limit <= length xs -> of_seq (Some limit) xs = Raise RecursionError) /\
    exists m, of_list xs = Ret m.
  Proof.
    intros limit xs. repeat split.
    - intros L. unfold of_seq. rewrite mk_from_iterator_ok; auto using Wf_Empty.
    - intros L. unfold of_seq. apply mk_from_iterator_fail; auto using Wf_Empty.
    - destruct (of_list_ok V xs) as (t & E & _). eauto.
  Qed.
End Main.
