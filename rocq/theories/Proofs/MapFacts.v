(** Reachable maps, histories, balance, equality and hash. *)
From Coq Require Import List ZArith Bool Arith Lia Sorting.Sorted.
From Verif.Model Require Import Base MapTree Map.
From Verif.Spec Require Import MapSpec ListM.
From Verif.Proofs Require Import KeyOrdFacts MapTreeFacts MapTreeMonadic.
Import ListNotations.
Local Open Scope nat_scope.
Local Open Scope list_scope.
Local Open Scope py_scope.

Section Reachable.
  Context {K : Type} `{KeyOrd K}.

  Lemma Wf_Empty : forall V, Wf (V := V) Empty.
  Proof. split; simpl; auto. constructor. Qed.

  Lemma of_list_from_ok : forall V (xs : list (K * V)) acc, Wf acc ->
    exists t, of_list_from acc xs = Ret t /\ Wf t /\ elements t = ins_all xs (elements acc).
  Proof.
    induction xs as [|[k v] xs IH]; intros acc Ha; simpl.
    - eexists; split; [reflexivity|]. auto.
    - destruct (Wf_add k v acc Ha) as (t & -> & Ht & El). simpl.
      destruct (IH t Ht) as (t' & E & Ht' & El'). exists t'. rewrite El', El. auto.
  Qed.

  Lemma of_list_ok : forall V (xs : list (K * V)),
    exists t, of_list xs = Ret t /\ Wf t /\ elements t = ins_all xs [].
  Proof. intros. apply (of_list_from_ok V xs Empty). apply Wf_Empty. Qed.

  Lemma mk_from_iterator_ok : forall V (xs : list (K * V)) limit acc, Wf acc ->
    match limit with Some n => length xs < n | None => True end ->
    mk_from_iterator limit acc xs = of_list_from acc xs.
  Proof.
    induction xs as [|[k v] xs IH]; intros limit acc Ha Hl; simpl.
    - destruct limit as [[|n]|]; simpl in *; auto; lia.
    - destruct limit as [[|n]|]; simpl in *; [lia| |];
      destruct (Wf_add k v acc Ha) as (t & -> & Ht & El); simpl; apply IH; auto; lia.
  Qed.

  Lemma mk_from_iterator_fail : forall V (xs : list (K * V)) n acc, Wf acc ->
    n <= length xs -> mk_from_iterator (Some n) acc xs = Raise RecursionError.
  Proof.
    induction xs as [|[k v] xs IH]; intros n acc Ha Hl; simpl in *.
    - assert (n = 0) as -> by lia. reflexivity.
    - destruct n as [|n]; auto.
      destruct (Wf_add k v acc Ha) as (t & -> & Ht & El); simpl. apply IH; auto. lia.
  Qed.

  Lemma Reach_Wf : forall V (m : tree K V), Reach m -> Wf m.
  Proof.
    induction 1.
    - apply Wf_Empty.
    - destruct (Wf_add k v m IHReach) as (t & E & Ht & _). congruence.
    - destruct IHReach as [Hh S]. destruct (remove_ok k m Hh S) as (t & E & Ht & El & _).
      assert (t = m') as -> by congruence. split; auto. rewrite El. now apply ascending_filter.
    - pose proof (change_ok k u m w IHReach) as C. destruct IHReach as [Hh S].
      destruct (u _ w) as [[[v|]|e] w1].
      + destruct C as (t & E & Ht & El & _). assert (t = m') as -> by congruence.
        split; auto. rewrite El. now apply ascending_al_insert.
      + destruct (ends_at_empty k m); [congruence|].
        destruct C as (t & E & Ht & El & _). assert (t = m') as -> by congruence.
        split; auto. rewrite El. now apply ascending_filter.
      + congruence.
    - pose proof (filter_ok p m w IHReach) as F.
      destruct (filterM _ _ w) as [[ys|e] w1].
      + destruct F as (t & E & Ht & _). congruence.
      + congruence.
    - pose proof (partition_ok p m w IHReach) as F.
      destruct (partitionM _ _ w) as [[[ys zs]|e] w1].
      + destruct F as (t1 & t2 & E & Ht & _). congruence.
      + congruence.
    - pose proof (partition_ok p m w IHReach) as F.
      destruct (partitionM _ _ w) as [[[ys zs]|e] w1].
      + destruct F as (t1 & t2 & E & Ht & Ht2 & _). congruence.
      + congruence.
    - pose proof (map_mapM f m w) as F. destruct IHReach as [Hh S].
      destruct (mapM _ _ w) as [[ys|e] w1] eqn:E.
      + destruct F as (t & Et & El & _ & Hk & _). assert (t = m') as -> by congruence.
        split; auto. subst ys.
        clear - S E. revert w S E. generalize (elements m') as ys. induction (elements m) as [|[a b] l IH]; intros ys w S E.
        * simpl in E. injection E as <- <-. constructor.
        * simpl in E. unfold bind, ret in E. simpl in E. destruct (f a b w) as [[y|e] w2]; [|discriminate].
          destruct (mapM _ l w2) as [[ys'|e] w3] eqn:E2; [|discriminate].
          injection E as <- <-. inversion S as [|? ? S' F]; subst. constructor; [eapply IH; [exact S'|exact E2]|].
          clear - E2 F. revert w2 ys' E2. induction l as [|[c d] l IH]; intros w2 ys' E2.
          -- simpl in E2. injection E2 as <- <-. constructor.
          -- simpl in E2. unfold bind, ret in E2. simpl in E2.
             destruct (f c d w2) as [[y2|e] w4]; [|discriminate].
             destruct (mapM _ l w4) as [[ys''|e] w5] eqn:E3; [|discriminate].
             injection E2 as <- <-. inversion F as [|? ? F1 F2]; subst. simpl in *. constructor; [exact F1|]. eapply IH; [exact F2|exact E3].
      + congruence.
    - destruct (of_list_ok V xs) as (t & E & Ht & _). congruence.
    - unfold of_seq in H0.
      assert (match limit with Some n => length xs < n | None => True end) as Hl.
      { destruct limit as [n|]; auto. destruct (le_lt_dec n (length xs)) as [Le|]; auto.
        rewrite mk_from_iterator_fail in H0; auto; [discriminate|apply Wf_Empty]. }
      rewrite mk_from_iterator_ok in H0; auto using Wf_Empty.
      destruct (of_list_ok V xs) as (t & E & Ht & _). unfold of_list in E. congruence.
  Qed.

  (** dictionary view *)
  Lemma lists_unique : forall V (l1 l2 : list (K * V)) d, lists l1 d -> lists l2 d -> l1 = l2.
  Proof.
    intros V l1 l2 d [S1 A1] [S2 A2]. apply ascending_ext; auto. intros k. now rewrite A1, A2.
  Qed.

  Lemma lists_ext : forall V (l : list (K * V)) d1 d2, (forall k, d1 k = d2 k) -> lists l d1 -> lists l d2.
  Proof. intros V l d1 d2 E [S A]. split; auto. intros k. now rewrite A. Qed.

  Lemma lists_insert : forall V k (v : V) l d, lists l d -> lists (al_insert k v l) (d_add k v d).
  Proof.
    intros V k v l d [S A]. split; [now apply ascending_al_insert|].
    intros k'. rewrite assoc_al_insert by auto. unfold d_add. now rewrite A.
  Qed.

  Lemma lists_remove : forall V k (l : list (K * V)) d, lists l d -> lists (al_remove k l) (d_remove k d).
  Proof.
    intros V k l d [S A]. split; [now apply ascending_filter|].
    intros k'. rewrite assoc_al_remove. unfold d_remove. now rewrite A.
  Qed.

  Lemma lists_eqb : forall V (l : list (K * V)) d k k', lists l d -> eqb k k' = true -> d k = d k'.
  Proof. intros V l d k k' [S A] E. rewrite <- !A. now apply assoc_eqb. Qed.

  Lemma lists_ins_all : forall V (xs l : list (K * V)) d, lists l d ->
    lists (ins_all xs l) (fold_left (fun d kv => d_add (fst kv) (snd kv) d) xs d).
  Proof.
    induction xs as [|[k v] xs IH]; intros l d L; simpl; auto.
    apply IH. now apply lists_insert.
  Qed.

  Lemma lists_nil : forall V, lists (V := V) [] d_empty.
  Proof. split; [constructor|]. reflexivity. Qed.

  Lemma filterM_pure : forall W A (p : A -> bool) (l : list A) (w : W),
    filterM (fun x => ret (p x)) l w = (Ret (List.filter p l), w).
  Proof.
    induction l as [|x l IH]; intros w; simpl; auto.
    unfold bind, ret in *. rewrite IH. reflexivity.
  Qed.

  Lemma partitionM_pure : forall W A (p : A -> bool) (l : list A) (w : W),
    partitionM (fun x => ret (p x)) l w = (Ret (List.filter p l, List.filter (fun x => negb (p x)) l), w).
  Proof.
    induction l as [|x l IH]; intros w; simpl; auto.
    unfold bind, ret in *. rewrite IH. destruct (p x); reflexivity.
  Qed.

  Lemma mapM_pure : forall W A B (f : A -> B) (l : list A) (w : W),
    mapM (fun x => ret (f x)) l w = (Ret (List.map f l), w).
  Proof.
    induction l as [|x l IH]; intros w; simpl; auto.
    unfold bind, ret in *. rewrite IH. reflexivity.
  Qed.

  Lemma filter_rev : forall A (p : A -> bool) l, List.filter p (rev l) = rev (List.filter p l).
  Proof.
    induction l as [|x l IH]; simpl; auto. rewrite filter_app, IH. simpl.
    destruct (p x); simpl; auto. apply app_nil_r.
  Qed.

  Lemma lists_filter : forall V (p : K -> V -> bool) (l : list (K * V)) d, lists l d ->
    lists (List.filter (fun kv => p (fst kv) (snd kv)) l) (d_filter p d).
  Proof.
    intros V p l d [S A]. split; [now apply ascending_filter|].
    intros k. rewrite assoc_filter by auto. unfold d_filter. rewrite A. reflexivity.
  Qed.

  Lemma lists_map : forall V R (f : K -> V -> R) (l : list (K * V)) d, lists l d ->
    lists (List.map (fun kv => (fst kv, f (fst kv) (snd kv))) l) (d_map f d).
  Proof.
    intros V R f l d [S A]. split.
    - clear A. unfold ascending in *. induction S as [|[a b] l S IH F]; simpl; constructor; auto.
      apply Forall_forall. intros x Hx. apply in_map_iff in Hx. destruct Hx as (y & <- & Hy).
      rewrite Forall_forall in F. simpl. apply (F _ Hy).
    - intros k. unfold d_map. rewrite <- A. clear A S. unfold assoc.
      induction l as [|[a b] l IH]; simpl; auto. destruct (eqb k a); auto.
  Qed.
End Reachable.

Section History.
  Context {K V : Type} `{KeyOrd K}.

  Lemma m_step_ok : forall (m : tree K V) d o, Wf m -> lists (elements m) d ->
    Wf (m_step m o) /\ lists (elements (m_step m o)) (d_step d o).
  Proof.
    intros m d o Hm L. unfold m_step. destruct o as [k v|k|k f|p|p|p|f|xs|xs]; simpl.
    - destruct (Wf_add k v m Hm) as (t & -> & Ht & El). split; auto. rewrite El. now apply lists_insert.
    - destruct Hm as [Hh S]. destruct (remove_ok k m Hh S) as (t & -> & Ht & El & _).
      pose proof (lists_remove V k _ _ L) as L'. rewrite <- El in L'. split; auto. split; auto. apply L'.
    - pose proof (change_ok (W := unit) k (fun x => ret (f x)) m tt Hm) as C.
      assert (E : option_map snd (assoc k (elements m)) = option_map snd (d k)) by (destruct L as [_ A]; now rewrite A).
      unfold d_change. rewrite <- E. unfold ret in C. fold (@ret unit (option V)) in C.
      destruct (f (option_map snd (assoc k (elements m)))) as [v|] eqn:F.
      + destruct C as (t & Et & Ht & El & _). unfold ret. rewrite Et. simpl.
        pose proof (lists_insert V k v _ _ L) as L'. rewrite <- El in L'. split; auto. split; auto. apply L'.
      + destruct (ends_at_empty k m) eqn:X.
        * unfold ret. rewrite C. simpl. split; auto.
          eapply lists_ext; [|exact L]. intros k'. unfold d_remove.
          destruct (eqb k' k) eqn:Q; auto.
          rewrite (lists_eqb _ _ _ _ _ L Q). destruct L as [_ A]. rewrite <- A.
          apply ends_at_empty_absent; auto. apply Hm.
        * destruct C as (t & Et & Ht & El & _). unfold ret. rewrite Et. simpl.
          pose proof (lists_remove V k _ _ L) as L'. rewrite <- El in L'. split; auto. split; auto. apply L'.
    - pose proof (filter_ok (W := unit) (fun k v => ret (p k v)) m tt Hm) as F.
      unfold uncurry in F. rewrite (filterM_pure unit (K * V) (fun kv => p (fst kv) (snd kv))) in F.
      destruct F as (t & -> & Ht & El). simpl. split; auto. rewrite El. now apply lists_filter.
    - pose proof (partition_ok (W := unit) (fun k v => ret (p k v)) m tt Hm) as F.
      unfold uncurry in F. rewrite (partitionM_pure unit (K * V) (fun kv => p (fst kv) (snd kv))) in F.
      destruct F as (t1 & t2 & -> & Ht1 & Ht2 & El1 & El2). simpl. split; auto.
      rewrite El1, filter_rev, rev_involutive. now apply lists_filter.
    - pose proof (partition_ok (W := unit) (fun k v => ret (p k v)) m tt Hm) as F.
      unfold uncurry in F. rewrite (partitionM_pure unit (K * V) (fun kv => p (fst kv) (snd kv))) in F.
      destruct F as (t1 & t2 & -> & Ht1 & Ht2 & El1 & El2). simpl. split; auto.
      rewrite El2, filter_rev, rev_involutive. now apply (lists_filter V (fun k v => negb (p k v))).
    - pose proof (map_mapM (W := unit) (fun k v => ret (f k v)) m tt) as F.
      cbv beta in F.
      replace (mapM (fun kv : K * V => do y <- ret (f (fst kv) (snd kv)); ret (fst kv, y)) (elements m) tt)
        with (@Ret (list (K * V)) (List.map (fun kv => (fst kv, f (fst kv) (snd kv))) (elements m)), tt) in F
        by (symmetry; apply (mapM_pure unit (K * V) (K * V) (fun kv => (fst kv, f (fst kv) (snd kv))))).
      cbv beta iota in F. destruct F as (t & -> & El & _ & Hk & _). simpl.
      pose proof (lists_map V V f _ _ L) as L'. rewrite <- El in L'. split; auto. split; [apply Hk, Hm|]. apply L'.
    - unfold of_seq. rewrite mk_from_iterator_ok by (auto using Wf_Empty).
      destruct (of_list_ok V xs) as (t & E & Ht & El). unfold of_list in E. rewrite E.
      split; auto. rewrite El. apply lists_ins_all, lists_nil.
    - destruct (of_list_ok V xs) as (t & -> & Ht & El).
      split; auto. rewrite El. apply lists_ins_all, lists_nil.
  Qed.

  Lemma m_run_ok : forall os : list (op K V), Wf (m_run os) /\ lists (elements (m_run os)) (d_run os).
  Proof.
    intros os. unfold m_run, d_run.
    assert (G : forall m d, Wf m -> lists (elements m) d ->
      Wf (fold_left m_step os m) /\ lists (elements (fold_left m_step os m)) (fold_left d_step os d)).
    { induction os as [|o os IH]; intros m d Hm L; simpl; auto.
      destruct (m_step_ok m d o Hm L). apply IH; auto. }
    apply G; [apply Wf_Empty|apply lists_nil].
  Qed.

  (** Every history of [op]s gives a reachable map. *)
  Lemma m_step_Reach : forall (m : tree K V) o, Reach m -> Reach (m_step m o).
  Proof.
    intros m o R. unfold m_step. destruct (m_call m o) as [m'|e] eqn:E; auto.
    destruct o as [k v|k|k f|p|p|p|f|xs|xs]; simpl in E.
    - eapply R_add; eauto.
    - eapply R_remove; eauto.
    - destruct (change _ _ m tt) as [x w'] eqn:C. simpl in E. subst x. eapply R_change; eauto.
    - destruct (filter _ m tt) as [x w'] eqn:C. simpl in E. subst x. eapply R_filter; eauto.
    - destruct (partition _ m tt) as [[[a b]|e] w'] eqn:C; simpl in E; [|discriminate].
      injection E as <-. eapply R_partition_l; eauto.
    - destruct (partition _ m tt) as [[[a b]|e] w'] eqn:C; simpl in E; [|discriminate].
      injection E as <-. eapply R_partition_r; eauto.
    - destruct (map _ m tt) as [x w'] eqn:C. simpl in E. subst x. eapply R_map; eauto.
    - eapply R_of_seq; eauto.
    - eapply R_of_block; eauto.
  Qed.

  Lemma m_run_Reach : forall os : list (op K V), Reach (m_run os).
  Proof.
    intros os. unfold m_run.
    assert (G : forall m, Reach m -> Reach (fold_left m_step os m)).
    { induction os; simpl; auto using m_step_Reach. }
    apply G. constructor.
  Qed.
End History.

Section Balance.
  Context {K V : Type} `{KeyOrd K}.
  Implicit Types (m t l r : tree K V).

  Definition lean t : Prop := match t with Node _ _ l r _ => height l <> height r | _ => True end.

  Lemma balanced_mk : forall l k v r, hok l -> hok r -> balanced l -> balanced r ->
    height l <= height r + 2 -> height r <= height l + 2 -> balanced (mk l k v r).
  Proof.
    intros l k v r Hl Hr Bl Br L1 L2. unfold mk.
    rewrite (hok_depth l), (hok_depth r) in * by auto.
    destruct (if depth l <? depth r then depth r else depth l) as [|n]; simpl; auto.
  Qed.

  Lemma rebalance_bal : forall l k v r, hok l -> hok r -> balanced l -> balanced r ->
    height l <= height r + 3 -> height r <= height l + 3 ->
    (height r = height l + 3 -> lean r) -> (height l = height r + 3 -> lean l) ->
    exists t, rebalance l k v r = Ret t /\ balanced t /\
      (height r <= height l + 2 -> height l <= height r + 2 -> t = mk l k v r) /\
      (height r = height l + 3 -> height t <= height r) /\
      (height l = height r + 3 -> height t <= height l) /\
      Nat.max (height l) (height r) <= height t.
  Proof.
    intros l k v r Hl Hr Bl Br L1 L2 N1 N2.
    unfold rebalance, TOLERANCE.
    destruct (height l + 2 <? height r) eqn:E1; [apply Nat.ltb_lt in E1|apply Nat.ltb_ge in E1].
    - assert (E : height r = height l + 3) by lia. specialize (N1 E).
      destruct r as [|rk rv|rk rv rl rr rh]; [cbn [height] in *; lia|cbn [height] in *; lia|].
      cbn [hok balanced lean height] in *. destruct Hr as (Hrl & Hrr & Eh & _).
      destruct Br as (Brl & Brr & B1 & B2).
      rewrite <- (hok_depth rl), <- (hok_depth rr) in * by auto.
      destruct (height l + 1 <? height rl) eqn:E2; [apply Nat.ltb_lt in E2|apply Nat.ltb_ge in E2].
      + destruct rl as [|lk lv|lk lv ll lr lh]; [cbn [height] in *; lia|cbn [height] in *; lia|].
        cbn [hok balanced height] in *. destruct Hrl as (Hll & Hlr & Elh & _).
        destruct Brl as (Bll & Blr & B3 & B4).
        rewrite <- (hok_depth ll), <- (hok_depth lr) in * by auto.
        eexists; split; [reflexivity|]. rewrite !height_mk.
        split; [apply balanced_mk; auto using hok_mk; try (apply balanced_mk; auto; lia); rewrite !height_mk; lia|].
        repeat split; try lia.
      + eexists; split; [reflexivity|]. rewrite !height_mk.
        split; [apply balanced_mk; auto using hok_mk; try (apply balanced_mk; auto; lia); rewrite ?height_mk; lia|].
        repeat split; try lia.
    - destruct (height r + 2 <? height l) eqn:E2; [apply Nat.ltb_lt in E2|apply Nat.ltb_ge in E2].
      + assert (E : height l = height r + 3) by lia. specialize (N2 E).
        destruct l as [|lk lv|lk lv ll lr lh]; [cbn [height] in *; lia|cbn [height] in *; lia|].
        cbn [hok balanced lean height] in *. destruct Hl as (Hll & Hlr & Eh & _).
        destruct Bl as (Bll & Blr & B1 & B2).
        rewrite <- (hok_depth ll), <- (hok_depth lr) in * by auto.
        destruct (height r + 1 <? height lr) eqn:E3; [apply Nat.ltb_lt in E3|apply Nat.ltb_ge in E3].
        * destruct lr as [|rk rv|rk rv rl rr rh]; [cbn [height] in *; lia|cbn [height] in *; lia|].
          cbn [hok balanced height] in *. destruct Hlr as (Hrl & Hrr & Erh & _).
          destruct Blr as (Brl & Brr & B3 & B4).
          rewrite <- (hok_depth rl), <- (hok_depth rr) in * by auto.
          eexists; split; [reflexivity|]. rewrite !height_mk.
          split; [apply balanced_mk; auto using hok_mk; try (apply balanced_mk; auto; lia); rewrite !height_mk; lia|].
          repeat split; try lia.
        * eexists; split; [reflexivity|]. rewrite !height_mk.
          split; [apply balanced_mk; auto using hok_mk; try (apply balanced_mk; auto; lia); rewrite ?height_mk; lia|].
          repeat split; try lia.
      + eexists; split; [reflexivity|]. rewrite !height_mk.
        split; [apply balanced_mk; auto|]. repeat split; auto; lia.
  Qed.

  Lemma lean_mk : forall l k v r, height l <> height r -> lean (mk l k v r).
  Proof.
    intros. unfold mk. destruct (if height l <? height r then height r else height l) as [|n]; simpl; auto.
  Qed.

  Lemma add_bal : forall k v m, Wf m -> balanced m ->
    exists t, add k v m = Ret t /\ balanced t /\
      (height t = height m \/ (height t = S (height m) /\ lean t)).
  Proof.
    induction m as [|key value|key value l IHl r IHr h]; intros [Hh S] B.
    - simpl. eexists; split; [reflexivity|]. simpl; auto.
    - simpl. destruct (ltb k key); [|destruct (eqb k key)]; eexists; (split; [reflexivity|]); simpl;
        (split; [repeat split; auto; lia|]); auto.
    - cbn [hok balanced elements] in *. pose proof (ascending_node _ _ _ _ S) as [Sl Sr].
      destruct Hh as (Hl & Hr & Eh & _). destruct B as (Bl & Br & B1 & B2).
      rewrite <- (hok_depth l), <- (hok_depth r) in * by auto.
      cbn [add]. destruct (ltb k key) eqn:L.
      + destruct (IHl (conj Hl Sl) Bl) as (l' & E & Bl' & Hl').
        destruct (add_ok k v l Hl Sl) as (l'' & E' & Hok & _).
        assert (l'' = l') as -> by congruence. rewrite E. simpl.
        destruct (rebalance_bal l' key value r Hok Hr Bl' Br) as (t & Et & Bt & T1 & T2 & T3 & T4).
        * destruct Hl' as [?|[? ?]]; lia.
        * destruct Hl' as [?|[? ?]]; lia.
        * destruct Hl' as [?|[? ?]]; lia.
        * destruct Hl' as [?|[? ?]]; auto; lia.
        * exists t. repeat split; auto. cbn [height].
          destruct (le_lt_dec (height l') (height r + 2)) as [Le|Gt].
          -- rewrite T1 by (destruct Hl' as [?|[? ?]]; lia). rewrite height_mk.
             destruct Hl' as [->|[Q Ln]]; [left; lia|].
             destruct (le_lt_dec (height l') (height r)); [left; lia|].
             right. split; [lia|]. apply lean_mk. lia.
          -- left. destruct Hl' as [?|[? ?]]; lia.
      + destruct (eqb k key) eqn:E0.
        * eexists; split; [reflexivity|]. cbn [balanced height].
          rewrite <- (hok_depth l), <- (hok_depth r) by auto. auto.
        * destruct (IHr (conj Hr Sr) Br) as (r' & E & Br' & Hr').
          destruct (add_ok k v r Hr Sr) as (r'' & E' & Hok & _).
          assert (r'' = r') as -> by congruence. rewrite E. simpl.
          destruct (rebalance_bal l key value r' Hl Hok Bl Br') as (t & Et & Bt & T1 & T2 & T3 & T4).
          -- destruct Hr' as [?|[? ?]]; lia.
          -- destruct Hr' as [?|[? ?]]; lia.
          -- destruct Hr' as [?|[? ?]]; auto; lia.
          -- destruct Hr' as [?|[? ?]]; lia.
          -- exists t. repeat split; auto. cbn [height].
             destruct (le_lt_dec (height r') (height l + 2)) as [Le|Gt].
             ++ rewrite T1 by (destruct Hr' as [?|[? ?]]; lia). rewrite height_mk.
                destruct Hr' as [->|[Q Ln]]; [left; lia|].
                destruct (le_lt_dec (height r') (height l)); [left; lia|].
                right. split; [lia|]. apply lean_mk. lia.
             ++ left. destruct Hr' as [?|[? ?]]; lia.
  Qed.

  Lemma add_bal' : forall k v m t, Wf m -> balanced m -> add k v m = Ret t -> Wf t /\ balanced t.
  Proof.
    intros k v m t Hm B E. destruct (add_bal k v m Hm B) as (t' & E' & Bt & _).
    destruct (Wf_add k v m Hm) as (t'' & E'' & Ht & _).
    assert (t' = t) as -> by congruence. assert (t'' = t) as -> by congruence. auto.
  Qed.

  Lemma filter_aux_bal : forall W (p : K -> V -> M W bool) m acc w t w', Wf acc -> balanced acc ->
    filter_aux p m acc w = (Ret t, w') -> Wf t /\ balanced t.
  Proof.
    intros W p. 
    assert (F1 : forall k v acc w t w', Wf acc -> balanced acc -> filter1 p k v acc w = (Ret t, w') -> Wf t /\ balanced t).
    { intros k v acc w t w' Ha Ba E. unfold filter1, bind, lift, ret in E.
      destruct (p k v w) as [[[]|e] w1]; try discriminate.
      - injection E as E <-. eapply add_bal'; eauto.
      - injection E as <- <-. auto. }
    induction m as [|k v|k v l IHl r IHr h]; intros acc w t w' Ha Ba E; simpl in E.
    - injection E as <- <-. auto.
    - eauto.
    - unfold bind in E. destruct (filter_aux p l acc w) as [[t1|e] w1] eqn:E1; [|discriminate].
      destruct (IHl _ _ _ _ Ha Ba E1).
      destruct (filter1 p k v t1 w1) as [[t2|e] w2] eqn:E2; [|discriminate].
      destruct (F1 _ _ _ _ _ _ H0 H1 E2). eauto.
  Qed.

  Lemma partition_aux_bal : forall W (p : K -> V -> M W bool) m a1 a2 w t1 t2 w',
    Wf a1 -> balanced a1 -> Wf a2 -> balanced a2 ->
    partition_aux p m (a1, a2) w = (Ret (t1, t2), w') -> Wf t1 /\ balanced t1 /\ Wf t2 /\ balanced t2.
  Proof.
    intros W p.
    assert (F1 : forall k v a1 a2 w t1 t2 w', Wf a1 -> balanced a1 -> Wf a2 -> balanced a2 ->
      partition1 p k v (a1, a2) w = (Ret (t1, t2), w') -> Wf t1 /\ balanced t1 /\ Wf t2 /\ balanced t2).
    { intros k v a1 a2 w t1 t2 w' ? ? ? ? E. unfold partition1, bind, lift, ret in E.
      destruct (p k v w) as [[[]|e] w1]; try discriminate.
      - destruct (add k v a1) as [x|e] eqn:Ea; [|discriminate]. injection E as <- <- <-.
        destruct (add_bal' _ _ _ _ H0 H1 Ea). auto.
      - destruct (add k v a2) as [x|e] eqn:Ea; [|discriminate]. injection E as <- <- <-.
        destruct (add_bal' _ _ _ _ H2 H3 Ea). auto. }
    induction m as [|k v|k v l IHl r IHr h]; intros a1 a2 w t1 t2 w' H1 H2 H3 H4 E; simpl in E.
    - injection E as <- <- <-. auto.
    - eapply F1; [exact H1|exact H2|exact H3|exact H4|exact E].
    - unfold bind in E. destruct (partition_aux p r (a1, a2) w) as [[[x y]|e] w1] eqn:E1; [|discriminate].
      destruct (IHr _ _ _ _ _ _ H1 H2 H3 H4 E1) as (? & ? & ? & ?).
      destruct (partition1 p k v (x, y) w1) as [[[x2 y2]|e] w2] eqn:E2; [|discriminate].
      destruct (F1 _ _ _ _ _ _ _ _ H0 H5 H6 H7 E2) as (? & ? & ? & ?). eauto.
  Qed.

  Lemma of_list_from_bal : forall (xs : list (K * V)) acc t, Wf acc -> balanced acc ->
    of_list_from acc xs = Ret t -> Wf t /\ balanced t.
  Proof.
    induction xs as [|[k v] xs IH]; intros acc t Ha Ba E; simpl in E.
    - injection E as <-. auto.
    - destruct (add k v acc) as [x|e] eqn:Ea; [|discriminate]. simpl in E.
      destruct (add_bal' _ _ _ _ Ha Ba Ea). eauto.
  Qed.

  (** minimal number of bindings of a balanced tree of a given depth *)
  Fixpoint trip (n : nat) : nat * nat * nat :=
    match n with
    | 0 => (0, 0, 0)
    | S n => let '(a, b, c) := trip n in (1 + a + c, a, b)
    end.
  Definition minsize (n : nat) : nat := fst (fst (trip n)).

  Lemma trip_eq : forall n, trip n = (minsize n, minsize (n - 1), minsize (n - 2)).
  Proof.
    induction n as [|[|[|n]] IH]; try reflexivity.
    change (trip (S (S (S n)))) with (let '(a, b, c) := trip (S (S n)) in (1 + a + c, a, b)).
    unfold minsize at 1. 
    change (trip (S (S (S n)))) with (let '(a, b, c) := trip (S (S n)) in (1 + a + c, a, b)).
    rewrite IH. cbn [fst]. f_equal; f_equal; f_equal; lia.
  Qed.

  Lemma minsize_S : forall n, minsize (S n) = 1 + minsize n + minsize (n - 2).
  Proof.
    intros n. unfold minsize at 1. cbn [trip]. rewrite trip_eq. reflexivity.
  Qed.

  Lemma minsize_mono1 : forall n, minsize n <= minsize (S n).
  Proof. intros n. rewrite minsize_S. lia. Qed.

  Lemma minsize_mono : forall a b, a <= b -> minsize a <= minsize b.
  Proof. induction 1; auto. etransitivity; [eassumption|apply minsize_mono1]. Qed.

  Lemma minsize_double : forall n, S (minsize (S (S n))) >= 2 * S (minsize n).
  Proof.
    intros n. rewrite (minsize_S (S n)), (minsize_S n).
    assert (minsize n <= 1 + minsize (S n - 2) + minsize (n - 2)).
    { destruct n as [|n]; [simpl; lia|]. rewrite (minsize_S n).
      destruct n as [|n]; [reflexivity|]. replace (S (S n) - 2) with n by lia.
      replace (S (S (S n)) - 2) with (S n) by lia.
      replace (S n - 2) with (n - 1) by lia.
      pose proof (minsize_mono (n - 1) n ltac:(lia)). lia. }
    lia.
  Qed.

  Lemma minsize_pow : forall n, 2 ^ (n / 2) <= S (minsize n).
  Proof.
    intros n. induction n as [n IH] using lt_wf_ind.
    destruct n as [|[|n]]; [simpl; lia|simpl; lia|].
    pose proof (IH n ltac:(lia)). pose proof (minsize_double n).
    replace (S (S n) / 2) with (S (n / 2)).
    - rewrite Nat.pow_succ_r'. lia.
    - replace (S (S n)) with (n + 1 * 2) by lia. rewrite Nat.div_add by lia. lia.
  Qed.

  Lemma balanced_minsize : forall m, balanced m -> minsize (depth m) <= length (elements m).
  Proof.
    induction m as [|k v|k v l IHl r IHr h]; intros B; simpl; auto.
    simpl in B. destruct B as (Bl & Br & B1 & B2).
    specialize (IHl Bl). specialize (IHr Br).
    rewrite app_length. simpl length. rewrite minsize_S.
    destruct (le_lt_dec (depth l) (depth r)).
    - rewrite Nat.max_r by lia. pose proof (minsize_mono (depth r - 2) (depth l) ltac:(lia)). lia.
    - rewrite Nat.max_l by lia. pose proof (minsize_mono (depth l - 2) (depth r) ltac:(lia)). lia.
  Qed.
End Balance.

Lemma ReachAdd_balanced : forall K (H : KeyOrd K) V (m : tree K V), ReachAdd m -> Wf m /\ balanced m.
Proof.
  induction 1.
  - split; [apply Wf_Empty|simpl; auto].
  - destruct IHReachAdd. eapply add_bal'; eauto.
  - eapply filter_aux_bal; eauto; [apply Wf_Empty|simpl; auto].
  - edestruct (partition_aux_bal W p m Empty Empty) as (? & ? & ? & ?); eauto using Wf_Empty; simpl; auto.
  - edestruct (partition_aux_bal W p m Empty Empty) as (? & ? & ? & ?); eauto using Wf_Empty; simpl; auto.
  - destruct IHReachAdd as [Hw Hb].
    assert (RW : Reach m).
    { clear - H0. induction H0; [apply R_empty|eapply R_add|eapply R_filter|eapply R_partition_l|eapply R_partition_r|eapply R_map|eapply R_of_block|eapply R_of_seq]; eauto. }
    split.
    + apply (Reach_Wf (K := K)). eapply R_map; eauto.
    + pose proof (map_mapM f m w) as F. destruct (mapM _ _ w) as [[ys|e] w1].
      * destruct F as (t & Et & _ & _ & _ & _ & Hbt). assert (t = m') as -> by congruence. auto.
      * congruence.
  - eapply of_list_from_bal; eauto; [apply Wf_Empty|simpl; auto].
  - unfold of_seq in H0.
    assert (match limit with Some n => List.length xs < n | None => True end) as Hl.
    { destruct limit as [n|]; auto. destruct (le_lt_dec n (List.length xs)) as [Le|]; auto.
      rewrite mk_from_iterator_fail in H0; auto; [discriminate|apply Wf_Empty]. }
    rewrite mk_from_iterator_ok in H0; auto using Wf_Empty.
    eapply of_list_from_bal; eauto; [apply Wf_Empty|simpl; auto].
Qed.
