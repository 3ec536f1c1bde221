(** Invariants of the tree operations. *)
From Coq Require Import List ZArith Bool Arith Lia Sorting.Sorted.
From Verif.Model Require Import Base MapTree.
From Verif.Spec Require Import MapSpec ListM.
From Verif.Proofs Require Import KeyOrdFacts.
Import ListNotations.
Local Open Scope nat_scope.

(** In-order traversal: the list of bindings. *)
Fixpoint elements {K V} (m : tree K V) : list (K * V) :=
  match m with
  | Empty => []
  | Leaf k v => [(k, v)]
  | Node k v l r _ => elements l ++ (k, v) :: elements r
  end.

(** Cached heights are exact and a node has at least one child. *)
Fixpoint hok {K V} (m : tree K V) : Prop :=
  match m with
  | Node _ _ l r h => hok l /\ hok r /\ h = S (Nat.max (height l) (height r)) /\ 2 <= h
  | _ => True
  end.

Section Facts.
  Context {K V : Type} `{KeyOrd K}.
  Implicit Types (m t l r : tree K V).

  Lemma to_list_loop_elements : forall m acc, to_list_loop m acc = elements m ++ acc.
  Proof.
    induction m as [|k v|k v l IHl r IHr h]; intros acc; simpl; auto.
    rewrite IHl, IHr, <- app_assoc. reflexivity.
  Qed.

  Lemma to_list_elements : forall m, to_list m = elements m.
  Proof. intros. unfold to_list. rewrite to_list_loop_elements. apply app_nil_r. Qed.

  Lemma size_aux_elements : forall m acc, size_aux acc m = acc + length (elements m).
  Proof.
    induction m as [|k v|k v l IHl r IHr h]; intros acc; simpl; try lia.
    rewrite IHr, IHl, app_length. simpl. lia.
  Qed.

  Lemma size_elements : forall m, size m = length (elements m).
  Proof. intros. unfold size. rewrite size_aux_elements. lia. Qed.

  Lemma hok_depth : forall m, hok m -> height m = depth m.
  Proof.
    induction m as [|k v|k v l IHl r IHr h]; simpl; auto.
    intros (Hl & Hr & E & _). rewrite E, IHl, IHr; auto.
  Qed.

  Lemma hok_height0 : forall m, hok m -> height m = 0 -> m = Empty.
  Proof. destruct m; simpl; intros; auto; lia. Qed.

  Lemma elements_mk : forall l k v r, hok l -> hok r ->
    elements (mk l k v r) = elements l ++ (k, v) :: elements r.
  Proof.
    intros l k v r Hl Hr. unfold mk.
    destruct (height l <? height r) eqn:L; [apply Nat.ltb_lt in L|apply Nat.ltb_ge in L].
    - destruct (height r =? 0) eqn:E; [apply Nat.eqb_eq in E; lia|reflexivity].
    - destruct (height l =? 0) eqn:E; [|reflexivity].
      apply Nat.eqb_eq in E. rewrite (hok_height0 l), (hok_height0 r) by (auto; lia). reflexivity.
  Qed.

  Lemma hok_mk : forall l k v r, hok l -> hok r -> hok (mk l k v r).
  Proof.
    intros l k v r Hl Hr. unfold mk.
    destruct (height l <? height r) eqn:L; [apply Nat.ltb_lt in L|apply Nat.ltb_ge in L].
    - destruct (height r =? 0) eqn:E; simpl; auto. apply Nat.eqb_neq in E. repeat split; auto; lia.
    - destruct (height l =? 0) eqn:E; simpl; auto. apply Nat.eqb_neq in E. repeat split; auto; lia.
  Qed.

  Lemma height_mk : forall l k v r, height (mk l k v r) = S (Nat.max (height l) (height r)).
  Proof.
    intros. unfold mk.
    destruct (height l <? height r) eqn:L; [apply Nat.ltb_lt in L|apply Nat.ltb_ge in L].
    - destruct (height r =? 0) eqn:E; simpl; [apply Nat.eqb_eq in E|]; lia.
    - destruct (height l =? 0) eqn:E; simpl; [apply Nat.eqb_eq in E|]; lia.
  Qed.

  Ltac rebal :=
    unfold rebalance, TOLERANCE;
    repeat match goal with
    | |- context [?a <? ?b] =>
        destruct (a <? b) eqn:?; [ match goal with E : (a <? b) = true |- _ => apply Nat.ltb_lt in E end
                                 | match goal with E : (a <? b) = false |- _ => apply Nat.ltb_ge in E end ]
    | |- context [match ?t with Empty => _ | Leaf _ _ => _ | Node _ _ _ _ _ => _ end] =>
        is_var t; destruct t; cbn [height hok] in *; try lia
    end.

  Lemma rebalance_ok : forall l k v r, hok l -> hok r ->
    exists t, rebalance l k v r = Ret t /\ hok t /\
      elements t = elements l ++ (k, v) :: elements r /\
      height t <= S (Nat.max (height l) (height r)).
  Proof.
    intros l k v r Hl Hr. rebal;
    (eexists; split; [reflexivity|]);
    (split; [repeat apply hok_mk; simpl in *; tauto|]);
    (split; [rewrite ?elements_mk; repeat apply hok_mk; simpl in *; try tauto;
             rewrite <- ?app_assoc; simpl; rewrite <- ?app_assoc; reflexivity
            |rewrite ?height_mk; cbn [height hok] in *;
             repeat match goal with X : _ /\ _ |- _ => destruct X end; lia]).
  Qed.

  Lemma add_ok : forall k v m, hok m -> ascending (elements m) ->
    exists t, add k v m = Ret t /\ hok t /\ elements t = al_insert k v (elements m) /\
      height t <= S (height m).
  Proof.
    induction m as [|key value|key value l IHl r IHr h]; intros Hh S; simpl.
    - eexists; repeat split; eauto.
    - destruct (ltb k key); [|destruct (eqb k key)];
        eexists; (split; [reflexivity|]); simpl; auto 10.
    - simpl in S. apply ascending_app in S. destruct S as (Sl & Sr & Ll & Gr).
      simpl in Hh. destruct Hh as (Hl & Hr & Eh & H2).
      destruct (ltb k key) eqn:L.
      + destruct (IHl Hl Sl) as (l' & -> & Hl' & El' & Hh'). simpl.
        destruct (rebalance_ok l' key value r Hl' Hr) as (t & -> & Ht & Et & Hht).
        eexists; split; [reflexivity|]. split; auto. split.
        * rewrite Et, El', al_insert_app_lt; auto.
        * lia.
      + destruct (eqb k key) eqn:E.
        * eexists; split; [reflexivity|]. simpl. repeat split; auto.
          rewrite al_insert_app_skip by (apply (all_lt_eqb _ key k); auto; now rewrite eqb_sym).
          simpl. now rewrite L, E.
        * assert (ltb key k = true) by (now apply ltb_total).
          destruct (IHr Hr Sr) as (r' & -> & Hr' & Er' & Hh'). simpl.
          destruct (rebalance_ok l key value r' Hl Hr') as (t & -> & Ht & Et & Hht).
          eexists; split; [reflexivity|]. split; auto. split.
          -- rewrite Et, Er', al_insert_app_skip by (apply (all_lt_trans _ key k); auto).
             simpl. now rewrite L, E.
          -- lia.
  Qed.

  Lemma add_ok' : forall k v m t, hok m -> ascending (elements m) -> add k v m = Ret t ->
    hok t /\ elements t = al_insert k v (elements m) /\ ascending (elements t).
  Proof.
    intros k v m t Hh S E. destruct (add_ok k v m Hh S) as (t' & E' & Ht & El & _).
    rewrite E in E'. injection E' as <-. repeat split; auto. rewrite El. now apply ascending_al_insert.
  Qed.

  Lemma splice_ok : forall m, hok m -> m <> Empty ->
    exists k v t, splice_out_successor m = Ret (k, v, t) /\ hok t /\ elements m = (k, v) :: elements t /\
      height t <= height m.
  Proof.
    induction m as [|key value|key value l IHl r IHr h]; intros Hh NE; simpl.
    - congruence.
    - eauto 10.
    - simpl in Hh. destruct Hh as (Hl & Hr & Eh & H2).
      destruct l as [|kl vl|kl vl ll lr lh]; simpl is_empty; cbn iota.
      + do 3 eexists; split; [reflexivity|]. cbn [height elements] in *. repeat split; auto. lia.
      + cbn [splice_out_successor rbind is_empty]. do 3 eexists; split; [reflexivity|]. split; [now apply hok_mk|].
        rewrite elements_mk, height_mk; auto. split; [reflexivity|]. cbn [height] in *. lia.
      + destruct IHl as (k3 & v3 & t & -> & Ht & Et & Hle); auto; [congruence|].
        simpl rbind. do 3 eexists; split; [reflexivity|].
        split; [now apply hok_mk|]. rewrite elements_mk, height_mk; auto.
        simpl elements in *. rewrite Et. split; [reflexivity|]. cbn [height] in *. lia.
  Qed.

  (** The node-deletion branch shared by [remove] and [change]. *)
  Definition del_root l r : res (tree K V) :=
    if is_empty l then Ret r
    else if is_empty r then Ret l
    else rbind (splice_out_successor r) (fun '(sk, sv, r') => Ret (mk l sk sv r')).

  Lemma del_root_ok : forall l r, hok l -> hok r ->
    exists t, del_root l r = Ret t /\ hok t /\ elements t = elements l ++ elements r /\
      height t <= S (Nat.max (height l) (height r)).
  Proof.
    intros l r Hl Hr. unfold del_root.
    destruct (is_empty l) eqn:El.
    - destruct l; try discriminate. eexists; split; [reflexivity|]. simpl. repeat split; auto.
    - destruct (is_empty r) eqn:Er.
      + destruct r; try discriminate. eexists; split; [reflexivity|]. simpl.
        rewrite app_nil_r. repeat split; auto. lia.
      + destruct (splice_ok r) as (sk & sv & r' & -> & Hr' & E & Hle); auto.
        { intros ->. discriminate. }
        simpl. eexists; split; [reflexivity|]. split; [now apply hok_mk|].
        rewrite elements_mk, height_mk, E; auto. split; auto. lia.
  Qed.

  Lemma remove_ok : forall k m, hok m -> ascending (elements m) ->
    exists t, remove k m = Ret t /\ hok t /\ elements t = al_remove k (elements m) /\
      height t <= height m.
  Proof.
    induction m as [|key value|key value l IHl r IHr h]; intros Hh S; simpl.
    - eexists; split; [reflexivity|]; simpl; auto.
    - unfold al_remove; simpl. destruct (eqb k key); eexists; (split; [reflexivity|]); simpl; auto.
    - simpl in S. apply ascending_app in S. destruct S as (Sl & Sr & Ll & Gr).
      simpl in Hh. destruct Hh as (Hl & Hr & Eh & H2).
      rewrite al_remove_app.
      destruct (ltb k key) eqn:L.
      + destruct (IHl Hl Sl) as (l' & -> & Hl' & El' & Hh'). simpl.
        destruct (rebalance_ok l' key value r Hl' Hr) as (t & -> & Ht & Et & Hht).
        eexists; split; [reflexivity|]. split; auto. split; [|lia].
        rewrite Et, El'. f_equal. unfold al_remove at 1. simpl.
        rewrite (ltb_eqb_false _ _ L). simpl. f_equal.
        change (elements r = al_remove k (elements r)).
        symmetry. apply al_remove_all_gt. eapply all_gt_trans; eauto.
      + destruct (eqb k key) eqn:E.
        * destruct (del_root_ok l r Hl Hr) as (t & Et & Ht & Elt & Hht).
          unfold del_root in Et.
          assert (Ht' : hok t /\ elements t = al_remove k (elements l) ++ al_remove k ((key, value) :: elements r)
                        /\ height t <= h).
          { split; auto. split; [|lia]. rewrite Elt. rewrite al_remove_all_lt.
            - f_equal. unfold al_remove. simpl. rewrite E. simpl.
              change (elements r = al_remove k (elements r)). symmetry.
              apply al_remove_all_gt. eapply all_gt_eqb; [|exact Gr]. now rewrite eqb_sym.
            - eapply all_lt_eqb; [|exact Ll]. now rewrite eqb_sym. }
          destruct (is_empty l); [exists t; auto|]. destruct (is_empty r); exists t; auto.
        * assert (ltb key k = true) by (now apply ltb_total).
          destruct (IHr Hr Sr) as (r' & -> & Hr' & Er' & Hh'). simpl.
          destruct (rebalance_ok l key value r' Hl Hr') as (t & -> & Ht & Et & Hht).
          eexists; split; [reflexivity|]. split; auto. split; [|lia].
          rewrite Et, Er'. rewrite (al_remove_all_lt k (elements l)) by (eapply all_lt_trans; eauto).
          f_equal. unfold al_remove at 2. simpl. rewrite E. reflexivity.
  Qed.

  (** lookups *)
  Lemma assoc_node : forall k key value (l1 l2 : list (K * V)),
    ascending (l1 ++ (key, value) :: l2) ->
    assoc k (l1 ++ (key, value) :: l2) =
    if eqb k key then Some (key, value) else if ltb k key then assoc k l1 else assoc k l2.
  Proof.
    intros k key value l1 l2 S. apply ascending_app in S. destruct S as (_ & _ & L & G).
    rewrite assoc_app. unfold assoc at 2. simpl.
    change (List.find (fun kv => eqb k (fst kv)) l2) with (assoc k l2).
    destruct (eqb k key) eqn:E.
    - rewrite assoc_all_lt; auto. eapply all_lt_eqb; [|exact L]. now rewrite eqb_sym.
    - destruct (ltb k key) eqn:Lt.
      + rewrite (assoc_all_gt k l2) by (eapply all_gt_trans; eauto).
        destruct (assoc k l1); auto.
      + rewrite (assoc_all_lt k l1); auto. eapply all_lt_trans; [|exact L]. now apply ltb_total.
  Qed.

  Lemma ascending_node : forall key value (l1 l2 : list (K * V)),
    ascending (l1 ++ (key, value) :: l2) -> ascending l1 /\ ascending l2.
  Proof. intros. apply ascending_app in H0. tauto. Qed.

  Lemma try_find_assoc : forall k m, ascending (elements m) ->
    try_find k m = option_map snd (assoc k (elements m)).
  Proof.
    induction m as [|key value|key value l IHl r IHr h]; intros S; simpl; auto.
    - unfold assoc; simpl. destruct (eqb k key); auto.
    - simpl in S. rewrite assoc_node by auto. apply ascending_node in S. destruct S as [Sl Sr].
      destruct (eqb k key); auto. destruct (ltb k key); auto.
  Qed.

  Lemma mem_assoc : forall k m, ascending (elements m) ->
    mem k m = match assoc k (elements m) with Some _ => true | None => false end.
  Proof.
    induction m as [|key value|key value l IHl r IHr h]; intros S; simpl; auto.
    - unfold assoc; simpl. destruct (eqb k key); auto.
    - simpl in S. rewrite assoc_node by auto. apply ascending_node in S. destruct S as [Sl Sr].
      destruct (ltb k key) eqn:L.
      + rewrite (ltb_eqb_false _ _ L). auto.
      + destruct (eqb k key); simpl; auto.
  Qed.
End Facts.
