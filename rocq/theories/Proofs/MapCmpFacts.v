(** Maps whose keys compare in any way. *)
From Coq Require Import List Bool Arith Lia.
From Verif.Model Require Import Base MapTree MapCmp Map.
From Verif.Spec Require Import MapSpec MapCmpSpec ListM.
From Verif.Proofs Require Import MapTreeFacts MapTreeMonadic MapFacts.
Import ListNotations.
Local Open Scope nat_scope.
Local Open Scope py_scope.

Ltac inv H := inversion H; subst; clear H.



Section Ops.
  Context {W K V : Type} (lt eq : K -> K -> M W bool).
  Implicit Types (m t l r : tree K V).

  Lemma with_left : forall k (v : V) e1 e2 rest, with_item eq k v e1 e2 -> with_item eq k v (e1 ++ rest) (e2 ++ rest).
  Proof.
    intros k v e1 e2 rest [l1 l2|l1 k0 v0 l2 Y]; rewrite <- !app_assoc; cbn [app]; [apply wi_new|apply wi_replaced; exact Y].
  Qed.
  Lemma with_right : forall k (v : V) e1 e2 front, with_item eq k v e1 e2 -> with_item eq k v (front ++ e1) (front ++ e2).
  Proof.
    intros k v e1 e2 front [l1 l2|l1 k0 v0 l2 Y]; rewrite !app_assoc; [apply wi_new|apply wi_replaced; exact Y].
  Qed.
  Lemma without_left : forall k (e1 e2 rest : list (K * V)), without_item eq k e1 e2 -> without_item eq k (e1 ++ rest) (e2 ++ rest).
  Proof.
    intros k e1 e2 rest [l|l1 k0 v0 l2 Y]; [apply wo_same|]; rewrite <- !app_assoc; cbn [app]; apply wo_dropped; exact Y.
  Qed.
  Lemma without_right : forall k (e1 e2 front : list (K * V)), without_item eq k e1 e2 -> without_item eq k (front ++ e1) (front ++ e2).
  Proof.
    intros k e1 e2 front [l|l1 k0 v0 l2 Y]; [apply wo_same|]; rewrite !app_assoc; apply wo_dropped; exact Y.
  Qed.
  Lemma from_left : forall k (e1 rest : list (K * V)) e w, from_comparison lt eq k e1 e w -> from_comparison lt eq k (e1 ++ rest) e w.
  Proof. intros k e1 rest e w (k0 & I & R). exists k0. split; auto. rewrite map_app. apply in_or_app. auto. Qed.
  Lemma from_right : forall k (e1 front : list (K * V)) x e w, from_comparison lt eq k e1 e w -> from_comparison lt eq k (front ++ x :: e1) e w.
  Proof. intros k e1 front x e w (k0 & I & R). exists k0. split; auto. rewrite map_app. apply in_or_app. cbn. auto. Qed.
  Lemma from_lt : forall k key value (front rest : list (K * V)) e w w', lt k key w = (Raise e, w') -> from_comparison lt eq k (front ++ (key, value) :: rest) e w'.
  Proof. intros. exists key. split; [rewrite map_app; apply in_or_app; cbn; auto|]. left. exists w. auto. Qed.
  Lemma from_eq : forall k key value (front rest : list (K * V)) e w w', eq k key w = (Raise e, w') -> from_comparison lt eq k (front ++ (key, value) :: rest) e w'.
  Proof. intros. exists key. split; [rewrite map_app; apply in_or_app; cbn; auto|]. right. exists w. auto. Qed.

  (** ** add *)
  Lemma add_c_spec : forall k v m, hok m -> forall w,
    match add_c lt eq k v m w with
    | (Ret t, w') => hok t /\ with_item eq k v (elements m) (elements t)
    | (Raise e, w') => from_comparison lt eq k (elements m) e w'
    end.
  Proof.
    intros k v. induction m as [|key value|key value l IHl r IHr h]; intros Hh w; cbn [add_c].
    - unfold ret. split; [exact I|]. apply (wi_new eq k v []).
    - unfold bind. destruct (lt k key w) as [[[|]|e] w1] eqn:E1.
      + unfold ret. cbn [hok elements height]. split; [cbn; repeat split; auto; lia|]. apply (wi_new eq k v []).
      + destruct (eq k key w1) as [[[|]|e] w2] eqn:E2.
        * unfold ret. split; [exact I|]. apply (wi_replaced eq k v []). exists w1, w2. exact E2.
        * unfold ret. split; [cbn; repeat split; auto; lia|]. apply (wi_new eq k v [(key, value)] []).
        * apply (from_eq k key value [] [] e w1 w2 E2).
      + apply (from_lt k key value [] [] e w w1 E1).
    - cbn [hok] in Hh. destruct Hh as (Hl & Hr & Eh & H2). cbn [elements]. unfold bind.
      destruct (lt k key w) as [[[|]|e] w1] eqn:E1.
      + specialize (IHl Hl w1). destruct (add_c lt eq k v l w1) as [[l'|e] w2].
        * destruct IHl as [Hl' Wl]. unfold lift. destruct (rebalance_ok l' key value r Hl' Hr) as (t & -> & Ht & Et & _).
          split; auto. rewrite Et. apply with_left; exact Wl.
        * apply from_left; exact IHl.
      + destruct (eq k key w1) as [[[|]|e] w2] eqn:E2.
        * unfold ret. split; [cbn [hok]; auto|]. cbn [elements]. apply wi_replaced. exists w1, w2. exact E2.
        * specialize (IHr Hr w2). destruct (add_c lt eq k v r w2) as [[r'|e] w3].
          -- destruct IHr as [Hr' Wr]. unfold lift. destruct (rebalance_ok l key value r' Hl Hr') as (t & -> & Ht & Et & _).
             split; auto. rewrite Et. change ((key, value) :: elements r) with ([(key, value)] ++ elements r). change ((key, value) :: elements r') with ([(key, value)] ++ elements r').
             apply with_right, with_right; exact Wr.
          -- apply from_right; exact IHr.
        * apply (from_eq k key value _ _ e w1 w2 E2).
      + apply (from_lt k key value _ _ e w w1 E1).
  Qed.

  (** ** lookups *)
  Lemma try_find_c_spec : forall k m w,
    match try_find_c lt eq k m w with
    | (Ret (Some v), w') => exists k0, In (k0, v) (elements m) /\ said_yes eq k k0
    | (Ret None, w') => True
    | (Raise e, w') => from_comparison lt eq k (elements m) e w'
    end.
  Proof.
    intros k. induction m as [|key value|key value l IHl r IHr h]; intros w; cbn [try_find_c]; unfold bind, ret.
    - exact I.
    - destruct (eq k key w) as [[[|]|e] w1] eqn:E; [exists key; split; [left; reflexivity|exists w, w1; exact E]|exact I|apply (from_eq k key value [] [] e w w1 E)].
    - cbn [elements]. destruct (eq k key w) as [[[|]|e] w1] eqn:E1.
      + exists key. split; [apply in_or_app; right; left; reflexivity|exists w, w1; exact E1].
      + destruct (lt k key w1) as [[[|]|e] w2] eqn:E2.
        * specialize (IHl w2). destruct (try_find_c lt eq k l w2) as [[[v|]|e] w3]; auto.
          -- destruct IHl as (k0 & I0 & Y). exists k0. split; auto. apply in_or_app; auto.
          -- apply from_left; exact IHl.
        * specialize (IHr w2). destruct (try_find_c lt eq k r w2) as [[[v|]|e] w3]; auto.
          -- destruct IHr as (k0 & I0 & Y). exists k0. split; auto. apply in_or_app; right; right; auto.
          -- apply from_right; exact IHr.
        * apply (from_lt k key value _ _ e w1 w2 E2).
      + apply (from_eq k key value _ _ e w w1 E1).
  Qed.
  Lemma mem_c_spec : forall k m w,
    match mem_c lt eq k m w with
    | (Ret true, w') => exists k0 v, In (k0, v) (elements m) /\ said_yes eq k k0
    | (Ret false, w') => True
    | (Raise e, w') => from_comparison lt eq k (elements m) e w'
    end.
  Proof.
    intros k. induction m as [|key value|key value l IHl r IHr h]; intros w; cbn [mem_c]; unfold bind, ret.
    - exact I.
    - destruct (eq k key w) as [[[|]|e] w1] eqn:E; [exists key, value; split; [left; reflexivity|exists w, w1; exact E]|exact I|apply (from_eq k key value [] [] e w w1 E)].
    - cbn [elements]. destruct (lt k key w) as [[[|]|e] w1] eqn:E1.
      + specialize (IHl w1). destruct (mem_c lt eq k l w1) as [[[|]|e] w3]; auto.
        * destruct IHl as (k0 & v0 & I0 & Y). exists k0, v0. split; auto. apply in_or_app; auto.
        * apply from_left; exact IHl.
      + destruct (eq k key w1) as [[[|]|e] w2] eqn:E2.
        * exists key, value. split; [apply in_or_app; right; left; reflexivity|exists w1, w2; exact E2].
        * specialize (IHr w2). destruct (mem_c lt eq k r w2) as [[[|]|e] w3]; auto.
          -- destruct IHr as (k0 & v0 & I0 & Y). exists k0, v0. split; auto. apply in_or_app; right; right; auto.
          -- apply from_right; exact IHr.
        * apply (from_eq k key value _ _ e w1 w2 E2).
      + apply (from_lt k key value _ _ e w w1 E1).
  Qed.

  (** ** remove and change *)
  Lemma drop_root : forall (key : K) (value : V) l r, hok l -> hok r ->
    exists t, (if is_empty l then Ret r else if is_empty r then Ret l else dor (sk, sv, r') <- splice_out_successor r; Ret (mk l sk sv r')) = Ret t
      /\ hok t /\ elements t = elements l ++ elements r.
  Proof.
    intros key value l r Hl Hr. destruct l as [|lk lv|lk lv ll lr lh]; [exists r; repeat split; auto| |];
      (destruct r as [|rk rv|rk rv rl rr rh]; [eexists; split; [reflexivity|split; [exact Hl|now rewrite app_nil_r]]| |]);
      match goal with |- context [is_empty ?x] => change (is_empty x) with false end;
      match goal with |- context [splice_out_successor ?x] => change (is_empty x) with false; destruct (splice_ok x Hr ltac:(discriminate)) as (sk & sv & t & -> & Ht & Et & _) end;
      cbn [rbind]; (eexists; split; [reflexivity|]); (split; [apply hok_mk; auto|]); rewrite elements_mk by auto; rewrite Et; reflexivity.
  Qed.
  Lemma if_lift : forall (b1 b2 : bool) (x y : tree K V) (z : res (tree K V)) (w : W),
    (if b1 then ret x else if b2 then ret y else lift z) w = ((if b1 then Ret x else if b2 then Ret y else z), w).
  Proof. intros [|] [|] x y z w; reflexivity. Qed.

  Lemma remove_c_spec : forall k m, hok m -> forall w,
    match remove_c lt eq k m w with
    | (Ret t, w') => hok t /\ without_item eq k (elements m) (elements t)
    | (Raise e, w') => from_comparison lt eq k (elements m) e w'
    end.
  Proof.
    intros k. induction m as [|key value|key value l IHl r IHr h]; intros Hh w; cbn [remove_c].
    - split; [exact I|apply wo_same].
    - unfold bind. destruct (eq k key w) as [[[|]|e] w2] eqn:E2.
      + split; [exact I|]. apply (wo_dropped eq k [] key value []). exists w, w2. exact E2.
      + split; [exact I|apply wo_same].
      + apply (from_eq k key value [] [] e w w2 E2).
    - cbn [hok] in Hh. destruct Hh as (Hl & Hr & Eh & H2). cbn [elements]. unfold bind.
      destruct (lt k key w) as [[[|]|e] w1] eqn:E1.
      + specialize (IHl Hl w1). destruct (remove_c lt eq k l w1) as [[l'|e] w2].
        * destruct IHl as [Hl' Wl]. unfold lift. destruct (rebalance_ok l' key value r Hl' Hr) as (t & -> & Ht & Et & _).
          split; auto. rewrite Et. apply without_left; exact Wl.
        * apply from_left; exact IHl.
      + destruct (eq k key w1) as [[[|]|e] w2] eqn:E2.
        * rewrite if_lift. destruct (drop_root key value l r Hl Hr) as (t & -> & Ht & Et).
          split; auto. rewrite Et. apply wo_dropped. exists w1, w2. exact E2.
        * specialize (IHr Hr w2). destruct (remove_c lt eq k r w2) as [[r'|e] w3].
          -- destruct IHr as [Hr' Wr]. unfold lift. destruct (rebalance_ok l key value r' Hl Hr') as (t & -> & Ht & Et & _).
             split; auto. rewrite Et. change ((key, value) :: elements r) with ([(key, value)] ++ elements r). change ((key, value) :: elements r') with ([(key, value)] ++ elements r').
             apply without_right, without_right; exact Wr.
          -- apply from_right; exact IHr.
        * apply (from_eq k key value _ _ e w1 w2 E2).
      + apply (from_lt k key value _ _ e w w1 E1).
  Qed.

  (** change: like add or like remove; the exception may also be that of the callback *)
  Lemma changed_left : forall u k w' (e1 e2 rest : list (K * V)), changed_item eq u k w' e1 e2 -> changed_item eq u k w' (e1 ++ rest) (e2 ++ rest).
  Proof.
    intros u k w' e1 e2 rest [l1 l2 v w E|l w E|l1 k0 v0 l2 v w Y E|l1 k0 v0 l2 w Y E]; rewrite <- ?app_assoc; cbn [app];
      [eapply ci_new; exact E|eapply ci_same; exact E|eapply ci_replaced; eassumption|eapply ci_dropped; eassumption].
  Qed.
  Lemma changed_right : forall u k w' (e1 e2 front : list (K * V)), changed_item eq u k w' e1 e2 -> changed_item eq u k w' (front ++ e1) (front ++ e2).
  Proof.
    intros u k w' e1 e2 front [l1 l2 v w E|l w E|l1 k0 v0 l2 v w Y E|l1 k0 v0 l2 w Y E];
      [rewrite !app_assoc; eapply ci_new; exact E|eapply ci_same; exact E|rewrite !app_assoc; eapply ci_replaced; eassumption
      |rewrite !app_assoc; eapply ci_dropped; eassumption].
  Qed.
  Lemma change_c_spec : forall k (u : option V -> M W (option V)) m, hok m -> forall w,
    match change_c lt eq k u m w with
    | (Ret t, w') => hok t /\ changed_item eq u k w' (elements m) (elements t)
    | (Raise e, w') => from_comparison lt eq k (elements m) e w' \/ (exists o w1, u o w1 = (Raise e, w')) \/
                       (e = EffectErrorExn /\ exists w1, u None w1 = (Ret None, w'))
    end.
  Proof.
    intros k u. induction m as [|key value|key value l IHl r IHr h]; intros Hh w; cbn [change_c].
    - unfold bind. destruct (u None w) as [[[v|]|e] w1] eqn:E.
      + split; [exact I|]. apply (ci_new eq u k _ [] _ v _ E).
      + right; right. split; eauto.
      + right; left; eauto.
    - unfold bind. destruct (lt k key w) as [[[|]|e] w1] eqn:E1.
      + destruct (u None w1) as [[[v|]|e] w2] eqn:E.
        * split; [cbn; repeat split; auto; lia|]. apply (ci_new eq u k _ [] _ v _ E).
        * split; [exact I|]. eapply ci_same; exact E.
        * right; left; eauto.
      + destruct (eq k key w1) as [[[|]|e] w2] eqn:E2.
        * destruct (u (Some value) w2) as [[[v|]|e] w3] eqn:E.
          -- split; [exact I|]. eapply (ci_replaced eq u k _ []); [exists w1, w2; exact E2|exact E].
          -- split; [exact I|]. eapply (ci_dropped eq u k _ [] key value []); [exists w1, w2; exact E2|exact E].
          -- right; left; eauto.
        * destruct (u None w2) as [[[v|]|e] w3] eqn:E.
          -- split; [cbn; repeat split; auto; lia|]. apply (ci_new eq u k _ [(key, value)] [] v _ E).
          -- split; [exact I|]. eapply ci_same; exact E.
          -- right; left; eauto.
        * left. apply (from_eq k key value [] [] e w1 w2 E2).
      + left. apply (from_lt k key value [] [] e w w1 E1).
    - cbn [hok] in Hh. destruct Hh as (Hl & Hr & Eh & H2). cbn [elements]. unfold bind.
      destruct (lt k key w) as [[[|]|e] w1] eqn:E1.
      + specialize (IHl Hl w1). destruct (change_c lt eq k u l w1) as [[l'|e] w2].
        * destruct IHl as [Hl' Wl]. unfold lift. destruct (rebalance_ok l' key value r Hl' Hr) as (t & -> & Ht & Et & _).
          split; auto. rewrite Et. apply changed_left; exact Wl.
        * destruct IHl as [F|U]; [left; apply from_left; exact F|right; exact U].
      + destruct (eq k key w1) as [[[|]|e] w2] eqn:E2.
        * destruct (u (Some value) w2) as [[[v|]|e] w3] eqn:E.
          -- split; [cbn [hok]; auto|]. eapply ci_replaced; [exists w1, w2; exact E2|exact E].
          -- rewrite if_lift. destruct (drop_root key value l r Hl Hr) as (t & -> & Ht & Et).
             split; auto. rewrite Et. eapply ci_dropped; [exists w1, w2; exact E2|exact E].
          -- right; left; eauto.
        * specialize (IHr Hr w2). destruct (change_c lt eq k u r w2) as [[r'|e] w3].
          -- destruct IHr as [Hr' Wr]. unfold lift. destruct (rebalance_ok l key value r' Hl Hr') as (t & -> & Ht & Et & _).
             split; auto. rewrite Et. change ((key, value) :: elements r) with ([(key, value)] ++ elements r). change ((key, value) :: elements r') with ([(key, value)] ++ elements r').
             apply changed_right, changed_right; exact Wr.
          -- destruct IHr as [F|U]; [left; apply from_right; exact F|right; exact U].
        * left. apply (from_eq k key value _ _ e w1 w2 E2).
      + left. apply (from_lt k key value _ _ e w w1 E1).
  Qed.

  (** ** balance *)
  Lemma add_c_bal : forall k v m, hok m -> balanced m -> forall w t w', add_c lt eq k v m w = (Ret t, w') ->
    balanced t /\ (height t = height m \/ (height t = S (height m) /\ lean t)).
  Proof.
    intros k v. induction m as [|key value|key value l IHl r IHr h]; intros Hh B w t w' E.
    - injection E as <- <-. cbn. auto.
    - cbn [add_c] in E. unfold bind in E. destruct (lt k key w) as [[[|]|e] w1]; [| |discriminate].
      + injection E as <- <-. cbn. split; [repeat split; auto; lia|]. right. split; auto.
      + destruct (eq k key w1) as [[[|]|e] w2]; [| |discriminate]; injection E as <- <-; cbn; (split; [repeat split; auto; lia|]); auto.
    - cbn [hok balanced] in *. destruct Hh as (Hl & Hr & Eh & _). destruct B as (Bl & Br & B1 & B2).
      rewrite <- (hok_depth l), <- (hok_depth r) in * by auto.
      cbn [add_c] in E. unfold bind in E. destruct (lt k key w) as [[[|]|e] w1]; [| |discriminate].
      + pose proof (add_c_spec k v l Hl w1) as Sp. destruct (add_c lt eq k v l w1) as [[l'|e] w2] eqn:A; [|discriminate].
        destruct Sp as [Hok _]. destruct (IHl Hl Bl _ _ _ A) as [Bl' Hl'].
        destruct (rebalance_bal l' key value r Hok Hr Bl' Br) as (t' & Et & Bt & T1 & T2 & T3 & T4).
        * destruct Hl' as [?|[? ?]]; lia.
        * destruct Hl' as [?|[? ?]]; lia.
        * destruct Hl' as [?|[? ?]]; lia.
        * destruct Hl' as [?|[? ?]]; auto; lia.
        * unfold lift in E. rewrite Et in E. injection E as <- <-. split; auto. cbn [height].
          destruct (le_lt_dec (height l') (height r + 2)) as [Le|Gt].
          -- rewrite T1 by (destruct Hl' as [?|[? ?]]; lia). rewrite height_mk.
             destruct Hl' as [->|[Q Ln]]; [left; lia|].
             destruct (le_lt_dec (height l') (height r)); [left; lia|].
             right. split; [lia|]. apply lean_mk. lia.
          -- left. destruct Hl' as [?|[? ?]]; lia.
      + destruct (eq k key w1) as [[[|]|e] w2]; [| |discriminate].
        * injection E as <- <-. cbn [balanced height]. rewrite <- (hok_depth l), <- (hok_depth r) by auto. auto.
        * pose proof (add_c_spec k v r Hr w2) as Sp. destruct (add_c lt eq k v r w2) as [[r'|e] w3] eqn:A; [|discriminate].
          destruct Sp as [Hok _]. destruct (IHr Hr Br _ _ _ A) as [Br' Hr'].
          destruct (rebalance_bal l key value r' Hl Hok Bl Br') as (t' & Et & Bt & T1 & T2 & T3 & T4).
          -- destruct Hr' as [?|[? ?]]; lia.
          -- destruct Hr' as [?|[? ?]]; lia.
          -- destruct Hr' as [?|[? ?]]; auto; lia.
          -- destruct Hr' as [?|[? ?]]; lia.
          -- unfold lift in E. rewrite Et in E. injection E as <- <-. split; auto. cbn [height].
             destruct (le_lt_dec (height r') (height l + 2)) as [Le|Gt].
             ++ rewrite T1 by (destruct Hr' as [?|[? ?]]; lia). rewrite height_mk.
                destruct Hr' as [->|[Q Ln]]; [left; lia|].
                destruct (le_lt_dec (height r') (height l)); [left; lia|].
                right. split; [lia|]. apply lean_mk. lia.
             ++ left. destruct Hr' as [?|[? ?]]; lia.
  Qed.
  Definition good m : Prop := hok m /\ balanced m.
  Lemma add_c_good : forall k v m w t w', good m -> add_c lt eq k v m w = (Ret t, w') -> good t.
  Proof.
    intros k v m w t w' [Hh B] E. split; [|apply (add_c_bal k v m Hh B w t w' E)].
    pose proof (add_c_spec k v m Hh w) as Sp. rewrite E in Sp. apply Sp.
  Qed.
  Lemma filter1_c_good : forall p k v acc w t w', good acc -> filter1_c lt eq p k v acc w = (Ret t, w') -> good t.
  Proof.
    intros p k v acc w t w' G E. unfold filter1_c, bind in E. destruct (p k v w) as [[[|]|e] w1]; [eapply add_c_good; eauto| |discriminate].
    injection E as <- <-. exact G.
  Qed.
  Lemma filter_aux_c_good : forall p m acc w t w', good acc -> filter_aux_c lt eq p m acc w = (Ret t, w') -> good t.
  Proof.
    intros p. induction m as [|key value|key value l IHl r IHr h]; intros acc w t w' G E; cbn [filter_aux_c] in E.
    - injection E as <- <-. exact G.
    - eapply filter1_c_good; eauto.
    - unfold bind in E. destruct (filter_aux_c lt eq p l acc w) as [[a1|] w1] eqn:E1; [|discriminate].
      destruct (filter1_c lt eq p key value a1 w1) as [[a2|] w2] eqn:E2; [|discriminate].
      eapply IHr; [|exact E]. eapply filter1_c_good; [|exact E2]. eapply IHl; eauto.
  Qed.
  Lemma partition1_c_good : forall p k v a b w t u w', good a -> good b -> partition1_c lt eq p k v (a, b) w = (Ret (t, u), w') -> good t /\ good u.
  Proof.
    intros p k v a b w t u w' Ga Gb E. unfold partition1_c, bind in E. destruct (p k v w) as [[[|]|e] w1]; [| |discriminate];
      [destruct (add_c lt eq k v a w1) as [[x|] w2] eqn:A|destruct (add_c lt eq k v b w1) as [[x|] w2] eqn:A]; try discriminate;
      injection E as <- <- <-; split; auto; (eapply add_c_good; [|exact A]; assumption).
  Qed.
  Lemma partition_aux_c_good : forall p m a b w t u w', good a -> good b -> partition_aux_c lt eq p m (a, b) w = (Ret (t, u), w') -> good t /\ good u.
  Proof.
    intros p. induction m as [|key value|key value l IHl r IHr h]; intros a b w t u w' Ga Gb E; cbn [partition_aux_c] in E.
    - injection E as <- <- <-. auto.
    - eapply partition1_c_good with (a := a) (b := b); eauto.
    - unfold bind in E. destruct (partition_aux_c lt eq p r (a, b) w) as [[[a1 b1]|] w1] eqn:E1; [|discriminate].
      destruct (partition1_c lt eq p key value (a1, b1) w1) as [[[a2 b2]|] w2] eqn:E2; [|discriminate].
      destruct (IHr _ _ _ _ _ _ Ga Gb E1) as [G1 G2]. destruct (partition1_c_good _ _ _ _ _ _ _ _ _ G1 G2 E2) as [G3 G4].
      exact (IHl _ _ _ _ _ _ G3 G4 E).
  Qed.
  Lemma of_list_c_good : forall xs acc w t w', good acc -> of_list_c lt eq acc xs w = (Ret t, w') -> good t.
  Proof.
    induction xs as [|[k v] xs IH]; intros acc w t w' G E; cbn [of_list_c] in E; [injection E as <- <-; exact G|].
    unfold bind in E. destruct (add_c lt eq k v acc w) as [[a|] w1] eqn:A; [|discriminate]. eapply IH; [|exact E]. eapply add_c_good; eauto.
  Qed.
  Lemma good_empty : good Empty.
  Proof. split; exact I. Qed.

  (** filter keeps only items of the map that passed *)
  Lemma with_item_in : forall k (v : V) a b x, with_item eq k v a b -> In x b -> x = (k, v) \/ In x a.
  Proof.
    intros k v a b x [l1 l2|l1 k0 v0 l2 Y] I; apply in_app_or in I; destruct I as [I|[I|I]]; auto; right; apply in_or_app; cbn; auto.
  Qed.
  Definition passed (p : K -> V -> M W bool) (kv : K * V) : Prop := exists w w', p (fst kv) (snd kv) w = (Ret true, w').
  Lemma filter1_c_in : forall p k v acc w t w' x, hok acc -> filter1_c lt eq p k v acc w = (Ret t, w') -> In x (elements t) ->
    hok t /\ (In x (elements acc) \/ x = (k, v) /\ passed p (k, v)).
  Proof.
    intros p k v acc w t w' x Hh E I. unfold filter1_c, bind in E. destruct (p k v w) as [[[|]|e] w1] eqn:P; [| |discriminate].
    - pose proof (add_c_spec k v acc Hh w1) as Sp. rewrite E in Sp. destruct Sp as [Ht Wi]. split; auto.
      destruct (with_item_in _ _ _ _ _ Wi I) as [->|J]; auto. right. split; auto. exists w, w1. exact P.
    - injection E as <- <-. auto.
  Qed.
  Lemma filter1_c_hok : forall p k v acc w t w', hok acc -> filter1_c lt eq p k v acc w = (Ret t, w') -> hok t.
  Proof.
    intros p k v acc w t w' Hh E. unfold filter1_c, bind in E. destruct (p k v w) as [[[|]|e] w1] eqn:P; [| |discriminate].
    - pose proof (add_c_spec k v acc Hh w1) as Sp. rewrite E in Sp. apply Sp.
    - injection E as <- <-. exact Hh.
  Qed.
  Lemma filter_aux_c_in : forall p m acc w t w', hok acc -> filter_aux_c lt eq p m acc w = (Ret t, w') ->
    hok t /\ forall x, In x (elements t) -> In x (elements acc) \/ In x (elements m) /\ passed p x.
  Proof.
    intros p. induction m as [|key value|key value l IHl r IHr h]; intros acc w t w' G E; cbn [filter_aux_c] in E.
    - injection E as <- <-. split; auto.
    - split; [eapply filter1_c_hok; eauto|]. intros x Ix. destruct (filter1_c_in _ _ _ _ _ _ _ _ G E Ix) as [_ [J|[-> P]]]; auto.
      right. split; [left; reflexivity|exact P].
    - unfold bind in E. destruct (filter_aux_c lt eq p l acc w) as [[a1|] w1] eqn:E1; [|discriminate].
      destruct (filter1_c lt eq p key value a1 w1) as [[a2|] w2] eqn:E2; [|discriminate].
      destruct (IHl _ _ _ _ G E1) as [H1 I1]. pose proof (filter1_c_hok _ _ _ _ _ _ _ H1 E2) as H2.
      destruct (IHr _ _ _ _ H2 E) as [H3 I3]. split; auto. intros x Ix. cbn [elements].
      destruct (I3 x Ix) as [J|[J P]]; [|right; split; [apply in_or_app; right; right; exact J|exact P]].
      destruct (filter1_c_in _ _ _ _ _ _ _ _ H1 E2 J) as [_ [J1|[-> P]]].
      + destruct (I1 x J1) as [J2|[J2 P]]; auto. right. split; [apply in_or_app; left; exact J2|exact P].
      + right. split; [apply in_or_app; right; left; reflexivity|exact P].
  Qed.
End Ops.

(** ** the maps that can be built *)
Lemma map_hok : forall W K V R (f : K -> V -> M W R) (m : tree K V) w t w', map f m w = (Ret t, w') ->
  (hok m -> hok t) /\ (balanced m -> balanced t).
Proof.
  intros W K V R f m w t w' E. pose proof (map_mapM f m w) as Sp. cbn zeta in Sp.
  destruct (mapM _ (elements m) w) as [[l|e] w1]; [|rewrite E in Sp; discriminate].
  destruct Sp as (t' & E' & _ & _ & Hh & _ & Hb). rewrite E in E'. injection E' as <- <-. auto.
Qed.
Lemma ReachC_hok : forall K V (m : tree K V), ReachC m -> hok m.
Proof.
  intros K V m R. induction R as [V|W V lt eq m k v w m' w' R IH E|W V lt eq m k w m' w' R IH E|W V lt eq m k u w m' w' R IH E
    |W V lt eq m p w m' w' R IH E|W V lt eq m p w m1 m2 w' R IH E|W V lt eq m p w m1 m2 w' R IH E|W V R0 m f w m' w' R IH E|W V lt eq xs w m' w' E].
  - exact I.
  - pose proof (add_c_spec lt eq k v m IH w) as Sp. rewrite E in Sp. apply Sp.
  - pose proof (remove_c_spec lt eq k m IH w) as Sp. rewrite E in Sp. apply Sp.
  - pose proof (change_c_spec lt eq k u m IH w) as Sp. rewrite E in Sp. apply Sp.
  - apply (filter_aux_c_good lt eq p m Empty w m' w' good_empty E).
  - apply (partition_aux_c_good lt eq p m Empty Empty w m1 m2 w' good_empty good_empty E).
  - apply (partition_aux_c_good lt eq p m Empty Empty w m1 m2 w' good_empty good_empty E).
  - apply (map_hok _ _ _ _ f m w m' w' E). exact IH.
  - apply (of_list_c_good lt eq xs Empty w m' w' good_empty E).
Qed.
Lemma ReachAddC_good : forall K V (m : tree K V), ReachAddC m -> good m.
Proof.
  intros K V m R. induction R as [V|W V lt eq m k v w m' w' R IH E
    |W V lt eq m p w m' w' R E|W V lt eq m p w m1 m2 w' R E|W V lt eq m p w m1 m2 w' R E|W V R0 m f w m' w' R IH E|W V lt eq xs w m' w' E].
  - exact good_empty.
  - eapply add_c_good; eauto.
  - apply (filter_aux_c_good lt eq p m Empty w m' w' good_empty E).
  - apply (partition_aux_c_good lt eq p m Empty Empty w m1 m2 w' good_empty good_empty E).
  - apply (partition_aux_c_good lt eq p m Empty Empty w m1 m2 w' good_empty good_empty E).
  - destruct (map_hok _ _ _ _ f m w m' w' E) as [A B]. destruct IH. split; auto.
  - apply (of_list_c_good lt eq xs Empty w m' w' good_empty E).
Qed.
Lemma ReachAddC_log : forall K V (m : tree K V), ReachAddC m -> depth m <= 2 * Nat.log2 (len m + 1) + 1.
Proof.
  intros K V m R. destruct (ReachAddC_good K V m R) as [_ B]. pose proof (balanced_minsize m B) as A. pose proof (minsize_pow (depth m)) as P.
  assert (Q : 2 ^ (depth m / 2) <= len m + 1) by (unfold len; rewrite size_elements; lia).
  apply Nat.log2_le_mono in Q. rewrite Nat.log2_pow2 in Q by lia.
  pose proof (Nat.div_mod_eq (depth m) 2). pose proof (Nat.mod_upper_bound (depth m) 2). lia.
Qed.

(** ** how often keys are compared *)
Section Count.
  Context {W K V : Type} (lt eq : K -> K -> M W bool).
  Implicit Types (m t l r : tree K V).
  (** a computation that asks at most [b] questions and otherwise does what [g] does *)
  Definition asks_c {B} (b : nat) (f : M (nat * W) B) (g : M W B) : Prop :=
    forall n w, exists c, c <= b /\ f (n, w) = (fst (g w), (n + c, snd (g w))).
  Lemma asks_ret : forall B (x : B) b, asks_c b (ret x) (ret x).
  Proof. intros B x b n w. exists 0. split; [lia|]. unfold ret. cbn. now rewrite Nat.add_0_r. Qed.
  Lemma asks_lift : forall B (x : res B) b, asks_c b (lift x) (lift x).
  Proof. intros B x b n w. exists 0. split; [lia|]. unfold lift. cbn. now rewrite Nat.add_0_r. Qed.
  Lemma asks_raise : forall B (e : exn) b, asks_c (B := B) b (raise e) (raise e).
  Proof. intros B x b n w. exists 0. split; [lia|]. unfold raise. cbn. now rewrite Nat.add_0_r. Qed.
  Lemma asks_one : forall (cmp : K -> K -> M W bool) x y, asks_c 1 (counted cmp x y) (cmp x y).
  Proof. intros cmp x y n w. exists 1. split; auto. unfold counted. cbn. destruct (cmp x y w). cbn. now rewrite Nat.add_1_r. Qed.
  Lemma asks_bind : forall B C b1 b2 b (f : M (nat * W) B) g (f' : B -> M (nat * W) C) g',
    asks_c b1 f g -> (forall x, asks_c b2 (f' x) (g' x)) -> b1 + b2 <= b -> asks_c b (bind f f') (bind g g').
  Proof.
    intros B C b1 b2 b f g f' g' A1 A2 L n w. destruct (A1 n w) as (c1 & L1 & E1). unfold bind. rewrite E1.
    destruct (g w) as [[x|e] w1]; cbn [fst snd].
    - destruct (A2 x (n + c1) w1) as (c2 & L2 & E2). rewrite E2. exists (c1 + c2). split; [lia|]. now rewrite Nat.add_assoc.
    - exists c1. split; [lia|reflexivity].
  Qed.
  Lemma asks_le : forall B b b' (f : M (nat * W) B) g, asks_c b f g -> b <= b' -> asks_c b' f g.
  Proof. intros B b b' f g A L n w. destruct (A n w) as (c & ? & ?). exists c. split; [lia|auto]. Qed.

  Lemma add_c_asks : forall k (v : V) m, asks_c (2 * depth m) (add_c (counted lt) (counted eq) k v m) (add_c lt eq k v m).
  Proof.
    intros k v. induction m as [|key value|key value l IHl r IHr h]; cbn [add_c depth].
    - apply asks_ret.
    - apply (asks_bind _ _ 1 1); [apply asks_one| |lia]. intros [|]; [apply asks_ret|].
      apply (asks_bind _ _ 1 0); [apply asks_one| |lia]. intros [|]; apply asks_ret.
    - apply (asks_bind _ _ 1 (1 + 2 * Nat.max (depth l) (depth r))); [apply asks_one| |lia]. intros [|].
      + apply (asks_bind _ _ (2 * depth l) 0); [exact IHl| |lia]. intros; apply asks_lift.
      + apply (asks_bind _ _ 1 (2 * Nat.max (depth l) (depth r))); [apply asks_one| |lia]. intros [|]; [apply asks_ret|].
        apply (asks_bind _ _ (2 * depth r) 0); [exact IHr| |lia]. intros; apply asks_lift.
  Qed.
  Lemma try_find_c_asks : forall k m, asks_c (2 * depth m) (try_find_c (counted lt) (counted eq) k m) (try_find_c lt eq k m).
  Proof.
    intros k. induction m as [|key value|key value l IHl r IHr h]; cbn [try_find_c depth].
    - apply asks_ret.
    - apply (asks_bind _ _ 1 0); [apply asks_one| |lia]. intros [|]; apply asks_ret.
    - apply (asks_bind _ _ 1 (1 + 2 * Nat.max (depth l) (depth r))); [apply asks_one| |lia]. intros [|]; [apply asks_ret|].
      apply (asks_bind _ _ 1 (2 * Nat.max (depth l) (depth r))); [apply asks_one| |lia]. intros [|]; [apply (asks_le _ _ _ _ _ IHl); lia|apply (asks_le _ _ _ _ _ IHr); lia].
  Qed.
  Lemma mem_c_asks : forall k m, asks_c (2 * depth m) (mem_c (counted lt) (counted eq) k m) (mem_c lt eq k m).
  Proof.
    intros k. induction m as [|key value|key value l IHl r IHr h]; cbn [mem_c depth].
    - apply asks_ret.
    - apply (asks_le _ 1); [apply asks_one|lia].
    - apply (asks_bind _ _ 1 (1 + 2 * Nat.max (depth l) (depth r))); [apply asks_one| |lia]. intros [|]; [apply (asks_le _ _ _ _ _ IHl); lia|].
      apply (asks_bind _ _ 1 (2 * Nat.max (depth l) (depth r))); [apply asks_one| |lia]. intros [|]; [apply asks_ret|apply (asks_le _ _ _ _ _ IHr); lia].
  Qed.
  Lemma remove_c_asks : forall k m, asks_c (2 * depth m) (remove_c (counted lt) (counted eq) k m) (remove_c lt eq k m).
  Proof.
    intros k. induction m as [|key value|key value l IHl r IHr h]; cbn [remove_c depth].
    - apply asks_ret.
    - apply (asks_bind _ _ 1 0); [apply asks_one| |lia]. intros [|]; apply asks_ret.
    - apply (asks_bind _ _ 1 (1 + 2 * Nat.max (depth l) (depth r))); [apply asks_one| |lia]. intros [|].
      + apply (asks_bind _ _ (2 * depth l) 0); [exact IHl| |lia]. intros; apply asks_lift.
      + apply (asks_bind _ _ 1 (2 * Nat.max (depth l) (depth r))); [apply asks_one| |lia]. intros [|].
        * destruct (is_empty l); [apply asks_ret|]. destruct (is_empty r); [apply asks_ret|apply asks_lift].
        * apply (asks_bind _ _ (2 * depth r) 0); [exact IHr| |lia]. intros; apply asks_lift.
  Qed.
  Lemma asks_uncounted : forall B C (u : B -> M W C) x, asks_c 0 (uncounted u x) (u x).
  Proof. intros B C u x n w. exists 0. split; auto. unfold uncounted. cbn. destruct (u x w). cbn. now rewrite Nat.add_0_r. Qed.
  Lemma change_c_asks : forall k u m, asks_c (2 * depth m) (change_c (counted lt) (counted eq) k (uncounted u) m) (change_c lt eq k u m).
  Proof.
    intros k u. induction m as [|key value|key value l IHl r IHr h]; cbn [change_c depth].
    - apply (asks_bind _ _ 0 0); [apply asks_uncounted| |lia]. intros [v|]; [apply asks_ret|apply asks_raise].
    - apply (asks_bind _ _ 1 1); [apply asks_one| |lia]. intros [|].
      + apply (asks_bind _ _ 0 0); [apply asks_uncounted| |lia]. intros [v|]; apply asks_ret.
      + apply (asks_bind _ _ 1 0); [apply asks_one| |lia]. intros [|]; (apply (asks_bind _ _ 0 0); [apply asks_uncounted| |lia]); intros [v|]; apply asks_ret.
    - apply (asks_bind _ _ 1 (1 + 2 * Nat.max (depth l) (depth r))); [apply asks_one| |lia]. intros [|].
      + apply (asks_bind _ _ (2 * depth l) 0); [exact IHl| |lia]. intros; apply asks_lift.
      + apply (asks_bind _ _ 1 (2 * Nat.max (depth l) (depth r))); [apply asks_one| |lia]. intros [|].
        * apply (asks_bind _ _ 0 0); [apply asks_uncounted| |lia]. intros [v|]; [apply asks_ret|].
          destruct (is_empty l); [apply asks_ret|]. destruct (is_empty r); [apply asks_ret|apply asks_lift].
        * apply (asks_bind _ _ (2 * depth r) 0); [exact IHr| |lia]. intros; apply asks_lift.
  Qed.
End Count.

(** ** with an order these are the functions of MapTree.v *)
Section Agree.
  Context {W K V : Type} {OK : KeyOrd K}.
  Implicit Types (m t l r : tree K V).
  Lemma add_c_agrees : forall k v m (w : W), add_c (answers ltb) (answers eqb) k v m w = (add k v m, w).
  Proof.
    intros k v. induction m as [|key value|key value l IHl r IHr h]; intros w; cbn [add_c add]; unfold bind, answers, ret; auto.
    - destruct (ltb k key); auto. destruct (eqb k key); auto.
    - destruct (ltb k key).
      + rewrite IHl. destruct (add k v l); auto.
      + destruct (eqb k key); auto. rewrite IHr. destruct (add k v r); auto.
  Qed.
  Lemma try_find_c_agrees : forall k m (w : W), try_find_c (answers ltb) (answers eqb) k m w = (Ret (try_find k m), w).
  Proof.
    intros k. induction m as [|key value|key value l IHl r IHr h]; intros w; cbn [try_find_c try_find]; unfold bind, answers, ret; auto.
    - destruct (eqb k key); auto.
    - destruct (eqb k key); auto. destruct (ltb k key); auto.
  Qed.
  Lemma find_c_agrees : forall k m (w : W), find_c (answers ltb) (answers eqb) k m w = (find k m, w).
  Proof.
    intros k m w. unfold find_c, bind. rewrite try_find_c_agrees. unfold find. destruct (try_find k m); reflexivity.
  Qed.
  Lemma mem_c_agrees : forall k m (w : W), mem_c (answers ltb) (answers eqb) k m w = (Ret (mem k m), w).
  Proof.
    intros k. induction m as [|key value|key value l IHl r IHr h]; intros w; cbn [mem_c mem]; unfold bind, answers, ret; auto.
    destruct (ltb k key); auto. destruct (eqb k key); cbn [orb]; auto.
  Qed.
  Lemma remove_c_agrees : forall k m (w : W), remove_c (answers ltb) (answers eqb) k m w = (remove k m, w).
  Proof.
    intros k. induction m as [|key value|key value l IHl r IHr h]; intros w; cbn [remove_c remove]; unfold bind, answers, ret; auto.
    - destruct (eqb k key); auto.
    - destruct (ltb k key).
      + rewrite IHl. destruct (remove k l); auto.
      + destruct (eqb k key).
        * destruct (is_empty l); auto. destruct (is_empty r); auto.
        * rewrite IHr. destruct (remove k r); auto.
  Qed.
  Lemma change_c_agrees : forall k (u : option V -> M W (option V)) m w, change_c (answers ltb) (answers eqb) k u m w = change k u m w.
  Proof.
    intros k u. induction m as [|key value|key value l IHl r IHr h]; intros w; [reflexivity|reflexivity|].
    cbn [change_c change]. unfold bind. unfold answers at 1, ret at 1. destruct (ltb k key).
    - rewrite IHl. reflexivity.
    - unfold answers at 1, ret at 1. destruct (eqb k key); [reflexivity|]. rewrite IHr. reflexivity.
  Qed.
  Lemma filter_aux_c_agrees : forall (p : K -> V -> M W bool) m acc w, filter_aux_c (answers ltb) (answers eqb) p m acc w = filter_aux p m acc w.
  Proof.
    intros p. assert (F1 : forall k v acc w, filter1_c (answers ltb) (answers eqb) p k v acc w = filter1 p k v acc w).
    { intros k v acc w. unfold filter1_c, filter1, bind. destruct (p k v w) as [[[|]|] w1]; auto. apply add_c_agrees. }
    induction m as [|key value|key value l IHl r IHr h]; intros acc w; cbn [filter_aux_c filter_aux]; auto.
    unfold bind. rewrite IHl. destruct (filter_aux p l acc w) as [[a|] w1]; auto. rewrite F1. destruct (filter1 p key value a w1) as [[a1|] w2]; auto.
  Qed.
  Lemma partition_aux_c_agrees : forall (p : K -> V -> M W bool) m acc w, partition_aux_c (answers ltb) (answers eqb) p m acc w = partition_aux p m acc w.
  Proof.
    intros p. assert (F1 : forall k v acc w, partition1_c (answers ltb) (answers eqb) p k v acc w = partition1 p k v acc w).
    { intros k v [a b] w. unfold partition1_c, partition1, bind, lift. destruct (p k v w) as [[[|]|] w1]; auto; rewrite add_c_agrees; reflexivity. }
    induction m as [|key value|key value l IHl r IHr h]; intros acc w; cbn [partition_aux_c partition_aux]; auto.
    unfold bind. rewrite IHr. destruct (partition_aux p r acc w) as [[a|] w1]; auto. rewrite F1. destruct (partition1 p key value a w1) as [[a1|] w2]; auto.
  Qed.
  Lemma of_list_c_agrees : forall xs (acc : tree K V) (w : W), of_list_c (answers ltb) (answers eqb) acc xs w = (of_list_from acc xs, w).
  Proof.
    induction xs as [|[k v] xs IH]; intros acc w; cbn [of_list_c of_list_from]; auto. unfold bind. rewrite add_c_agrees.
    destruct (add k v acc); auto. apply IH.
  Qed.
End Agree.

(** ** a key that was just added *)
Section Found.
  Context {W K V : Type} (lt eq : K -> K -> bool) (k : K) (v : V).
  Implicit Types (m t l r : tree K V).
  Hypothesis refl : eq k k = true.
  Hypothesis excl : forall k0, lt k k0 = true -> eq k k0 = false.
  (** the search for [k] ends at its own node *)
  Fixpoint onpath m : Prop :=
    match m with
    | Empty => False
    | Leaf key value => key = k /\ value = v
    | Node key value l r _ =>
        (key = k /\ value = v) \/ (lt k key = true /\ onpath l) \/ (lt k key = false /\ eq k key = false /\ onpath r)
    end.
  Lemma onpath_found : forall m (w : W), onpath m -> try_find_c (answers lt) (answers eq) k m w = (Ret (Some v), w).
  Proof.
    induction m as [|key value|key value l IHl r IHr h]; intros w P; cbn [onpath] in P; cbn [try_find_c]; unfold bind, answers, ret.
    - destruct P.
    - destruct P as [-> ->]. rewrite refl. reflexivity.
    - destruct P as [[-> ->]|[[L P]|(L & E & P)]].
      + rewrite refl. reflexivity.
      + rewrite (excl _ L), L. apply IHl, P.
      + rewrite E, L. apply IHr, P.
  Qed.
  Lemma mk_node : forall l key value r, (l <> Empty \/ r <> Empty) -> hok l -> hok r -> exists h, mk l key value r = Node key value l r h.
  Proof.
    intros l key value r N Hl Hr. unfold mk.
    destruct (height l <? height r) eqn:L; [apply Nat.ltb_lt in L|apply Nat.ltb_ge in L].
    - destruct (height r =? 0) eqn:E; [apply Nat.eqb_eq in E; lia|eauto].
    - destruct (height l =? 0) eqn:E; [|eauto].
      apply Nat.eqb_eq in E. rewrite (hok_height0 l), (hok_height0 r) in N by (auto; lia). destruct N; congruence.
  Qed.
  Lemma onpath_ne : forall m, onpath m -> m <> Empty.
  Proof. intros [|? ?|? ? ? ? ?] P; [destruct P|discriminate|discriminate]. Qed.
  Lemma path_l : forall l key value r, hok l -> hok r -> lt k key = true -> onpath l -> onpath (mk l key value r).
  Proof.
    intros l key value r Hl Hr L P. destruct (mk_node l key value r (or_introl (onpath_ne l P)) Hl Hr) as [h ->]. cbn. auto.
  Qed.
  Lemma path_r : forall l key value r, hok l -> hok r -> lt k key = false -> eq k key = false -> onpath r -> onpath (mk l key value r).
  Proof.
    intros l key value r Hl Hr L E P. destruct (mk_node l key value r (or_intror (onpath_ne r P)) Hl Hr) as [h ->]. cbn. auto.
  Qed.
  Lemma path_root : forall l r, hok l -> hok r -> onpath (mk l k v r).
  Proof.
    intros l r Hl Hr. unfold mk. repeat match goal with |- context [if ?b then _ else _] => destruct b end; cbn; auto.
  Qed.

  (** the side that holds [k] is the higher one *)
  Definition side m : Prop :=
    match m with
    | Node key _ l r _ =>
        height m <= 2 \/ (lt k key = true /\ onpath l /\ height r < height l) \/ (lt k key = false /\ eq k key = false /\ onpath r /\ height l < height r)
    | _ => True
    end.
  Lemma rebalance_path_l : forall l key value r t, hok l -> hok r -> lt k key = true -> onpath l ->
    (height l = height r + 3 -> side l) -> height l <= height r + 3 -> height r <= height l + 2 ->
    rebalance l key value r = Ret t -> onpath t.
  Proof.
    intros l key value r t Hl Hr L P S B1 B2 E. unfold rebalance, TOLERANCE in E.
    destruct (height l + 2 <? height r) eqn:T1; [apply Nat.ltb_lt in T1; lia|].
    destruct (height r + 2 <? height l) eqn:T2; [apply Nat.ltb_lt in T2|injection E as <-; apply path_l; auto].
    assert (Q : height l = height r + 3) by lia. specialize (S Q).
    destruct l as [|lk lv|lk lv ll lr lh]; [discriminate|discriminate|].
    cbn [side height] in S. cbn [height] in Q, T2. cbn [hok] in Hl. destruct Hl as (Hll & Hlr & Eh & H2).
    assert (S' : (lt k lk = true /\ onpath ll /\ height lr < height ll) \/ (lt k lk = false /\ eq k lk = false /\ onpath lr /\ height ll < height lr)) by (destruct S as [?|S']; [lia|exact S']).
    destruct (height r + 1 <? height lr) eqn:T3; [apply Nat.ltb_lt in T3|apply Nat.ltb_ge in T3].
    - destruct lr as [|? ?|kr vr rl rr rh]; [discriminate|discriminate|]. injection E as <-.
      destruct S' as [(A & B & C)|(A & B & C & D)]; [cbn [height hok] in *; lia|].
      cbn [hok] in Hlr. destruct Hlr as (Hrl & Hrr & _). cbn [onpath] in C. destruct C as [[-> ->]|[[C1 C2]|(C1 & C2 & C3)]].
      + apply path_root; apply hok_mk; auto.
      + apply path_l; auto using hok_mk. apply path_r; auto.
      + apply path_r; auto using hok_mk. apply path_l; auto.
    - injection E as <-. destruct S' as [(A & B & C)|(A & B & C & D)].
      + apply path_l; auto using hok_mk.
      + apply path_r; auto using hok_mk. apply path_l; auto.
  Qed.
  Lemma rebalance_path_r : forall l key value r t, hok l -> hok r -> lt k key = false -> eq k key = false -> onpath r ->
    (height r = height l + 3 -> side r) -> height r <= height l + 3 -> height l <= height r + 2 ->
    rebalance l key value r = Ret t -> onpath t.
  Proof.
    intros l key value r t Hl Hr L L' P S B1 B2 E. unfold rebalance, TOLERANCE in E.
    destruct (height l + 2 <? height r) eqn:T1; [apply Nat.ltb_lt in T1|apply Nat.ltb_ge in T1].
    2:{ destruct (height r + 2 <? height l) eqn:T2; [apply Nat.ltb_lt in T2; lia|injection E as <-; apply path_r; auto]. }
    assert (Q : height r = height l + 3) by lia. specialize (S Q).
    destruct r as [|rk rv|rk rv rl rr rh]; [discriminate|discriminate|].
    cbn [side height] in S. cbn [height] in Q, T1. cbn [hok] in Hr. destruct Hr as (Hrl & Hrr & Eh & H2).
    assert (S' : (lt k rk = true /\ onpath rl /\ height rr < height rl) \/ (lt k rk = false /\ eq k rk = false /\ onpath rr /\ height rl < height rr)) by (destruct S as [?|S']; [lia|exact S']).
    destruct (height l + 1 <? height rl) eqn:T3; [apply Nat.ltb_lt in T3|apply Nat.ltb_ge in T3].
    - destruct rl as [|? ?|kl vl ll lr lh]; [discriminate|discriminate|]. injection E as <-.
      destruct S' as [(A & B & C)|(A & B & C & D)]; [|cbn [height hok] in *; lia].
      cbn [hok] in Hrl. destruct Hrl as (Hll & Hlr & _). cbn [onpath] in B. destruct B as [[-> ->]|[[C1 C2]|(C1 & C2 & C3)]].
      + apply path_root; apply hok_mk; auto.
      + apply path_l; auto using hok_mk. apply path_r; auto.
      + apply path_r; auto using hok_mk. apply path_l; auto.
    - injection E as <-. destruct S' as [(A & B & C)|(A & B & C & D)].
      + apply path_l; auto using hok_mk. apply path_r; auto.
      + apply path_r; auto using hok_mk.
  Qed.
  Lemma add_c_path : forall m, hok m -> balanced m -> forall (w : W) t w', add_c (answers lt) (answers eq) k v m w = (Ret t, w') ->
    onpath t /\ (height t = S (height m) -> side t).
  Proof.
    induction m as [|key value|key value l IHl r IHr h]; intros Hh B w t w' E.
    - injection E as <- <-. cbn. auto.
    - cbn [add_c] in E. unfold bind, answers, ret in E. destruct (lt k key); [injection E as <- <-; cbn; auto|].
      destruct (eq k key); injection E as <- <-; cbn; auto.
    - pose proof Hh as Hh0. pose proof B as B0. cbn [hok balanced] in Hh, B. destruct Hh as (Hl & Hr & Eh & _). destruct B as (Bl & Br & B1 & B2).
      rewrite <- (hok_depth l), <- (hok_depth r) in * by auto.
      destruct (add_c_bal _ _ k v _ Hh0 B0 _ _ _ E) as [Bt Ht].
      cbn [add_c] in E. unfold bind in E. unfold answers at 1, ret at 1 in E. destruct (lt k key) eqn:L.
      + pose proof (add_c_spec (answers lt) (answers eq) k v l Hl w) as Sp. destruct (add_c (answers lt) (answers eq) k v l w) as [[l'|e] w2] eqn:A; [|discriminate].
        destruct Sp as [Hok _]. destruct (IHl Hl Bl _ _ _ A) as [Pl Sl]. destruct (add_c_bal _ _ k v l Hl Bl _ _ _ A) as [Bl' Hl'].
        unfold lift in E. injection E as E <-. split.
        * apply (rebalance_path_l l' key value r t Hok Hr L Pl); auto.
          -- intros Q. apply Sl. destruct Hl' as [?|[? ?]]; lia.
          -- destruct Hl' as [?|[? ?]]; lia.
          -- destruct Hl' as [?|[? ?]]; lia.
        * cbn [height]. intros G.
          destruct (rebalance_bal l' key value r Hok Hr Bl' Br) as (t' & Et & _ & T1 & T2 & T3 & T4); try (destruct Hl' as [?|[? ?]]; auto; lia).
          rewrite E in Et. injection Et as <-.
          destruct (le_lt_dec (height l') (height r + 2)) as [Le|Gt]; [|destruct Hl' as [?|[? ?]]; lia].
          rewrite T1 in * by (destruct Hl' as [?|[? ?]]; lia). rewrite height_mk in G.
          destruct (mk_node l' key value r (or_introl (onpath_ne l' Pl)) Hok Hr) as [h' ->]. cbn [side]. right. left. repeat split; auto.
          destruct Hl' as [?|[? ?]]; lia.
      + unfold answers at 1, ret at 1 in E. destruct (eq k key) eqn:Q.
        { injection E as <- <-. split; [cbn; auto|]. cbn [height]. lia. }
        pose proof (add_c_spec (answers lt) (answers eq) k v r Hr w) as Sp. destruct (add_c (answers lt) (answers eq) k v r w) as [[r'|e] w2] eqn:A; [|discriminate].
        destruct Sp as [Hok _]. destruct (IHr Hr Br _ _ _ A) as [Pr Sr]. destruct (add_c_bal _ _ k v r Hr Br _ _ _ A) as [Br' Hr'].
        unfold lift in E. injection E as E <-. split.
        * apply (rebalance_path_r l key value r' t Hl Hok L Q Pr); auto.
          -- intros Q'. apply Sr. destruct Hr' as [?|[? ?]]; lia.
          -- destruct Hr' as [?|[? ?]]; lia.
          -- destruct Hr' as [?|[? ?]]; lia.
        * cbn [height]. intros G.
          destruct (rebalance_bal l key value r' Hl Hok Bl Br') as (t' & Et & _ & T1 & T2 & T3 & T4); try (destruct Hr' as [?|[? ?]]; auto; lia).
          rewrite E in Et. injection Et as <-.
          destruct (le_lt_dec (height r') (height l + 2)) as [Le|Gt]; [|destruct Hr' as [?|[? ?]]; lia].
          rewrite T1 in * by (destruct Hr' as [?|[? ?]]; lia). rewrite height_mk in G.
          destruct (mk_node l key value r' (or_intror (onpath_ne r' Pr)) Hl Hok) as [h' ->]. cbn [side]. right. right. repeat split; auto.
          destruct Hr' as [?|[? ?]]; lia.
  Qed.
  Lemma mem_c_found : forall m (w : W), mem_c (answers lt) (answers eq) k m w =
    (Ret (match fst (try_find_c (answers lt) (answers eq) k m w) with Ret (Some _) => true | _ => false end), w).
  Proof.
    clear refl. induction m as [|key value|key value l IHl r IHr h]; intros w; cbn [mem_c try_find_c]; unfold bind, answers, ret.
    - reflexivity.
    - destruct (eq k key); reflexivity.
    - destruct (lt k key) eqn:L; [rewrite (excl _ L); apply IHl|]. destruct (eq k key); [reflexivity|apply IHr].
  Qed.
End Found.
