(** Removals that turn a map into a linear list (C08). *)
From Coq Require Import List ZArith Bool Arith Lia.
From Verif.Model Require Import Base MapTree Map.
From Verif.Spec Require Import MapSpec ListM KeyInstances.
From Verif.Proofs Require Import KeyOrdFacts MapTreeFacts MapTreeMonadic MapFacts MapMain.
Import ListNotations.
Local Open Scope nat_scope.

Notation ntree := (tree nat nat).
Implicit Types (m t l r p : ntree).

Lemma mk_node : forall l k v r, 0 < Nat.max (height l) (height r) ->
  mk l k v r = Node k v l r (S (Nat.max (height l) (height r))).
Proof.
  intros l k v r H. unfold mk. destruct (height l <? height r) eqn:L; [apply Nat.ltb_lt in L|apply Nat.ltb_ge in L].
  - rewrite (proj2 (Nat.eqb_neq (height r) 0)) by lia. f_equal. lia.
  - rewrite (proj2 (Nat.eqb_neq (height l) 0)) by lia. f_equal. lia.
Qed.
Lemma rebalance_mk : forall l k v r, height l <= height r + 2 -> height r <= height l + 2 -> rebalance l k v r = Ret (mk l k v r).
Proof.
  intros l k v r A B. unfold rebalance, TOLERANCE.
  rewrite (proj2 (Nat.ltb_ge (height l + 2) (height r))), (proj2 (Nat.ltb_ge (height r + 2) (height l))) by lia. reflexivity.
Qed.

(** ** Perfect trees *)
(** The tree over the keys [lo ..] with [d] levels of nodes above its leaves; [j > d] is the
    number of levels it will have in the end. *)
Fixpoint perfect (d j lo : nat) : ntree :=
  match d, j with
  | S d, S j => Node (lo + 3 ^ j) (lo + 3 ^ j) (perfect d j lo) (perfect d j (lo + 3 ^ j + 1)) (S (S d))
  | _, _ => Leaf lo lo
  end.
Fixpoint level (d j lo : nat) : list nat :=
  match d, j with
  | S d, S j => level d j lo ++ level d j (lo + 3 ^ j + 1)
  | 0, S j => [lo + 3 ^ j; lo + 3 ^ j + 1]
  | _, _ => []
  end.
(** adding keys while the height stays [h] or [S h] *)
Inductive grows (h : nat) : list nat -> ntree -> ntree -> Prop :=
| gr_nil : forall m, grows h [] m m
| gr_cons : forall k ks m m1 m', add k k m = Ret m1 -> h <= height m1 <= S h -> grows h ks m1 m' -> grows h (k :: ks) m m'.
Lemma grows_app : forall h ks ks' m m1 m', grows h ks m m1 -> grows h ks' m1 m' -> grows h (ks ++ ks') m m'.
Proof. induction 1; intros G; cbn; [exact G|]. eapply gr_cons; eauto. Qed.

Lemma grows_left : forall h ks l l' k r, 0 < h -> grows h ks l l' -> h <= height l <= S h -> h <= height r <= S h ->
  (forall x, In x ks -> x < k) -> grows (S h) ks (mk l k k r) (mk l' k k r).
Proof.
  intros h ks l l' k r P G. revert r k. induction G as [m|x ks m m1 m' E B G IH]; intros r k Hl Hr L; [constructor|].
  assert (X : x < k) by (apply L; now left).
  eapply gr_cons; [| |apply IH; [exact B|exact Hr|intros y I; apply L; now right]].
  - rewrite mk_node by lia. cbn [add]. cbn [ltb nat_key]. rewrite (proj2 (Nat.ltb_lt x k) X), E. cbn [rbind].
    apply rebalance_mk; lia.
  - rewrite height_mk. lia.
Qed.
Lemma grows_right : forall h ks l k r r', 0 < h -> grows h ks r r' -> h <= height l <= S h -> h <= height r <= S h ->
  (forall x, In x ks -> k < x) -> grows (S h) ks (mk l k k r) (mk l k k r').
Proof.
  intros h ks l k r r' P G. revert l k. induction G as [m|x ks m m1 m' E B G IH]; intros l k Hl Hr L; [constructor|].
  assert (X : k < x) by (apply L; now left).
  eapply gr_cons; [| |apply IH; [exact Hl|exact B|intros y I; apply L; now right]].
  - rewrite mk_node by lia. cbn [add]. cbn [ltb eqb nat_key].
    rewrite (proj2 (Nat.ltb_ge x k)), (proj2 (Nat.eqb_neq x k)), E by lia. cbn [rbind]. apply rebalance_mk; lia.
  - rewrite height_mk. lia.
Qed.
Lemma height_perfect : forall d j lo, d < j -> height (perfect d j lo) = S d.
Proof. intros [|d] [|j] lo H; try lia; reflexivity. Qed.
Lemma hok_perfect : forall d j lo, d < j -> hok (perfect d j lo).
Proof.
  induction d as [|d IH]; intros [|j] lo H; try lia; cbn [perfect hok]; auto.
  rewrite !height_perfect by lia. repeat split; try apply IH; lia.
Qed.
Lemma perfect_mk : forall d j lo, d < j ->
  perfect (S d) (S j) lo = mk (perfect d j lo) (lo + 3 ^ j) (lo + 3 ^ j) (perfect d j (lo + 3 ^ j + 1)).
Proof. intros d j lo H. rewrite mk_node; rewrite !height_perfect by lia; [|lia]. cbn [perfect]. now rewrite Nat.max_id. Qed.
Lemma level_bounds : forall d j lo x, In x (level d j lo) -> lo < x < lo + 3 ^ j.
Proof.
  induction d as [|d IH]; intros [|j] lo x I; cbn [level] in I; try contradiction.
  - destruct I as [<-|[<-|[]]]; cbn; pose proof (Nat.pow_nonzero 3 j); lia.
  - cbn. apply in_app_or in I. destruct I as [I|I]; apply IH in I; lia.
Qed.
Lemma perfect_bounds : forall d j lo x, d < j -> In x (elements (perfect d j lo)) -> lo <= fst x < lo + 3 ^ j.
Proof.
  induction d as [|d IH]; intros [|j] lo x H I; try lia; cbn [perfect elements] in I.
  - destruct I as [<-|[]]. cbn. pose proof (Nat.pow_nonzero 3 j). lia.
  - cbn. pose proof (Nat.pow_nonzero 3 j). apply in_app_or in I.
    destruct I as [I|[<-|I]]; [apply IH in I; lia|cbn; lia|apply IH in I; lia].
Qed.
Lemma grows_level : forall d j lo, S d < j -> grows (S d) (level d j lo) (perfect d j lo) (perfect (S d) j lo).
Proof.
  induction d as [|d IH]; intros [|j] lo H; try lia.
  - pose proof (Nat.pow_nonzero 3 j). cbn [level perfect]. eapply gr_cons; [| |eapply gr_cons; [| |apply gr_nil]].
    + cbn [add ltb eqb nat_key]. rewrite (proj2 (Nat.ltb_ge _ _)), (proj2 (Nat.eqb_neq _ _)) by lia. reflexivity.
    + cbn. lia.
    + cbn [add ltb eqb nat_key]. rewrite (proj2 (Nat.ltb_ge _ _)), (proj2 (Nat.eqb_neq _ _)) by lia. cbn [rbind].
      destruct j; [lia|]. reflexivity.
    + cbn. lia.
  - rewrite !perfect_mk by lia. cbn [level]. eapply grows_app.
    + apply grows_left; [lia|apply IH; lia| | |]; rewrite ?height_perfect by lia; try lia.
      intros x I. apply level_bounds in I. lia.
    + apply grows_right; [lia|apply IH; lia| | |]; rewrite ?height_perfect by lia; try lia.
      intros x I. apply level_bounds in I. lia.
Qed.
Lemma grows_Reach : forall h ks m m', grows h ks m m' -> Reach m -> Reach m'.
Proof. induction 1 as [|k ks m m1 m' E _ _ IH]; intros R; [exact R|]. apply IH. eapply R_add; eauto. Qed.
Lemma perfect_Reach : forall d j lo, d < j -> Reach (perfect d j lo).
Proof.
  induction d as [|d IH]; intros j lo H.
  - eapply R_add with (k := lo) (v := lo); [apply R_empty|]. destruct j; reflexivity.
  - eapply grows_Reach; [apply grows_level|apply IH]; lia.
Qed.

(** ** Draining *)
(** removing keys below [hi] while the height stays [h] *)
Inductive shrinks (h hi : nat) : ntree -> ntree -> Prop :=
| sh_nil : forall m, shrinks h hi m m
| sh_cons : forall k m m1 m', k < hi -> remove k m = Ret m1 -> height m1 = h -> shrinks h hi m1 m' -> shrinks h hi m m'.
Lemma shrinks_app : forall h hi m m1 m', shrinks h hi m m1 -> shrinks h hi m1 m' -> shrinks h hi m m'.
Proof. induction 1; intros G; cbn; [exact G|]. eapply sh_cons; eauto. Qed.
Lemma shrinks_wider : forall h hi hi' m m', hi <= hi' -> shrinks h hi m m' -> shrinks h hi' m m'.
Proof. intros h hi hi' m m' L. induction 1; [constructor|]. eapply sh_cons; eauto. lia. Qed.
Lemma shrinks_left : forall h m m' k v r, 0 < h -> shrinks h k m m' -> height m = h -> height r = h ->
  shrinks (S h) k (mk m k v r) (mk m' k v r).
Proof.
  intros h m m' k v r P G. induction G as [m|x m m1 m' X E B G IH]; intros Hm Hr; [constructor|].
  eapply sh_cons; [exact X| | |apply IH; assumption].
  - rewrite mk_node by lia. cbn [remove ltb nat_key]. rewrite (proj2 (Nat.ltb_lt x k) X), E. cbn [rbind]. apply rebalance_mk; lia.
  - rewrite height_mk. lia.
Qed.
Lemma drain : forall n l k v r hi, length (elements r) <= n -> hok r -> 0 < height l -> height r <= height l ->
  k < hi -> (forall x, In x (elements r) -> fst x < hi) ->
  exists k' v', In k' (k :: List.map fst (elements r)) /\ shrinks (S (height l)) hi (mk l k v r) (mk l k' v' Empty).
Proof.
  induction n as [|n IH]; intros l k v r hi N Hr P L Hk B.
  - destruct r; cbn in N; try lia; [|rewrite app_length in N; cbn in N; lia]. exists k, v. split; [now left|constructor].
  - destruct (is_empty r) eqn:Er; [destruct r; try discriminate; exists k, v; split; [now left|constructor]|].
    destruct (splice_ok r Hr) as (sk & sv & r' & E & Hr' & El & Hh); [intros ->; discriminate|].
    rewrite El in *. cbn [length] in N.
    destruct (IH l sk sv r' hi) as (k' & v' & I & G); try lia; auto.
    { apply (B (sk, sv)). now left. }
    { intros x Ix. apply B. now right. }
    exists k', v'. split; [right; exact I|]. eapply sh_cons; [exact Hk| | |exact G].
    + rewrite mk_node by lia. cbn [remove ltb eqb nat_key]. rewrite Nat.ltb_irrefl, Nat.eqb_refl, Er, E.
      destruct l; cbn in P; try lia; reflexivity.
    + rewrite height_mk. lia.
Qed.

Lemma path : forall d j lo, d < j -> exists p, shrinks (S d) (lo + 3 ^ j) (perfect d j lo) p /\
  hok p /\ height p = S d /\ length (elements p) = S d /\ search lo p = (Some lo, S d).
Proof.
  induction d as [|d IH]; intros j lo H.
  - exists (Leaf lo lo). replace (perfect 0 j lo) with (Leaf lo lo) by (destruct j; reflexivity).
    split; [constructor|]. cbn. now rewrite Nat.eqb_refl.
  - destruct j as [|j]; [lia|]. rewrite perfect_mk by lia. destruct (IH j lo) as (p & G & Hp & Hh & Hl & Hs); [lia|].
    pose proof (Nat.pow_nonzero 3 j) as Z.
    assert (W : lo + 3 ^ j < lo + 3 ^ S j) by (cbn; lia).
    destruct (drain _ p (lo + 3 ^ j) (lo + 3 ^ j) (perfect d j (lo + 3 ^ j + 1)) (lo + 3 ^ S j) (le_n _)) as (k' & v' & I & D);
      [apply hok_perfect; lia|lia|rewrite height_perfect; lia|exact W| |].
    { intros x X. apply perfect_bounds in X; [|lia]. cbn. lia. }
    exists (mk p k' v' Empty).
    assert (Hk : lo < k').
    { destruct I as [<-|I]; [lia|]. apply in_map_iff in I. destruct I as (x & <- & X). apply perfect_bounds in X; lia. }
    split; [|split; [apply hok_mk; cbn; auto|split; [rewrite height_mk, Hh; cbn; lia|]]].
    + eapply shrinks_app; [|rewrite <- Hh; exact D]. apply (shrinks_wider _ (lo + 3 ^ j)); [lia|].
      apply shrinks_left; try rewrite height_perfect; try lia. exact G.
    + rewrite elements_mk, app_length, Hl by (cbn; auto). split; [cbn; lia|].
      rewrite mk_node by lia. cbn [search ltb eqb nat_key].
      rewrite (proj2 (Nat.eqb_neq lo k')), (proj2 (Nat.ltb_lt lo k')), Hs by lia. reflexivity.
Qed.
Lemma shrinks_Reach : forall h hi m m', shrinks h hi m m' -> Reach m -> Reach m'.
Proof. induction 1 as [|k m m1 m' _ E _ _ IH]; intros R; [exact R|]. apply IH. eapply R_remove; eauto. Qed.

Lemma C08_linear_pf : forall n, 0 < n -> exists (m : ntree) k v, Reach m /\ len m = n /\ depth m = n /\
  try_find k m = Some v /\ search k m = (Some v, n).
Proof.
  intros [|d] P; [lia|]. destruct (path d (S d) 0) as (p & G & Hp & Hh & Hl & Hs); [lia|].
  exists p, 0, 0. split; [eapply shrinks_Reach; [exact G|apply perfect_Reach; lia]|].
  split; [unfold len; rewrite size_elements; exact Hl|]. split; [rewrite <- hok_depth; assumption|].
  split; [|exact Hs]. pose proof (search_ok p 0) as [E _]. rewrite Hs in E. now rewrite <- E.
Qed.
Lemma C08_removals_pf : forall K V (KO : KeyOrd K) (m : tree K V) (ks : list K) (m' : tree K V), ReachAdd m ->
  fold_left (fun (x : res (tree K V)) k => rbind x (remove k)) ks (Ret m) = Ret m' -> depth m' <= 2 * Nat.log2 (len m + 1) + 1.
Proof.
  intros K V KO m ks m' R E. pose proof (C07_log2_pf m R) as L.
  destruct (ReachAdd_balanced K KO V m R) as [Hw _].
  assert (G : forall ks (m1 : tree K V), Wf m1 -> depth m1 <= depth m ->
    fold_left (fun (x : res (tree K V)) k => rbind x (remove k)) ks (Ret m1) = Ret m' -> depth m' <= depth m).
  { clear ks E. induction ks as [|k ks IH]; intros m1 [Hh S] D E; [injection E as <-; exact D|]. cbn [fold_left rbind] in E.
    destruct (remove_ok k m1 Hh S) as (t & Et & Ht & El & Hl). rewrite Et in E. apply (IH t).
    - split; [exact Ht|]. rewrite El. now apply ascending_filter.
    - rewrite <- !hok_depth in * by (auto; apply Hw). lia.
    - exact E. }
  specialize (G ks m Hw (le_n _) E). lia.
Qed.
