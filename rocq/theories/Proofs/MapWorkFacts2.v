(** Lower bounds on the work of reading a Map. *)
From Coq Require Import List ZArith Bool Arith Lia.
From Verif.Model Require Import Base BlockCost MapTree Map MapWork.
From Verif.Spec Require Import CostSpec MapSpec MapWorkSpec KeyInstances.
From Verif.Proofs Require Import CostFacts MapTreeFacts MapTreeMonadic MapFacts MapMain MapLinear MapWorkFacts.
Import ListNotations.
Local Open Scope nat_scope.
Local Open Scope py_scope.

(** ** The hash *)
Lemma bits_ge : forall j z, (2 ^ Z.of_nat j <= z)%Z -> S j <= bits z.
Proof.
  intros j z L. pose proof (Z.pow_pos_nonneg 2 (Z.of_nat j) eq_refl (Nat2Z.is_nonneg j)) as P. unfold bits. rewrite Z.abs_eq by lia. apply le_n_S. apply Nat2Z.inj_le. rewrite Z2Nat.id by apply Z.log2_nonneg.
  rewrite <- (Z.log2_pow2 (Z.of_nat j)) by lia. now apply Z.log2_le_mono.
Qed.
Lemma combine_ge : forall j x y, (2 ^ Z.of_nat j <= x + 1)%Z -> (0 <= y)%Z -> (2 ^ Z.of_nat (S j) <= combine_hash x y)%Z.
Proof. intros j x y L Y. unfold combine_hash. rewrite Z.shiftl_mul_pow2 by lia. rewrite Nat2Z.inj_succ, Z.pow_succ_r by lia. change (2 ^ 1)%Z with 2%Z. lia. Qed.

Section Work.
  Context {K V : Type} `{KeyOrd K}.
  Implicit Types (m t : tree K V) (s : list (tree K V)).
  Lemma hash_loop_cost : forall kh vh, (forall k, 0 <= kh k)%Z -> (forall v, 0 <= vh v)%Z -> forall b n f j x s l, fit b s -> (2 ^ Z.of_nat j <= x + 1)%Z -> MapTree.drain n f s = Ret l ->
    exists z w, costs (w_hash_loop kh vh n f x s) z w /\ 2 * length l * length l + 2 * j * length l <= w.
  Proof.
    intros kh vh HK HV b n f. induction n as [|n IH]; intros j x s l F J E; [discriminate|]. cbn [MapTree.drain] in E. cbn [w_hash_loop].
    destruct (iter_next f s) as [o|] eqn:N; [|discriminate]. cbn [rbind] in E. destruct (next_cost b f s o F N) as (w & C & P). destruct o as [[[k v] s']|].
    - destruct (MapTree.drain n f s') as [rest|] eqn:D; [|discriminate]. injection E as <-. destruct P as (F' & _).
      pose proof (combine_ge j x (kh k) J (HK k)) as J1. assert (J1' : (2 ^ Z.of_nat (S j) <= combine_hash x (kh k) + 1)%Z) by lia.
      pose proof (combine_ge _ _ (vh v) J1' (HV v)) as J2. assert (J2' : (2 ^ Z.of_nat (S (S j)) <= combine_hash (combine_hash x (kh k)) (vh v) + 1)%Z) by lia.
      destruct (IH (S (S j)) _ s' rest F' J2' D) as (z & w2 & C2 & W2).
      exists z. eexists. split; [eapply costs_bind; [exact C|]; cbv beta iota; eapply costs_bind; [intros c; reflexivity|]; eapply costs_bind; [intros c; reflexivity|exact C2]|].
      pose proof (bits_ge _ _ J1). pose proof (bits_ge _ _ J2). cbn [length]. nia.
    - injection E as <-. eexists. eexists. split; [eapply costs_bind; [exact C|apply costs_ret]|]. cbn. lia.
  Qed.
  Lemma hash_cost : forall kh vh, (forall k, 0 <= kh k)%Z -> (forall v, 0 <= vh v)%Z -> forall n f m, length (elements m) < n -> depth m + 2 <= f ->
    exists z w, costs (w_map_hash kh vh n f m) z w /\ 2 * length (elements m) * length (elements m) <= w.
  Proof.
    intros kh vh HK HV n f m N F. pose proof (to_seq_ok m n f N F) as T. unfold to_seq in T. destruct (mk_iterator f m) as [s|] eqn:M; [|discriminate]. cbn [rbind] in T.
    destruct (mk_cost f m s M) as (w & C & Ft & _). destruct (hash_loop_cost kh vh HK HV _ n f 0 0%Z s _ Ft ltac:(cbn; lia) T) as (z & w2 & C2 & W2).
    exists z. eexists. split; [eapply costs_bind; [exact C|exact C2]|]. lia.
  Qed.

  (** ** A tree in which every node has only a left child *)
  Inductive left_path : nat -> tree K V -> Prop :=
  | lp_leaf : forall k v, left_path 1 (Leaf k v)
  | lp_node : forall n k v l h, left_path n l -> left_path (S n) (Node k v l Empty h).
  Lemma left_collapse : forall n t, left_path n t -> forall s f, n <= f -> exists s' w, costs (w_collapseLHS f (t :: s)) s' w /\ n * n + 2 * n * length s <= w + length s.
  Proof.
    induction 1 as [k v|n k v l h L IH]; intros s [|f] F; try lia.
    - eexists. eexists. split; [cbn [w_collapseLHS]; eapply costs_bind; [apply costs_called|]; cbv beta iota; eapply costs_bind; [apply head_cost|]; eapply costs_bind; [apply tail_cost|]; apply costs_ret|]. lia.
    - destruct (IH (Leaf k v :: Empty :: s) f ltac:(lia)) as (s' & w & C & W). exists s'. eexists. split.
      + cbn [w_collapseLHS]. eapply costs_bind; [apply costs_called|]. cbv beta iota. eapply costs_bind; [apply head_cost|]. eapply costs_bind; [apply tail_cost|]. cbv beta iota.
        eapply costs_bind; [apply cons_cost|]. eapply costs_bind; [apply cons_cost|]. eapply costs_bind; [apply cons_cost|]. exact C.
      + unfold Block.cons. cbn [length] in *. nia.
  Qed.
End Work.

Lemma path2 : forall d j lo, d < j -> exists p, shrinks (S d) (lo + 3 ^ j) (perfect d j lo) p /\
  hok p /\ height p = S d /\ length (elements p) = S d /\ left_path (S d) p.
Proof.
  induction d as [|d IH]; intros j lo H.
  - exists (Leaf lo lo). replace (perfect 0 j lo) with (Leaf lo lo) by (destruct j; reflexivity).
    split; [constructor|]. cbn. repeat split; constructor.
  - destruct j as [|j]; [lia|]. rewrite perfect_mk by lia. destruct (IH j lo) as (p & G & Hp & Hh & Hl & Hs); [lia|].
    pose proof (Nat.pow_nonzero 3 j) as Z.
    assert (W : lo + 3 ^ j < lo + 3 ^ S j) by (cbn; lia).
    destruct (MapLinear.drain _ p (lo + 3 ^ j) (lo + 3 ^ j) (perfect d j (lo + 3 ^ j + 1)) (lo + 3 ^ S j) (le_n _)) as (k' & v' & I & D);
      [apply hok_perfect; lia|lia|rewrite height_perfect; lia|exact W| |].
    { intros x X. apply perfect_bounds in X; [|lia]. cbn. lia. }
    exists (mk p k' v' Empty).
    split; [|split; [apply hok_mk; cbn; auto|split; [rewrite height_mk, Hh; cbn; lia|]]].
    + eapply shrinks_app; [|rewrite <- Hh; exact D]. apply (shrinks_wider _ (lo + 3 ^ j)); [lia|].
      apply shrinks_left; try rewrite height_perfect; try lia. exact G.
    + rewrite elements_mk, app_length, Hl by (cbn; auto). split; [cbn; lia|]. rewrite mk_node by lia. now constructor.
Qed.
Lemma removals_cost : forall n, 0 < n -> exists m : tree nat nat, Reach m /\ len m = n /\ forall f, n <= f -> exists s w, costs (w_mk_iterator f m) s w /\ n * n < w.
Proof.
  intros [|d] P; [lia|]. destruct (path2 d (S d) 0) as (p & G & Hp & Hh & Hl & Hs); [lia|].
  exists p. split; [eapply shrinks_Reach; [exact G|apply perfect_Reach; lia]|]. split; [unfold len; rewrite size_elements; exact Hl|].
  intros f F. destruct (left_collapse _ _ Hs [] f F) as (s & w & C & W). exists s. eexists. split; [eapply costs_bind; [apply costs_written|exact C]|]. cbn [length] in *. lia.
Qed.

Lemma calls_ge : forall K V (m : tree K V), length (elements m) <= calls m.
Proof. induction m as [|k v|k v l IHl r IHr h]; cbn; try lia. rewrite app_length. cbn. lia. Qed.
Lemma len_calls : forall K V (m : tree K V), len m <= calls m <= 2 * len m + 1.
Proof. intros K V m. unfold len. rewrite size_elements. split; [apply calls_ge|apply calls_le]. Qed.
Lemma to_list_quadratic : forall K V (m : tree K V), exists w, costs (w_to_list m) (to_list m) w /\ len m * (len m + 1) < w <= len m * (len m + 1) + 2 * len m + 1.
Proof.
  intros K V m. destruct (to_list_cost m []) as (w & C & E & _). exists w. split; [exact C|]. unfold len. rewrite size_elements. pose proof (calls_le m). assert (0 < calls m) by (destruct m; cbn; lia). cbn [length] in E. lia.
Qed.
Lemma to_list_not_linear : forall b, exists m : tree nat nat, Reach m /\ forall w, costs (w_to_list m) (to_list m) w -> b * len m < w.
Proof.
  intros b. destruct (removals_cost (S b) ltac:(lia)) as (m & R & L & _). exists m. split; [exact R|]. intros w C. destruct (to_list_quadratic _ _ m) as (w2 & C2 & G & _).
  specialize (C 0). rewrite (C2 0) in C. injection C as ->. rewrite L in *. nia.
Qed.
