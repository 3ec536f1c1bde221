(** The order of visits and the laws of == that hold, for C12, C13 and C15. *)
From Coq Require Import List ZArith Bool Arith.
From Verif.Model Require Import Base MapTree Map.
From Verif.Spec Require Import MapSpec ListM.
From Verif.Proofs Require Import KeyOrdFacts MapMain MapFacts InheritFacts.
Import ListNotations.

Section Order.
  Context {K V : Type} {KO : KeyOrd K}.
  Lemma C12_order_pf : forall m : tree K V, Reach m ->
    exists bs, ascending bs /\ (forall k, try_find k m = option_map snd (assoc k bs)) /\
      (forall W R (f : R -> K * V -> M W R) x w, fold f x m w = foldM f x bs w) /\
      (forall W R (f : K * V -> R -> M W R) x w, fold_back f m x w = foldM (fun x kv => f kv x) x (rev bs) w) /\
      (forall W (f : K -> V -> M W unit) w, iter f m w = iterM (fun kv => f (fst kv) (snd kv)) bs w).
  Proof.
    intros m R. destruct (reach_facts m R) as (A & _ & _ & T & _). exists (to_list m). split; [exact A|]. split; [exact T|].
    split; [|split]; intros; [apply C12_fold_pf|apply C12_fold_back_pf|apply C12_iter_pf].
  Qed.
  Lemma C13_order_pf : forall m : tree K V, Reach m ->
    exists bs, ascending bs /\ (forall k, try_find k m = option_map snd (assoc k bs)) /\
      (forall W R (f : K -> V -> M W (option R)) w, try_pick f m w = firstM (fun kv => f (fst kv) (snd kv)) bs w) /\
      (forall W (f : K -> V -> M W bool) w, exists_ f m w = existsM (fun kv => f (fst kv) (snd kv)) bs w) /\
      (forall W (f : K -> V -> M W bool) w, forall_ f m w = forallM (fun kv => f (fst kv) (snd kv)) bs w).
  Proof.
    intros m R. destruct (reach_facts m R) as (A & _ & _ & T & _). exists (to_list m). split; [exact A|]. split; [exact T|].
    split; [|split]; intros; [apply C13_try_pick_pf|apply C13_exists_pf|apply C13_forall_pf].
  Qed.
  Lemma C15_laws_pf : forall (veq : V -> V -> bool) (m1 m2 m3 : tree K V) n fuel,
    len m1 < n -> len m2 < n -> depth m1 + 2 <= fuel -> depth m2 + 2 <= fuel -> depth m3 + 2 <= fuel ->
    ((forall v, veq v v = true) -> map_eq veq n fuel m1 m1 = Ret true) /\
    ((forall u v w, veq u v = true -> veq v w = true -> veq u w = true) ->
     map_eq veq n fuel m1 m2 = Ret true -> map_eq veq n fuel m2 m3 = Ret true -> map_eq veq n fuel m1 m3 = Ret true).
  Proof.
    intros veq m1 m2 m3 n fuel L1 L2 F1 F2 F3. split.
    - intros Rf. destruct (C15_prefix_pf veq m1 m1 n fuel L1 F1 F1) as (b & E & P). rewrite E. f_equal. apply P.
      exists (to_list m1), []. split; [now rewrite app_nil_r|]. generalize (to_list m1). induction l as [|b0 l IH]; constructor; [split; [apply KeyOrdFacts.eqb_refl|auto]|exact IH].
    - intros Tr E12 E23.
      destruct (C15_prefix_pf veq m1 m2 n fuel L1 F1 F2) as (b12 & Q12 & P12). destruct (C15_prefix_pf veq m2 m3 n fuel L2 F2 F3) as (b23 & Q23 & P23).
      destruct (C15_prefix_pf veq m1 m3 n fuel L1 F1 F3) as (b13 & Q13 & P13). rewrite Q13. f_equal. apply P13.
      assert (b12 = true) as Z12 by congruence. assert (b23 = true) as Z23 by congruence.
      apply P12 in Z12. apply P23 in Z23. destruct Z12 as (f2 & r2 & E2 & G2). destruct Z23 as (f3 & r3 & E3 & G3).
      rewrite E2 in G3. apply Forall2_app_inv_l in G3. destruct G3 as (g & h & G3 & _ & ->).
      exists g, (h ++ r3). split; [now rewrite E3, app_assoc|]. clear - G2 G3 Tr KO. revert g G3. induction G2; intros g G3; inversion G3; subst; constructor; auto.
      destruct H as [Ha Hb]. match goal with Z : eqb _ _ = true /\ _ |- _ => destruct Z as [Hc Hd] end. split; [rewrite (eqb_cong_l _ _ _ Ha); exact Hc|eauto].
  Qed.
End Order.
