(** C131: the work of iterating a chain of sequence operations. *)
From Coq Require Import List ZArith Lia Arith.
From Verif.Model Require Import Base Gen Chain ChainWork.
From Verif.Spec Require Import ChainWorkSpec ChainDepthSpec.
From Verif.Proofs Require Import ChainWorkFacts ChainWorkFacts2 ChainWorkFacts3.
Import ListNotations.
Local Open Scope py_scope.
Local Open Scope nat_scope.

(** Counting the calls changes nothing, for all chains, callbacks and exceptions. *)
Theorem C131_same : forall W A B (c : chain W A B) xs fuel n w,
  let '(r, (_, w1)) := (do it <- work_on c (of_list xs); to_list fuel it) (n, w) in
  (do it <- on_seq c (of_list xs); to_list fuel it) w = (r, w1).
Proof.
  intros W A B c xs fuel n w. pose proof (work_same W A B c xs fuel n w) as H.
  destruct ((do it <- work_on c (of_list xs); to_list fuel it) (n, w)) as [[r|e] [m w1]], ((do it <- on_seq c (of_list xs); to_list fuel it) w) as [[r2|e2] w2];
    try contradiction; destruct H as [H1 H2]; subst; reflexivity.
Qed.
Print Assumptions C131_same.

(** Each result is asked once for each of its elements and once for its end; not more often,
    and less when a take behind it ends first. *)
Theorem C131_calls : forall W A B (c : chain W A B) xs n ys, amounts c xs n ys -> exists m k, m <= n /\ (no_take c -> m = n) /\
  forall fuel, k <= fuel -> forall w, exists w1, (do it <- work_on c (of_list xs); to_list fuel it) (0, w) = (Ret ys, (m, w1)).
Proof. exact (@chain_work). Qed.
Print Assumptions C131_calls.
(** A map with effects, a filter and a collect over four elements: 5 + 3 + 5 calls. *)
Example C131_calls_instance :
  let c : chain nat nat nat := Next (SMap (fun x w => (Ret (x + 1), S w))) (Next (SFilter (fun x => ret (Nat.even x))) (Next (SCollect (fun x => ret [x; x])) Whole)) in
  amounts c [0; 1; 2; 3] 13 [2; 2; 4; 4] /\ no_take c /\
  (do it <- work_on c (of_list [0; 1; 2; 3]); to_list 40 it) (0, 0) = (Ret [2; 2; 4; 4], (13, 4)) /\
  (do it <- work_on (Next (SMap (fun x w => (Ret (x + 1), S w))) (Next (STake 2) Whole)) (of_list [0; 1; 2; 3]); to_list 40 it) (0, 0) = (Ret [1; 2], (5, 2)).
Proof.
  cbv zeta. split; [|split; [exact I|split; reflexivity]].
  apply (am_next _ _ _ _ _ _ [1; 2; 3; 4] 8); [apply (g_map _ _ _ (fun x => x + 1) [0; 1; 2; 3]); intros x w; reflexivity|].
  apply (am_next _ _ _ _ _ _ [2; 4] 5); [apply (g_filter _ _ Nat.even [1; 2; 3; 4]); intros x w; reflexivity|].
  apply (am_next _ _ _ _ _ _ [2; 2; 4; 4] 0); [apply (g_collect _ _ _ (fun x => [x; x]) [2; 4]); intros x w; reflexivity|constructor].
Qed.

(** n elements through k maps: (n + 1) k calls. *)
Theorem C131_maps : forall W A k (xs : list A), exists j, forall fuel, j <= fuel -> forall w : W, exists w1,
  (do it <- work_on (maps k) (of_list xs); to_list fuel it) (0, w) = (Ret xs, (k * (length xs + 1), w1)).
Proof.
  intros W A k xs. destruct (chain_work _ _ _ _ _ _ (maps_amounts W A k xs)) as (m & j & _ & E & H). rewrite (E (maps_no_take W A k)) in H. exact (ex_intro _ j H).
Qed.
Print Assumptions C131_maps.

(** n elements appended one by one are iterated with more than n * n / 2 calls; appended at
    once with n + 2. *)
Theorem C131_appends_partial : forall W A n (x y : A), exists m j, 2 * m = n * (n + 5) /\ forall fuel, j <= fuel -> forall w : W, exists w1 w2,
  (do it <- work_on (appends n y) (of_list [x]); to_list fuel it) (0, w) = (Ret (x :: repeat y n), (m, w1)) /\
  (do it <- work_on (Next (SAppend (repeat y n)) Whole) (of_list [x]); to_list fuel it) (0, w) = (Ret (x :: repeat y n), (n + 2, w2)).
Proof.
  intros W A n x y. destruct (appends_amounts W A n y [x]) as (m & H & E). destruct (chain_work _ _ _ _ _ _ H) as (m1 & j & _ & E1 & R). rewrite (E1 (appends_no_take W A n y)) in R.
  assert (H2 : amounts (W := W) (Next (SAppend (repeat y n)) Whole) [x] (length ([x] ++ repeat y n) + 1 + 0) ([x] ++ repeat y n)) by (eapply am_next; [apply g_append|constructor]).
  destruct (chain_work _ _ _ _ _ _ H2) as (m2 & j2 & _ & E2 & R2). rewrite (E2 I) in R2. exists m, (j + j2). split; [cbn in E; lia|]. intros fuel F w.
  destruct (R fuel ltac:(lia) w) as [w1 Q1], (R2 fuel ltac:(lia) w) as [w2 Q2]. exists w1, w2. split; [exact Q1|]. rewrite Q2. cbn. rewrite repeat_length. do 2 f_equal. f_equal. lia.
Qed.
Print Assumptions C131_appends_partial.

(** False: the work is not proportional to the elements and the operations together. *)
Theorem C131_linear_refuted : forall W (w : W) b, exists (c : chain W nat nat) (xs ys : list nat) m j,
  (forall fuel, j <= fuel -> exists w1, (do it <- work_on c (of_list xs); to_list fuel it) (0, w) = (Ret ys, (m, w1))) /\ b * (length xs + length ys + stages c) < m.
Proof.
  intros W w b. set (n := 4 * b + 4). destruct (C131_appends_partial W nat n 7 8) as (m & j & E & H).
  exists (appends n 8), [7], (7 :: repeat 8 n), m, j. split.
  - intros fuel F. destruct (H fuel F w) as (w1 & _ & Q & _). exists w1. exact Q.
  - assert (S : stages (appends n 8 : chain W nat nat) = n) by (generalize n; intros k; induction k as [|k IH]; cbn; auto). rewrite S. cbn [length]. rewrite repeat_length. unfold n in *. nia.
Qed.
Print Assumptions C131_linear_refuted.

(** The same for chains of asynchronous operations. *)
Theorem C131_async_same : forall W A B (c : chain W A B) xs fuel n w,
  let '(r, (_, w1)) := to_list fuel (work_on_async c (of_list xs)) (n, w) in to_list fuel (on_async c (of_list xs)) w = (r, w1).
Proof.
  intros W A B c xs fuel n w. pose proof (async_work_same W A B c (of_list xs) (of_list xs) fuel (ret_alike _ _ _ _ _ _ (list_same xs)) n w) as H.
  destruct (to_list fuel (work_on_async c (of_list xs)) (n, w)) as [[r|e] [m w1]], (to_list fuel (on_async c (of_list xs)) w) as [[r2|e2] w2];
    try contradiction; destruct H as [H1 H2]; subst; reflexivity.
Qed.
Print Assumptions C131_async_same.
Theorem C131_async_calls : forall W A B (c : chain W A B) xs n ys, amounts c xs n ys -> exists m k, m <= n /\ (no_take c -> m = n) /\
  forall fuel, k <= fuel -> forall w, exists w1, to_list fuel (work_on_async c (of_list xs)) (0, w) = (Ret ys, (m, w1)).
Proof. exact (@async_chain_work). Qed.
Print Assumptions C131_async_calls.
(** As many calls as above, but take asks for one element more than it hands out. *)
Example C131_async_calls_instance :
  to_list 40 (work_on_async (Next (SMap (fun x w => (Ret (x + 1), S w))) (Next (SFilter (fun x => ret (Nat.even x))) (Next (SCollect (fun x => ret [x; x])) Whole))) (of_list [0; 1; 2; 3])) (0, 0)
    = (Ret [2; 2; 4; 4], (13, 4)) /\
  to_list 40 (work_on_async (Next (SMap (fun x w => (Ret (x + 1), S w))) (Next (STake 2) Whole)) (of_list [0; 1; 2; 3])) (0, 0) = (Ret [1; 2], (6, 3)).
Proof. split; reflexivity. Qed.
Theorem C131_async_appends_partial : forall W A n (x y : A), exists m j, 2 * m = n * (n + 5) /\ forall fuel, j <= fuel -> forall w : W, exists w1 w2,
  to_list fuel (work_on_async (appends n y) (of_list [x])) (0, w) = (Ret (x :: repeat y n), (m, w1)) /\
  to_list fuel (work_on_async (Next (SAppend (repeat y n)) Whole) (of_list [x])) (0, w) = (Ret (x :: repeat y n), (n + 2, w2)).
Proof.
  intros W A n x y. destruct (appends_amounts W A n y [x]) as (m & H & E). destruct (async_chain_work _ _ _ _ _ _ H) as (m1 & j & _ & E1 & R). rewrite (E1 (appends_no_take W A n y)) in R.
  assert (H2 : amounts (W := W) (Next (SAppend (repeat y n)) Whole) [x] (length ([x] ++ repeat y n) + 1 + 0) ([x] ++ repeat y n)) by (eapply am_next; [apply g_append|constructor]).
  destruct (async_chain_work _ _ _ _ _ _ H2) as (m2 & j2 & _ & E2 & R2). rewrite (E2 I) in R2. exists m, (j + j2). split; [cbn in E; lia|]. intros fuel F w.
  destruct (R fuel ltac:(lia) w) as [w1 Q1], (R2 fuel ltac:(lia) w) as [w2 Q2]. exists w1, w2. split; [exact Q1|]. rewrite Q2. cbn. rewrite repeat_length. do 2 f_equal. f_equal. lia.
Qed.
Print Assumptions C131_async_appends_partial.
