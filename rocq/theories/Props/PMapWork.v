(** C132: the work of reading a Map.  The costs are the calls and the references copied
    (Model/MapWork.v). *)
From Coq Require Import List ZArith Bool Arith Lia.
From Verif.Model Require Import Base BlockCost MapTree Map MapWork.
From Verif.Spec Require Import CostSpec MapSpec MapWorkSpec KeyInstances.
From Verif.Proofs Require Import MapTreeFacts MapTreeMonadic MapFacts MapMain MapWorkFacts MapWorkFacts2.
Import ListNotations.
Local Open Scope nat_scope.

(** Counting changes nothing. *)
Theorem C132_same : forall (K V : Type) (KO : KeyOrd K) (m m2 : tree K V) n fuel count,
  fst (w_size 0 m count) = Ret (len m) /\ fst (w_to_list m count) = Ret (to_list m) /\ fst (w_to_seq n fuel m count) = to_seq n fuel m /\
  (forall veq, fst (w_map_eq veq n fuel m m2 count) = map_eq veq n fuel m m2) /\
  (forall khash vhash, fst (w_map_hash khash vhash n fuel m count) = map_hash khash vhash n fuel m).
Proof. intros. repeat apply conj; intros; auto using size_same, to_list_same, to_seq_same, eq_same, hash_same. apply size_same. apply to_list_same. Qed.
Print Assumptions C132_same.

(** [len] visits every binding: linear. *)
Theorem C132_len : forall (K V : Type) (m : tree K V), exists w, costs (w_size 0 m) (len m) w /\ len m <= w <= 2 * len m + 1.
Proof. exact (fun K V m => ex_intro _ _ (conj (size_cost m 0) (len_calls K V m))). Qed.
Print Assumptions C132_len.

(** Iterating a map of n bindings costs at most n times the depth of its tree, up to a
    factor; n log n for maps built without removals. *)
Theorem C132_iteration : forall (K V : Type) (KO : KeyOrd K) (m : tree K V) n fuel, len m < n -> depth m + 2 <= fuel ->
  exists w, costs (w_to_seq n fuel m) (to_list m) w /\ w <= 60 * (len m + 1) * (depth m + 1) /\
    (ReachAdd m -> w <= 120 * (len m + 1) * (Nat.log2 (len m + 1) + 1)).
Proof.
  intros K V KO m n fuel N F. unfold len in *. rewrite size_elements in *. pose proof (to_seq_ok m n fuel N F) as T.
  destruct (to_seq_cost n fuel m _ T eq_refl) as (w & C & W). exists w. rewrite to_list_elements. split; [exact C|]. split; [exact W|].
  intros R. pose proof (C07_log2_pf m R) as L. unfold len in L. rewrite size_elements in L. nia.
Qed.
Print Assumptions C132_iteration.

(** No single step of the iteration costs more than the square of the depth, up to a
    factor. *)
Theorem C132_next : forall (K V : Type) (KO : KeyOrd K) (m : tree K V) fuel s, iterating fuel m s -> depth m + 2 <= fuel ->
  exists r w, iter_next fuel s = Ret r /\ costs (w_iter_next fuel s) r w /\ w <= 18 * (depth m + 2) * (depth m + 2) /\
    (ReachAdd m -> w <= 18 * (2 * Nat.log2 (len m + 1) + 3) * (2 * Nat.log2 (len m + 1) + 3)).
Proof.
  intros K V KO m fuel s I F. destruct (one_next_cost fuel m s I F) as (r & w & E & C & W). exists r, w. repeat split; auto.
  intros R. pose proof (C07_log2_pf m R) as L. nia.
Qed.
Print Assumptions C132_next.

(** Comparing two maps. *)
Theorem C132_equality : forall (K V : Type) (KO : KeyOrd K) (m1 m2 : tree K V) veq n fuel r, map_eq veq n fuel m1 m2 = Ret r ->
  exists w, costs (w_map_eq veq n fuel m1 m2) r w /\ w <= 100 * ((len m1 + 1) * (depth m1 + 1) + (len m2 + 1) * (depth m2 + 1)).
Proof. intros K V KO m1 m2 veq n fuel r E. unfold len. rewrite !size_elements. exact (eq_cost veq n fuel m1 m2 r E). Qed.
Print Assumptions C132_equality.

(** False for [to_list]: every map of n bindings copies n * (n + 1) references, so no
    multiple of n is enough. *)
Theorem C132_to_list_refuted : (forall (K V : Type) (m : tree K V), exists w, costs (w_to_list m) (to_list m) w /\
    len m * (len m + 1) < w <= len m * (len m + 1) + 2 * len m + 1) /\
  (forall b, exists m : tree nat nat, Reach m /\ forall w, costs (w_to_list m) (to_list m) w -> b * len m < w).
Proof. exact (conj (@to_list_quadratic) to_list_not_linear). Qed.
Print Assumptions C132_to_list_refuted.

(** False for [hash]: the integer that is built grows by two bits for every binding. *)
Theorem C132_hash_refuted : forall (K V : Type) (KO : KeyOrd K) khash vhash, (forall k, 0 <= khash k)%Z -> (forall v, 0 <= vhash v)%Z ->
  forall (m : tree K V) n fuel, len m < n -> depth m + 2 <= fuel ->
  exists z w, costs (w_map_hash khash vhash n fuel m) z w /\ 2 * len m * len m <= w.
Proof. intros K V KO kh vh HK HV m n fuel N F. unfold len in *. rewrite size_elements in *. now apply hash_cost. Qed.
Print Assumptions C132_hash_refuted.

(** False for iteration after removals: there are maps of any size n for which [iter] alone
    costs more than n * n. *)
Theorem C132_removals_refuted : forall n, 0 < n -> exists m : tree nat nat, Reach m /\ len m = n /\
  forall fuel, n <= fuel -> exists s w, costs (w_mk_iterator fuel m) s w /\ n * n < w.
Proof. exact removals_cost. Qed.
Print Assumptions C132_removals_refuted.

(** A map of 50 keys built by insertion. *)
Example C132_case : exists m : tree nat nat, of_list (List.map (fun k => (k, k)) (seq 1 50)) = Ret m /\ ReachAdd m /\ depth m = 7 /\ len m = 50 /\
  (let '(r, w) := w_to_seq 51 20 m 0 in r = Ret (to_list m) /\ w = 2433) /\ (let '(r, w) := w_to_list m 0 in r = Ret (to_list m) /\ w = 2601).
Proof.
  eexists. split; [vm_compute; reflexivity|]. split; [|vm_compute; repeat split].
  eapply RA_of_block with (xs := List.map (fun k => (k, k)) (seq 1 50)). vm_compute. reflexivity.
Qed.
