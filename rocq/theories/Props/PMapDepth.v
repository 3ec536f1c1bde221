(** C101: how much of the call stack a map operation needs.  The interpreter allows a
    limited number of nested calls (sys.getrecursionlimit(), 1000 by default); [d] is the
    number still allowed when the operation is called. *)
From Coq Require Import List ZArith Bool Arith Lia.
From Verif.Model Require Import Base MapTree Map MapDepth.
From Verif.Spec Require Import MapSpec KeyInstances MapDepthSpec.
From Verif.Proofs Require Import MapTreeFacts MapTreeMonadic MapFacts MapMain MapDepthFacts.
Import ListNotations.
Local Open Scope nat_scope.

(** With as many nested calls left as the tree is deep, every operation does what it does
    on an unlimited stack: the same outcome, the same calls of the callbacks. *)
Theorem C101_enough_partial : forall (K V : Type) (KO : KeyOrd K) (m : tree K V) (d : nat), Reach m -> Nat.max 1 (depth m) <= d ->
  (forall k v, add_in d k v m = add k v m) /\
  (forall k, try_find_in d k m = Ret (try_find k m)) /\
  (forall k, mem_in d k m = Ret (mem k m)) /\
  (forall k, remove_in d k m = remove k m) /\
  (forall W k (u : option V -> M W (option V)) w, change_in d k u m w = change k u m w) /\
  size_in d 0 m = Ret (len m) /\
  to_list_in d m [] = Ret (to_list m) /\
  (forall W (f : K -> V -> M W unit) w, iter_in d f m w = iter f m w) /\
  (forall W R (f : K -> V -> M W (option R)) w, try_pick_in d f m w = try_pick f m w) /\
  (forall W (f : K -> V -> M W bool) w, exists_in d f m w = exists_ f m w) /\
  (forall W (f : K -> V -> M W bool) w, forall_in d f m w = forall_ f m w) /\
  (forall W R (f : R -> K * V -> M W R) x w, fold_in d f x m w = fold f x m w) /\
  (forall W R (f : K * V -> R -> M W R) x w, fold_back_in d f m x w = fold_back f m x w) /\
  (forall W R (f : K -> V -> M W R) w, map_in d f m w = map f m w).
Proof.
  intros K V KO m d R D. pose proof (Reach_hok m R) as Hk. pose proof (Reach_fits m d D) as F.
  repeat match goal with |- _ /\ _ => split end; intros;
    auto using add_in_ok, try_find_in_ok, mem_in_ok, remove_in_ok, change_in_ok, iter_in_ok, try_pick_in_ok,
      exists_in_ok, forall_in_ok, fold_in_ok, fold_back_in_ok, map_in_ok.
  - exact (size_in_ok m d 0 Hk F).
  - exact (to_list_in_ok m d [] Hk F).
Qed.
Print Assumptions C101_enough_partial.

(** filter and partition also build a tree at the bottom of the recursion; a block is
    turned into a map with a stack logarithmic in its length. *)
Theorem C101_filter_partial : forall (K V : Type) (KO : KeyOrd K) W (p : K -> V -> M W bool) (m : tree K V) (d : nat) (w : W),
  Reach m -> Nat.max 1 (depth m) + 2 * Nat.log2 (len m + 1) + 2 <= d ->
  filter_in d p m Empty w = filter p m w /\ partition_in d p m (Empty, Empty) w = partition p m w.
Proof. exact (fun K V KO => C101_filter_pf). Qed.
Print Assumptions C101_filter_partial.
Theorem C101_of_block : forall (K V : Type) (KO : KeyOrd K) (xs : list (K * V)) (d : nat),
  2 * Nat.log2 (length xs + 1) + 2 <= d -> of_list_in d Empty xs = of_list xs.
Proof. exact (fun K V KO => C101_of_list_pf). Qed.
Print Assumptions C101_of_block.

(** In maps built by insertion these bounds are logarithmic in the number of keys.  (After
    removals they are so in the number of keys before the removals: C08_removals_partial.) *)
Theorem C101_logarithmic_partial : forall (K V : Type) (KO : KeyOrd K) (m : tree K V), ReachAdd m ->
  Nat.max 1 (depth m) <= 2 * Nat.log2 (len m + 1) + 1 /\
  Nat.max 1 (depth m) + 2 * Nat.log2 (len m + 1) + 2 <= 4 * Nat.log2 (len m + 1) + 3.
Proof. intros K V KO m R. pose proof (C07_log2_pf m R). split; lia. Qed.
Print Assumptions C101_logarithmic_partial.

(** The bounds are exact.  A lookup needs one call for every subtree it enters; with fewer it
    raises RecursionError and never a wrong answer.  Counting, listing and iterating need
    the depth of the tree. *)
Theorem C101_lookup_exact : forall (K V : Type) (KO : KeyOrd K) (m : tree K V) (d : nat) (k : K), Reach m ->
  try_find_in d k m = (if d <? entered k m then Raise RecursionError else Ret (try_find k m)) /\
  entered k m <= Nat.max 1 (depth m).
Proof. exact (fun K V KO => C101_needed_lookup_pf). Qed.
Print Assumptions C101_lookup_exact.
Theorem C101_traversal_needs_depth : forall (K V : Type) (KO : KeyOrd K) (m : tree K V) (d : nat), Reach m -> d < Nat.max 1 (depth m) ->
  size_in d 0 m = Raise RecursionError /\
  to_list_in d m [] = Raise RecursionError /\
  (forall W (f : K -> V -> M W unit) w, (forall k v, quiet (f k v)) -> fst (iter_in d f m w) = Raise RecursionError).
Proof.
  intros K V KO m d R D. pose proof (Reach_hok m R) as Hk. split; [|split].
  - exact (size_in_needed m d 0 Hk D).
  - exact (to_list_in_needed m d [] Hk D).
  - intros W f w Q. exact (iter_in_needed W f m d w Q Hk D).
Qed.
Print Assumptions C101_traversal_needs_depth.

(** Not so after removals: whatever the limit, there is a map with one key more than that
    in which the lookup of a key that is present raises RecursionError. *)
Theorem C101_refuted : forall d, exists (m : tree nat nat) k v, Reach m /\ len m = S d /\ try_find k m = Some v /\
  try_find_in d k m = Raise RecursionError.
Proof. exact C101_refuted_pf. Qed.
Print Assumptions C101_refuted.

Example C101_case : exists m : tree nat nat,
  of_list_in 16 Empty (List.map (fun k => (k, k)) (seq 1 100)) = Ret m /\ ReachAdd m /\ depth m = 8 /\
  size_in 8 0 m = Ret 100 /\ size_in 7 0 m = Raise RecursionError /\ try_find_in 5 100 m = Raise RecursionError /\
  try_find_in 8 100 m = Ret (Some 100).
Proof.
  eexists. split; [vm_compute; reflexivity|]. split; [|vm_compute; repeat split].
  eapply RA_of_block with (xs := List.map (fun k => (k, k)) (seq 1 100)). vm_compute. reflexivity.
Qed.
