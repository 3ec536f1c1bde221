(** C123: an updated map shares its tree with the original.  A tree is seen with the
    identity of its objects; [forget] is the tree of the other properties. *)
From Coq Require Import List ZArith Bool Arith Lia.
From Verif.Model Require Import Base MapTree Map MapShare.
From Verif.Spec Require Import MapSpec KeyInstances MapShareSpec.
From Verif.Proofs Require Import MapTreeFacts MapTreeMonadic MapFacts MapMain MapDepthFacts MapShareFacts MapShareFacts2 MapShareFacts3.
Import ListNotations.
Local Open Scope nat_scope.

(** add, remove and change, in every state: [cs] are the objects made on the way, at most
    three for each level of the tree and one more; every object of the new map is one of
    them or one of the old map.  Apart from identity nothing differs from the operations
    of the other properties, exceptions and effects of the callback included. *)
Theorem C123_add : forall (U K V : Type) (KO : KeyOrd K) (k : K) (v : V) (m : itree K V) (n : nat) (u : U),
  exists cs, created n cs /\ length cs <= 3 * depth (forget m) + 1 /\
    match add k v (forget m) with
    | Ret x => exists m', i_add k v m (n, u) = (Ret m', (n + length cs, u)) /\ forget m' = x /\ composed m cs m'
    | Raise x => i_add k v m (n, u) = (Raise x, (n + length cs, u))
    end.
Proof. intros. exact (made_shares _ _ _ _ _ _ _ (add_made k v m n u)). Qed.
Print Assumptions C123_add.
Theorem C123_remove : forall (U K V : Type) (KO : KeyOrd K) (k : K) (m : itree K V) (n : nat) (u : U),
  exists cs, created n cs /\ length cs <= 3 * depth (forget m) + 1 /\
    match remove k (forget m) with
    | Ret x => exists m', i_remove k m (n, u) = (Ret m', (n + length cs, u)) /\ forget m' = x /\ composed m cs m'
    | Raise x => i_remove k m (n, u) = (Raise x, (n + length cs, u))
    end.
Proof. intros. exact (made_shares _ _ _ _ _ _ _ (remove_made k m n u)). Qed.
Print Assumptions C123_remove.
Theorem C123_change : forall (U K V : Type) (KO : KeyOrd K) (k : K) (f : option V -> M U (option V)) (m : itree K V) (n : nat) (u : U),
  exists cs, created n cs /\ length cs <= 3 * depth (forget m) + 1 /\
    match change k f (forget m) u with
    | (Ret x, u') => exists m', i_change k f m (n, u) = (Ret m', (n + length cs, u')) /\ forget m' = x /\ composed m cs m'
    | (Raise x, u') => i_change k f m (n, u) = (Raise x, (n + length cs, u'))
    end.
Proof.
  intros. pose proof (made_shares _ _ _ _ _ _ _ (change_made k f m n u)) as H.
  destruct (change k f (forget m) u) as [[x|x] u']; exact H.
Qed.
Print Assumptions C123_change.

(** In maps built by insertion that is logarithmic in the number of keys. *)
Theorem C123_logarithmic : forall (K V : Type) (KO : KeyOrd K) (m : itree K V), ReachAdd (forget m) ->
  3 * depth (forget m) + 1 <= 6 * Nat.log2 (len (forget m) + 1) + 4.
Proof. intros K V KO m R. pose proof (C07_log2_pf (forget m) R). lia. Qed.
Print Assumptions C123_logarithmic.

(** Keeping both the old and the new map takes as many objects as the old map and the new
    ones ([l] is any list of different objects of the two). *)
Theorem C123_both : forall (K V : Type) (n : nat) (cs : list (itree K V)) (m m' : itree K V) (l : list nat),
  created n cs -> composed m cs m' -> NoDup l -> incl l (numbers m ++ numbers m') ->
  length l <= length (elements (forget m)) + length cs.
Proof. intros K V. exact both_pf. Qed.
Print Assumptions C123_both.

(** filter and partition build trees of new objects only; so does map, one for each key. *)
Theorem C123_filter : forall (U K V : Type) (KO : KeyOrd K) (p : K -> V -> M U bool) (m : itree K V) (n : nat) (u : U),
  exists cs, created n cs /\
    match filter p (forget m) u with
    | (Ret x, u') => exists m', i_filter p m (n, u) = (Ret m', (n + length cs, u')) /\ forget m' = x /\ composed IEmpty cs m'
    | (Raise x, u') => i_filter p m (n, u) = (Raise x, (n + length cs, u'))
    end.
Proof.
  intros. destruct (i_filter_made p m n u) as (cs & _ & M). exists cs. destruct (filter p (forget m) u) as [[x|x] u']; cbn [fst snd] in M.
  - destruct M as (m' & [C G] & F & W). split; [exact C|]. exists m'. split; [exact G|]. split; [exact F|]. now apply within_new.
  - destruct M as [C G]. auto.
Qed.
Print Assumptions C123_filter.
Theorem C123_partition : forall (U K V : Type) (KO : KeyOrd K) (p : K -> V -> M U bool) (m : itree K V) (n : nat) (u : U),
  exists cs, created n cs /\
    match partition p (forget m) u with
    | (Ret (x, y), u') => exists m1 m2, i_partition p m (n, u) = (Ret (m1, m2), (n + length cs, u')) /\
        forget m1 = x /\ forget m2 = y /\ composed IEmpty cs m1 /\ composed IEmpty cs m2
    | (Raise x, u') => i_partition p m (n, u) = (Raise x, (n + length cs, u'))
    end.
Proof.
  intros. destruct (i_partition_made p m n u) as (cs & _ & M). exists cs. destruct (partition p (forget m) u) as [[[x y]|x] u'].
  - destruct M as (m1 & m2 & [C G] & F1 & F2 & W1 & W2). split; [exact C|]. exists m1, m2. split; [exact G|]. split; [exact F1|]. split; [exact F2|].
    split; now apply within_new.
  - destruct M as [C G]. auto.
Qed.
Print Assumptions C123_partition.
Theorem C123_map : forall (U K V R : Type) (KO : KeyOrd K) (f : K -> V -> M U R) (m : itree K V) (n : nat) (u : U),
  exists cs : list (itree K R), created n cs /\ length cs <= length (elements (forget m)) /\
    match MapTree.map f (forget m) u with
    | (Ret x, u') => exists m', i_map f m (n, u) = (Ret m', (n + length cs, u')) /\ forget m' = x /\ composed IEmpty cs m' /\
        length cs = length (elements (forget m))
    | (Raise x, u') => i_map f m (n, u) = (Raise x, (n + length cs, u'))
    end.
Proof.
  intros U K V R KO f m n u. destruct (map_made V R f m n u) as (cs & L & M). exists cs. destruct (MapTree.map f (forget m) u) as [[x|x] u'].
  - destruct M as (m' & [C G] & F & W & E). split; [exact C|]. split; [exact L|]. exists m'. split; [exact G|]. split; [exact F|]. split; [now apply within_new|exact E].
  - destruct M as [C G]. auto.
Qed.
Print Assumptions C123_map.

(** A map made from a list consists of objects that were made for it, O(n log n) in all. *)
Theorem C123_of_list : forall (U K V : Type) (KO : KeyOrd K) (xs : list (K * V)) (n : nat) (u : U),
  exists cs, created n cs /\ length cs <= length xs * (6 * Nat.log2 (length xs + 1) + 4) /\
    match of_list xs with
    | Ret x => exists m', i_of_list IEmpty xs (n, u) = (Ret m', (n + length cs, u)) /\ forget m' = x /\ composed IEmpty cs m'
    | Raise x => i_of_list IEmpty xs (n, u) = (Raise x, (n + length cs, u))
    end.
Proof.
  intros. pose proof (made_shares _ _ _ _ _ _ _ (of_list_made (length xs) xs 0 IEmpty n u good_empty (le_n _))) as (cs & C & L & M).
  exists cs. split; [exact C|]. split; [unfold each_add, room in L; replace (6 * Nat.log2 (length xs + 1) + 4) with (3 * (2 * Nat.log2 (length xs + 1) + 1) + 1) by lia; exact L|exact M].
Qed.
Print Assumptions C123_of_list.

(** Programs that keep every map they make: an object that is in two of the maps is the same
    subtree in both, so no update is ever seen through another map; and no map contains an
    object that was not made yet. *)
Theorem C123_versions : forall (K V : Type) (KO : KeyOrd K) (n : nat) (ms : list (itree K V)), versions n ms ->
  (forall m1 m2 t1 t2, In m1 ms -> In m2 ms -> part t1 m1 -> part t2 m2 -> number_of t1 = number_of t2 -> t1 = t2) /\
  (forall m i, In m ms -> In i (numbers m) -> i < n).
Proof. intros K V KO n ms H. split; [exact (versions_coherent_pf n ms H)|exact (versions_numbers_pf n ms H)]. Qed.
Print Assumptions C123_versions.

(** [j] insertions, into any of the maps made so far, make O(j log j) objects; [n] bounds the
    number of objects in all the maps together. *)
Theorem C123_insertions : forall (K V : Type) (KO : KeyOrd K) (j n : nat) (ms : list (itree K V)), insertions j n ms ->
  n <= j * (6 * Nat.log2 (j + 1) + 4).
Proof.
  intros K V KO j n ms H. destruct (insertions_pf j n ms H) as [L _]. unfold each_add, room in L.
  replace (6 * Nat.log2 (j + 1) + 4) with (3 * (2 * Nat.log2 (j + 1) + 1) + 1) by lia. exact L.
Qed.
Print Assumptions C123_insertions.

(** Removing a key that is not there shares less than it could: unless the map is a single
    leaf, or empty, the root is copied. *)
Theorem C123_absent : forall (U K V : Type) (KO : KeyOrd K) (k : K) (m m' : itree K V) (n : nat) (u : U) w,
  (forall k0 v0, In (k0, v0) (elements (forget m)) -> eqb k k0 = false) -> 1 < length (elements (forget m)) ->
  i_remove k m (n, u) = (Ret m', w) -> exists j, number_of m' = Some j /\ n <= j.
Proof.
  intros U K V KO k m m' n u w A L E. destruct m as [|i key value|i key value l r h]; cbn in L; try lia.
  eapply remove_copies; [|exact E]. apply (A key value). cbn. apply in_app_iff. right. now left.
Qed.
Print Assumptions C123_absent.

Definition C123_start : res (itree nat nat) * (nat * unit) := i_of_list IEmpty (List.map (fun k => (k, k)) (seq 1 100)) (0, tt).
(** 100 insertions make 703 objects, of which 100 are in the map.  One more makes eight new
    objects; the two maps share all the others. *)
Example C123_case : exists m m' n n', C123_start = (Ret m, (n, tt)) /\ i_add 200 7 m (n, tt) = (Ret m', (n', tt)) /\
  length (numbers m) = 100 /\ length (numbers m') = 101 /\ n = 703 /\ n' = n + 8 /\ length (List.filter (fun i => n <=? i) (numbers m')) = 8 /\
  number_of m <> number_of m' /\
  ReachAdd (forget m).
Proof.
  eexists _, _, _, _. split; [vm_compute; reflexivity|]. split; [vm_compute; reflexivity|].
  do 5 (split; [vm_compute; reflexivity|]).
  split; [vm_compute; discriminate|]. eapply RA_of_block with (xs := List.map (fun k => (k, k)) (seq 1 100)). vm_compute. reflexivity.
Qed.
