(** What a [Map] is supposed to be, independently of trees:
    - an abstract dictionary: a function from keys to the stored binding;
    - its bindings as a list in ascending key order.
    Also the set of maps a user can build through the public API. *)
From Coq Require Import List ZArith Bool Sorting.Sorted.
From Verif.Model Require Import Base MapTree.
Import ListNotations.

Section Spec.
  Context {K : Type} `{KeyOrd K}.

  (** Abstract dictionary: lookup of a key gives the stored key object and value. *)
  Definition dict (V : Type) : Type := K -> option (K * V).

  Definition d_empty {V} : dict V := fun _ => None.
  Definition d_add {V} (k : K) (v : V) (d : dict V) : dict V :=
    fun k' => if eqb k' k then Some (k, v) else d k'.
  Definition d_remove {V} (k : K) (d : dict V) : dict V :=
    fun k' => if eqb k' k then None else d k'.
  Definition d_filter {V} (p : K -> V -> bool) (d : dict V) : dict V :=
    fun k' => match d k' with
              | Some (k, v) => if p k v then Some (k, v) else None
              | None => None
              end.
  Definition d_map {V R} (f : K -> V -> R) (d : dict V) : dict R :=
    fun k' => match d k' with Some (k, v) => Some (k, f k v) | None => None end.
  Definition d_change {V} (k : K) (f : option V -> option V) (d : dict V) : dict V :=
    match f (option_map snd (d k)) with
    | Some v => d_add k v d
    | None => d_remove k d
    end.
  (** Adding a list of pairs from left to right: later pairs win. *)
  Definition d_of_list {V} (l : list (K * V)) : dict V :=
    fold_left (fun d kv => d_add (fst kv) (snd kv) d) l d_empty.

  (** Bindings listed in strictly ascending key order. *)
  Definition ascending {V} (l : list (K * V)) : Prop :=
    StronglySorted (fun a b => ltb (fst a) (fst b) = true) l.

  (** The binding of [k] in a list of bindings. *)
  Definition assoc {V} (k : K) (l : list (K * V)) : option (K * V) :=
    List.find (fun kv => eqb k (fst kv)) l.

  (** [l] is the ascending list of exactly the bindings of [d]. *)
  Definition lists {V} (l : list (K * V)) (d : dict V) : Prop :=
    ascending l /\ forall k, assoc k l = d k.

  (** Maps a user can obtain: every constructor is one public operation, with
      arbitrary arguments and arbitrary (stateful, possibly raising) callbacks that
      let the operation return normally. *)
  Inductive Reach : forall V : Type, tree K V -> Prop :=
  | R_empty : forall V, Reach V Empty
  | R_add : forall V m k v m', Reach V m -> add k v m = Ret m' -> Reach V m'
  | R_remove : forall V m k m', Reach V m -> remove k m = Ret m' -> Reach V m'
  | R_change : forall V W m k (u : option V -> M W (option V)) w m' w',
      Reach V m -> change k u m w = (Ret m', w') -> Reach V m'
  | R_filter : forall V W m (p : K -> V -> M W bool) w m' w',
      Reach V m -> filter p m w = (Ret m', w') -> Reach V m'
  | R_partition_l : forall V W m (p : K -> V -> M W bool) w m1 m2 w',
      Reach V m -> partition p m w = (Ret (m1, m2), w') -> Reach V m1
  | R_partition_r : forall V W m (p : K -> V -> M W bool) w m1 m2 w',
      Reach V m -> partition p m w = (Ret (m1, m2), w') -> Reach V m2
  | R_map : forall V R W m (f : K -> V -> M W R) w m' w',
      Reach V m -> map f m w = (Ret m', w') -> Reach R m'
  | R_of_block : forall V (xs : list (K * V)) m', of_list xs = Ret m' -> Reach V m'
  | R_of_seq : forall V limit (xs : list (K * V)) m', of_seq limit xs = Ret m' -> Reach V m'.
  Arguments Reach {V} m.

  (** Maps obtained without [remove]/[change]/[map]: only by insertion. *)
  Inductive ReachAdd : forall V : Type, tree K V -> Prop :=
  | RA_empty : forall V, ReachAdd V Empty
  | RA_add : forall V m k v m', ReachAdd V m -> add k v m = Ret m' -> ReachAdd V m'
  | RA_filter : forall V W m (p : K -> V -> M W bool) w m' w',
      Reach (V := V) m -> filter p m w = (Ret m', w') -> ReachAdd V m'
  | RA_partition_l : forall V W m (p : K -> V -> M W bool) w m1 m2 w',
      Reach (V := V) m -> partition p m w = (Ret (m1, m2), w') -> ReachAdd V m1
  | RA_partition_r : forall V W m (p : K -> V -> M W bool) w m1 m2 w',
      Reach (V := V) m -> partition p m w = (Ret (m1, m2), w') -> ReachAdd V m2
  | RA_map : forall V R W m (f : K -> V -> M W R) w m' w',
      ReachAdd V m -> map f m w = (Ret m', w') -> ReachAdd R m'
  | RA_of_block : forall V (xs : list (K * V)) m', of_list xs = Ret m' -> ReachAdd V m'
  | RA_of_seq : forall V limit (xs : list (K * V)) m', of_seq limit xs = Ret m' -> ReachAdd V m'.
  Arguments ReachAdd {V} m.

  (** Number of edges on the longest root-to-leaf path plus one, computed from the
      structure only. *)
  Fixpoint depth {V} (m : tree K V) : nat :=
    match m with
    | Empty => 0
    | Leaf _ _ => 1
    | Node _ _ l r _ => S (Nat.max (depth l) (depth r))
    end.

  (** The search for the absent key [k] ends at a missing child (or the map is empty), not at
      a leaf. *)
  Inductive falls_off {V} (k : K) : tree K V -> Prop :=
  | fo_empty : falls_off k Empty
  | fo_left : forall key v l r h, ltb k key = true -> falls_off k l -> falls_off k (Node key v l r h)
  | fo_right : forall key v l r h, ltb key k = true -> falls_off k r -> falls_off k (Node key v l r h).

  (** At every node the depths of the two subtrees differ by at most 2. *)
  Fixpoint balanced {V} (m : tree K V) : Prop :=
    match m with
    | Node _ _ l r _ =>
        balanced l /\ balanced r /\ depth l <= depth r + 2 /\ depth r <= depth l + 2
    | _ => True
    end.
End Spec.
Arguments Reach {K H V} m.
Arguments ReachAdd {K H V} m.

(** Histories with pure callbacks, run against both the tree and the dictionary. *)
Inductive op (K V : Type) : Type :=
| OAdd (k : K) (v : V)
| ORemove (k : K)
| OChange (k : K) (f : option V -> option V)
| OFilter (p : K -> V -> bool)
| OPartitionTrue (p : K -> V -> bool)
| OPartitionFalse (p : K -> V -> bool)
| OMap (f : K -> V -> V)
| OOfSeq (xs : list (K * V))
| OOfBlock (xs : list (K * V)).
Arguments OAdd {K V}. Arguments ORemove {K V}. Arguments OChange {K V}.
Arguments OFilter {K V}. Arguments OPartitionTrue {K V}. Arguments OPartitionFalse {K V}.
Arguments OMap {K V}. Arguments OOfSeq {K V}. Arguments OOfBlock {K V}.

Section Histories.
  Context {K V : Type} `{KeyOrd K}.

  (** Dictionary semantics of one operation. *)
  Definition d_step (d : dict V) (o : op K V) : dict V :=
    match o with
    | OAdd k v => d_add k v d
    | ORemove k => d_remove k d
    | OChange k f => d_change k f d
    | OFilter p | OPartitionTrue p => d_filter p d
    | OPartitionFalse p => d_filter (fun k v => negb (p k v)) d
    | OMap f => d_map f d
    | OOfSeq xs | OOfBlock xs => d_of_list xs
    end.
  Definition d_run (os : list (op K V)) : dict V := fold_left d_step os d_empty.

  (** The same operation on the modelled Map, callbacks run in the trivial world. *)
  Definition m_call (m : tree K V) (o : op K V) : res (tree K V) :=
    match o with
    | OAdd k v => add k v m
    | ORemove k => remove k m
    | OChange k f => fst (change (W := unit) k (fun x => ret (f x)) m tt)
    | OFilter p => fst (filter (W := unit) (fun k v => ret (p k v)) m tt)
    | OPartitionTrue p => rmap fst (fst (partition (W := unit) (fun k v => ret (p k v)) m tt))
    | OPartitionFalse p => rmap snd (fst (partition (W := unit) (fun k v => ret (p k v)) m tt))
    | OMap f => fst (map (W := unit) (fun k v => ret (f k v)) m tt)
    | OOfSeq xs => of_seq None xs
    | OOfBlock xs => of_list xs
    end.
  (** [m = m.op(...)] in Python: when the call raises, the variable keeps its value. *)
  Definition m_step (m : tree K V) (o : op K V) : tree K V :=
    match m_call m o with Ret m' => m' | Raise _ => m end.
  Definition m_run (os : list (op K V)) : tree K V := fold_left m_step os Empty.
End Histories.

(** Lookup that also counts the tree nodes whose key it compares with [k]: the
    textbook search, written from the structure of the tree. *)
Fixpoint search {K V : Type} `{KeyOrd K} (k : K) (m : tree K V) : option V * nat :=
  match m with
  | Empty => (None, 0)
  | Leaf k' v => (if eqb k k' then Some v else None, 1)
  | Node k' v l r _ =>
      if eqb k k' then (Some v, 1)
      else let (o, n) := if ltb k k' then search k l else search k r in (o, S n)
  end.
