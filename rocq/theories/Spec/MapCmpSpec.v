(** What can be said about a Map whose keys compare in any way. *)
From Coq Require Import List Bool Arith Permutation.
From Verif.Model Require Import Base MapTree MapCmp.
From Verif.Spec Require Import MapSpec.
Import ListNotations.

Section Spec.
  Context {W K V : Type}.
  Implicit Types (cmp : K -> K -> M W bool) (l : list (K * V)).

  (** The comparison has answered yes at some time; it has raised [e], leaving [w']. *)
  Definition said_yes cmp (k k0 : K) : Prop := exists w w', cmp k k0 w = (Ret true, w').
  Definition raised cmp (k k0 : K) (e : exn) (w' : W) : Prop := exists w, cmp k k0 w = (Raise e, w').

  (** One item more, in some place; or one replaced whose key compared equal. *)
  Inductive with_item eq (k : K) (v : V) : list (K * V) -> list (K * V) -> Prop :=
  | wi_new : forall l1 l2, with_item eq k v (l1 ++ l2) (l1 ++ (k, v) :: l2)
  | wi_replaced : forall l1 k0 v0 l2, said_yes eq k k0 -> with_item eq k v (l1 ++ (k0, v0) :: l2) (l1 ++ (k, v) :: l2).
  (** The same items; or one less, whose key compared equal. *)
  Inductive without_item eq (k : K) : list (K * V) -> list (K * V) -> Prop :=
  | wo_same : forall l, without_item eq k l l
  | wo_dropped : forall l1 k0 v0 l2, said_yes eq k k0 -> without_item eq k (l1 ++ (k0, v0) :: l2) (l1 ++ l2).

  (** What the callback [u] answered for the value of an item whose key compared equal, or for
      Nothing, was done; the callback was the last to act on the world. *)
  Inductive changed_item eq (u : option V -> M W (option V)) (k : K) (w' : W) : list (K * V) -> list (K * V) -> Prop :=
  | ci_new : forall l1 l2 v w, u None w = (Ret (Some v), w') -> changed_item eq u k w' (l1 ++ l2) (l1 ++ (k, v) :: l2)
  | ci_same : forall l w, u None w = (Ret None, w') -> changed_item eq u k w' l l
  | ci_replaced : forall l1 k0 v0 l2 v w, said_yes eq k k0 -> u (Some v0) w = (Ret (Some v), w') ->
      changed_item eq u k w' (l1 ++ (k0, v0) :: l2) (l1 ++ (k, v) :: l2)
  | ci_dropped : forall l1 k0 v0 l2 w, said_yes eq k k0 -> u (Some v0) w = (Ret None, w') ->
      changed_item eq u k w' (l1 ++ (k0, v0) :: l2) (l1 ++ l2).

  (** The exception comes out of a comparison of [k] with a key of [l]. *)
  Definition from_comparison lt eq (k : K) l (e : exn) (w' : W) : Prop :=
    exists k0, In k0 (List.map fst l) /\ (raised lt k k0 e w' \/ raised eq k k0 e w').
End Spec.

(** Maps built by any operations; the comparison methods and the world they act on may be
    other ones in each call. *)
Inductive ReachC {K : Type} : forall V : Type, tree K V -> Prop :=
| RC_empty : forall V, ReachC V Empty
| RC_add : forall W V (lt eq : K -> K -> M W bool) m k v w m' w', ReachC V m -> add_c lt eq k v m w = (Ret m', w') -> ReachC V m'
| RC_remove : forall W V (lt eq : K -> K -> M W bool) m k w m' w', ReachC V m -> remove_c lt eq k m w = (Ret m', w') -> ReachC V m'
| RC_change : forall W V (lt eq : K -> K -> M W bool) m k u w m' w', ReachC V m -> change_c lt eq k u m w = (Ret m', w') -> ReachC V m'
| RC_filter : forall W V (lt eq : K -> K -> M W bool) m p w m' w', ReachC V m -> filter_c lt eq p m w = (Ret m', w') -> ReachC V m'
| RC_partition_l : forall W V (lt eq : K -> K -> M W bool) m p w m1 m2 w', ReachC V m -> partition_c lt eq p m w = (Ret (m1, m2), w') -> ReachC V m1
| RC_partition_r : forall W V (lt eq : K -> K -> M W bool) m p w m1 m2 w', ReachC V m -> partition_c lt eq p m w = (Ret (m1, m2), w') -> ReachC V m2
| RC_map : forall W V R m (f : K -> V -> M W R) w m' w', ReachC V m -> map f m w = (Ret m', w') -> ReachC R m'
| RC_of_list : forall W V (lt eq : K -> K -> M W bool) (xs : list (K * V)) w m' w', of_list_c lt eq Empty xs w = (Ret m', w') -> ReachC V m'.
Arguments ReachC {K V} m.
(** The same without remove and change. *)
Inductive ReachAddC {K : Type} : forall V : Type, tree K V -> Prop :=
| RAC_empty : forall V, ReachAddC V Empty
| RAC_add : forall W V (lt eq : K -> K -> M W bool) m k v w m' w', ReachAddC V m -> add_c lt eq k v m w = (Ret m', w') -> ReachAddC V m'
| RAC_filter : forall W V (lt eq : K -> K -> M W bool) m p w m' w', ReachC (V := V) m -> filter_c lt eq p m w = (Ret m', w') -> ReachAddC V m'
| RAC_partition_l : forall W V (lt eq : K -> K -> M W bool) m p w m1 m2 w', ReachC (V := V) m -> partition_c lt eq p m w = (Ret (m1, m2), w') -> ReachAddC V m1
| RAC_partition_r : forall W V (lt eq : K -> K -> M W bool) m p w m1 m2 w', ReachC (V := V) m -> partition_c lt eq p m w = (Ret (m1, m2), w') -> ReachAddC V m2
| RAC_map : forall W V R m (f : K -> V -> M W R) w m' w', ReachAddC V m -> map f m w = (Ret m', w') -> ReachAddC R m'
| RAC_of_list : forall W V (lt eq : K -> K -> M W bool) (xs : list (K * V)) w m' w', of_list_c lt eq Empty xs w = (Ret m', w') -> ReachAddC V m'.
Arguments ReachAddC {K V} m.

(** Comparisons that only answer; comparisons that also count how often they are asked. *)
Definition answers {W K} (b : K -> K -> bool) : K -> K -> M W bool := fun x y => ret (b x y).
Definition counted {W K} (cmp : K -> K -> M W bool) : K -> K -> M (nat * W) bool :=
  fun x y cw => let (r, w) := cmp x y (snd cw) in (r, (S (fst cw), w)).
(** A callback that compares no keys. *)
Definition uncounted {W B C} (u : B -> M W C) : B -> M (nat * W) C :=
  fun x cw => let (r, w) := u x (snd cw) in (r, (fst cw, w)).
