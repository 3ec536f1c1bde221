(** What it means that trees share objects: the objects a tree consists of, and how a tree is
    put together from objects of another tree and new ones. *)
From Coq Require Import List Arith.
From Verif.Model Require Import Base MapTree MapShare.
Import ListNotations.

Section Spec.
  Context {K V : Type}.

  (** The tree without the identities. *)
  Fixpoint forget {V} (m : itree K V) : tree K V :=
    match m with
    | IEmpty => Empty
    | ILeaf _ k v => Leaf k v
    | INode _ k v l r h => Node k v (forget l) (forget r) h
    end.

  (** The number of an object; [Nothing] is not counted. *)
  Definition number_of {V} (m : itree K V) : option nat :=
    match m with IEmpty => None | ILeaf i _ _ => Some i | INode i _ _ _ _ _ => Some i end.

  (** [t] is an object that [m] consists of. *)
  Inductive part {V} (t : itree K V) : itree K V -> Prop :=
  | part_self : part t t
  | part_left : forall i k v l r h, part t l -> part t (INode i k v l r h)
  | part_right : forall i k v l r h, part t r -> part t (INode i k v l r h).

  (** The numbers of all the objects of a tree. *)
  Fixpoint numbers {V} (m : itree K V) : list nat :=
    match m with
    | IEmpty => []
    | ILeaf i _ _ => [i]
    | INode i _ _ l r _ => i :: numbers l ++ numbers r
    end.

  (** [cs] are objects created one after the other, the first with the number [n]. *)
  Definition created {V} (n : nat) (cs : list (itree K V)) : Prop :=
    forall j t, nth_error cs j = Some t -> number_of t = Some (n + j).

  (** Every object of [m'] is one of [m] or one of [cs]. *)
  Definition composed {V} (m : itree K V) (cs : list (itree K V)) (m' : itree K V) : Prop :=
    forall t, part t m' -> t = IEmpty \/ part t m \/ In t cs.
End Spec.

Section Versions.
  Context {K V : Type} `{KeyOrd K}.

  (** Programs that keep every map they ever made: [versions n ms] are the trees in memory
      and [n] the number of the next object.  Each step applies one operation to any of the
      trees made so far. *)
  Inductive versions : nat -> list (itree K V) -> Prop :=
  | v_none : versions 0 []
  | v_empty : forall n ms, versions n ms -> versions n (IEmpty :: ms)
  | v_add : forall U n ms m k v m' n' (u u' : U), versions n ms -> In m ms ->
      i_add k v m (n, u) = (Ret m', (n', u')) -> versions n' (m' :: ms)
  | v_remove : forall U n ms m k m' n' (u u' : U), versions n ms -> In m ms ->
      i_remove k m (n, u) = (Ret m', (n', u')) -> versions n' (m' :: ms)
  | v_change : forall U n ms m k f m' n' (u u' : U), versions n ms -> In m ms ->
      i_change k f m (n, u) = (Ret m', (n', u')) -> versions n' (m' :: ms)
  | v_filter : forall U n ms m p m' n' (u u' : U), versions n ms -> In m ms ->
      i_filter p m (n, u) = (Ret m', (n', u')) -> versions n' (m' :: ms)
  | v_partition : forall U n ms m p m1 m2 n' (u u' : U), versions n ms -> In m ms ->
      i_partition p m (n, u) = (Ret (m1, m2), (n', u')) -> versions n' (m1 :: m2 :: ms)
  | v_map : forall U n ms m f m' n' (u u' : U), versions n ms -> In m ms ->
      i_map f m (n, u) = (Ret m', (n', u')) -> versions n' (m' :: ms).

  (** The same with nothing but insertions, [j] of them. *)
  Inductive insertions : nat -> nat -> list (itree K V) -> Prop :=
  | in_none : insertions 0 0 [IEmpty]
  | in_add : forall U j n ms m k v m' n' (u u' : U), insertions j n ms -> In m ms ->
      i_add k v m (n, u) = (Ret m', (n', u')) -> insertions (S j) n' (m' :: ms).
End Versions.
