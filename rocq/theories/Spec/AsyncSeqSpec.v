(** Specification of AsyncSeq; most of it is in SeqSpec. *)
From Coq Require Import List ZArith.
From Verif.Model Require Import Base Gen.
From Verif.Spec Require Export ListM SeqSpec.
Import ListNotations.
Local Open Scope py_scope.

(** Iterating, for each element of a source, what [f] gives for it. *)
Inductive collects {W A B} (f : A -> M W (iterable W B)) : list (M W A) -> W -> list B -> res unit -> W -> Prop :=
| co_nil : forall w, collects f [] w [] (Ret tt) w
| co_source : forall m ms w e w1, m w = (Raise e, w1) -> collects f (m :: ms) w [] (Raise e) w1
| co_callback : forall m ms w x w1 e w2, m w = (Ret x, w1) -> f x w1 = (Raise e, w2) -> collects f (m :: ms) w [] (Raise e) w2
| co_inner : forall m ms w x w1 it w2 l e w3, m w = (Ret x, w1) -> f x w1 = (Ret it, w2) -> iterates it w2 l (Raise e) w3 ->
    collects f (m :: ms) w l (Raise e) w3
| co_next : forall m ms w x w1 it w2 l w3 l2 r w4, m w = (Ret x, w1) -> f x w1 = (Ret it, w2) -> iterates it w2 l (Ret tt) w3 ->
    collects f ms w3 l2 r w4 -> collects f (m :: ms) w (l ++ l2) r w4.

(** Elements of what [f] gives for the elements of [g], taken one by one: the elements
    of [g] are taken only as far as the last element taken needs, and so are those of
    the sequence it is in. *)
Inductive collect_pulls {W A B} (f : A -> M W (iterable W B)) : gen W A -> W -> list B -> W -> Prop :=
| cp_last : forall g w x g1 w1 it w2 l h w3, pulled g w [x] g1 w1 -> f x w1 = (Ret it, w2) -> l <> [] -> pulls it w2 l h w3 ->
    collect_pulls f g w l w3
| cp_next : forall g w x g1 w1 it w2 l w3 l2 w4, pulled g w [x] g1 w1 -> f x w1 = (Ret it, w2) -> iterates it w2 l (Ret tt) w3 ->
    collect_pulls f g1 w3 l2 w4 -> collect_pulls f g w (l ++ l2) w4.

(** The same for callbacks that give a batch of elements and a new state. *)
Inductive batch_pulls {W A B S} (f : S -> A -> M W (S * list B)) : S -> gen W A -> W -> list B -> W -> Prop :=
| bp_last : forall s g w x g1 w1 s1 ys w2, pulled g w [x] g1 w1 -> f s x w1 = (Ret (s1, ys), w2) -> ys <> [] -> batch_pulls f s g w ys w2
| bp_next : forall s g w x g1 w1 s1 ys w2 l w3, pulled g w [x] g1 w1 -> f s x w1 = (Ret (s1, ys), w2) ->
    batch_pulls f s1 g1 w2 l w3 -> batch_pulls f s g w (ys ++ l) w3.
