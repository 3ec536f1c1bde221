(** What loops over any iterator do when both the iterator and the callbacks have effects
    and may raise: the elements are asked for one by one, and the callback runs on each
    before the next is asked for.  [pulled g w [x] g1 w1]: asked for an element in the
    world [w], [g] hands out [x]; [produces g w [] r w1]: asked for one, it ends or
    raises. *)
From Coq Require Import List ZArith.
From Verif.Model Require Import Base Gen.
From Verif.Spec Require Export ListM SeqSpec AsyncSeqSpec.
Import ListNotations.

(** The callback gets a state and an element; it gives a new state and a batch of elements. *)
Inductive runs {W A B S} (f : S -> A -> M W (S * list B)) : S -> gen W A -> W -> list B -> res unit -> W -> Prop :=
| ru_end : forall s g w r w1, produces g w [] r w1 -> runs f s g w [] r w1
| ru_raise : forall s g w x g1 w1 e w2, pulled g w [x] g1 w1 -> f s x w1 = (Raise e, w2) -> runs f s g w [] (Raise e) w2
| ru_next : forall s g w x g1 w1 s1 ys w2 l r w3, pulled g w [x] g1 w1 -> f s x w1 = (Ret (s1, ys), w2) ->
    runs f s1 g1 w2 l r w3 -> runs f s g w (ys ++ l) r w3.

(** The callback gives a sequence, which is iterated before the next element is asked
    for, all inside a generator. *)
Inductive runs_inner {W A B} (f : A -> M W (iterable W B)) : gen W A -> W -> list B -> res unit -> W -> Prop :=
| ri_end : forall g w r w1, produces g w [] r w1 -> runs_inner f g w [] r w1
| ri_raise : forall g w x g1 w1 e w2, pulled g w [x] g1 w1 -> f x w1 = (Raise e, w2) -> runs_inner f g w [] (leaving (Raise e)) w2
| ri_inner : forall g w x g1 w1 it w2 l e w3, pulled g w [x] g1 w1 -> f x w1 = (Ret it, w2) -> iterates it w2 l (Raise e) w3 ->
    runs_inner f g w l (leaving (Raise e)) w3
| ri_next : forall g w x g1 w1 it w2 l w3 l2 r w4, pulled g w [x] g1 w1 -> f x w1 = (Ret it, w2) -> iterates it w2 l (Ret tt) w3 ->
    runs_inner f g1 w3 l2 r w4 -> runs_inner f g w (l ++ l2) r w4.

(** Two iterators side by side, the first being asked first. *)
Inductive runs_both {W A B} : gen W A -> gen W B -> W -> list (A * B) -> res unit -> W -> Prop :=
| rb_first : forall g h w r w1, produces g w [] r w1 -> runs_both g h w [] r w1
| rb_second : forall g h w x g1 w1 r w2, pulled g w [x] g1 w1 -> produces h w1 [] r w2 -> runs_both g h w [] r w2
| rb_next : forall g h w x g1 w1 y h1 w2 l r w3, pulled g w [x] g1 w1 -> pulled h w1 [y] h1 w2 ->
    runs_both g1 h1 w2 l r w3 -> runs_both g h w ((x, y) :: l) r w3.

(** A left fold. *)
Inductive folds {W A S} (f : S -> A -> M W S) : S -> gen W A -> W -> res S -> W -> Prop :=
| fo_end : forall s g w r w1, produces g w [] r w1 -> folds f s g w (rmap (fun _ => s) r) w1
| fo_raise : forall s g w x g1 w1 e w2, pulled g w [x] g1 w1 -> f s x w1 = (Raise e, w2) -> folds f s g w (Raise e) w2
| fo_next : forall s g w x g1 w1 s1 w2 r w3, pulled g w [x] g1 w1 -> f s x w1 = (Ret s1, w2) ->
    folds f s1 g1 w2 r w3 -> folds f s g w r w3.

(** A search: the callback gets the index of the element too; the first element for which
    it gives a value is the last one asked for. *)
Inductive searches {W A B} (f : Z -> A -> M W (option B)) : Z -> gen W A -> W -> res (option B) -> W -> Prop :=
| se_end : forall i g w r w1, produces g w [] r w1 -> searches f i g w (rmap (fun _ => None) r) w1
| se_raise : forall i g w x g1 w1 e w2, pulled g w [x] g1 w1 -> f i x w1 = (Raise e, w2) -> searches f i g w (Raise e) w2
| se_found : forall i g w x g1 w1 y w2, pulled g w [x] g1 w1 -> f i x w1 = (Ret (Some y), w2) -> searches f i g w (Ret (Some y)) w2
| se_next : forall i g w x g1 w1 w2 r w3, pulled g w [x] g1 w1 -> f i x w1 = (Ret None, w2) ->
    searches f (i + 1) g1 w2 r w3 -> searches f i g w r w3.

(** The callback raises: the elements handed out before, each with what the callback gave
    for it; the callback raises [e] on the next element. *)
Inductive fails {W A B S} (f : S -> A -> M W (S * B)) : S -> gen W A -> W -> list (A * B) -> exn -> W -> Prop :=
| fa_here : forall s g w x g1 w1 e w2, pulled g w [x] g1 w1 -> f s x w1 = (Raise e, w2) -> fails f s g w [] e w2
| fa_later : forall s g w x g1 w1 s1 y w2 l e w3, pulled g w [x] g1 w1 -> f s x w1 = (Ret (s1, y), w2) ->
    fails f s1 g1 w2 l e w3 -> fails f s g w ((x, y) :: l) e w3.

(** Pairs of elements of two iterators taken one by one. *)
Inductive pair_pulls {W A B} : gen W A -> gen W B -> W -> list (A * B) -> W -> Prop :=
| pp_last : forall g h w x g1 w1 y h1 w2, pulled g w [x] g1 w1 -> pulled h w1 [y] h1 w2 -> pair_pulls g h w [(x, y)] w2
| pp_next : forall g h w x g1 w1 y h1 w2 l w3, pulled g w [x] g1 w1 -> pulled h w1 [y] h1 w2 ->
    pair_pulls g1 h1 w2 l w3 -> pair_pulls g h w ((x, y) :: l) w3.

(** Looking for the best of several values, one after the other: the first is the best so
    far; each later one is compared once with the best so far, and replaces it if it is
    better. *)
Definition challenge {W B} (better : B -> B -> M W bool) (best : option B) (y : B) : M W (option B) :=
  match best with
  | None => ret (Some y)
  | Some m => (do b <- better y m; ret (Some (if b : bool then y else m)))%py
  end.
(** No best value is an error. *)
Definition best_found {B} (r : res (option B)) : res B :=
  match r with Ret (Some m) => Ret m | Ret None => Raise ValueError | Raise e => Raise e end.
