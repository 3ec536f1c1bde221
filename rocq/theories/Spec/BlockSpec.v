(** Independent specification pieces for Block. *)
From Coq Require Import List ZArith Bool Sorting.Permutation Sorting.Sorted.
From Verif.Model Require Import Base.
From Verif.Spec Require Import ListM.
Import ListNotations.
Local Open Scope py_scope.

(** [x] stands at index [i] of [l]: counted from the front, or, when negative, from the
    end. *)
Definition at_index {A} (l : list A) (i : Z) (x : A) : Prop :=
  exists pre post, l = pre ++ x :: post /\
    (i = Z.of_nat (length pre) \/ i = (- (Z.of_nat (length post) + 1))%Z).

Section Generates.
  Context {W S B : Type}.
  Variable f : S -> M W (option (B * S)).
  (** The values a generator function gives from a state until it says Nothing (or
      raises). *)
  Inductive generates : S -> W -> res (list B) -> W -> Prop :=
  | gen_stop : forall s w w1, f s w = (Ret None, w1) -> generates s w (Ret []) w1
  | gen_raise : forall s w e w1, f s w = (Raise e, w1) -> generates s w (Raise e) w1
  | gen_more : forall s w x s1 w1 r w2,
      f s w = (Ret (Some (x, s1)), w1) -> generates s1 w1 r w2 ->
      generates s w (rmap (cons x) r) w2.
End Generates.

(** [ps] sorts [qs]: a permutation, ordered by key (ascending or descending), items with
    equal keys in their original order. *)
Definition stably_sorts {K A} `{KeyOrd K} (reverse : bool) (qs ps : list (K * A)) : Prop :=
  Permutation qs ps /\
  StronglySorted (fun p q => (if reverse then ltb (fst p) (fst q) else ltb (fst q) (fst p)) = false) ps /\
  (forall k, List.filter (fun p => eqb (fst p) k) ps = List.filter (fun p => eqb (fst p) k) qs).

(** Elementwise equality. *)
Definition elementwise {A} (eq : A -> A -> bool) (xs ys : list A) : Prop := Forall2 (fun x y => eq x y = true) xs ys.

(** every element goes to exactly one side, in order *)
Inductive interleave {A} : list A -> list A -> list A -> Prop :=
| il_nil : interleave [] [] []
| il_l : forall x xs ys zs, interleave xs ys zs -> interleave (x :: xs) ys (x :: zs)
| il_r : forall y xs ys zs, interleave xs ys zs -> interleave xs (y :: ys) (y :: zs).

