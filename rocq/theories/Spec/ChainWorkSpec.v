(** What the stages of a chain give, as lists, and how many elements that is. *)
From Coq Require Import List ZArith.
From Verif.Model Require Import Base Chain.
Import ListNotations.

(** A callback that answers [F x] whatever the state, with any effects. *)
Definition answers {W A B} (f : A -> M W B) (F : A -> B) : Prop := forall x w, fst (f x w) = Ret (F x).

(** [s] makes [ys] of [xs]. *)
Inductive gives {W} : forall {A B}, stage W A B -> list A -> list B -> Prop :=
| g_map : forall A B (f : A -> M W B) F xs, answers f F -> gives (SMap f) xs (map F xs)
| g_filter : forall A (p : A -> M W bool) P xs, answers p P -> gives (SFilter p) xs (filter P xs)
| g_choose : forall A B (f : A -> M W (option B)) F xs, answers f F ->
    gives (SChoose f) xs (flat_map (fun x => match F x with Some y => [y] | None => [] end) xs)
| g_collect : forall A B (f : A -> M W (list B)) F xs, answers f F -> gives (SCollect f) xs (flat_map F xs)
| g_append : forall A (xs ys : list A), gives (SAppend ys) xs (xs ++ ys)
| g_skip : forall A n (xs : list A), gives (SSkip n) xs (skipn (Z.to_nat n) xs)
| g_take : forall A n (xs : list A), gives (STake n) xs (firstn (Z.to_nat n) xs)
| g_tail : forall A (xs : list A), gives STail xs (tl xs).

(** The chain makes [zs] of [xs]; [n] is the number of elements of all intermediate results
    and the last one, and one for the end of each. *)
Inductive amounts {W} : forall {A B}, chain W A B -> list A -> nat -> list B -> Prop :=
| am_whole : forall A (xs : list A), amounts Whole xs 0 xs
| am_next : forall A B C (s : stage W A B) (c : chain W B C) xs ys n zs,
    gives s xs ys -> amounts c ys n zs -> amounts (Next s c) xs (length ys + 1 + n) zs.

(** No stage stops before its source ends. *)
Fixpoint no_take {W A B} (c : chain W A B) : Prop :=
  match c with Whole => True | Next (STake _) _ => False | Next _ c => no_take c end.
Fixpoint stages {W A B} (c : chain W A B) : nat := match c with Whole => 0 | Next _ c => S (stages c) end.
