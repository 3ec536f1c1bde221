(** Specification of what users build with Map.change and a fold: tables of counts and groups,
    and the union of two maps. *)
From Coq Require Import List Arith.
From Verif.Model Require Import Base PyList OptionResult Block MapTree Map.
Import ListNotations.
Local Open Scope py_scope.

Section Grouping.
  Context {K V A W : Type} `{KeyOrd K}.

  (** The user's programs.
      table(key, step, start, xs):
          xs.fold(lambda m, x: m.change(key(x), lambda o: Some(step(o, x))), start) *)
  Definition table (key : A -> M W K) (step : option V -> A -> M W V) (start : tree K V) (xs : block A) : M W (tree K V) :=
    Block.fold xs (fun m x => do k <- key x; change k (fun o => do v <- step o x; ret (Some v)) m) start.
  (** m1.fold(lambda acc, kv: acc.change(kv[0], lambda o: Some(f(o, kv[1]))), m2) *)
  Definition union (f : option V -> V -> M W V) (m1 m2 : tree K V) : M W (tree K V) :=
    MapTree.fold (fun acc kv => change (fst kv) (fun o => do v <- f o (snd kv); ret (Some v)) acc) m2 m1.

  (** What a table means: a function from keys, updated once for each element in turn. *)
  Definition updated (k : K) (v : V) (d : K -> option V) : K -> option V := fun k1 => if eqb k1 k then Some v else d k1.
  Fixpoint updates (key : A -> M W K) (step : option V -> A -> M W V) (d : K -> option V) (xs : list A) : M W (K -> option V) :=
    match xs with
    | [] => ret d
    | x :: xs => do k <- key x; do v <- step (d k) x; updates key step (updated k v d) xs
    end.
End Grouping.

(** The elements of a key, in the order in which they came. *)
Definition of_key {K A} `{KeyOrd K} (key : A -> K) (k : K) (xs : list A) : list A := List.filter (fun x => eqb k (key x)) xs.

(** Counting: Some(o.default_value(0) + 1); grouping: Some(o.default_value(block.empty).append(block.singleton(x))). *)
Definition count_step {A} (o : option nat) (x : A) : nat := opt_default_value o 0 + 1.
Definition group_step {A} (o : option (block A)) (x : A) : block A := Block.append (opt_default_value o []) [x].
