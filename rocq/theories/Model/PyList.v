(** Semantics of the Python tuple/list operations that the collections call: slicing,
    indexing, sorted, range, and the for loop.  These are builtins, not code in /repo;
    their semantics here is part of the trusted base. *)
From Coq Require Import List ZArith Bool.
From Verif.Model Require Import Base.
Import ListNotations.
Local Open Scope py_scope.

(** A for loop over a tuple or list with an accumulator; [body] may raise. *)
Fixpoint for_in {W A S} (xs : list A) (s : S) (body : S -> A -> M W S) : M W S :=
  match xs with
  | [] => ret s
  | x :: xs => do s <- body s x; for_in xs s body
  end.

(** A for loop over builtins.map(f, xs), builtins.filter(f, xs) or
    itertools.starmap(f, xs).  Their [__next__] calls [f] and lets what it raises pass;
    the loop (or tuple(), list(), bytearray(), a generator expression) that iterates them
    takes StopIteration for the end. *)
Fixpoint for_calls {W A B S} (xs : list A) (s : S) (f : A -> M W B) (body : S -> A -> B -> M W S) : M W S :=
  match xs with
  | [] => ret s
  | x :: xs => fun w =>
      match f x w with
      | (Ret y, w) => (do s <- body s x y; for_calls xs s f body) w
      | (Raise StopIterationExn, w) => (Ret s, w)
      | (Raise e, w) => (Raise e, w)
      end
  end.

(** A value in the place of [args] in a call [f( *args)]: something with elements, or not. *)
Inductive star X := Args (l : list X) | NotIterable (x : X).
Arguments Args {X}. Arguments NotIterable {X}.
(** [f( *args)]; [f] gets the list of its arguments *)
Definition call_star {W X B} (f : list X -> M W B) (args : star X) : M W B :=
  match args with Args l => f l | NotIterable _ => raise TypeError end.

(** Clamping of a slice bound: negative bounds count from the end, then the bound is
    clamped to [0..len]. *)
Definition slice_bound (len : Z) (b : Z) : Z :=
  let b := if Z.ltb b 0 then (b + len)%Z else b in Z.max 0 (Z.min len b).

(** [xs[start:stop]] with optional bounds (step 1). *)
Definition slice {A} (xs : list A) (start stop : option Z) : list A :=
  let len := Z.of_nat (length xs) in
  let a := match start with Some b => slice_bound len b | None => 0%Z end in
  let b := match stop with Some b => slice_bound len b | None => len end in
  firstn (Z.to_nat (b - a)) (skipn (Z.to_nat a) xs).

(** [xs[i]] *)
Definition index {A} (xs : list A) (i : Z) : res A :=
  let j := if Z.ltb i 0 then (i + Z.of_nat (length xs))%Z else i in
  if Z.ltb j 0 then Raise IndexError
  else match nth_error xs (Z.to_nat j) with Some x => Ret x | None => Raise IndexError end.

(** builtins.sorted on items with their keys: insertion of each item, from the last to
    the first, in front of the first item with a key that is not smaller. *)
Section Sorted.
  Context {K A : Type} `{KeyOrd K}.
  Fixpoint sort_insert (x : K * A) (ys : list (K * A)) : list (K * A) :=
    match ys with
    | [] => [x]
    | y :: ys' => if ltb (fst y) (fst x) then y :: sort_insert x ys' else x :: ys
    end.
  Definition sort_items (xs : list (K * A)) : list (K * A) := fold_right sort_insert [] xs.
  (** with [reverse], CPython reverses the list, sorts it and reverses it again *)
  Definition sorted_items (xs : list (K * A)) (reverse : bool) : list (K * A) :=
    if reverse then rev (sort_items (rev xs)) else sort_items xs.
End Sorted.

(** builtins.range(start, stop, step): number of elements, and the elements. *)
Definition range_len (start stop step : Z) : nat :=
  if Z.ltb 0 step then Z.to_nat ((stop - start + step - 1) / step)
  else Z.to_nat ((start - stop - step - 1) / (- step)).
Definition py_range (start stop step : Z) : res (list Z) :=
  if Z.eqb step 0 then Raise ValueError
  else Ret (map (fun i => (start + Z.of_nat i * step)%Z) (seq 0 (range_len start stop step))).

(** Slices with a step: the positions that [start:stop:step] selects in a sequence of
    [len] elements, in the order of the slice (CPython's PySlice_Unpack and
    PySlice_AdjustIndices). *)
Definition slice_from (len : Z) (start : option Z) (step : Z) : Z :=
  let lo := if Z.ltb step 0 then (-1)%Z else 0%Z in
  let hi := if Z.ltb step 0 then (len - 1)%Z else len in
  match start with
  | Some b => Z.max lo (Z.min hi (if Z.ltb b 0 then (b + len)%Z else b))
  | None => if Z.ltb step 0 then hi else lo
  end.
Definition slice_to (len : Z) (stop : option Z) (step : Z) : Z :=
  let lo := if Z.ltb step 0 then (-1)%Z else 0%Z in
  let hi := if Z.ltb step 0 then (len - 1)%Z else len in
  match stop with
  | Some b => Z.max lo (Z.min hi (if Z.ltb b 0 then (b + len)%Z else b))
  | None => if Z.ltb step 0 then lo else hi
  end.
Definition slice_positions (len : nat) (start stop step : option Z) : res (list nat) :=
  let k := match step with Some k => k | None => 1%Z end in
  let n := Z.of_nat len in
  dor is <- py_range (slice_from n start k) (slice_to n stop k) k; Ret (map Z.to_nat is).

(** [xs[start:stop:step]] *)
Definition slice_step {A} (xs : list A) (start stop step : option Z) : res (list A) :=
  dor is <- slice_positions (length xs) start stop step;
  Ret (flat_map (fun i => match nth_error xs i with Some x => [x] | None => [] end) is).
(** [del xs[start:stop:step]]: what is left; [i] is the position of the first element *)
Fixpoint omit {A} (is : list nat) (i : nat) (xs : list A) : list A :=
  match xs with
  | [] => []
  | x :: xs => if existsb (Nat.eqb i) is then omit is (S i) xs else x :: omit is (S i) xs
  end.
(** [xs[start:stop:step] = ys] with a step other than 1: position by position *)
Fixpoint overwrite {A} (is : list nat) (ys : list A) (xs : list A) : list A :=
  match is, ys with
  | i :: is, y :: ys => overwrite is ys (firstn i xs ++ y :: skipn (S i) xs)
  | _, _ => xs
  end.
