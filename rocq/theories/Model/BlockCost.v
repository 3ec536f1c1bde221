(** How much the operations of expression/collections/block.py copy.  The world counts the
    references that are written into new tuples and lists (CPython; the growth of a list
    that is built element by element is not counted, nor is what callbacks do, so callbacks
    are plain functions here).  tuple(t) of a tuple is t itself, t + () and () + t are t, a
    slice of all of t is t; "( *it, )" builds a list and copies it into a tuple.  What the
    operations return is in Block.v.  Definitions only. *)
From Coq Require Import List ZArith Bool Arith.
From Verif.Model Require Import Base PyList OptionResult Block.
Import ListNotations.
Local Open Scope py_scope.

(** a new tuple or list of these elements *)
Definition written {A} (xs : list A) : M nat (list A) := fun count => (Ret xs, count + length xs).

Section Cost.
  Context {A B : Type}.
  Implicit Types self : block A.

  (** "( *it, )" *)
  Definition starred {X} (xs : list X) : M nat (list X) := do l <- written xs; written l.
  (** block.py:86-89 [__init__] for a tuple: it is kept; for a list or an iterator:
      [written] *)
  Definition c_keep {X} (xs : list X) : M nat (block X) := ret xs.
  (** block.py:91-93 [append], 503-504 [__add__] *)
  Definition c_append self (other : block A) : M nat (block A) :=
    match self, other with [], _ => c_keep other | _, [] => c_keep self | _, _ => written (self ++ other) end.
  (** block.py:133-135, 599-600 [cons] *)
  Definition c_cons self (element : A) : M nat (block A) := starred (element :: self).
  (** block.py:194-207 [head]: the rest is unpacked into a list *)
  Definition c_head self : M nat A := match self with [] => raise ValueError | x :: rest => do _ <- written rest; ret x end.
  (** block.py:457-467 [try_head], 224-233 [item] *)
  Definition c_try_head self : M nat (option A) := ret (try_head self).
  Definition c_item self (i : Z) : M nat A := lift (item self i).
  (** block.py:389-392 [tail]: a list, then a tuple *)
  Definition c_tail self : M nat (block A) := match self with [] => raise ValueError | _ :: rest => starred rest end.
  (** block.py:375-387, 421-443 [skip], [skip_last], [take], [take_last] *)
  Definition c_slice self (start stop : option Z) : M nat (block A) :=
    let ys := slice self start stop in
    if Nat.eqb (length ys) (length self) then c_keep self else written ys.
  (** block.py:239-253 [map], 276-292 [mapi] (without the pairs that enumerate makes) *)
  Definition c_map (f : A -> B) self : M nat (block B) := starred (List.map f self).
  (** block.py:142-155 [filter] *)
  Definition c_filter (p : A -> bool) self : M nat (block A) := written (List.filter p self).
  (** block.py:115-131 [collect]; the blocks that the callback gives are not counted *)
  Definition c_collect (f : A -> block B) self : M nat (block B) := written (flat_map f self).
  (** block.py:95-113 [choose]: for every Some a tuple of one (option.py:198-207), a Block of
      it, and an element of the result *)
  Definition c_choose (f : A -> option B) self : M nat (block B) :=
    do acc <- for_in self [] (fun acc x => do l <- written (opt_to_list (f x)); do b <- written l; ret (acc ++ b));
    written acc.
  (** block.py:307-331 [partition]: two lists, then two tuples *)
  Definition c_partition (p : A -> bool) self : M nat (block A * block A) :=
    do l1 <- written (List.filter p self);
    do l2 <- written (List.filter (fun x => negb (p x)) self);
    do b1 <- written l1; do b2 <- written l2; ret (b1, b2).
  (** block.py:488-501 [zip] (without the pairs) *)
  Definition c_zip self (other : block B) : M nat (block (A * B)) := starred (Block.zip self other).
  (** block.py:157-178 [fold], 736-762 [reduce] *)
  Definition c_fold {S} self (f : S -> A -> S) (s : S) : M nat S := ret (fold_left f self s).
  Definition c_reduce self (f : A -> A -> A) : M nat A :=
    match self with
    | [] => raise ValueError
    | _ => do t <- c_tail self; do h <- c_head self; c_fold t f h
    end.
  (** block.py:590-596 [concat] *)
  Definition c_concat (sources : list (block A)) : M nat (block A) := for_in sources [] (fun t s => c_append t s).
End Cost.

(** What users write with them.  Building a Block from the back, element by element: *)
Definition build_up {A} (xs : list A) : M nat (block A) := for_in (rev xs) [] (fun b x => c_cons b x).
(** and the recursion on the structure of a Block, down to the end: [head] and [tail], or a
    match statement with the pattern [Block((head, *tail))] and [Block(tail)] *)
Fixpoint walk {A S} (fuel : nat) (f : S -> A -> S) (s : S) (b : block A) : M nat S :=
  match fuel with
  | 0 => raise OutOfFuel
  | Datatypes.S fuel =>
      if is_empty b then ret s
      else do h <- c_head b; do t <- c_tail b; walk fuel f (f s h) t
  end.

(** extra/result/traversable.py:17-42 [traverse] with a function without effects: fold_back
    makes a list of the source (seq.py:601); the folder (traversable.py:25-35) copies only
    when both are Ok, "Block([h]) + t": a list of one, a tuple of it, and their concatenation. *)
Definition c_folder {B E} (r : result B E) (tail : result (block B) E) : M nat (result (block B) E) :=
  match r, tail with
  | Ok h, Ok t => do l <- written [h]; do b <- written l; do c <- c_append b t; ret (Ok c)
  | Err e, _ => ret (Err e)
  | _, Err e => ret (Err e)
  end.
Definition c_traverse {A B E} (fn : A -> result B E) (lst : block A) : M nat (result (block B) E) :=
  do l <- written lst; for_in (rev l) (Ok []) (fun tail head => c_folder (fn head) tail).
