(** The work of reading a Map: expression/collections/maptree.py and map.py again, with a
    count of the calls of the functions below and of the references that Block operations
    copy (BlockCost.v).  What the functions give is in MapTree.v and Map.v.  Definitions
    only. *)
From Coq Require Import List ZArith Bool Arith.
From Verif.Model Require Import Base BlockCost MapTree Map.
Import ListNotations.
Local Open Scope nat_scope.
Local Open Scope py_scope.

(** one call *)
Definition called : M nat unit := fun count => (Ret tt, S count).

Section Work.
  Context {K V : Type} `{KeyOrd K}.

  (** maptree.py:66-77, map.py:218-220 [__len__] *)
  Fixpoint w_size (acc : nat) (m : tree K V) : M nat nat :=
    do _ <- called;
    match m with
    | Node _ _ l r _ => do n <- w_size (acc + 1) l; w_size n r
    | Leaf _ _ => ret (acc + 1)
    | Empty => ret acc
    end.

  (** maptree.py:435-445, map.py:143-144 [to_list] *)
  Fixpoint w_to_list_loop (m : tree K V) (acc : list (K * V)) : M nat (list (K * V)) :=
    do _ <- called;
    match m with
    | Node key value l r _ => do acc <- w_to_list_loop r acc; do acc <- c_cons acc (key, value); w_to_list_loop l acc
    | Leaf key value => c_cons acc (key, value)
    | Empty => ret acc
    end.
  Definition w_to_list (m : tree K V) : M nat (list (K * V)) := w_to_list_loop m [].

  (** maptree.py:476-487 *)
  Fixpoint w_collapseLHS (fuel : nat) (stack : list (tree K V)) : M nat (list (tree K V)) :=
    match fuel with
    | 0 => raise RecursionError
    | S fuel =>
        do _ <- called;
        match stack with
        | [] => ret []
        | _ =>
            do m <- c_head stack;
            do rest <- c_tail stack;
            match m with
            | Node key value l r _ =>
                do s <- c_cons rest r; do s <- c_cons s (Leaf key value); do s <- c_cons s l;
                w_collapseLHS fuel s
            | Leaf _ _ => ret stack
            | Empty => w_collapseLHS fuel rest
            end
        end
    end.
  (** maptree.py:490-492, 517-518; [singleton] (block.py:870-871) makes a tuple of one *)
  Definition w_mk_iterator (fuel : nat) (m : tree K V) : M nat (list (tree K V)) :=
    do s <- written [m]; w_collapseLHS fuel s.
  (** maptree.py:494-506 *)
  Definition w_iter_next (fuel : nat) (stack : list (tree K V)) : M nat (option ((K * V) * list (tree K V))) :=
    do _ <- called;
    match stack with
    | [] => ret None
    | _ =>
        do rest <- c_tail stack;
        do m <- c_head stack;
        match m with
        | Leaf key value => do stack <- w_collapseLHS fuel rest; ret (Some ((key, value), stack))
        | _ => raise InternalError
        end
    end.
  (** a [for] loop over the iterator; map.py:146-152 [to_seq] and 214-216 [__iter__] add the
      resumption of one generator for every item, which is not counted *)
  Fixpoint w_drain (n fuel : nat) (stack : list (tree K V)) : M nat (list (K * V)) :=
    match n with
    | 0 => raise OutOfFuel
    | S n =>
        do o <- w_iter_next fuel stack;
        match o with
        | None => ret []
        | Some (kv, stack) => do rest <- w_drain n fuel stack; ret (kv :: rest)
        end
    end.
  Definition w_to_seq (n fuel : nat) (m : tree K V) : M nat (list (K * V)) :=
    do it <- w_mk_iterator fuel m; w_drain n fuel it.

  (** map.py:225-240 [__eq__]; what comparing two items costs is not counted *)
  Fixpoint w_eq_loop (veq : V -> V -> bool) (n fuel : nat) (s1 s2 : list (tree K V)) : M nat bool :=
    match n with
    | 0 => raise OutOfFuel
    | S n =>
        do o <- w_iter_next fuel s1;
        match o with
        | None => ret true
        | Some ((k1, v1), s1) =>
            do o' <- w_iter_next fuel s2;
            match o' with
            | None => ret false
            | Some ((k2, v2), s2) => if negb (eqb k1 k2 && veq v1 v2) then ret false else w_eq_loop veq n fuel s1 s2
            end
        end
    end.
  Definition w_map_eq (veq : V -> V -> bool) (n fuel : nat) (m1 m2 : tree K V) : M nat bool :=
    do it2 <- w_mk_iterator fuel m2; do it1 <- w_mk_iterator fuel m1; w_eq_loop veq n fuel it1 it2.

  (** map.py:201-209 [__hash__].  Python's integers are as long as they need to be: counted
      here are the bits of the result of each [combine_hash]. *)
  Definition bits (z : Z) : nat := S (Z.to_nat (Z.log2 (Z.abs z))).
  Definition w_combine_hash (x y : Z) : M nat Z := fun count => let z := combine_hash x y in (Ret z, count + bits z).
  Fixpoint w_hash_loop (khash : K -> Z) (vhash : V -> Z) (n fuel : nat) (res : Z) (stack : list (tree K V)) : M nat Z :=
    match n with
    | 0 => raise OutOfFuel
    | S n =>
        do o <- w_iter_next fuel stack;
        match o with
        | None => ret res
        | Some ((x, y), stack) =>
            do res <- w_combine_hash res (khash x); do res <- w_combine_hash res (vhash y);
            w_hash_loop khash vhash n fuel res stack
        end
    end.
  Definition w_map_hash (khash : K -> Z) (vhash : V -> Z) (n fuel : nat) (m : tree K V) : M nat Z :=
    do it <- w_mk_iterator fuel m; w_hash_loop khash vhash n fuel 0%Z it.
End Work.
