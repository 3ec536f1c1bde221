(** The recursive functions of expression/collections/maptree.py again, now with the
    stack: [d] is the number of nested calls that the interpreter's recursion limit still
    allows, and a call without one left raises RecursionError.  Counted are the calls of
    the recursive functions themselves and of filter1/partition1; the calls that end
    before the next recursive call (height, mk, rebalance, Option.to_list, the classes) and
    the callbacks' own calls are left out, that is a fixed number of frames.  Otherwise the
    definitions are those of MapTree.v. *)
From Coq Require Import List ZArith Bool Arith.
From Verif.Model Require Import Base MapTree.
Import ListNotations.
Local Open Scope nat_scope.
Local Open Scope py_scope.

(** Entering a function. *)
Definition frame {B} (d : nat) (body : nat -> res B) : res B :=
  match d with 0 => Raise RecursionError | S d => body d end.
Definition framem {W B} (d : nat) (body : nat -> M W B) : M W B :=
  match d with 0 => raise RecursionError | S d => body d end.

Section Depth.
  Context {K V : Type} `{KeyOrd K}.

  (** maptree.py:66-73 *)
  Fixpoint size_in (d : nat) (acc : nat) (m : tree K V) : res nat :=
    frame d (fun d =>
      match m with
      | Node _ _ l r _ => dor n <- size_in d (acc + 1) l; size_in d n r
      | Leaf _ _ => Ret (acc + 1)
      | Empty => Ret acc
      end).

  (** maptree.py:149-167 *)
  Fixpoint add_in (d : nat) (k : K) (v : V) (m : tree K V) : res (tree K V) :=
    frame d (fun d =>
      match m with
      | Node key value l r h =>
          if ltb k key then dor l' <- add_in d k v l; rebalance l' key value r
          else if eqb k key then Ret (Node k v l r h)
          else dor r' <- add_in d k v r; rebalance l key value r'
      | Leaf key value =>
          if ltb k key then Ret (Node k v Empty m 2)
          else if eqb k key then Ret (Leaf k v)
          else Ret (Node k v m Empty 2)
      | Empty => Ret (Leaf k v)
      end).

  (** maptree.py:170-181 *)
  Fixpoint try_find_in (d : nat) (k : K) (m : tree K V) : res (option V) :=
    frame d (fun d =>
      match m with
      | Empty => Ret None
      | Leaf key value => Ret (if eqb k key then Some value else None)
      | Node key value l r _ =>
          if eqb k key then Ret (Some value)
          else if ltb k key then try_find_in d k l else try_find_in d k r
      end).

  (** maptree.py:334-344 *)
  Fixpoint mem_in (d : nat) (k : K) (m : tree K V) : res bool :=
    frame d (fun d =>
      match m with
      | Node key _ l r _ => if ltb k key then mem_in d k l else if eqb k key then Ret true else mem_in d k r
      | Leaf key _ => Ret (eqb k key)
      | Empty => Ret false
      end).

  (** maptree.py:254-265 *)
  Fixpoint splice_in (d : nat) (m : tree K V) : res (K * V * tree K V) :=
    frame d (fun d =>
      match m with
      | Node key value l r _ =>
          if is_empty l then Ret (key, value, r)
          else dor (k3, v3, l') <- splice_in d l; Ret (k3, v3, mk l' key value r)
      | Leaf key value => Ret (key, value, Empty)
      | Empty => Raise InternalError
      end).

  (** maptree.py:268-289 *)
  Fixpoint remove_in (d : nat) (k : K) (m : tree K V) : res (tree K V) :=
    frame d (fun d =>
      match m with
      | Node key value l r _ =>
          if ltb k key then dor l' <- remove_in d k l; rebalance l' key value r
          else if eqb k key then
            if is_empty l then Ret r
            else if is_empty r then Ret l
            else dor (sk, sv, r') <- splice_in d r; Ret (mk l sk sv r')
          else dor r' <- remove_in d k r; rebalance l key value r'
      | Leaf key value => if eqb k key then Ret Empty else Ret m
      | Empty => Ret Empty
      end).

  (** maptree.py:292-331 *)
  Fixpoint change_in {W} (d : nat) (k : K) (u : option V -> M W (option V)) (m : tree K V) : M W (tree K V) :=
    framem d (fun d =>
      match m with
      | Node key value l r h =>
          if ltb k key then do l' <- change_in d k u l; lift (rebalance l' key value r)
          else if eqb k key then
            do o <- u (Some value);
            match o with
            | Some v => ret (Node k v l r h)
            | None =>
                if is_empty l then ret r
                else if is_empty r then ret l
                else lift (dor (sk, sv, r') <- splice_in d r; Ret (mk l sk sv r'))
            end
          else do r' <- change_in d k u r; lift (rebalance l key value r')
      | Leaf key value =>
          if ltb k key then
            do o <- u None;
            match o with Some v => ret (Node k v Empty m 2) | None => ret m end
          else if eqb k key then
            do o <- u (Some value);
            match o with Some v => ret (Leaf k v) | None => ret Empty end
          else
            do o <- u None;
            match o with Some v => ret (Node k v m Empty 2) | None => ret m end
      | Empty =>
          do o <- u None;
          match o with Some v => ret (Leaf k v) | None => raise EffectErrorExn end
      end).

  (** maptree.py:347-357 *)
  Fixpoint iter_in {W} (d : nat) (fn : K -> V -> M W unit) (m : tree K V) : M W unit :=
    framem d (fun d =>
      match m with
      | Node key value l r _ => do _ <- iter_in d fn l; do _ <- fn key value; iter_in d fn r
      | Leaf key value => fn key value
      | Empty => ret tt
      end).

  (** maptree.py:360-375 *)
  Fixpoint try_pick_in {W R} (d : nat) (f : K -> V -> M W (option R)) (m : tree K V) : M W (option R) :=
    framem d (fun d =>
      match m with
      | Node key value l r _ =>
          do res <- try_pick_in d f l;
          match res with
          | Some _ => ret res
          | None =>
              do res <- f key value;
              match res with
              | Some _ => ret res
              | None => try_pick_in d f r
              end
          end
      | Leaf key value => f key value
      | Empty => ret None
      end).

  (** maptree.py:378-385, 388-395 *)
  Fixpoint exists_in {W} (d : nat) (f : K -> V -> M W bool) (m : tree K V) : M W bool :=
    framem d (fun d =>
      match m with
      | Node key value l r _ =>
          do b <- exists_in d f l;
          if b : bool then ret true
          else do b <- f key value;
               if b : bool then ret true else exists_in d f r
      | Leaf key value => f key value
      | Empty => ret false
      end).
  Fixpoint forall_in {W} (d : nat) (f : K -> V -> M W bool) (m : tree K V) : M W bool :=
    framem d (fun d =>
      match m with
      | Node key value l r _ =>
          do b <- forall_in d f l;
          if b : bool then
            do b <- f key value;
            if b : bool then forall_in d f r else ret false
          else ret false
      | Leaf key value => f key value
      | Empty => ret true
      end).

  (** maptree.py:411-420, 423-432 *)
  Fixpoint fold_back_in {W R} (d : nat) (f : K * V -> R -> M W R) (m : tree K V) (x : R) : M W R :=
    framem d (fun d =>
      match m with
      | Node key value l r _ =>
          do x <- fold_back_in d f r x; do x <- f (key, value) x; fold_back_in d f l x
      | Leaf key value => f (key, value) x
      | Empty => ret x
      end).
  Fixpoint fold_in {W R} (d : nat) (f : R -> K * V -> M W R) (x : R) (m : tree K V) : M W R :=
    framem d (fun d =>
      match m with
      | Node key value l r _ =>
          do x <- fold_in d f x l; do x <- f x (key, value); fold_in d f x r
      | Leaf key value => f x (key, value)
      | Empty => ret x
      end).

  (** maptree.py:435-445, the inner function [loop] *)
  Fixpoint to_list_in (d : nat) (m : tree K V) (acc : list (K * V)) : res (list (K * V)) :=
    frame d (fun d =>
      match m with
      | Node key value l r _ => dor rest <- to_list_in d r acc; to_list_in d l ((key, value) :: rest)
      | Leaf key value => Ret ((key, value) :: acc)
      | Empty => Ret acc
      end).

  (** maptree.py:227-247 *)
  Definition filter1_in {W} (d : nat) (p : K -> V -> M W bool) (k : K) (v : V) (acc : tree K V) : M W (tree K V) :=
    framem d (fun d =>
      do b <- p k v;
      if b : bool then lift (add_in d k v acc) else ret acc).
  Fixpoint filter_in {W} (d : nat) (p : K -> V -> M W bool) (m : tree K V) (acc : tree K V) : M W (tree K V) :=
    framem d (fun d =>
      match m with
      | Node key value l r _ =>
          do acc <- filter_in d p l acc;
          do acc <- filter1_in d p key value acc;
          filter_in d p r acc
      | Leaf key value => filter1_in d p key value acc
      | Empty => ret acc
      end).

  (** maptree.py:191-218 *)
  Definition partition1_in {W} (d : nat) (p : K -> V -> M W bool) (k : K) (v : V)
      (acc : tree K V * tree K V) : M W (tree K V * tree K V) :=
    framem d (fun d =>
      let '(acc1, acc2) := acc in
      do b <- p k v;
      if b : bool then do a <- lift (add_in d k v acc1); ret (a, acc2)
      else do a <- lift (add_in d k v acc2); ret (acc1, a)).
  Fixpoint partition_in {W} (d : nat) (p : K -> V -> M W bool) (m : tree K V)
      (acc : tree K V * tree K V) : M W (tree K V * tree K V) :=
    framem d (fun d =>
      match m with
      | Node key value l r _ =>
          do acc <- partition_in d p r acc;
          do acc <- partition1_in d p key value acc;
          partition_in d p l acc
      | Leaf key value => partition1_in d p key value acc
      | Empty => ret acc
      end).

  (** maptree.py:448-453: the fold is a loop, each step calls folder and add *)
  Fixpoint of_list_in (d : nat) (acc : tree K V) (xs : list (K * V)) : res (tree K V) :=
    match xs with
    | [] => Ret acc
    | (k, v) :: xs => dor acc <- frame d (fun d => add_in d k v acc); of_list_in d acc xs
    end.
End Depth.

(** maptree.py:398-408 *)
Fixpoint map_in {K V W R} (d : nat) (f : K -> V -> M W R) (m : tree K V) : M W (tree K R) :=
  framem d (fun d =>
    match m with
    | Node key value l r h =>
        do l2 <- map_in d f l; do v2 <- f key value; do r2 <- map_in d f r; ret (Node key v2 l2 r2 h)
    | Leaf key value => do v2 <- f key value; ret (Leaf key v2)
    | Empty => ret Empty
    end).
