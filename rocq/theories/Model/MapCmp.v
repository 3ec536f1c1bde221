(** The functions of expression/collections/maptree.py that compare keys, once more, for keys
    whose [__lt__] and [__eq__] are any methods at all: they may act on the world, raise,
    and need not be an order.  [lt k key] and [eq k key] are [k < key] and [k == key] (the
    truth of what they give).  Otherwise the definitions are those of MapTree.v.
    Definitions only. *)
From Coq Require Import List Bool Arith.
From Verif.Model Require Import Base MapTree.
Import ListNotations.
Local Open Scope py_scope.

Section Cmp.
  Context {W K V : Type}.
  Variable lt eq : K -> K -> M W bool.

  (** maptree.py:149-167 *)
  Fixpoint add_c (k : K) (v : V) (m : tree K V) : M W (tree K V) :=
    match m with
    | Node key value l r h =>
        do b <- lt k key;
        if b : bool then do l' <- add_c k v l; lift (rebalance l' key value r)
        else
          do b <- eq k key;
          if b : bool then ret (Node k v l r h)
          else do r' <- add_c k v r; lift (rebalance l key value r')
    | Leaf key value =>
        do b <- lt k key;
        if b : bool then ret (Node k v Empty m 2)
        else
          do b <- eq k key;
          if b : bool then ret (Leaf k v) else ret (Node k v m Empty 2)
    | Empty => ret (Leaf k v)
    end.

  (** maptree.py:170-181 *)
  Fixpoint try_find_c (k : K) (m : tree K V) : M W (option V) :=
    match m with
    | Empty => ret None
    | Leaf key value => do b <- eq k key; if b : bool then ret (Some value) else ret None
    | Node key value l r _ =>
        do b <- eq k key;
        if b : bool then ret (Some value)
        else do b <- lt k key; if b : bool then try_find_c k l else try_find_c k r
    end.
  (** maptree.py:184-188 *)
  Definition find_c (k : K) (m : tree K V) : M W V :=
    do o <- try_find_c k m; match o with Some v => ret v | None => raise KeyError end.

  (** maptree.py:334-344 *)
  Fixpoint mem_c (k : K) (m : tree K V) : M W bool :=
    match m with
    | Node key _ l r _ =>
        do b <- lt k key;
        if b : bool then mem_c k l
        else do b <- eq k key; if b : bool then ret true else mem_c k r
    | Leaf key _ => eq k key
    | Empty => ret false
    end.

  (** maptree.py:268-289 *)
  Fixpoint remove_c (k : K) (m : tree K V) : M W (tree K V) :=
    match m with
    | Node key value l r _ =>
        do b <- lt k key;
        if b : bool then do l' <- remove_c k l; lift (rebalance l' key value r)
        else
          do b <- eq k key;
          if b : bool then
            if is_empty l then ret r
            else if is_empty r then ret l
            else lift (dor (sk, sv, r') <- splice_out_successor r; Ret (mk l sk sv r'))
          else do r' <- remove_c k r; lift (rebalance l key value r')
    | Leaf key value => do b <- eq k key; if b : bool then ret Empty else ret m
    | Empty => ret Empty
    end.

  (** maptree.py:292-331 *)
  Fixpoint change_c (k : K) (u : option V -> M W (option V)) (m : tree K V) : M W (tree K V) :=
    match m with
    | Node key value l r h =>
        do b <- lt k key;
        if b : bool then do l' <- change_c k u l; lift (rebalance l' key value r)
        else
          do b <- eq k key;
          if b : bool then
            do o <- u (Some value);
            match o with
            | Some v => ret (Node k v l r h)
            | None =>
                if is_empty l then ret r
                else if is_empty r then ret l
                else lift (dor (sk, sv, r') <- splice_out_successor r; Ret (mk l sk sv r'))
            end
          else do r' <- change_c k u r; lift (rebalance l key value r')
    | Leaf key value =>
        do b <- lt k key;
        if b : bool then
          do o <- u None;
          match o with Some v => ret (Node k v Empty m 2) | None => ret m end
        else
          do b <- eq k key;
          if b : bool then
            do o <- u (Some value);
            match o with Some v => ret (Leaf k v) | None => ret Empty end
          else
            do o <- u None;
            match o with Some v => ret (Node k v m Empty 2) | None => ret m end
    | Empty =>
        do o <- u None;
        match o with Some v => ret (Leaf k v) | None => raise EffectErrorExn end
    end.

  (** maptree.py:227-251 *)
  Definition filter1_c (p : K -> V -> M W bool) (k : K) (v : V) (acc : tree K V) : M W (tree K V) :=
    do b <- p k v;
    if b : bool then add_c k v acc else ret acc.
  Fixpoint filter_aux_c (p : K -> V -> M W bool) (m : tree K V) (acc : tree K V) : M W (tree K V) :=
    match m with
    | Node key value l r _ =>
        do acc <- filter_aux_c p l acc;
        do acc <- filter1_c p key value acc;
        filter_aux_c p r acc
    | Leaf key value => filter1_c p key value acc
    | Empty => ret acc
    end.
  Definition filter_c (p : K -> V -> M W bool) (m : tree K V) : M W (tree K V) := filter_aux_c p m Empty.

  (** maptree.py:191-224 *)
  Definition partition1_c (p : K -> V -> M W bool) (k : K) (v : V)
      (acc : tree K V * tree K V) : M W (tree K V * tree K V) :=
    let '(acc1, acc2) := acc in
    do b <- p k v;
    if b : bool then do a <- add_c k v acc1; ret (a, acc2)
    else do a <- add_c k v acc2; ret (acc1, a).
  Fixpoint partition_aux_c (p : K -> V -> M W bool) (m : tree K V)
      (acc : tree K V * tree K V) : M W (tree K V * tree K V) :=
    match m with
    | Node key value l r _ =>
        do acc <- partition_aux_c p r acc;
        do acc <- partition1_c p key value acc;
        partition_aux_c p l acc
    | Leaf key value => partition1_c p key value acc
    | Empty => ret acc
    end.
  Definition partition_c (p : K -> V -> M W bool) (m : tree K V) : M W (tree K V * tree K V) :=
    partition_aux_c p m (Empty, Empty).

  (** maptree.py:448-462: of_list and of_seq add one item after the other *)
  Fixpoint of_list_c (acc : tree K V) (xs : list (K * V)) : M W (tree K V) :=
    match xs with
    | [] => ret acc
    | (k, v) :: xs => do acc <- add_c k v acc; of_list_c acc xs
    end.
End Cmp.
