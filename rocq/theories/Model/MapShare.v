(** The functions of expression/collections/maptree.py that build trees, once more, with the
    identity of the objects: a [MapTreeLeaf] or [MapTreeNode] together with the [Some] around
    it has the number of its creation.  The functions return new objects, or the very
    objects they were given.  [Nothing] is one object for all (option.py:381).  The state is
    the number of the next object and whatever the callbacks act on.  Otherwise the
    definitions are those of MapTree.v.  Definitions only. *)
From Coq Require Import List Bool Arith.
From Verif.Model Require Import Base MapTree.
Import ListNotations.
Local Open Scope nat_scope.
Local Open Scope py_scope.

(** maptree.py:42-59 *)
Inductive itree (K V : Type) : Type :=
| IEmpty
| ILeaf (i : nat) (k : K) (v : V)
| INode (i : nat) (k : K) (v : V) (l r : itree K V) (h : nat).
Arguments IEmpty {K V}.
Arguments ILeaf {K V} i k v.
Arguments INode {K V} i k v l r h.

Section Share.
  Context {U K : Type} `{KeyOrd K}.
  Notation act := (M (nat * U)).

  (** A callback acts on the user's part of the state. *)
  Definition calling {B} (m : M U B) : act B := fun w => let (r, u) := m (snd w) in (r, (fst w, u)).
  (** [Some(MapTreeLeaf(...))], [Some(MapTreeNode(...))]: one object more *)
  Definition new_leaf {V} (k : K) (v : V) : act (itree K V) := fun w => (Ret (ILeaf (fst w) k v), (S (fst w), snd w)).
  Definition new_node {V} (k : K) (v : V) (l r : itree K V) (h : nat) : act (itree K V) :=
    fun w => (Ret (INode (fst w) k v l r h), (S (fst w), snd w)).

  Section Tree.
  Context {V : Type}.

  (** maptree.py:62-63 *)
  Definition i_is_empty (m : itree K V) : bool := match m with IEmpty => true | _ => false end.
  (** maptree.py:80-87 *)
  Definition i_height (m : itree K V) : nat :=
    match m with INode _ _ _ _ _ h => h | ILeaf _ _ _ => 1 | IEmpty => 0 end.

  (** maptree.py:93-100 *)
  Definition i_mk (l : itree K V) (k : K) (v : V) (r : itree K V) : act (itree K V) :=
    let hl := i_height l in
    let hr := i_height r in
    let m := if hl <? hr then hr else hl in
    if m =? 0 then new_leaf k v else new_node k v l r (m + 1).

  (** maptree.py:103-146; the arguments of [mk] are made from the left *)
  Definition i_rebalance (t1 : itree K V) (k : K) (v : V) (t2 : itree K V) : act (itree K V) :=
    let t1h := i_height t1 in
    let t2h := i_height t2 in
    if t1h + TOLERANCE <? t2h then
      match t2 with
      | INode _ k2 v2 l2 r2 _ =>
          if t1h + 1 <? i_height l2 then
            match l2 with
            | INode _ kl vl ll rl _ =>
                do a <- i_mk t1 k v ll; do b <- i_mk rl k2 v2 r2; i_mk a kl vl b
            | ILeaf _ _ _ => raise InternalError
            | IEmpty => raise ValueError
            end
          else do a <- i_mk t1 k v l2; i_mk a k2 v2 r2
      | ILeaf _ _ _ => raise InternalError
      | IEmpty => raise ValueError
      end
    else if t2h + TOLERANCE <? t1h then
      match t1 with
      | INode _ k1 v1 l1 r1 _ =>
          if t2h + 1 <? i_height r1 then
            match r1 with
            | INode _ kr vr lr rr _ =>
                do a <- i_mk l1 k1 v1 lr; do b <- i_mk rr k v t2; i_mk a kr vr b
            | ILeaf _ _ _ => raise InternalError
            | IEmpty => raise ValueError
            end
          else do b <- i_mk r1 k v t2; i_mk l1 k1 v1 b
      | ILeaf _ _ _ => raise InternalError
      | IEmpty => raise ValueError
      end
    else i_mk t1 k v t2.

  (** maptree.py:149-167 *)
  Fixpoint i_add (k : K) (v : V) (m : itree K V) : act (itree K V) :=
    match m with
    | INode _ key value l r h =>
        if ltb k key then do l' <- i_add k v l; i_rebalance l' key value r
        else if eqb k key then new_node k v l r h
        else do r' <- i_add k v r; i_rebalance l key value r'
    | ILeaf _ key value =>
        if ltb k key then new_node k v IEmpty m 2
        else if eqb k key then new_leaf k v
        else new_node k v m IEmpty 2
    | IEmpty => new_leaf k v
    end.

  (** maptree.py:254-265 *)
  Fixpoint i_splice (m : itree K V) : act (K * V * itree K V) :=
    match m with
    | INode _ key value l r _ =>
        if i_is_empty l then ret (key, value, r)
        else do (k3, v3, l') <- i_splice l; do m' <- i_mk l' key value r; ret (k3, v3, m')
    | ILeaf _ key value => ret (key, value, IEmpty)
    | IEmpty => raise InternalError
    end.

  (** maptree.py:268-289 *)
  Fixpoint i_remove (k : K) (m : itree K V) : act (itree K V) :=
    match m with
    | INode _ key value l r _ =>
        if ltb k key then do l' <- i_remove k l; i_rebalance l' key value r
        else if eqb k key then
          if i_is_empty l then ret r
          else if i_is_empty r then ret l
          else do (sk, sv, r') <- i_splice r; i_mk l sk sv r'
        else do r' <- i_remove k r; i_rebalance l key value r'
    | ILeaf _ key value => if eqb k key then ret IEmpty else ret m
    | IEmpty => ret IEmpty
    end.

  (** maptree.py:292-331 *)
  Fixpoint i_change (k : K) (u : option V -> M U (option V)) (m : itree K V) : act (itree K V) :=
    match m with
    | INode _ key value l r h =>
        if ltb k key then do l' <- i_change k u l; i_rebalance l' key value r
        else if eqb k key then
          do o <- calling (u (Some value));
          match o with
          | Some v => new_node k v l r h
          | None =>
              if i_is_empty l then ret r
              else if i_is_empty r then ret l
              else do (sk, sv, r') <- i_splice r; i_mk l sk sv r'
          end
        else do r' <- i_change k u r; i_rebalance l key value r'
    | ILeaf _ key value =>
        if ltb k key then
          do o <- calling (u None);
          match o with Some v => new_node k v IEmpty m 2 | None => ret m end
        else if eqb k key then
          do o <- calling (u (Some value));
          match o with Some v => new_leaf k v | None => ret IEmpty end
        else
          do o <- calling (u None);
          match o with Some v => new_node k v m IEmpty 2 | None => ret m end
    | IEmpty =>
        do o <- calling (u None);
        match o with Some v => new_leaf k v | None => raise EffectErrorExn end
    end.

  (** maptree.py:227-251 *)
  Definition i_filter1 (p : K -> V -> M U bool) (k : K) (v : V) (acc : itree K V) : act (itree K V) :=
    do b <- calling (p k v);
    if b : bool then i_add k v acc else ret acc.
  Fixpoint i_filter_aux (p : K -> V -> M U bool) (m : itree K V) (acc : itree K V) : act (itree K V) :=
    match m with
    | INode _ key value l r _ =>
        do acc <- i_filter_aux p l acc;
        do acc <- i_filter1 p key value acc;
        i_filter_aux p r acc
    | ILeaf _ key value => i_filter1 p key value acc
    | IEmpty => ret acc
    end.
  Definition i_filter (p : K -> V -> M U bool) (m : itree K V) : act (itree K V) := i_filter_aux p m IEmpty.

  (** maptree.py:191-224 *)
  Definition i_partition1 (p : K -> V -> M U bool) (k : K) (v : V)
      (acc : itree K V * itree K V) : act (itree K V * itree K V) :=
    let '(acc1, acc2) := acc in
    do b <- calling (p k v);
    if b : bool then do a <- i_add k v acc1; ret (a, acc2)
    else do a <- i_add k v acc2; ret (acc1, a).
  Fixpoint i_partition_aux (p : K -> V -> M U bool) (m : itree K V)
      (acc : itree K V * itree K V) : act (itree K V * itree K V) :=
    match m with
    | INode _ key value l r _ =>
        do acc <- i_partition_aux p r acc;
        do acc <- i_partition1 p key value acc;
        i_partition_aux p l acc
    | ILeaf _ key value => i_partition1 p key value acc
    | IEmpty => ret acc
    end.
  Definition i_partition (p : K -> V -> M U bool) (m : itree K V) : act (itree K V * itree K V) :=
    i_partition_aux p m (IEmpty, IEmpty).

  (** maptree.py:448-453 (of_list); maptree.py:456-462 (of_seq) adds in the same order *)
  Fixpoint i_of_list (acc : itree K V) (xs : list (K * V)) : act (itree K V) :=
    match xs with
    | [] => ret acc
    | (k, v) :: xs => do acc <- i_add k v acc; i_of_list acc xs
    end.
  End Tree.

  (** maptree.py:398-408 *)
  Fixpoint i_map {V R} (f : K -> V -> M U R) (m : itree K V) : act (itree K R) :=
    match m with
    | INode _ key value l r h =>
        do l2 <- i_map f l; do v2 <- calling (f key value); do r2 <- i_map f r; new_node key v2 l2 r2 h
    | ILeaf _ key value => do v2 <- calling (f key value); new_leaf key v2
    | IEmpty => ret IEmpty
    end.
End Share.
