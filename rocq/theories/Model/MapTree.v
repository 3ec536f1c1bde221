(** Model of expression/collections/maptree.py, function by function.
    Definitions only. *)
From Coq Require Import List ZArith Bool Arith.
From Verif.Model Require Import Base.
Import ListNotations.
Local Open Scope nat_scope.
Local Open Scope py_scope.

(** maptree.py:42-59.  [MapTree = Option[MapTreeLeaf]] where a [MapTreeNode] is a
    [MapTreeLeaf] with children and a cached height.  [Nothing] is [Empty],
    [Some(MapTreeLeaf)] is [Leaf], [Some(MapTreeNode)] is [Node].  Heights are
    Python ints that start at 2 and only grow by +1: modelled as [nat]. *)
Inductive tree (K V : Type) : Type :=
| Empty
| Leaf (k : K) (v : V)
| Node (k : K) (v : V) (l r : tree K V) (h : nat).
Arguments Empty {K V}.
Arguments Leaf {K V} k v.
Arguments Node {K V} k v l r h.

Section Tree.
  Context {K V : Type} `{KeyOrd K}.

  (** maptree.py:62-63 *)
  Definition is_empty (m : tree K V) : bool :=
    match m with Empty => true | _ => false end.

  (** maptree.py:66-73 *)
  Fixpoint size_aux (acc : nat) (m : tree K V) : nat :=
    match m with
    | Node _ _ l r _ => size_aux (size_aux (acc + 1) l) r
    | Leaf _ _ => acc + 1
    | Empty => acc
    end.

  (** maptree.py:76-77 *)
  Definition size (m : tree K V) : nat := size_aux 0 m.

  (** maptree.py:80-87 *)
  Definition height (m : tree K V) : nat :=
    match m with
    | Node _ _ _ _ h => h
    | Leaf _ _ => 1
    | Empty => 0
    end.

  (** maptree.py:90 *)
  Definition TOLERANCE : nat := 2.

  (** maptree.py:93-100 *)
  Definition mk (l : tree K V) (k : K) (v : V) (r : tree K V) : tree K V :=
    let hl := height l in
    let hr := height r in
    let m := if hl <? hr then hr else hl in
    if m =? 0 then Leaf k v else Node k v l r (m + 1).

  (** maptree.py:103-146.  [t.value] on an empty tree raises ValueError
      (option.py, Option.value); a leaf where a node is expected reaches
      [failwith("internal error: Map.rebalance")]. *)
  Definition rebalance (t1 : tree K V) (k : K) (v : V) (t2 : tree K V) : res (tree K V) :=
    let t1h := height t1 in
    let t2h := height t2 in
    if t1h + TOLERANCE <? t2h then
      match t2 with
      | Node k2 v2 l2 r2 _ =>
          if t1h + 1 <? height l2 then
            match l2 with
            | Node kl vl ll rl _ => Ret (mk (mk t1 k v ll) kl vl (mk rl k2 v2 r2))
            | Leaf _ _ => Raise InternalError
            | Empty => Raise ValueError
            end
          else Ret (mk (mk t1 k v l2) k2 v2 r2)
      | Leaf _ _ => Raise InternalError
      | Empty => Raise ValueError
      end
    else if t2h + TOLERANCE <? t1h then
      match t1 with
      | Node k1 v1 l1 r1 _ =>
          if t2h + 1 <? height r1 then
            match r1 with
            | Node kr vr lr rr _ => Ret (mk (mk l1 k1 v1 lr) kr vr (mk rr k v t2))
            | Leaf _ _ => Raise InternalError
            | Empty => Raise ValueError
            end
          else Ret (mk l1 k1 v1 (mk r1 k v t2))
      | Leaf _ _ => Raise InternalError
      | Empty => Raise ValueError
      end
    else Ret (mk t1 k v t2).

  (** maptree.py:149-167 *)
  Fixpoint add (k : K) (v : V) (m : tree K V) : res (tree K V) :=
    match m with
    | Node key value l r h =>
        if ltb k key then dor l' <- add k v l; rebalance l' key value r
        else if eqb k key then Ret (Node k v l r h)
        else dor r' <- add k v r; rebalance l key value r'
    | Leaf key value =>
        if ltb k key then Ret (Node k v Empty m 2)
        else if eqb k key then Ret (Leaf k v)
        else Ret (Node k v m Empty 2)
    | Empty => Ret (Leaf k v)
    end.

  (** maptree.py:170-181.  [==] is tested before [<]. *)
  Fixpoint try_find (k : K) (m : tree K V) : option V :=
    match m with
    | Empty => None
    | Leaf key value => if eqb k key then Some value else None
    | Node key value l r _ =>
        if eqb k key then Some value
        else if ltb k key then try_find k l else try_find k r
    end.

  (** maptree.py:184-188 *)
  Definition find (k : K) (m : tree K V) : res V :=
    match try_find k m with Some v => Ret v | None => Raise KeyError end.

  (** maptree.py:191-202 *)
  Definition partition1 {W} (p : K -> V -> M W bool) (k : K) (v : V)
      (acc : tree K V * tree K V) : M W (tree K V * tree K V) :=
    let '(acc1, acc2) := acc in
    do b <- p k v;
    if b : bool then do a <- lift (add k v acc1); ret (a, acc2)
    else do a <- lift (add k v acc2); ret (acc1, a).

  (** maptree.py:205-218: right subtree first, then the node, then the left. *)
  Fixpoint partition_aux {W} (p : K -> V -> M W bool) (m : tree K V)
      (acc : tree K V * tree K V) : M W (tree K V * tree K V) :=
    match m with
    | Node key value l r _ =>
        do acc <- partition_aux p r acc;
        do acc <- partition1 p key value acc;
        partition_aux p l acc
    | Leaf key value => partition1 p key value acc
    | Empty => ret acc
    end.

  (** maptree.py:221-224 *)
  Definition partition {W} (p : K -> V -> M W bool) (m : tree K V) : M W (tree K V * tree K V) :=
    partition_aux p m (Empty, Empty).

  (** maptree.py:227-231 *)
  Definition filter1 {W} (p : K -> V -> M W bool) (k : K) (v : V) (acc : tree K V) : M W (tree K V) :=
    do b <- p k v;
    if b : bool then lift (add k v acc) else ret acc.

  (** maptree.py:234-247 *)
  Fixpoint filter_aux {W} (p : K -> V -> M W bool) (m : tree K V) (acc : tree K V) : M W (tree K V) :=
    match m with
    | Node key value l r _ =>
        do acc <- filter_aux p l acc;
        do acc <- filter1 p key value acc;
        filter_aux p r acc
    | Leaf key value => filter1 p key value acc
    | Empty => ret acc
    end.

  (** maptree.py:250-251 *)
  Definition filter {W} (f : K -> V -> M W bool) (m : tree K V) : M W (tree K V) :=
    filter_aux f m Empty.

  (** maptree.py:254-265 *)
  Fixpoint splice_out_successor (m : tree K V) : res (K * V * tree K V) :=
    match m with
    | Node key value l r _ =>
        if is_empty l then Ret (key, value, r)
        else dor (k3, v3, l') <- splice_out_successor l; Ret (k3, v3, mk l' key value r)
    | Leaf key value => Ret (key, value, Empty)
    | Empty => Raise InternalError
    end.

  (** maptree.py:268-289 *)
  Fixpoint remove (k : K) (m : tree K V) : res (tree K V) :=
    match m with
    | Node key value l r _ =>
        if ltb k key then dor l' <- remove k l; rebalance l' key value r
        else if eqb k key then
          if is_empty l then Ret r
          else if is_empty r then Ret l
          else dor (sk, sv, r') <- splice_out_successor r; Ret (mk l sk sv r')
        else dor r' <- remove k r; rebalance l key value r'
    | Leaf key value => if eqb k key then Ret Empty else Ret m
    | Empty => Ret Empty
    end.

  (** maptree.py:292-331.  In the last case the code iterates the option itself
      ([for v in u(Nothing):], line 328) and not [.to_list()]: [Option.__iter__]
      (option.py:295-300) raises EffectError when the option is Nothing. *)
  Fixpoint change {W} (k : K) (u : option V -> M W (option V)) (m : tree K V) : M W (tree K V) :=
    match m with
    | Node key value l r h =>
        if ltb k key then do l' <- change k u l; lift (rebalance l' key value r)
        else if eqb k key then
          do o <- u (Some value);
          match o with
          | Some v => ret (Node k v l r h)
          | None =>
              if is_empty l then ret r
              else if is_empty r then ret l
              else lift (dor (sk, sv, r') <- splice_out_successor r; Ret (mk l sk sv r'))
          end
        else do r' <- change k u r; lift (rebalance l key value r')
    | Leaf key value =>
        if ltb k key then
          do o <- u None;
          match o with Some v => ret (Node k v Empty m 2) | None => ret m end
        else if eqb k key then
          do o <- u (Some value);
          match o with Some v => ret (Leaf k v) | None => ret Empty end
        else
          do o <- u None;
          match o with Some v => ret (Node k v m Empty 2) | None => ret m end
    | Empty =>
        do o <- u None;
        match o with Some v => ret (Leaf k v) | None => raise EffectErrorExn end
    end.

  (** maptree.py:334-344 *)
  Fixpoint mem (k : K) (m : tree K V) : bool :=
    match m with
    | Node key _ l r _ => if ltb k key then mem k l else eqb k key || mem k r
    | Leaf key _ => eqb k key
    | Empty => false
    end.

  (** maptree.py:347-357 *)
  Fixpoint iter {W} (fn : K -> V -> M W unit) (m : tree K V) : M W unit :=
    match m with
    | Node key value l r _ => do _ <- iter fn l; do _ <- fn key value; iter fn r
    | Leaf key value => fn key value
    | Empty => ret tt
    end.

  (** maptree.py:360-375 *)
  Fixpoint try_pick {W R} (f : K -> V -> M W (option R)) (m : tree K V) : M W (option R) :=
    match m with
    | Node key value l r _ =>
        do res <- try_pick f l;
        match res with
        | Some _ => ret res
        | None =>
            do res <- f key value;
            match res with
            | Some _ => ret res
            | None => try_pick f r
            end
        end
    | Leaf key value => f key value
    | Empty => ret None
    end.

  (** maptree.py:378-385; callbacks return Python booleans. *)
  Fixpoint exists_ {W} (f : K -> V -> M W bool) (m : tree K V) : M W bool :=
    match m with
    | Node key value l r _ =>
        do b <- exists_ f l;
        if b : bool then ret true
        else do b <- f key value;
             if b : bool then ret true else exists_ f r
    | Leaf key value => f key value
    | Empty => ret false
    end.

  (** maptree.py:388-395 *)
  Fixpoint forall_ {W} (f : K -> V -> M W bool) (m : tree K V) : M W bool :=
    match m with
    | Node key value l r _ =>
        do b <- forall_ f l;
        if b : bool then
          do b <- f key value;
          if b : bool then forall_ f r else ret false
        else ret false
    | Leaf key value => f key value
    | Empty => ret true
    end.

  (** maptree.py:411-420 *)
  Fixpoint fold_back {W R} (f : K * V -> R -> M W R) (m : tree K V) (x : R) : M W R :=
    match m with
    | Node key value l r _ =>
        do x <- fold_back f r x; do x <- f (key, value) x; fold_back f l x
    | Leaf key value => f (key, value) x
    | Empty => ret x
    end.

  (** maptree.py:423-432 *)
  Fixpoint fold {W R} (f : R -> K * V -> M W R) (x : R) (m : tree K V) : M W R :=
    match m with
    | Node key value l r _ =>
        do x <- fold f x l; do x <- f x (key, value); fold f x r
    | Leaf key value => f x (key, value)
    | Empty => ret x
    end.

  (** maptree.py:435-445; a [Block] is the list of its elements (block.py:86-89),
      [acc.cons(x)] is [x :: acc] (block.py:133-140). *)
  Fixpoint to_list_loop (m : tree K V) (acc : list (K * V)) : list (K * V) :=
    match m with
    | Node key value l r _ => to_list_loop l ((key, value) :: to_list_loop r acc)
    | Leaf key value => (key, value) :: acc
    | Empty => acc
    end.
  Definition to_list (m : tree K V) : list (K * V) := to_list_loop m [].

  (** maptree.py:448-453; [Block.fold] (block.py:157-178) is [functools.reduce]. *)
  Fixpoint of_list_from (acc : tree K V) (xs : list (K * V)) : res (tree K V) :=
    match xs with
    | [] => Ret acc
    | (k, v) :: xs => dor acc <- add k v acc; of_list_from acc xs
    end.
  Definition of_list (xs : list (K * V)) : res (tree K V) := of_list_from Empty xs.

  (** maptree.py:456-462: one nested Python call per element.  [limit] is the number
      of further nested calls the interpreter's recursion limit allows; [None] means
      no limit.  The depth used by [add] itself is not counted here. *)
  Fixpoint mk_from_iterator (limit : option nat) (acc : tree K V) (xs : list (K * V)) : res (tree K V) :=
    match limit with
    | Some 0 => Raise RecursionError
    | _ =>
        let limit := option_map pred limit in
        match xs with
        | [] => Ret acc
        | (k, v) :: xs => dor acc <- add k v acc; mk_from_iterator limit acc xs
        end
    end.

  (** maptree.py:465-467 *)
  Definition of_seq (limit : option nat) (xs : list (K * V)) : res (tree K V) :=
    mk_from_iterator limit Empty xs.

  (** maptree.py:476-487.  The recursion is modelled with fuel: each nested Python
      call uses one unit, and running out is RecursionError. *)
  Fixpoint collapseLHS (fuel : nat) (stack : list (tree K V)) : res (list (tree K V)) :=
    match fuel with
    | 0 => Raise RecursionError
    | S fuel =>
        match stack with
        | [] => Ret []
        | m :: rest =>
            match m with
            | Node key value l r _ => collapseLHS fuel (l :: Leaf key value :: r :: rest)
            | Leaf _ _ => Ret stack
            | Empty => collapseLHS fuel rest
            end
        end
    end.

  (** maptree.py:490-492 (MkIterator.__init__): the iterator object is its stack. *)
  Definition mk_iterator (fuel : nat) (m : tree K V) : res (list (tree K V)) :=
    collapseLHS fuel [m].

  (** maptree.py:494-506 (MkIterator.__next__): [Ret None] is StopIteration, otherwise
      the item and the updated stack. *)
  Definition iter_next (fuel : nat) (stack : list (tree K V)) : res (option ((K * V) * list (tree K V))) :=
    match stack with
    | [] => Ret None
    | m :: rest =>
        match m with
        | Node _ _ _ _ _ => Raise InternalError
        | Leaf key value => dor stack <- collapseLHS fuel rest; Ret (Some ((key, value), stack))
        | Empty => Raise InternalError
        end
    end.

  (** Running a Python [for] loop over the iterator to the end and collecting the
      items; [n] bounds the number of items (OutOfFuel when exceeded). *)
  Fixpoint drain (n fuel : nat) (stack : list (tree K V)) : res (list (K * V)) :=
    match n with
    | 0 => Raise OutOfFuel
    | S n =>
        dor o <- iter_next fuel stack;
        match o with
        | None => Ret []
        | Some (kv, stack) => dor rest <- drain n fuel stack; Ret (kv :: rest)
        end
    end.
End Tree.

(** maptree.py:398-408; the value type changes, hence outside the section. *)
Fixpoint map {K V W R} (f : K -> V -> M W R) (m : tree K V) : M W (tree K R) :=
  match m with
  | Node key value l r h =>
      do l2 <- map f l; do v2 <- f key value; do r2 <- map f r; ret (Node key v2 l2 r2 h)
  | Leaf key value => do v2 <- f key value; ret (Leaf key v2)
  | Empty => ret Empty
  end.
