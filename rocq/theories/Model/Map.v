(** Model of expression/collections/map.py: the public Map class over maptree.
    A [Map] object is its tree ([self._tree], map.py:46-47).  Methods that only forward
    to a maptree function (add, remove, change, filter, partition, map, fold,
    fold_back, iterate, exists, for_all, try_find, try_pick, contains_key, is_empty,
    to_list, of_seq, of_block; map.py:49-199 and the module functions 259-489) are that
    function.  Definitions only. *)
From Coq Require Import List ZArith Bool Arith String.
From Verif.Model Require Import Base MapTree.
Import ListNotations.
Local Open Scope nat_scope.
Local Open Scope py_scope.

Section Map.
  Context {K V : Type} `{KeyOrd K}.

  (** map.py:201-209 (Map.__hash__): loop over [mk_iterator]; [khash]/[vhash] are
      Python's [hash] on keys and values.  [n] bounds the loop, [fuel] the recursion of
      the iterator. *)
  Definition combine_hash (x y : Z) : Z := (Z.shiftl x 1 + y + 631)%Z.
  Fixpoint hash_loop (khash : K -> Z) (vhash : V -> Z) (n fuel : nat) (res : Z)
      (stack : list (tree K V)) : Base.res Z :=
    match n with
    | 0 => Raise OutOfFuel
    | S n =>
        dor o <- iter_next fuel stack;
        match o with
        | None => Ret res
        | Some ((x, y), stack) =>
            let res := combine_hash res (khash x) in
            let res := combine_hash res (vhash y) in
            hash_loop khash vhash n fuel res stack
        end
    end.
  Definition map_hash (khash : K -> Z) (vhash : V -> Z) (n fuel : nat) (m : tree K V) : Base.res Z :=
    dor it <- mk_iterator fuel m; hash_loop khash vhash n fuel 0%Z it.

  (** map.py:225-240 (Map.__eq__), both operands Maps.  [veq] is Python's comparison of
      the values as tuple items; keys are compared with [eqb].  [to_seq] is a generator
      that forwards [next] to the MkIterator (maptree.py:521-532, seq.py:1026-1032). *)
  Fixpoint eq_loop (veq : V -> V -> bool) (n fuel : nat) (s1 s2 : list (tree K V)) : Base.res bool :=
    match n with
    | 0 => Raise OutOfFuel
    | S n =>
        dor o <- iter_next fuel s1;
        match o with
        | None => Ret true
        | Some ((k1, v1), s1) =>
            dor o' <- iter_next fuel s2;
            match o' with
            | None => Ret false
            | Some ((k2, v2), s2) =>
                if negb (eqb k1 k2 && veq v1 v2) then Ret false
                else eq_loop veq n fuel s1 s2
            end
        end
    end.
  Definition map_eq (veq : V -> V -> bool) (n fuel : nat) (m1 m2 : tree K V) : Base.res bool :=
    dor it2 <- mk_iterator fuel m2;
    dor it1 <- mk_iterator fuel m1;
    eq_loop veq n fuel it1 it2.

  (** map.py:146-152 (Map.to_seq) iterated to the end. *)
  Definition to_seq (n fuel : nat) (m : tree K V) : Base.res (list (K * V)) :=
    dor it <- mk_iterator fuel m; drain n fuel it.

  (** map.py:214-216 (Map.__iter__) iterated to the end: the keys. *)
  Definition keys (n fuel : nat) (m : tree K V) : Base.res (list K) :=
    rmap (List.map fst) (to_seq n fuel m).

  (** [dict(pairs)]: later pairs replace the value, keeping the first key object and its
      position (Python dict). *)
  Fixpoint pydict_set (d : list (K * V)) (k : K) (v : V) : list (K * V) :=
    match d with
    | [] => [(k, v)]
    | (k', v') :: d => if eqb k' k then (k', v) :: d else (k', v') :: pydict_set d k v
    end.
  Definition pydict (l : list (K * V)) : list (K * V) :=
    fold_left (fun d kv => pydict_set d (fst kv) (snd kv)) l [].

  (** map.py:136-138 (Map.items): the items of [dict(to_seq)]. *)
  Definition items (n fuel : nat) (m : tree K V) : Base.res (list (K * V)) :=
    rmap pydict (to_seq n fuel m).

  (** map.py:154-159 (Map.try_get_value): the caller's list after the call, and the
      returned flag. *)
  Definition try_get_value (k : K) (value : list V) (m : tree K V) : bool * list V :=
    match try_find k m with
    | Some v => (true, value ++ [v])
    | None => (false, value)
    end.

  (** map.py:211-212 (Map.__getitem__) and 312-324 (find) *)
  Definition getitem (k : K) (m : tree K V) : Base.res V := find k m.

  (** map.py:218-220 (Map.__len__), 303-305 (count) *)
  Definition len (m : tree K V) : nat := size m.

  (** map.py:242-243 (Map.__bool__) *)
  Definition map_bool (m : tree K V) : bool := negb (is_empty m).

  (** map.py:365-370 (pick): [for res in table.try_pick(chooser)] iterates the option
      itself, so Nothing raises EffectError inside the loop (option.py:295-300) and the
      [else: raise KeyError()] branch cannot be taken. *)
  Definition pick {W R} (f : K -> V -> M W (option R)) (m : tree K V) : M W R :=
    do o <- try_pick f m;
    match o with Some r => ret r | None => raise EffectErrorExn end.

  (** map.py:245-253 (Map.__str__); [show] is [to_str], the text of one item. *)
  Fixpoint join (sep : string) (l : list string) : string :=
    match l with
    | [] => EmptyString
    | [x] => x
    | x :: l => x ++ sep ++ join sep l
    end%string.
  Definition map_str (show : K * V -> string) (n fuel : nat) (m : tree K V) : Base.res string :=
    rmap (fun l => "map [" ++ join "; " (List.map show l) ++ "]")%string (to_seq n fuel m).
End Map.
