(** Methods that TypedArray and Map do not define but inherit from
    collections.abc.MutableSequence and collections.abc.Mapping (array.py:168, map.py:43),
    and reversed() of a Block (block.py:63: a Collection, so reversed() uses [__len__] and
    [__getitem__]).  The bodies are Python's, in Lib/_collections_abc.py; they call the
    methods of the library modelled in Array.v, Block.v and Map.v.  Array.v has append,
    extend, pop, clear, reverse and remove.  Definitions only. *)
From Coq Require Import List ZArith Bool.
From Verif.Model Require Import Base PyList Block Array MapTree Map.
Import ListNotations.
Local Open Scope list_scope.
Local Open Scope py_scope.

Section Sequence.
  Context {F U : Type} `{Floats F} (long64 : bool).
  Notation val := (pyval F U).
  Implicit Types a : tarray F U.
  Context {W : Type}.

  (** Sequence.__contains__ over array.py:456-457 [__iter__]: [eq v] is
      [v is value or v == value]; it may call code of the user *)
  Definition arr_contains (eq : val -> M W bool) a : M W bool :=
    (fix go (xs : list val) : M W bool :=
       match xs with [] => ret false | v :: xs => do b <- eq v; if b : bool then ret true else go xs end) (a_elems a).

  (** Sequence.index over array.py:453-454 [__len__] and 462-463 [__getitem__].  The
      arguments are ints (or left out); [fuel] bounds the loop. *)
  Fixpoint index_loop (fuel : nat) (eq : val -> M W bool) (i : Z) (stop : option Z) a : M W Z :=
    match fuel with
    | 0 => raise OutOfFuel
    | S fuel =>
        if match stop with None => true | Some s => Z.ltb i s end then
          match Array.item a i with
          | Raise IndexError => raise ValueError
          | Raise e => raise e
          | Ret v => do b <- eq v; if b : bool then ret i else index_loop fuel eq (i + 1) stop a
          end
        else raise ValueError
    end.
  Definition arr_index (fuel : nat) (eq : val -> M W bool) (start : Z) (stop : option Z) a : M W Z :=
    let len := Z.of_nat (length (a_elems a)) in
    let start := if Z.ltb start 0 then Z.max (len + start) 0 else start in
    let stop := match stop with Some s => Some (if Z.ltb s 0 then (s + len)%Z else s) | None => None end in
    index_loop fuel eq start stop a.

  (** Sequence.count: a sum over a generator expression *)
  Definition arr_count (eq : val -> M W bool) a : M W Z :=
    for_in (a_elems a) 0%Z (fun n v => do b <- in_generator (eq v); ret (if b : bool then (n + 1)%Z else n)).

  (** Sequence.__reversed__, and reversed() of a Block (block.py:518-521 [__getitem__]),
      iterated to the end: the positions from the last to the first *)
  Fixpoint items_at {A} (getitem : Z -> res A) (is : list Z) : res (list A) :=
    match is with [] => Ret [] | i :: is => dor x <- getitem i; dor xs <- items_at getitem is; Ret (x :: xs) end.
  Definition down_from (len : nat) : list Z := List.map Z.of_nat (rev (seq 0 len)).
  Definition arr_reversed a : res (list val) := items_at (Array.item a) (down_from (length (a_elems a))).
  Definition block_reversed {A} (xs : block A) : res (list A) := items_at (Block.item xs) (down_from (length xs)).

  (** What may be given to [extend] and [+=]: the array itself, something that iterates over
      the storage of the array ([self.value], [iter(self)], the bytearray it was made from,
      another array made from that bytearray), or any other iterable. *)
  Inductive addend : Type := Itself | ItsStorage | Others (vs : list val).
  (** MutableSequence.extend: the array itself is copied first; the iterators of list,
      bytearray and array.array look at position 0, 1, 2, ... of what is there by then.
      [fuel] bounds that loop. *)
  Fixpoint extend_live (fuel i : nat) a : res unit * tarray F U :=
    match fuel with
    | 0 => (Raise OutOfFuel, a)
    | S fuel =>
        match nth_error (a_elems a) i with
        | None => (Ret tt, a)
        | Some v => match append long64 a v with (Ret _, a) => extend_live fuel (S i) a | (Raise e, a) => (Raise e, a) end
        end
    end.
  Definition extend_by (fuel : nat) a (values : addend) : res unit * tarray F U :=
    match values with
    | Itself => Array.extend long64 a (a_elems a)
    | ItsStorage => extend_live fuel 0 a
    | Others vs => Array.extend long64 a vs
    end.
  (** MutableSequence.__iadd__: [a += values] is extend, and [a] stays the same object *)
  Definition iadd (fuel : nat) a (values : addend) : res unit * tarray F U := extend_by fuel a values.
End Sequence.
Arguments addend F U : clear implicits.

Section Mapping.
  Context {K V : Type} `{KeyOrd K}.
  Implicit Types m : tree K V.

  (** Mapping.get over map.py:211-212 [__getitem__] *)
  Definition map_get (k : K) (default : V) m : res V :=
    match getitem k m with Raise KeyError => Ret default | r => r end.
  (** Mapping.keys: a KeysView, whose [len], [in] and iteration are those of the Map
      (map.py:214-223) *)
  Definition keys_len m : nat := len m.
  Definition keys_in (k : K) m : bool := mem k m.
  Definition keys_iter (n fuel : nat) m : res (list K) := keys n fuel m.
  (** Mapping.values: a ValuesView; it looks up every key.  [eq v] is
      [v is value or v == value] *)
  Definition values_iter (n fuel : nat) m : res (list V) :=
    dor ks <- keys n fuel m;
    (fix go (ks : list K) : res (list V) :=
       match ks with [] => Ret [] | k :: ks => dor v <- getitem k m; dor vs <- go ks; Ret (v :: vs) end) ks.
  Definition values_in {W} (n fuel : nat) (eq : V -> M W bool) m : M W bool :=
    do ks <- lift (keys n fuel m);
    (fix go (ks : list K) : M W bool :=
       match ks with
       | [] => ret false
       | k :: ks => do v <- lift (getitem k m); do b <- eq v; if b : bool then ret true else go ks
       end) ks.
  (** dict(m), [{**m}]: the keys and for each the value; every key is hashed.  [hashable]:
      whether hash() of the key does not raise TypeError *)
  Fixpoint dict_of (hashable : K -> bool) m (ks : list K) (d : list (K * V)) : res (list (K * V)) :=
    match ks with
    | [] => Ret d
    | k :: ks => dor v <- getitem k m; if hashable k then dict_of hashable m ks (pydict_set d k v) else Raise TypeError
    end.
  Definition to_dict (hashable : K -> bool) (n fuel : nat) m : res (list (K * V)) :=
    dor ks <- keys n fuel m; dict_of hashable m ks [].
  (** map.py:136-138 [items]; Map.v has this for keys that can be hashed *)
  Fixpoint dict_pairs (hashable : K -> bool) (l d : list (K * V)) : res (list (K * V)) :=
    match l with
    | [] => Ret d
    | (k, v) :: l => if hashable k then dict_pairs hashable l (pydict_set d k v) else Raise TypeError
    end.
  Definition items_hashed (hashable : K -> bool) (n fuel : nat) m : res (list (K * V)) :=
    dor l <- to_seq n fuel m; dict_pairs hashable l [].

  (** A KeysView is a Set.  The other operand is a set, frozenset, dict view or KeysView
      with the elements [s]; [set_in] is [in] for it. *)
  Definition set_in (k : K) (s : list K) : bool := existsb (eqb k) s.
  (** set(it): an element equal to an earlier one is left out *)
  Definition pyset (l : list K) : list K := fold_left (fun s k => if set_in k s then s else s ++ [k]) l [].
  (** Set.__le__, __lt__, __ge__, __gt__, __eq__, isdisjoint *)
  Definition keys_le (n fuel : nat) m (s : list K) : res bool :=
    if Nat.ltb (length s) (len m) then Ret false else dor ks <- keys n fuel m; Ret (forallb (fun k => set_in k s) ks).
  Definition keys_lt (n fuel : nat) m (s : list K) : res bool :=
    if Nat.ltb (len m) (length s) then keys_le n fuel m s else Ret false.
  Definition keys_ge m (s : list K) : bool :=
    if Nat.ltb (len m) (length s) then false else forallb (fun k => mem k m) s.
  Definition keys_gt m (s : list K) : bool :=
    if Nat.ltb (length s) (len m) then keys_ge m s else false.
  Definition keys_eq (n fuel : nat) m (s : list K) : res bool :=
    if Nat.eqb (len m) (length s) then keys_le n fuel m s else Ret false.
  Definition keys_isdisjoint m (s : list K) : bool := forallb (fun k => negb (mem k m)) s.
  (** Set.__and__, __or__, __sub__, __rsub__, __xor__; KeysView._from_iterable is set() *)
  Definition keys_and m (s : list K) : list K := pyset (List.filter (fun k => mem k m) s).
  Definition keys_or (n fuel : nat) m (s : list K) : res (list K) := dor ks <- keys n fuel m; Ret (pyset (ks ++ s)).
  Definition keys_sub (n fuel : nat) m (s : list K) : res (list K) :=
    dor ks <- keys n fuel m; Ret (pyset (List.filter (fun k => negb (set_in k s)) ks)).
  Definition keys_rsub m (s : list K) : list K := pyset (List.filter (fun k => negb (mem k m)) s).
  Definition keys_xor (n fuel : nat) m (s : list K) : res (list K) :=
    dor l <- keys_sub n fuel m s; Ret (pyset (l ++ keys_rsub m s)).
End Mapping.
