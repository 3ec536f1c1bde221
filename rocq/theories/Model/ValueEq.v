(** [==] and [hash] on nested values of the library and the builtin values beside them.
    What the classes' own [__eq__] and [__hash__] do is in Block.v, Array.v, Map.v and
    TaggedUnion.v for elements of one kind; here values of all kinds are nested and
    compared with each other, with Python's rule that an [__eq__] that gives up
    (NotImplemented) lets the other operand's [__eq__] be called.  The shortcut of tuples,
    lists and Block.__contains__ for elements that are one object is left out: it gives
    what [==] gives, because [==] of a value with itself is true.  Map keys are integers.
    Definitions only. *)
From Coq Require Import List ZArith Bool.
From Verif.Model Require Import Base Map.
Import ListNotations.
Local Open Scope py_scope.

(** The values that are compared; Seq objects by identity. *)
Inductive value : Type :=
| VNum (n : Z) | VNone | VTuple (xs : list value) | VList (xs : list value)
| VBlock (xs : list value) | VArray (xs : list value) | VSeq (id : nat)
| VOption (o : option value) | VResult (ok : bool) (x : value)
| VMap (bindings : list (Z * value)).

Section Eq.
  Context (eq : value -> value -> res bool).
  (** tuple == tuple: the elements that both have first, then the lengths *)
  Fixpoint tuples_eq (xs ys : list value) : res bool :=
    match xs, ys with
    | [], [] => Ret true
    | x :: xs, y :: ys => dor b <- eq x y; if b : bool then tuples_eq xs ys else Ret false
    | _, _ => Ret false
    end.
  (** list == list: the lengths first *)
  Definition lists_eq (xs ys : list value) : res bool :=
    if Nat.eqb (length xs) (length ys) then tuples_eq xs ys else Ret false.
  (** len(o) *)
  Definition len_of (o : value) : res nat :=
    match o with
    | VTuple l | VList l | VBlock l | VArray l => Ret (length l)
    | VMap b => Ret (length b)
    | VNum _ | VNone | VSeq _ | VOption _ | VResult _ _ => Raise TypeError
    end.
  (** o[i] for an index from 0 *)
  Definition item_of (o : value) (i : nat) : res value :=
    match o with
    | VTuple l | VList l | VBlock l | VArray l => match nth_error l i with Some x => Ret x | None => Raise IndexError end
    | VMap b => match find (fun kv => Z.eqb (fst kv) (Z.of_nat i)) b with Some kv => Ret (snd kv) | None => Raise KeyError end
    | VNum _ | VNone | VSeq _ | VOption _ | VResult _ _ => Raise TypeError
    end.
  (** array.py:444-451 [TypedArray.__eq__] with anything on the right *)
  Fixpoint array_items_eq (i : nat) (xs : list value) (o : value) : res bool :=
    match xs with
    | [] => Ret true
    | x :: xs => dor y <- item_of o i; dor b <- eq x y; if b : bool then array_items_eq (S i) xs o else Ret false
    end.
  Definition array_eq (xs : list value) (o : value) : res bool :=
    dor n <- len_of o; if Nat.eqb (length xs) n then array_items_eq 0 xs o else Ret false.
  (** map.py:225-240 [Map.__eq__] with a Map on the right; the pairs are tuples *)
  Fixpoint maps_eq (xs ys : list (Z * value)) : res bool :=
    match xs, ys with
    | [], _ => Ret true
    | _ :: _, [] => Ret false
    | (k, x) :: xs, (l, y) :: ys => dor b <- (if Z.eqb k l then eq x y else Ret false); if b : bool then maps_eq xs ys else Ret false
    end.
End Eq.

(** [x == y]; [fuel] bounds the nesting.  block.py:526-527: [self._value == o];
    option.py:292-297 and tagged_union.py:124-131: False for another class. *)
Fixpoint py_eq (fuel : nat) (x y : value) : res bool :=
  match fuel with
  | 0 => Raise OutOfFuel
  | S fuel =>
      let eq := py_eq fuel in
      match x, y with
      | VArray xs, o => array_eq eq xs o
      | VOption (Some a), VOption (Some b) => eq a b
      | VOption None, VOption None => Ret true
      | VOption _, _ => Ret false
      | VResult s a, VResult t b => if Bool.eqb s t then eq a b else Ret false
      | VResult _ _, _ => Ret false
      | VMap a, VMap b => maps_eq eq a b
      | VMap _, _ => Ret false
      | VBlock xs, VTuple ys => tuples_eq eq xs ys
      (** the tuple gives up on a Block; the Block on the right compares its tuple with it *)
      | VBlock xs, VBlock ys | VTuple xs, VBlock ys => tuples_eq eq ys xs
      | VTuple xs, VTuple ys => tuples_eq eq xs ys
      | VList xs, VList ys => lists_eq eq xs ys
      | VNum a, VNum b => Ret (Z.eqb a b)
      | VNone, VNone => Ret true
      | VSeq a, VSeq b => Ret (Nat.eqb a b)
      (** the left operand gives up, the array on the right does not *)
      | VBlock xs, VArray ys => array_eq eq ys (VTuple xs)
      | o, VArray ys => array_eq eq ys o
      | _, _ => Ret false
      end
  end.

(** block.py:506-510 [Block.__contains__] *)
Fixpoint py_contains (fuel : nat) (xs : list value) (v : value) : res bool :=
  match xs with
  | [] => Ret false
  | x :: xs => dor b <- py_eq fuel x v; if b : bool then Ret true else py_contains fuel xs v
  end.

Section Hash.
  (** hash of an int, of None, of the object [id], of a tuple with elements of these
      hashes; [case_hash]: of the tuple (class name, tag, payload), tagged_union.py:150-151 *)
  Context (num_hash : Z -> Z) (none_hash : Z) (id_hash : nat -> Z) (tuple_hash : list Z -> Z) (case_hash : bool -> bool -> Z -> Z).
  (** A class with [__eq__] and without [__hash__] has no hash: list, Block (block.py:526),
      TypedArray (array.py:444).  map.py:201-209 is [combine_hash] over the bindings. *)
  Fixpoint py_hash (x : value) : res Z :=
    match x with
    | VNum n => Ret (num_hash n)
    | VNone => Ret none_hash
    | VTuple xs => rmap tuple_hash ((fix go (xs : list value) : res (list Z) :=
        match xs with [] => Ret [] | x :: xs => dor h <- py_hash x; dor hs <- go xs; Ret (h :: hs) end) xs)
    | VList _ | VBlock _ | VArray _ => Raise TypeError
    | VSeq i => Ret (id_hash i)
    | VOption None => Ret (case_hash true false none_hash)
    | VOption (Some x) => rmap (case_hash true true) (py_hash x)
    | VResult ok x => rmap (case_hash false ok) (py_hash x)
    | VMap b => (fix go (acc : Z) (b : list (Z * value)) : res Z :=
        match b with [] => Ret acc | (k, v) :: b => dor h <- py_hash v; go (combine_hash (combine_hash acc (num_hash k)) h) b end) 0%Z b
    end.
End Hash.
