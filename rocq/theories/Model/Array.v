(** Model of expression/collections/array.py.  A TypedArray holds a mutable list,
    bytearray or array.array; the model of the object is its kind of storage, its elements
    and its typecode.  The behaviour of the three storage classes (which values they
    accept, which exceptions they raise) is Python's, not code in /repo; it is given by
    [store], [set_at], [insert_at], [delete_at] and by PyList.v.  Methods with callbacks take
    the elements when they are called, so the callbacks must not change the array; for
    those that do see LiveArray.v. *)
From Coq Require Import List ZArith Bool.
From Verif.Model Require Import Base PyList OptionResult.
Import ListNotations.
Local Open Scope py_scope.

(** array.py:43-73: the sized subclasses of int and float. *)
Inductive icls : Type := I8 | I16 | I32 | I64 | U8 | U16 | U32 | U64.
Inductive fcls : Type := F32 | F64 | Dbl.

(** array.py:76-89 *)
Inductive typecode : Type :=
| TByte | TInt8 | TInt16 | TInt32 | TInt64 | TUint8 | TUint16 | TUint32 | TUint64 | TDouble | TFloat | TAny.

(** Type codes of the array module. *)
Inductive acode : Type := Cb | CB | Ch | CH | Cl | CL | Cq | CQ | Cf | Cd.

(** Elements: an int (with its class when it is one of the sized subclasses), a float
    (likewise), or any other object.  Objects that only behave like numbers
    ([__index__], [__float__]) are not modelled. *)
Inductive pyval (F U : Type) : Type :=
| VInt (c : option icls) (n : Z)
| VFloat (c : option fcls) (x : F)
| VOther (u : U).
Arguments VInt {F U} c n.
Arguments VFloat {F U} c x.
Arguments VOther {F U} u.

(** Float arithmetic used by array.array: rounding to single precision, and conversion
    of an int (OverflowError when it is too large). *)
Class Floats (F : Type) : Type := {
  round32 : F -> F;
  of_int : Z -> res F;
  round32_idem : forall x, round32 (round32 x) = round32 x
}.

(** Equality of type codes (Python's == of the one-letter strings, array.py:76-89). *)
Definition acode_eqb (c d : acode) : bool :=
  match c, d with
  | Cb, Cb | CB, CB | Ch, Ch | CH, CH | Cl, Cl | CL, CL | Cq, Cq | CQ, CQ | Cf, Cf | Cd, Cd => true
  | _, _ => false
  end.

(** Storage classes. *)
Inductive kind : Type := KList | KBytes | KArr (c : acode).

Section Storage.
  Context {F U : Type} `{Floats F}.
  (** Whether a C long has 64 bits (LP64: Linux, macOS) or 32 (Windows). *)
  Variable long64 : bool.
  Notation val := (pyval F U).

  (** Range of the integers that an array of a code stores; None for float codes. *)
  Definition code_range (c : acode) : option (Z * Z) :=
    match c with
    | Cb => Some (-2^7, 2^7 - 1)
    | CB => Some (0, 2^8 - 1)
    | Ch => Some (-2^15, 2^15 - 1)
    | CH => Some (0, 2^16 - 1)
    | Cl => Some (if long64 then (-2^63, 2^63 - 1) else (-2^31, 2^31 - 1))
    | CL => Some (if long64 then (0, 2^64 - 1) else (0, 2^32 - 1))
    | Cq => Some (-2^63, 2^63 - 1)
    | CQ => Some (0, 2^64 - 1)
    | Cf | Cd => None
    end%Z.

  (** [n] is in the range of a type code (the check array.array makes when storing). *)
  Definition between (n : Z) (r : Z * Z) : bool := Z.leb (fst r) n && Z.leb n (snd r).

  (** Storing a value into a list, bytearray or array.array: what will be read back. *)
  Definition store (k : kind) (v : val) : res val :=
    match k with
    | KList => Ret v
    | KBytes =>
        match v with
        | VInt _ n => if between n (0, 255)%Z then Ret (VInt None n) else Raise ValueError
        | _ => Raise TypeError
        end
    | KArr c =>
        match code_range c with
        | Some r =>
            match v with
            | VInt _ n => if between n r then Ret (VInt None n) else Raise OverflowError
            | _ => Raise TypeError
            end
        | None =>
            let rnd := match c with Cf => round32 | _ => fun x => x end in
            match v with
            | VInt _ n => dor x <- of_int n; Ret (VFloat None (rnd x))
            | VFloat _ x => Ret (VFloat None (rnd x))
            | VOther _ => Raise TypeError
            end
        end
    end.
  (** [bytearray(xs)], [array.array(code, xs)]: elements are stored one after the other. *)
  Fixpoint store_all (k : kind) (vs : list val) : res (list val) :=
    match vs with [] => Ret [] | v :: vs => dor x <- store k v; dor xs <- store_all k vs; Ret (x :: xs) end.

  (** A TypedArray (array.py:168-185): the kind of container in [value], its elements, and
      [typecode]. *)
  Record tarray : Type := TArray { a_kind : kind; a_elems : list val; a_type : typecode }.

  (** array.py:92-116 [array_from_typecode] *)
  Definition kind_of_typecode (tc : typecode) : kind :=
    match tc with
    | TByte => KBytes | TInt8 => KArr Cb | TUint8 => KArr CB | TInt16 => KArr Ch | TUint16 => KArr CH
    | TInt32 => KArr Cl | TUint32 => KArr CL | TInt64 => KArr Cq | TUint64 => KArr CQ
    | TFloat => KArr Cf | TDouble => KArr Cd | TAny => KList
    end.
  Definition array_from_typecode (tc : typecode) (vs : list val) : res tarray :=
    dor xs <- store_all (kind_of_typecode tc) vs; Ret (TArray (kind_of_typecode tc) xs tc).

  (** array.py:133-163: what the class of the first element selects. *)
  Definition infer (v : val) : kind * typecode :=
    match v with
    | VInt (Some I8) _ => (KArr Cb, TInt8)
    | VInt (Some I16) _ => (KArr Ch, TInt16)
    | VInt (Some I32) _ => (KArr Cl, TInt32)
    | VInt (Some I64) _ => (KArr Cl, TInt64)
    | VInt (Some U8) _ => (KArr CB, TUint8)
    | VInt (Some U16) _ => (KArr CH, TUint16)
    | VInt (Some U32) _ => (KArr CL, TUint32)
    | VInt (Some U64) _ => (KArr CQ, TUint64)
    | VFloat (Some F32) _ => (KArr Cf, TFloat)
    | VFloat (Some F64) _ | VFloat (Some Dbl) _ => (KArr Cd, TDouble)
    | _ => (KList, TAny)
    end.

  (** An initializer: a bytearray, a bytes object, or any other iterable, given by the
      elements it yields (none for None). *)
  Inductive initializer : Type := FromBytearray (bs : list val) | FromBytes (bs : list val) | FromIter (vs : list val).
  Definition init_elems (i : initializer) : list val :=
    match i with FromBytearray bs | FromBytes bs => bs | FromIter vs => vs end.

  (** array.py:119-165 [array_from_initializer] (as values; that a bytearray is not
      copied is modelled below) *)
  Definition array_from_initializer (i : initializer) : res tarray :=
    match i with
    | FromBytearray bs | FromBytes bs => Ret (TArray KBytes bs TByte)
    | FromIter [] => Ret (TArray KList [] TAny)
    | FromIter (v :: vs) => dor xs <- store_all (fst (infer v)) (v :: vs); Ret (TArray (fst (infer v)) xs (snd (infer v)))
    end.

  (** array.py:174-185 [__init__] *)
  Definition new (i : initializer) (tc : option typecode) : res tarray :=
    match tc with Some tc => array_from_typecode tc (init_elems i) | None => array_from_initializer i end.

  (** A slice of the storage handed to the constructor: a bytearray again for bytearray
      storage, else something that is iterated. *)
  Definition rewrap (k : kind) (vs : list val) : res tarray :=
    array_from_initializer (match k with KBytes => FromBytearray vs | _ => FromIter vs end).

  Context {W : Type}.
  Implicit Types a : tarray.

  (** array.py:187-189 [map]: builtins.map *)
  Definition map a (mapping : val -> M W val) : M W tarray :=
    do ys <- for_calls (a_elems a) [] mapping (fun acc _ y => ret (acc ++ [y]));
    lift (array_from_initializer (FromIter ys)).
  (** array.py:211-214 [collect] *)
  Definition collect a (mapping : val -> M W tarray) : M W tarray :=
    do ys <- for_calls (a_elems a) [] mapping (fun acc _ b => ret (acc ++ a_elems b));
    lift (array_from_initializer (FromIter ys)).
  (** array.py:191-209 [choose] *)
  Definition choose a (chooser : val -> M W (option val)) : M W tarray :=
    collect a (fun x => do o <- chooser x; lift (array_from_initializer (FromIter (opt_to_list o)))).
  (** array.py:219-221 [is_empty] *)
  Definition is_empty a : bool := match a_elems a with [] => true | _ => false end.
  (** array.py:228-241 [filter] *)
  Definition filter a (predicate : val -> M W bool) : M W tarray :=
    do ys <- for_calls (a_elems a) [] predicate (fun acc x b => ret (if b : bool then acc ++ [x] else acc));
    lift (array_from_typecode (a_type a) ys).
  (** array.py:243-264 [fold] *)
  Definition fold {S} a (folder : S -> val -> M W S) (state : S) : M W S := for_in (a_elems a) state folder.
  (** array.py:266-278 [forall]: all(generator expression) *)
  Definition forall_ a (predicate : val -> M W bool) : M W bool :=
    (fix go (xs : list val) : M W bool :=
       match xs with [] => ret true | x :: xs => do b <- in_generator (predicate x); if b : bool then go xs else ret false end) (a_elems a).
  (** array.py:280-293 [head] *)
  Definition head a : res val := match a_elems a with [] => Raise ValueError | x :: _ => Ret x end.
  (** array.py:310-319 [item], 462-463 [__getitem__] with an int *)
  Definition item a (i : Z) : res val := index (a_elems a) i.
  (** array.py:331-340 [skip], 342-343 [skip_last], 386-395 [take], 397-409 [take_last] *)
  Definition skip a (count : Z) : res tarray := rewrap (a_kind a) (slice (a_elems a) (Some count) None).
  Definition skip_last a (count : Z) : res tarray := rewrap (a_kind a) (slice (a_elems a) None (Some (- count)%Z)).
  Definition take a (count : Z) : res tarray := rewrap (a_kind a) (slice (a_elems a) None (Some count)).
  Definition take_last a (count : Z) : res tarray := rewrap (a_kind a) (slice (a_elems a) (Some (- count)%Z) None).
  (** array.py:381-384 [tail]: the rest is unpacked into a list *)
  Definition tail a : res tarray :=
    match a_elems a with [] => Raise ValueError | _ :: t => array_from_initializer (FromIter t) end.
  (** array.py:411-421 [try_head] *)
  Definition try_head a : option val := match a_elems a with x :: _ => Some x | [] => None end.
  (** array.py:358-370 [sort_with]; sort (345-356) has the elements as keys *)
  Definition sort_with {K} `{KeyOrd K} a (func : val -> M W K) (reverse : bool) : M W tarray :=
    do keys <- for_in (a_elems a) [] (fun acc x => do y <- func x; ret (acc ++ [y]));
    lift (array_from_initializer (FromIter (List.map snd (sorted_items (combine keys (a_elems a)) reverse)))).
  (** array.py:637-657 [unfold] with seq.unfold; [fuel] bounds the generator calls *)
  Fixpoint unfold_elems {S} (fuel : nat) (generator : S -> M W (option (val * S))) (state : S) (acc : list val) : M W (list val) :=
    match fuel with
    | 0 => raise OutOfFuel
    | Datatypes.S fuel =>
        do o <- in_generator (generator state);
        match o with Some (x, state) => unfold_elems fuel generator state (acc ++ [x]) | None => ret acc end
    end.
  Definition unfold {S} (fuel : nat) (generator : S -> M W (option (val * S))) (state : S) : M W tarray :=
    do ys <- unfold_elems fuel generator state []; lift (array_from_initializer (FromIter ys)).

  (** array.py:579-580 [singleton], 571-576 [of_option]; [of] and [of_seq] (321-329,
      561-568) are the constructor on the elements *)
  Definition singleton (value : val) : res tarray := array_from_initializer (FromIter [value]).
  Definition of_option (option : option val) : res tarray :=
    match option with Some value => singleton value | None => array_from_initializer (FromIter []) end.
  (** array.py:372-373, 583-584 [sum]; 375-379, 587-589 [sum_by]: the projected values go
      through a TypedArray of their own.  [total] is builtins.sum (it starts from 0 and
      adds from the left, raises for values that cannot be added and, since Python 3.12,
      compensates the rounding of floats); nothing is assumed about it. *)
  Definition sum (total : list val -> M W val) a : M W val := total (a_elems a).
  Definition sum_by (total : list val -> M W val) a (projection : val -> M W val) : M W val :=
    do b <- map a projection; total (a_elems b).

  (** array.py:444-451 [__eq__] with a sequence [o]; [neq] is [!=] of the elements *)
  Definition arr_eq (neq : val -> val -> bool) a (o : list val) : bool :=
    if negb (Nat.eqb (length (a_elems a)) (length o)) then false
    else (fix go (xs ys : list val) : bool :=
            match xs, ys with
            | x :: xs, y :: ys => if neq x y then false else go xs ys
            | _, _ => true
            end) (a_elems a) o.

  (** Positions in the storage: [i] counted from the end when negative. *)
  Definition position (len : nat) (i : Z) : option nat :=
    let j := if Z.ltb i 0 then (i + Z.of_nat len)%Z else i in
    if Z.leb 0 j && Z.ltb j (Z.of_nat len) then Some (Z.to_nat j) else None.
  Definition with_elems a (xs : list val) : tarray := TArray (a_kind a) xs (a_type a).

  (** array.py:459-460 [__setitem__] with an int.  A bytearray looks at the value first,
      the others at the index.  Result and array afterwards. *)
  Definition setitem a (i : Z) (v : val) : res unit * tarray :=
    let put p x := (Ret tt, with_elems a (firstn p (a_elems a) ++ x :: skipn (S p) (a_elems a))) in
    match position (length (a_elems a)) i, store (a_kind a) v with
    | Some p, Ret x => put p x
    | None, Ret _ => (Raise IndexError, a)
    | Some _, Raise e => (Raise e, a)
    | None, Raise e => (Raise (match a_kind a with KBytes => e | _ => IndexError end), a)
    end.
  (** array.py:216-217 [insert]: the index is clamped *)
  Definition insert a (i : Z) (v : val) : res unit * tarray :=
    match store (a_kind a) v with
    | Raise e => (Raise e, a)
    | Ret x =>
        let p := Z.to_nat (slice_bound (Z.of_nat (length (a_elems a))) i) in
        (Ret tt, with_elems a (firstn p (a_elems a) ++ x :: skipn p (a_elems a)))
    end.
  (** array.py:465-466 [__delitem__] with an int, and with a slice [start:stop] *)
  Definition delitem a (i : Z) : res unit * tarray :=
    match position (length (a_elems a)) i with
    | Some p => (Ret tt, with_elems a (firstn p (a_elems a) ++ skipn (S p) (a_elems a)))
    | None => (Raise IndexError, a)
    end.
  Definition delslice a (start stop : option Z) : res unit * tarray :=
    let len := Z.of_nat (length (a_elems a)) in
    let p := match start with Some b => slice_bound len b | None => 0%Z end in
    let q := match stop with Some b => slice_bound len b | None => len end in
    (Ret tt, with_elems a (firstn (Z.to_nat p) (a_elems a) ++ skipn (Z.to_nat (Z.max p q)) (a_elems a))).

  (** array.py:462-463 [__getitem__] with a slice: a list, bytearray or array.array, given
      by its elements *)
  Definition getslice a (start stop step : option Z) : res (list val) := slice_step (a_elems a) start stop step.
  (** array.py:465-466 [__delitem__] with any slice *)
  Definition delstep a (start stop step : option Z) : res unit * tarray :=
    match slice_positions (length (a_elems a)) start stop step with
    | Raise e => (Raise e, a)
    | Ret is => (Ret tt, with_elems a (omit is 0 (a_elems a)))
    end.
  (** The value of a slice assignment: [array.array(c, vs)], whose memory consists of the
      bytes [raw] (modulo 256; any list is allowed here), or another iterable with the
      elements [vs].  Strings and objects that are no iterables are left out. *)
  Inductive source : Type := SArray (c : acode) (vs : list val) (raw : list Z) | SIter (vs : list val).
  Definition memory (raw : list Z) : list val := List.map (fun n => VInt None (n mod 256)%Z) raw.
  (** What a storage of some kind makes of it: a list takes the elements of any iterable;
      a bytearray takes the memory of an array.array and converts other elements to bytes;
      an array.array only takes an array.array with its own code. *)
  Definition source_elems (k : kind) (src : source) : res (list val) :=
    match k, src with
    | KList, SArray c vs _ => store_all (KArr c) vs
    | KList, SIter vs => Ret vs
    | KBytes, SArray _ _ raw => Ret (memory raw)
    | KBytes, SIter vs => store_all KBytes vs
    | KArr d, SArray c vs _ => dor xs <- store_all (KArr c) vs; if acode_eqb c d then Ret xs else Raise TypeError
    | KArr _, SIter _ => Raise TypeError
    end.
  (** array.py:459-460 [__setitem__] with a slice.  With step 1 the slice is replaced.
      Otherwise the lengths must agree, except that bytearray and array.array delete the
      positions when nothing is assigned to them. *)
  Definition setslice a (start stop step : option Z) (src : source) : res unit * tarray :=
    match (match src with SArray c vs _ => store_all (KArr c) vs | SIter vs => Ret vs end),
          slice_positions (length (a_elems a)) start stop step, source_elems (a_kind a) src with
    | Raise e, _, _ => (Raise e, a)
    | _, Raise e, _ => (Raise e, a)
    | _, _, Raise e => (Raise e, a)
    | Ret _, Ret is, Ret ys =>
        let len := Z.of_nat (length (a_elems a)) in
        if match step with None => true | Some k => Z.eqb k 1 end then
          let p := slice_from len start 1 in
          let q := slice_to len stop 1 in
          (Ret tt, with_elems a (firstn (Z.to_nat p) (a_elems a) ++ ys ++ skipn (Z.to_nat (Z.max p q)) (a_elems a)))
        else
          match a_kind a, ys with
          | KBytes, [] | KArr _, [] => (Ret tt, with_elems a (omit is 0 (a_elems a)))
          | _, _ =>
              if Nat.eqb (length ys) (length is) then (Ret tt, with_elems a (overwrite is ys (a_elems a)))
              else (Raise ValueError, a)
          end
    end.

  (** Mixin methods inherited from collections.abc.MutableSequence: append is
      [self.insert(len(self), value)]; extend appends one after the other; pop is
      [v = self[index]; del self[index]; return v]. *)
  Definition append a (v : val) : res unit * tarray := insert a (Z.of_nat (length (a_elems a))) v.
  Fixpoint extend a (vs : list val) : res unit * tarray :=
    match vs with
    | [] => (Ret tt, a)
    | v :: vs => match append a v with (Ret _, a) => extend a vs | (Raise e, a) => (Raise e, a) end
    end.
  Definition pop a (i : Z) : res val * tarray :=
    match item a i with
    | Raise e => (Raise e, a)
    | Ret v => match delitem a i with (Ret _, a) => (Ret v, a) | (Raise e, a) => (Raise e, a) end
    end.
  (** clear pops until IndexError ([fuel] bounds the pops); reverse swaps the elements at
      [i] and [n-i-1] for [i] below [n//2], reading both before it writes at [i] and then
      at [n-i-1]; remove deletes the first element equal to the value, [eq v] is
      [v is value or v == value], ValueError when there is none. *)
  Fixpoint clear (fuel : nat) a : res unit * tarray :=
    match fuel with
    | 0 => (Raise OutOfFuel, a)
    | Datatypes.S fuel =>
        match pop a (-1) with
        | (Ret _, a) => clear fuel a
        | (Raise IndexError, a) => (Ret tt, a)
        | (Raise e, a) => (Raise e, a)
        end
    end.
  Fixpoint reverse_loop (n : Z) (is : list Z) a : res unit * tarray :=
    match is with
    | [] => (Ret tt, a)
    | i :: is =>
        match item a (n - i - 1), item a i with
        | Ret x, Ret y =>
            match setitem a i x with
            | (Ret _, a) => match setitem a (n - i - 1) y with (Ret _, a) => reverse_loop n is a | (Raise e, a) => (Raise e, a) end
            | (Raise e, a) => (Raise e, a)
            end
        | Raise e, _ => (Raise e, a)
        | _, Raise e => (Raise e, a)
        end
    end.
  Definition reverse a : res unit * tarray :=
    let n := Z.of_nat (length (a_elems a)) in
    reverse_loop n (List.map Z.of_nat (seq 0 (Z.to_nat (n / 2)))) a.
  Fixpoint index_of (eq : val -> bool) (i : Z) (xs : list val) : res Z :=
    match xs with [] => Raise ValueError | x :: xs => if eq x then Ret i else index_of eq (i + 1) xs end.
  Definition remove a (eq : val -> bool) : res unit * tarray :=
    match index_of eq 0 (a_elems a) with Ret i => delitem a i | Raise e => (Raise e, a) end.
End Storage.
Arguments tarray F U : clear implicits.
Arguments initializer F U : clear implicits.
Arguments source F U : clear implicits.

(** array.py:295-308, 548 [indexed]: enumerate(self); [start] is not used.  The elements
    are tuples, so the result is a plain list of pairs. *)
Definition indexed {F U} (a : tarray F U) (start : Z) : list (Z * pyval F U) :=
  snd (fold_left (fun '(i, acc) x => (Z.succ i, acc ++ [(i, x)])) (a_elems a) (0%Z, [])).

(** Storage objects in a heap, for the question who shares storage with whom.  An object
    is a list, bytearray or array.array; a TypedArray refers to its storage object. *)
Section Heap.
  Context {F U : Type} `{Floats F}.
  Variable long64 : bool.
  Notation val := (pyval F U).
  Definition heap : Type := list (kind * list val).
  Record aref : Type := ARef { r_obj : nat; r_type : typecode }.

  (** Reading the TypedArray behind a reference. *)
  Definition deref (h : heap) (r : aref) : option (tarray F U) :=
    option_map (fun o => TArray (fst o) (snd o) (r_type r)) (nth_error h (r_obj r)).
  Definition write (h : heap) (i : nat) (o : kind * list val) : heap := firstn i h ++ o :: skipn (S i) h.

  (** [TypedArray(obj, typecode)] for a storage object: array.py:128-129 keeps a
      bytearray given without a typecode, everything else is copied. *)
  Definition construct (h : heap) (obj : nat) (tc : option typecode) : res (heap * aref) :=
    match nth_error h obj with
    | None => Raise TypeError
    | Some (k, vs) =>
        match k, tc with
        | KBytes, None => Ret (h, ARef obj TByte)
        | _, _ => dor a <- new long64 (FromIter vs) tc; Ret (h ++ [(a_kind a, a_elems a)], ARef (length h) (a_type a))
        end
    end.

  (** [skip], [skip_last], [take], [take_last] (array.py:331-409): the slice is a new object, which is then
      handed to the constructor *)
  Definition derive_slice (h : heap) (r : aref) (start stop : option Z) : res (heap * aref) :=
    match nth_error h (r_obj r) with
    | None => Raise TypeError
    | Some (k, vs) => construct (h ++ [(k, slice vs start stop)]) (length h) None
    end.

  (** Mutations of a TypedArray. *)
  Inductive mutation : Type :=
  | MSet (i : Z) (v : val) | MInsert (i : Z) (v : val) | MDel (i : Z) | MDelSlice (start stop : option Z)
  | MAppend (v : val) | MExtend (vs : list val) | MPop (i : Z)
  | MDelStep (start stop step : option Z) | MSetSlice (start stop step : option Z) (src : source F U).
  Definition mutate (m : mutation) (a : tarray F U) : tarray F U :=
    match m with
    | MSet i v => snd (setitem long64 a i v)
    | MInsert i v => snd (insert long64 a i v)
    | MDel i => snd (delitem a i)
    | MDelSlice start stop => snd (delslice a start stop)
    | MAppend v => snd (append long64 a v)
    | MExtend vs => snd (extend long64 a vs)
    | MPop i => snd (pop a i)
    | MDelStep start stop step => snd (delstep a start stop step)
    | MSetSlice start stop step src => snd (setslice long64 a start stop step src)
    end.
  Definition mutate_ref (h : heap) (r : aref) (m : mutation) : heap :=
    match deref h r with
    | Some a => let a := mutate m a in write h (r_obj r) (a_kind a, a_elems a)
    | None => h
    end.
End Heap.
Arguments heap F U : clear implicits.
Arguments mutation F U : clear implicits.
