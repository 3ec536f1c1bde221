(** Model of expression/collections/block.py.  A Block wraps an immutable tuple
    ([_value], block.py:86-89); the model is the list of its elements, so building a
    Block from a tuple or list is the identity. The module-level functions
    (block.py:561-1036) are the methods with flipped, curried arguments. *)
From Coq Require Import List ZArith Bool.
From Verif.Model Require Import Base PyList OptionResult.
Import ListNotations.
Local Open Scope py_scope.

(** block.py:63-87: a Block is its tuple [_value]. *)
Definition block (A : Type) : Type := list A.

Section Block.
  Context {W A B : Type}.
  Implicit Types self : block A.

  (** block.py:91-93 [append], block.py:503-504 [__add__] *)
  Definition append self (other : block A) : block A := self ++ other.

  (** block.py:115-131 [collect]: for x in map(mapping, value): for y in x: yield y;
      the tuple is built by appending what is yielded. *)
  Definition collect self (mapping : A -> M W (block B)) : M W (block B) :=
    for_calls self [] mapping (fun acc _ mapped => for_in mapped acc (fun acc y => ret (acc ++ [y]))).

  (** block.py:95-113 [choose]; [chooser(x).to_seq()] is the empty or one-element
      sequence of the option (option.py to_seq/to_list). *)
  Definition choose self (chooser : A -> M W (option B)) : M W (block B) :=
    collect self (fun x => do o <- chooser x; ret (opt_to_list o)).

  (** block.py:133-135 [cons] *)
  Definition cons self (element : A) : block A := element :: self.

  (** block.py:142-155 [filter]: tuple(builtins.filter(predicate, value)) *)
  Definition filter self (predicate : A -> M W bool) : M W (block A) :=
    for_calls self [] predicate (fun acc x b => ret (if b : bool then acc ++ [x] else acc)).

  (** block.py:157-178 [fold]: functools.reduce *)
  Definition fold {S} self (folder : S -> A -> M W S) (state : S) : M W S := for_in self state folder.

  (** block.py:180-192 [forall]: all(generator) stops at the first falsy result; the
      predicate is called inside the generator. *)
  Fixpoint forall_ self (predicate : A -> M W bool) : M W bool :=
    match self with
    | [] => ret true
    | x :: rest => do b <- in_generator (predicate x); if b : bool then forall_ rest predicate else ret false
    end.

  (** block.py:194-207 [head]: [head, *_ = self], ValueError when there is nothing to
      unpack *)
  Definition head self : res A := match self with [] => Raise ValueError | x :: _ => Ret x end.

  (** enumerate(self) *)
  Definition enumerate self : list (Z * A) :=
    snd (fold_left (fun '(i, acc) x => (Z.succ i, acc ++ [(i, x)])) self (0%Z, [])).

  (** block.py:209-222 [indexed]: of_seq(enumerate(self)); [start] is not used. *)
  Definition indexed self (start : Z) : block (Z * A) := enumerate self.

  (** block.py:224-233 [item], 518-521 [__getitem__] *)
  Definition item self (i : Z) : res A := index self i.
  Definition getslice self (start stop step : option Z) : res (block A) := slice_step self start stop step.

  (** block.py:235-237 [is_empty] *)
  Definition is_empty self : bool := match self with [] => true | _ => false end.

  (** block.py:239-253 [map]: ( *builtins.map(mapping, self), ) *)
  Definition map self (mapping : A -> M W B) : M W (block B) :=
    for_calls self [] mapping (fun acc _ y => ret (acc ++ [y])).

  (** block.py:255-268 and 765-790 [starmap], [map2], [map3] *)
  Definition starmap {X} (self : block (star X)) (mapping : list X -> M W B) : M W (block B) :=
    for_calls self [] (call_star mapping) (fun acc _ y => ret (acc ++ [y])).

  (** block.py:276-292 [mapi]: ( *itertools.starmap(mapping, enumerate(self)), ) *)
  Definition mapi self (mapping : Z -> A -> M W B) : M W (block B) :=
    for_calls (enumerate self) [] (fun ix => mapping (fst ix) (snd ix)) (fun acc _ y => ret (acc ++ [y])).

  (** block.py:307-331 [partition] *)
  Definition partition self (predicate : A -> M W bool) : M W (block A * block A) :=
    for_in self ([], []) (fun '(list1, list2) x =>
      do b <- predicate x; ret (if b : bool then (list1 ++ [x], list2) else (list1, list2 ++ [x]))).

  (** block.py:389-392 [tail]: [_, *tail = value] *)
  Definition tail self : res (block A) := match self with [] => Raise ValueError | _ :: t => Ret t end.

  (** block.py:349-369 and 736-762 [reduce] *)
  Definition reduce self (reduction : A -> A -> M W A) : M W A :=
    if is_empty self then raise ValueError
    else do t <- lift (tail self); do h <- lift (head self); fold t reduction h.

  (** block.py:375-384 [skip] and 386-387 [skip_last] *)
  Definition skip self (count : Z) : block A := slice self (Some count) None.
  Definition skip_last self (count : Z) : block A := slice self None (Some (- count)%Z).

  (** block.py:421-430 [take] and 432-443 [take_last] *)
  Definition take self (count : Z) : block A := slice self None (Some count).
  Definition take_last self (count : Z) : block A := slice self (Some (- count)%Z) None.

  (** block.py:457-467 [try_head] *)
  Definition try_head self : option A := match self with x :: _ => Some x | [] => None end.

  (** block.py:303-305, 823-828, 870-871 [of_option], [singleton] *)
  Definition singleton (x : A) : block A := [x].
  Definition of_option (o : option A) : block A := match o with Some x => singleton x | None => [] end.

  (** block.py:488-501 [zip]: builtins.zip stops at the shorter tuple *)
  Fixpoint zip self (other : block B) : block (A * B) :=
    match self, other with
    | x :: xs, y :: ys => (x, y) :: zip xs ys
    | _, _ => []
    end.

  (** block.py:506-510 [__contains__]; [same] is [is], [eq] is [==] of the elements *)
  Fixpoint contains (same eq : A -> A -> bool) self (value : A) : bool :=
    match self with
    | [] => false
    | v :: rest => if same v value || eq v value then true else contains same eq rest value
    end.

  (** block.py:590-596 [concat] *)
  Definition concat (sources : list (block A)) : block A := fold_left (fun t s => append t s) sources [].

  (** block.py:270-274, 934-941 [sum], [sum_by]: builtins.sum starts from 0 and adds
      from the left; [add] may raise (values that cannot be added) *)
  Definition sum (zero : A) (add : A -> A -> M W A) self : M W A := fold self add zero.
  Definition sum_by (zero : B) (add : B -> B -> M W B) self (projection : A -> M W B) : M W B :=
    do xs <- map self projection; for_in xs zero add.
End Block.

(** block.py:526-527 [__eq__]: [self._value == o]; with a Block on the right the tuple
    does not know how to compare, and Python calls [o.__eq__(self._value)], which
    compares [o]'s tuple with [self]'s.  [eq] is [==] of elements; tuples first compare
    elements pairwise and then their lengths. *)
Fixpoint tuple_eq {A} (eq : A -> A -> bool) (xs ys : list A) : bool :=
  match xs, ys with
  | [], [] => true
  | x :: xs, y :: ys => eq x y && tuple_eq eq xs ys
  | _, _ => false
  end.
Definition block_eq {A} (eq : A -> A -> bool) (self o : block A) : bool := tuple_eq eq o self.
(** the same [==] with a plain tuple on the right *)
Definition block_eq_tuple {A} (eq : A -> A -> bool) (self : block A) (o : list A) : bool := tuple_eq eq self o.

Section SortUnfold.
  Context {W A B S K : Type} `{KeyOrd K}.
  (** block.py:407-419 [sort_with]: the key function is called once per element, first
      to last, before sorting *)
  Definition sort_with (self : block A) (func : A -> M W K) (reverse : bool) : M W (block A) :=
    do keys <- for_in self [] (fun acc x => do k <- func x; ret (acc ++ [k]));
    ret (List.map snd (sorted_items (combine keys self) reverse)).

  (** block.py:469-486, 997-1015 [unfold] with seq.unfold (seq.py:1026-1032): call the
      generator until it returns Nothing; the calls are made inside a generator.  May run for ever: [fuel] bounds the number of
      generator calls, [OutOfFuel] marks exhaustion. *)
  Fixpoint unfold (fuel : nat) (generator : S -> M W (option (B * S))) (state : S) (acc : list B) : M W (block B) :=
    match fuel with
    | 0 => raise OutOfFuel
    | Datatypes.S fuel =>
        do o <- in_generator (generator state);
        match o with
        | Some (item, state) => unfold fuel generator state (acc ++ [item])
        | None => ret acc
        end
    end.
End SortUnfold.

(** block.py:394-405 [sort]: the elements are their own keys *)
Definition sort {W K} `{KeyOrd K} (self : block K) (reverse : bool) : M W (block K) :=
  sort_with self (fun x => ret x) reverse.

(** block.py:333-347, 854-867 [range] *)
Definition range (start stop step : Z) : res (block Z) := py_range start stop step.
