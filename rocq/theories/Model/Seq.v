(** Model of expression/collections/seq.py.  [Seq(iterable)] only wraps its iterable
    (seq.py:75-76); its methods call the module functions, so each is modelled once.
    [Seq.__iter__] (seq.py:385-388) and [SeqGen.__iter__] (420-423) wrap the iterator in
    a generator expression that hands every element through; this wrapper is left out. *)
From Coq Require Import List ZArith Bool.
From Verif.Model Require Import Base Gen OptionResult.
From Verif.Model Require PyList.
Import ListNotations.
Local Open Scope py_scope.

(** Body of a generator function that starts with [for x in source]: the source is
    opened by the first [next()].  A StopIteration that leaves the body of a generator
    becomes a RuntimeError ([in_generator]). *)
Definition opening {W A B} (src : iterable W A) (loop : gen W A -> gen W B) : gen W B :=
  Gen (do g <- in_generator src; ret (Skip (loop g))).

Section Gens.
  Context {W A B C S : Type}.

  (** seq.py:691-693 *)
  CoFixpoint map_loop (f : A -> M W B) (g : gen W A) : gen W B :=
    Gen (do st <- step g;
         match st with
         | Yield x g => do y <- in_generator (f x); ret (Yield y (map_loop f g))
         | Skip g => ret (Skip (map_loop f g))
         | Stop => ret Stop
         end).
  (** seq.py:675-695 [map] *)
  Definition map (f : A -> M W B) (src : iterable W A) : iterable W B := ret (opening src (map_loop f)).

  (** seq.py:335-344 [dict]: a generator expression.  [to_obj] calls the method [dict] of an
      element that has one. *)
  Definition dict (to_obj : A -> M W B) (src : iterable W A) : M W (gen W B) := do g <- src; ret (map_loop to_obj g).

  (** seq.py:483-485: [for xs in source: yield from mapping(xs)]; [inner] is the
      iterator of the current [yield from]. *)
  CoFixpoint collect_loop (f : A -> M W (iterable W B)) (inner : option (gen W B)) (g : gen W A) : gen W B :=
    Gen (match inner with
         | None =>
             do st <- step g;
             match st with
             | Yield x g => do it <- in_generator (f x); do h <- in_generator it; ret (Skip (collect_loop f (Some h) g))
             | Skip g => ret (Skip (collect_loop f None g))
             | Stop => ret Stop
             end
         | Some h =>
             do st <- step h;
             match st with
             | Yield y h => ret (Yield y (collect_loop f (Some h) g))
             | Skip h => ret (Skip (collect_loop f (Some h) g))
             | Stop => ret (Skip (collect_loop f None g))
             end
         end).
  (** seq.py:463-487 [collect] *)
  Definition collect (f : A -> M W (iterable W B)) (src : iterable W A) : iterable W B :=
    ret (opening src (collect_loop f None)).

  (** seq.py:503-505 *)
  CoFixpoint concat_loop (inner : option (gen W A)) (its : list (iterable W A)) : gen W A :=
    Gen (match inner with
         | None =>
             match its with
             | [] => ret Stop
             | it :: its => do h <- in_generator it; ret (Skip (concat_loop (Some h) its))
             end
         | Some h =>
             do st <- step h;
             match st with
             | Yield y h => ret (Yield y (concat_loop (Some h) its))
             | Skip h => ret (Skip (concat_loop (Some h) its))
             | Stop => ret (Skip (concat_loop None its))
             end
         end).
  (** seq.py:490-507 [concat( *iterables)] *)
  Definition concat (its : list (iterable W A)) : iterable W A := ret (concat_loop None its).
  (** seq.py:426-437 [append] *)
  Definition append (others : list (iterable W A)) (src : iterable W A) : iterable W A := concat (src :: others).

  (** seq.py:510-522 [delay]: SeqGen(generator); [iter()] calls the function and opens
      what it returns *)
  Definition delay (generator : M W (iterable W A)) : iterable W A := do it <- generator; it.

  (** builtins.filter, used by seq.py:529-545 [filter]: opens the source when it is
      built; the result is an iterator, not a re-iterable sequence.  It is no generator:
      a StopIteration of the predicate ends it. *)
  CoFixpoint filter_loop (p : A -> M W bool) (g : gen W A) : gen W A :=
    Gen (do st <- step g;
         match st with
         | Yield x g => do b <- p x; ret (if b : bool then Yield x (filter_loop p g) else Skip (filter_loop p g))
         | Skip g => ret (Skip (filter_loop p g))
         | Stop => ret Stop
         end).
  Definition filter (p : A -> M W bool) (src : iterable W A) : M W (gen W A) := do g <- src; ret (filter_loop p g).

  (** itertools.accumulate(source, scanner, initial=state), seq.py:282 and 848-864
      [scan]: opens the source when it is built; an iterator.  It is no generator: a
      StopIteration of the scanner ends it.  For a state other than None; see
      [scan_value]. *)
  CoFixpoint scan_loop (f : S -> A -> M W S) (s : S) (g : gen W A) : gen W S :=
    Gen (do st <- step g;
         match st with
         | Yield x g => do s <- f s x; ret (Yield s (scan_loop f s g))
         | Skip g => ret (Skip (scan_loop f s g))
         | Stop => ret Stop
         end).
  Definition scan (f : S -> A -> M W S) (s : S) (src : iterable W A) : M W (gen W S) :=
    do g <- src; ret (Gen (ret (Yield s (scan_loop f s g)))).

  (** builtins.zip, seq.py:369-383 and 1035-1068 [zip]: opens both sources when it is
      built; pulls the first, then the second; an iterator. [x] is the element of the
      first source that waits for its partner. *)
  CoFixpoint zip_loop (x : option A) (g : gen W A) (h : gen W B) : gen W (A * B) :=
    Gen (match x with
         | None =>
             do st <- step g;
             match st with
             | Yield x g => ret (Skip (zip_loop (Some x) g h))
             | Skip g => ret (Skip (zip_loop None g h))
             | Stop => ret Stop
             end
         | Some x =>
             do st <- step h;
             match st with
             | Yield y h => ret (Yield (x, y) (zip_loop None g h))
             | Skip h => ret (Skip (zip_loop (Some x) g h))
             | Stop => ret Stop
             end
         end).
  Definition zip (src1 : iterable W A) (src2 : iterable W B) : M W (gen W (A * B)) :=
    do g <- src1; do h <- src2; ret (zip_loop None g h).

  (** itertools.pairwise, seq.py:810-826 [pairwise] *)
  CoFixpoint pairwise_loop (prev : option A) (g : gen W A) : gen W (A * A) :=
    Gen (do st <- step g;
         match st with
         | Yield x g => ret match prev with
                            | None => Skip (pairwise_loop (Some x) g)
                            | Some p => Yield (p, x) (pairwise_loop (Some x) g)
                            end
         | Skip g => ret (Skip (pairwise_loop prev g))
         | Stop => ret Stop
         end).
  Definition pairwise (src : iterable W A) : iterable W (A * A) := do g <- src; ret (pairwise_loop None g).

  (** seq.py:891-894: for i, n in enumerate(source): if i >= count: yield n *)
  CoFixpoint skip_loop (count i : Z) (g : gen W A) : gen W A :=
    Gen (do st <- step g;
         match st with
         | Yield n g => ret (if Z.leb count i then Yield n (skip_loop count (i + 1) g) else Skip (skip_loop count (i + 1) g))
         | Skip g => ret (Skip (skip_loop count i g))
         | Stop => ret Stop
         end).
  (** seq.py:879-896 [skip] *)
  Definition skip (count : Z) (src : iterable W A) : iterable W A := ret (opening src (skip_loop count 0)).
  (** seq.py:915-922 [tail] *)
  Definition tail (src : iterable W A) : iterable W A := skip 1 src.

  (** seq.py:937-942: for i, n in enumerate(source): yield n; if i == count - 1: break.
      [after] is the index of the element just yielded: the test is made when the
      generator is resumed. *)
  CoFixpoint take_loop (count : Z) (after : option Z) (i : Z) (g : gen W A) : gen W A :=
    Gen (match after with
         | Some j => ret (if Z.eqb j (count - 1) then Stop else Skip (take_loop count None i g))
         | None =>
             do st <- step g;
             match st with
             | Yield n g => ret (Yield n (take_loop count (Some i) (i + 1) g))
             | Skip g => ret (Skip (take_loop count None i g))
             | Stop => ret Stop
             end
         end).
  (** seq.py:925-946 [take] *)
  Definition take (count : Z) (src : iterable W A) : iterable W A :=
    if Z.ltb 0 count then ret (opening src (take_loop count None 0)) else of_list [].

  (** seq.py:1008-1032 [unfold]: a generator, so an iterator *)
  CoFixpoint unfold (generator : S -> M W (option (A * S))) (state : S) : gen W A :=
    Gen (do result <- in_generator (generator state);
         ret match result with
             | None => Stop
             | Some (item, state) => Yield item (unfold generator state)
             end).

  (** seq.py:624-651 [init_infinite]: every iteration counts from 0; builtins.map, so a
      StopIteration of the initializer ends it *)
  CoFixpoint infinite_loop (f : Z -> M W A) (i : Z) : gen W A :=
    Gen (do y <- f i; ret (Yield y (infinite_loop f (i + 1)))).
  Definition init_infinite (f : Z -> M W A) : iterable W A := ret (infinite_loop f 0).
End Gens.

(** seq.py:215-229 and 714-739 [starmap], [map2], [map3] *)
Definition starmap {W X B} (f : list X -> M W B) (src : iterable W (PyList.star X)) : iterable W B :=
  map (PyList.call_star f) src.

(** seq.py:282 and 848-864 [scan] where states and elements are any Python values: for
    itertools.accumulate [initial=None] means that there is no initial state, and the first
    element of the source is the first one handed out. *)
CoFixpoint accumulate_loop {W A} (f : A -> A -> M W A) (g : gen W A) : gen W A :=
  Gen (do st <- step g;
       ret match st with
           | Yield x g => Yield x (scan_loop f x g)
           | Skip g => Skip (accumulate_loop f g)
           | Stop => Stop
           end).
Definition scan_value {W A} (is_none : A -> bool) (f : A -> A -> M W A) (state : A) (src : iterable W A) : M W (gen W A) :=
  if is_none state then do g <- src; ret (accumulate_loop f g) else scan f state src.

(** seq.py:440-460 [choose]; [to_seq] of an option is a list of zero or one elements *)
Definition choose {W A B} (chooser : A -> M W (option B)) (src : iterable W A) : iterable W B :=
  collect (fun x => do o <- chooser x; ret (of_list (opt_to_list o))) src.

Section Consumers.
  Context {W A B S : Type}.
  (** All consumers loop over their source; [fuel] bounds the steps of the loop. *)

  (** The state of a loop that ended or was left by break or return. *)
  Definition loop_result {R} (r : R + R) : R := match r with inl x => x | inr x => x end.

  (** functools.reduce(folder, source, state), seq.py:175, 548-572 [fold] *)
  Definition fold (fuel : nat) (folder : S -> A -> M W S) (state : S) (src : iterable W A) : M W S :=
    do g <- src;
    do r <- for_gen fuel g state (fun s x => do s <- folder s x; ret (inl s));
    ret (loop_result r).

  (** seq.py:575-603 [fold_back]: reduce over reversed(list(source)) *)
  Definition fold_back (fuel : nat) (folder : A -> S -> M W S) (src : iterable W A) (state : S) : M W S :=
    do xs <- to_list fuel src;
    (fix go (ys : list A) (s : S) : M W S :=
       match ys with [] => ret s | y :: ys => do s <- folder y s; go ys s end) (rev xs) state.

  (** seq.py:606-621 [head] *)
  Definition head (fuel : nat) (src : iterable W A) : M W A :=
    do g <- src;
    do r <- for_gen fuel g tt (fun _ x => ret (inr x));
    match r with inl _ => raise ValueError | inr x => ret x end.

  (** seq.py:655-667 [iter] *)
  Definition iter (fuel : nat) (action : A -> M W unit) (src : iterable W A) : M W unit :=
    do g <- src;
    do r <- for_gen fuel g tt (fun _ x => do _ <- action x; ret (inl tt));
    ret (loop_result r).

  (** seq.py:670-672 [length]: sum(1 for _ in source) *)
  Definition length (fuel : nat) (src : iterable W A) : M W Z :=
    do g <- src;
    do r <- for_gen fuel g 0%Z (fun n _ => ret (inl (n + 1)%Z));
    ret (loop_result r).

  (** itertools.starmap(mapping, enumerate(source)), seq.py:759: a StopIteration of the
      mapping ends it *)
  CoFixpoint mapi_loop (f : Z -> A -> M W B) (i : Z) (g : gen W A) : gen W B :=
    Gen (do st <- step g;
         match st with
         | Yield x g => do y <- f i x; ret (Yield y (mapi_loop f (i + 1) g))
         | Skip g => ret (Skip (mapi_loop f i g))
         | Stop => ret Stop
         end).
  (** seq.py:742-759 [mapi]: builds the whole tuple at once *)
  Definition mapi (fuel : nat) (f : Z -> A -> M W B) (src : iterable W A) : M W (list B) :=
    to_list fuel (do g <- src; ret (mapi_loop f 0 g)).

  (** seq.py:899-912 [sum], [sum_by]: sum(projection(x) for x in source), from zero; the
      projection runs inside a generator expression, the additions outside.  Since Python
      3.12 builtins.sum corrects the rounding of a run of floats; not modelled. *)
  Definition sum_by (fuel : nat) (zero : B) (add : B -> B -> M W B) (projection : A -> M W B) (src : iterable W A) : M W B :=
    do g <- src;
    do r <- for_gen fuel g zero (fun s x => do y <- in_generator (projection x); do s <- add s y; ret (inl s));
    ret (loop_result r).

  (** seq.py:762-790 [max], [max_by], [min], [min_by]: builtins.max/min of
      (projection(x) for x in source); [better y m], the comparison y > m of max or
      y < m of min, says that [y] replaces the best value so far; it runs outside of the
      generator expression; ValueError when there is no value *)
  Definition best_with (fuel : nat) (better : B -> B -> M W bool) (projection : A -> M W B) (src : iterable W A) : M W B :=
    do g <- src;
    do r <- for_gen fuel g None (fun s x =>
      do y <- in_generator (projection x);
      do m <- match s with None => ret y | Some m => do b <- better y m; ret (if b : bool then y else m) end;
      ret (inl (Some m)));
    match loop_result r with None => raise ValueError | Some m => ret m end.
  (** the same when the comparison has no effects *)
  Definition best_by (fuel : nat) (better : B -> B -> bool) : (A -> M W B) -> iterable W A -> M W B :=
    best_with fuel (fun y m => ret (better y m)).

  (** seq.py:955-978 [try_find_index] *)
  Definition try_find_index (fuel : nat) (p : A -> M W bool) (src : iterable W A) : M W (option Z) :=
    do g <- src;
    do r <- for_gen fuel g 0%Z (fun i x => do b <- p x; ret (if b : bool then inr (Some i) else inl (i + 1)%Z));
    match r with inl _ => ret None | inr o => ret o end.

  (** seq.py:981-1005 [try_pick] *)
  Definition try_pick (fuel : nat) (chooser : A -> M W (option B)) (src : iterable W A) : M W (option B) :=
    do g <- src;
    do r <- for_gen fuel g tt (fun _ x => do o <- chooser x; ret (match o with Some y => inr (Some y) | None => inl tt end));
    match r with inl _ => ret None | inr o => ret o end.
End Consumers.

(** A transformation of a sequence as it is handed to [pipe] or called as a method
    (seq.py:426-1068): the curried functions with their arguments. *)
Inductive op (W : Type) : Type -> Type -> Type :=
| OpMap : forall A B, (A -> M W B) -> op W A B
| OpCollect : forall A B, (A -> M W (iterable W B)) -> op W A B
| OpChoose : forall A B, (A -> M W (option B)) -> op W A B
| OpAppend : forall A, list (iterable W A) -> op W A A
| OpSkip : forall A, Z -> op W A A
| OpTake : forall A, Z -> op W A A
| OpPairwise : forall A, op W A (A * A)
| OpFilter : forall A, (A -> M W bool) -> op W A A
| OpScan : forall A S, (S -> A -> M W S) -> S -> op W A S
| OpZip : forall A B, iterable W A -> op W B (A * B).
Arguments OpMap {W A B}.  Arguments OpCollect {W A B}.  Arguments OpChoose {W A B}.  Arguments OpAppend {W A}.
Arguments OpSkip {W A}.  Arguments OpTake {W A}.  Arguments OpPairwise {W A}.  Arguments OpFilter {W A}.
Arguments OpScan {W A S}.  Arguments OpZip {W A B}.

(** Calling one on a source, without iterating the result.  What comes back is given as
    an iterable; for filter, scan and zip it is an iterator ([iter()] gives itself), so
    this description of it is only right for the first iteration. *)
Definition apply_op {W A B} (o : op W A B) : iterable W A -> M W (iterable W B) :=
  match o in op _ A B return iterable W A -> M W (iterable W B) with
  | OpMap f => fun src => ret (map f src)
  | OpCollect f => fun src => ret (collect f src)
  | OpChoose f => fun src => ret (choose f src)
  | OpAppend others => fun src => ret (append others src)
  | OpSkip n => fun src => ret (skip n src)
  | OpTake n => fun src => ret (take n src)
  | OpPairwise => fun src => ret (pairwise src)
  | OpFilter p => fun src => do g <- filter p src; ret (ret g)
  | OpScan f s => fun src => do g <- scan f s src; ret (ret g)
  | OpZip src1 => fun src => do g <- zip src1 src; ret (ret g)
  end.

(** [pipe(src, op1, op2, ...)] (expression/core/pipe.py) *)
Inductive pipeline (W : Type) : Type -> Type -> Type :=
| Done : forall A, pipeline W A A
| Then : forall A B C, op W A B -> pipeline W B C -> pipeline W A C.
Arguments Done {W A}.  Arguments Then {W A B C}.
Fixpoint build {W A B} (p : pipeline W A B) : iterable W A -> M W (iterable W B) :=
  match p in pipeline _ A B return iterable W A -> M W (iterable W B) with
  | Done => fun src => ret src
  | Then o p => fun src => do it <- apply_op o src; build p it
  end.

  (** seq.py:114-120 [Seq.concat]: [concat( *self)] iterates the outer sequence at once *)
  Definition seq_concat {W A} (fuel : nat) (self : iterable W (iterable W A)) : M W (iterable W A) :=
    do its <- to_list fuel self; ret (concat its).
  (** seq.py:122-136 [Seq.collect] *)
  Definition seq_collect {W A B} (fuel : nat) (mapping : A -> M W (iterable W B)) (self : iterable W A) : M W (iterable W B) :=
    seq_concat fuel (map mapping self).
