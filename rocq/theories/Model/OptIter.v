(** Iterating Options and Results outside of computation expressions: [for], [list], [in],
    and the flattening functions of the library given Options for sequences.  Definitions
    only. *)
From Coq Require Import List.
From Verif.Model Require Import Base PyList OptionResult Gen Block.
Import ListNotations.
Local Open Scope py_scope.

Section Iter.
  Context {W A E : Type}.
  (** option.py:295-300: a generator function; [match] runs with the first [next] *)
  Definition opt_iter (o : option A) : iterable W A :=
    ret (Gen match o with
             | Some value => ret (Yield value (Gen (ret Stop)))
             | None => raise EffectErrorExn
             end).
  (** result.py:268-273 *)
  Definition res_iter (r : result A E) : iterable W A :=
    ret (Gen match r with
             | Ok value => ret (Yield value (Gen (ret Stop)))
             | Err _ => raise EffectErrorExn
             end).
  (** [v in it] for an object with [__iter__] and without [__contains__]; [eq x]: whether
      [x] is or equals the value looked for *)
  Definition in_iter (fuel : nat) (eq : A -> M W bool) (it : iterable W A) : M W bool :=
    do g <- it;
    do r <- for_gen fuel g tt (fun _ x => do b <- eq x; ret (if b : bool then inr true else inl tt));
    ret match r with inl _ => false | inr b => b end.
End Iter.
(** block.py:115-131 [Block.collect] when the mapping gives Options *)
Definition collect_options {W A B} (self : block A) (mapping : A -> M W (option B)) : M W (block B) :=
  for_calls self [] mapping (fun acc _ o => do ys <- to_list 3 (opt_iter o); ret (acc ++ ys)).
