(** Model of expression/core/option.py and expression/core/result.py.
    An [Option] is Coq's [option] ([Some(x)] / [Nothing]); the tagged-union machinery
    underneath (construction, equality, ordering, copying) is in TaggedUnion.v.  Module
    functions that only forward to the method (option.py:398-562, result.py:381-516) are
    that method with the arguments the curry_flip decorator rearranges (Curry.v).
    Callbacks are effectful.  Definitions only. *)
From Coq Require Import List Bool ZArith String.
From Verif.Model Require Import Base.
From Verif.Model Require PyList.
Import ListNotations.
Local Open Scope py_scope.

(** result.py:49-71 *)
Inductive result (A E : Type) : Type :=
| Ok (a : A)
| Err (e : E).
Arguments Ok {A E} a.
Arguments Err {A E} e.

(** A Python object that may be None: [T | None]. *)
Inductive pyopt (A : Type) : Type :=
| PyNone
| PyVal (a : A).
Arguments PyNone {A}.
Arguments PyVal {A} a.

Section Option.
  Context {W A B C E : Type}.

  (** option.py:65-75 *)
  Definition opt_default_value (o : option A) (value : A) : A :=
    match o with Some some => some | None => value end.
  (** option.py:77-87 *)
  Definition opt_default_with (o : option A) (getter : unit -> M W A) : M W A :=
    match o with Some some => ret some | None => getter tt end.
  (** option.py:89-99 *)
  Definition opt_map (o : option A) (mapper : A -> M W B) : M W (option B) :=
    match o with Some some => do y <- mapper some; ret (Some y) | None => ret None end.
  (** option.py:101-111 *)
  Definition opt_map2 (o : option A) (mapper : A -> B -> M W C) (other : option B) : M W (option C) :=
    match o, other with
    | Some some, Some other_value => do y <- mapper some other_value; ret (Some y)
    | _, _ => ret None
    end.
  (** option.py:138-156 *)
  Definition opt_bind (o : option A) (mapper : A -> M W (option B)) : M W (option B) :=
    match o with Some some => mapper some | None => ret None end.
  (** option.py:158-164 *)
  Definition opt_or_else (o if_none : option A) : option A :=
    match o with Some _ => o | None => if_none end.
  (** option.py:166-176 *)
  Definition opt_or_else_with (o : option A) (if_none : unit -> M W (option A)) : M W (option A) :=
    match o with Some _ => ret o | None => if_none tt end.
  (** option.py:178-188: a guard [case ... if predicate(some)] *)
  Definition opt_filter (o : option A) (predicate : A -> M W bool) : M W (option A) :=
    match o with
    | Some some => do b <- predicate some; if b : bool then ret o else ret None
    | None => ret None
    end.
  (** option.py:190-196, and 198-207 (to_seq) as the list of elements *)
  Definition opt_to_list (o : option A) : list A :=
    match o with Some value => [value] | None => [] end.
  (** option.py:209-215 and 217-223 *)
  Definition opt_is_some (o : option A) : bool := match o with Some _ => true | None => false end.
  Definition opt_is_none (o : option A) : bool := match o with Some _ => false | None => true end.
  (** option.py:281-290 *)
  Definition opt_value (o : option A) : res A :=
    match o with Some some => Ret some | None => Raise ValueError end.
  (** option.py:248-256 *)
  Definition opt_to_result (o : option A) (error : E) : result A E :=
    match o with Some some => Ok some | None => Err error end.
  (** option.py:258-266 *)
  Definition opt_to_result_with (o : option A) (error : unit -> M W E) : M W (result A E) :=
    match o with Some some => ret (Ok some) | None => do e <- error tt; ret (Err e) end.
  (** option.py:533-540 *)
  Definition opt_of_result (r : result A E) : option A :=
    match r with Ok value => Some value | Err _ => None end.
  (** option.py:240-246; the payload may itself be None *)
  Definition opt_to_optional (o : option (pyopt A)) : pyopt A :=
    match o with Some some => some | None => PyNone end.
  (** option.py:504-516 (of_optional), 519-530 (of_obj) *)
  Definition opt_of_optional (value : pyopt A) : option (pyopt A) :=
    match value with PyNone => None | PyVal _ => Some value end.
End Option.

(** option.py:113-123: the function decides first, then [self.map(mapper)] *)
Definition opt_apply {W A B} (o : option A) (function : option (A -> M W B)) : M W (option B) :=
  match function with Some mapper => opt_map o mapper | None => ret None end.
(** option.py:125-136: the payload is unpacked into the arguments, [mapper( *some)]; one
    that is not iterable is a TypeError *)
Definition opt_starmap {W A B} (o : option (PyList.star A)) (mapper : list A -> M W B) : M W (option B) :=
  match o with Some some => do y <- PyList.call_star mapper some; ret (Some y) | None => ret None end.

Section Result.
  Context {W A B C E F : Type}.

  (** result.py:73-83 *)
  Definition res_default_value (r : result A E) (value : A) : A :=
    match r with Ok ok => ok | Err _ => value end.
  (** result.py:85-95 *)
  Definition res_default_with (r : result A E) (getter : E -> M W A) : M W A :=
    match r with Ok value => ret value | Err error => getter error end.
  (** result.py:97-107 *)
  Definition res_map (r : result A E) (mapper : A -> M W B) : M W (result B E) :=
    match r with Ok value => do y <- mapper value; ret (Ok y) | Err error => ret (Err error) end.
  (** result.py:141-151 *)
  Definition res_map_error (r : result A E) (mapper : E -> M W F) : M W (result A F) :=
    match r with Ok value => ret (Ok value) | Err error => do y <- mapper error; ret (Err y) end.
  (** result.py:153-163 *)
  Definition res_bind (r : result A E) (mapper : A -> M W (result B E)) : M W (result B E) :=
    match r with Ok value => mapper value | Err error => ret (Err error) end.
  (** result.py:165-171 *)
  Definition res_is_error (r : result A E) : bool := match r with Ok _ => false | Err _ => true end.
  Definition res_is_ok (r : result A E) : bool := match r with Ok _ => true | Err _ => false end.
  (** result.py:173-187 *)
  Definition res_filter (r : result A E) (predicate : A -> M W bool) (default : E) : M W (result A E) :=
    match r with
    | Ok value => do b <- predicate value; if b : bool then ret r else ret (Err default)
    | Err _ => ret r
    end.
  (** result.py:189-205 *)
  Definition res_filter_with (r : result A E) (predicate : A -> M W bool) (default : A -> M W E) : M W (result A E) :=
    match r with
    | Ok value => do b <- predicate value; if b : bool then ret r else do e <- default value; ret (Err e)
    | Err _ => ret r
    end.
  (** result.py:221-227 *)
  Definition res_swap (r : result A E) : result E A :=
    match r with Ok value => Err value | Err error => Ok error end.
  (** result.py:229-231 *)
  Definition res_or_else (r other : result A E) : result A E := if res_is_ok r then r else other.
  (** result.py:233-237 *)
  Definition res_or_else_with (r : result A E) (other : E -> M W (result A E)) : M W (result A E) :=
    match r with Ok _ => ret r | Err error => other error end.
  (** result.py:246-256 and 501-508 *)
  Definition res_to_option (r : result A E) : option A :=
    match r with Ok value => Some value | Err _ => None end.
  (** result.py:511-516 *)
  Definition res_of_option (value : option A) (error : E) : result A E := opt_to_result value error.
  Definition res_of_option_with (value : option A) (error : unit -> M W E) : M W (result A E) :=
    opt_to_result_with value error.
End Result.

(** result.py:109-123 *)
Definition res_map2 {W A B C E} (r : result A E) (other : result B E) (mapper : A -> B -> M W C) : M W (result C E) :=
  match r with
  | Ok value => res_map other (fun value_ => mapper value value_)
  | Err error => ret (Err error)
  end.
(** result.py:125-139 *)
Definition res_apply {W A B E} (r : result A E) (function : result (A -> M W B) E) : M W (result B E) :=
  match function with Ok mapper => res_map r mapper | Err error => ret (Err error) end.
(** result.py:239-244 *)
Definition res_merge {W A} (r : result A A) : M W A := res_default_with r (fun x => ret x).

(** option.py:268-279 and result.py:207-219: [value.model_dump()] / [value.dict()] when the
    payload has such a method.  [dump] is that conversion (the identity for payloads
    without the method); the dictionary is a list of entries. *)
Section Dict.
  Context {W A D : Type} (str : string -> D) (dump : A -> M W D).
  Definition opt_dict (o : option A) : M W (pyopt D) :=
    match o with Some value => do d <- dump value; ret (PyVal d) | None => ret PyNone end.
  Definition res_dict (r : result A A) : M W (list (string * D)) :=
    match r with
    | Ok value => do d <- dump value; ret [("tag", str "ok"); ("ok", d)]
    | Err error => do d <- dump error; ret [("tag", str "error"); ("error", d)]
    end%string.
End Dict.
