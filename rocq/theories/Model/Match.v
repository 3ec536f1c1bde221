(** Model of taking the library's values apart with a match statement: Python's class,
    sequence, literal and capture patterns (PEP 634) on the values made by
    expression/core/tagged_union.py, block.py, seq.py and array.py.  Attribute access of
    instances has no effect.  Definitions only. *)
From Coq Require Import List Bool Arith String.
From Verif.Model Require Import Base TaggedUnion.
Import ListNotations.
Local Open Scope string_scope.
Local Open Scope py_scope.

(** A pattern tried on a subject: None when it fails, otherwise what its capture patterns
    bind, in order. *)
Definition pattern (W X B : Type) : Type := X -> M W (option (list B)).

Section Patterns.
  Context {W X B : Type}.

  (** [_] and a capture pattern; [show] is what is bound *)
  Definition wildcard : pattern W X B := fun _ => ret (Some []).
  Definition capture (show : X -> B) : pattern W X B := fun x => ret (Some [show x]).

  (** Sub-patterns from left to right, until one fails. *)
  Fixpoint all_match {Y} (ps : list (Y * pattern W Y B)) : M W (option (list B)) :=
    match ps with
    | [] => ret (Some [])
    | (x, p) :: ps =>
        do r <- p x;
        match r with
        | None => ret None
        | Some bs => do r <- all_match ps; ret (option_map (fun cs => (bs ++ cs)%list) r)
        end
    end.

  (** The attributes of a class pattern: all are fetched before any sub-pattern is tried; a
      missing one fails the pattern, a name that comes twice is a TypeError. *)
  Fixpoint fetch (lookup : string -> option X) (seen : list string) (ps : list (string * pattern W X B))
      : res (option (list (X * pattern W X B))) :=
    match ps with
    | [] => Ret (Some [])
    | (n, p) :: ps =>
        if mem_name n seen then Raise TypeError
        else match lookup n with
             | None => Ret None
             | Some x => dor r <- fetch lookup (n :: seen) ps; Ret (option_map (cons (x, p)) r)
             end
    end.
  (** [case cls(p1, ..., name=q, ...)]: [instance] is isinstance(subject, cls), [match_args]
      the class's [__match_args__], [lookup] the attributes of the subject. *)
  Definition class_pattern (instance : bool) (match_args : list string) (lookup : string -> option X)
      (positional : list (pattern W X B)) (keyword : list (string * pattern W X B)) : M W (option (list B)) :=
    if negb instance then ret None
    else if Nat.ltb (List.length match_args) (List.length positional) then raise TypeError
    else do r <- lift (fetch lookup [] (combine match_args positional ++ keyword)%list);
         match r with None => ret None | Some ps => all_match ps end.

  (** A match statement: the first case whose pattern matches and whose guard holds; its
      number and what it bound. *)
  Fixpoint select (i : nat) (cases : list (M W (option (list B)) * (list B -> M W bool))) : M W (option (nat * list B)) :=
    match cases with
    | [] => ret None
    | (p, guard) :: cases =>
        do r <- p;
        match r with
        | None => select (S i) cases
        | Some bs => do g <- guard bs; if g : bool then ret (Some (i, bs)) else select (S i) cases
        end
    end.
  Definition no_guard : list B -> M W bool := fun _ => ret true.
End Patterns.

(** [p1, ..., pk] or [p1, ..., pk, *rest, q1, ..., qm] on a tuple, list or other sequence
    with the elements [xs]; [star] makes the value bound to [*rest] ([*_] binds nothing). *)
Definition sequence_pattern {W A B} (before : list (pattern W A B)) (star : option (list A -> list B)) (after : list (pattern W A B))
    : pattern W (list A) B :=
  fun xs =>
    let k := List.length before in
    let m := List.length after in
    match star with
    | None =>
        if Nat.eqb (List.length xs) (k + m) then all_match (combine xs (before ++ after)) else ret None
    | Some show =>
        if Nat.ltb (List.length xs) (k + m) then ret None
        else do r <- all_match (combine (firstn k xs) before);
             match r with
             | None => ret None
             | Some bs =>
                 do r <- all_match (combine (skipn (List.length xs - m) xs) after);
                 ret (option_map (fun cs => (bs ++ show (firstn (List.length xs - m - k) (skipn k xs)) ++ cs)%list) r)
             end
    end.

Section Unions.
  Context {W V : Type}.
  (** A literal pattern with a string: [==]; an object that is no string is taken to be
      different. *)
  Definition literal {B} (s : string) : pattern W (attr V) B :=
    fun x => ret match x with
                 | AObj (PStr u) => if String.eqb u s then Some [] else None
                 | _ => None
                 end.
  (** Binds the contents of the attribute. *)
  Definition bound : pattern W (attr V) (attr V) := capture (fun a => a).
  (** [case U(...)] on an instance; tagged_union.py:183 makes [__match_args__] all the
      declared names in order.  Inactive cases are no attributes: the dataclass call
      (tagged_union.py:58-64) removes their markers from the class.  Other attributes of the
      class (methods) are left out. *)
  Definition union_pattern {B} (field_names : list string) (positional : list (pattern W (attr V) B))
      (keyword : list (string * pattern W (attr V) B)) (t : table V) : M W (option (list B)) :=
    class_pattern true field_names (fun n => get_attr n t) positional keyword.
  (** Patterns for one case: U(tag="c", c=p), U(c=p) and U("c", c=p). *)
  Definition tagged_case {B} (field_names : list string) (c : string) (p : pattern W (attr V) B) (t : table V) : M W (option (list B)) :=
    union_pattern field_names [] [("tag", literal c); (c, p)] t.
  Definition keyword_case {B} (field_names : list string) (c : string) (p : pattern W (attr V) B) (t : table V) : M W (option (list B)) :=
    union_pattern field_names [] [(c, p)] t.
  Definition positional_case {B} (field_names : list string) (c : string) (p : pattern W (attr V) B) (t : table V) : M W (option (list B)) :=
    union_pattern field_names [literal c] [(c, p)] t.

  (** The match statement that most methods of Option use: [case Option(tag="some",
      some=x)], [case _] (option.py:71-75 and the others). *)
  Definition option_match (t : table V) : M W (option (nat * list (attr V))) :=
    select 0 [(tagged_case option_fields "some" bound t, no_guard); (wildcard t, no_guard)].
  (** The one that most methods of Result use: [case Result(tag="ok", ok=x)],
      [case Result(error=e)], and nothing else (result.py:91-95 and the others). *)
  Definition result_match (t : table V) : M W (option (nat * list (attr V))) :=
    select 0 [(tagged_case result_fields "ok" bound t, no_guard); (keyword_case result_fields "error" bound t, no_guard)].
End Unions.

Section Collections.
  Context {W A B : Type}.
  (** block.py:84-89: [__match_args__] is ("_value",), the attribute that holds the tuple. *)
  Definition block_pattern (positional : list (pattern W (list A) B)) (xs : list A) : M W (option (list B)) :=
    class_pattern true ["_value"] (fun n => if String.eqb n "_value" then Some xs else None) positional [].
  (** seq.py:73-76: [__match_args__] is ("iterable",), the attribute is [_value].  [X]: what
      the Seq wraps. *)
  Definition seq_pattern {X} (positional : list (pattern W X B)) (x : X) : M W (option (list B)) :=
    class_pattern true ["iterable"] (fun n => if String.eqb n "_value" then Some x else None) positional [].
  (** array.py:169-185: [__match_args__] is ("initializer", "typecode"), the attributes are
      [value] and [typecode]. *)
  Definition array_pattern {X} (positional : list (pattern W X B)) (value typecode : X) : M W (option (list B)) :=
    class_pattern true ["initializer"; "typecode"]
      (fun n => if String.eqb n "value" then Some value else if String.eqb n "typecode" then Some typecode else None) positional [].
  (** A sequence pattern with no class around it is only tried on a collections.abc.Sequence:
      a TypedArray is one (array.py:168), a Block (block.py:63-66) and a Seq (seq.py:62)
      are not. *)
  Definition bare_sequence_pattern (is_sequence : bool) (p : pattern W (list A) B) (xs : list A) : M W (option (list B)) :=
    if is_sequence then p xs else ret None.
End Collections.
Definition block_is_sequence : bool := false.
Definition seq_is_sequence : bool := false.
Definition array_is_sequence : bool := true.
