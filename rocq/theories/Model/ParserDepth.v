(** The combinators of expression/extra/parser.py again, now with the stack: [d] is the
    number of nested calls that the interpreter's recursion limit still allows.  A call that
    does not fit raises RecursionError.  Counted are the frames of Parser.run, of the inner
    [run] functions, of parse_zero_or_more and of the functions given to map and bind (one
    frame each).  The calls that end before the next counted one (making a Result, a Block,
    a name, the wrappers of curry) are not counted, so the real need is larger by a
    constant.  Definitions only. *)
From Coq Require Import List Bool ZArith.
From Verif.Model Require Import Base PyList OptionResult Block Parser.
Import ListNotations.
Local Open Scope list_scope.
Local Open Scope py_scope.

(** One more frame. *)
Definition framed {W A} (d : nat) (k : nat -> M W A) : M W A :=
  match d with 0 => raise RecursionError | S d => k d end.
(** parser.py:21-29: the inner [run] function of a Parser object, called with room for [d]
    frames, its own among them *)
Definition dparser (W A : Type) : Type := nat -> parser W A.

Section Depth.
  Context {W : Type}.
  Notation dparser := (dparser W).
  (** parser.py:35-36 [Parser.run] *)
  Definition d_run {A} (p : dparser A) (d : nat) (input : remaining) : M W (presult A) := framed d (fun d => p d input).
  (** parser.py:31-33 [Parser.__call__] *)
  Definition d_call {A} (p : dparser A) (d : nat) (input : str) : M W (result A str) :=
    framed d (fun d => do r <- p d (input, 0%Z); res_map r (fun x => ret (fst x))).
  (** parser.py:95-110 [pchar], 218-229 [preturn], [fail] *)
  Definition d_pchar (char : str) : dparser str := fun d input => framed d (fun _ => pchar char input).
  Definition d_preturn {A} (x : A) : dparser A := fun d input => framed d (fun _ => preturn x input).
  Definition d_fail {A} (error : str) : dparser A := fun d input => framed d (fun _ => fail error input).
  (** parser.py:113-142 [and_then(p2)(p1)] *)
  Definition d_and_then {A B} (p1 : dparser A) (p2 : dparser B) : dparser (A * B) := fun d input =>
    framed d (fun d =>
    do result1 <- d_run p1 d input;
    match result1 with
    | Err error => ret (Err error)
    | Ok (value1, remaining1) =>
        do result2 <- d_run p2 d remaining1;
        match result2 with
        | Err error => ret (Err error)
        | Ok (value2, remaining2) => ret (Ok ((value1, value2), remaining2))
        end
    end).
  (** parser.py:145-156 [or_else(p1)(p2)] *)
  Definition d_or_else {A} (p1 p2 : dparser A) : dparser A := fun d input =>
    framed d (fun d =>
    do result1 <- d_run p1 d input;
    match result1 with Ok _ => ret result1 | Err _ => d_run p2 d input end).
  (** parser.py:159-160 [choice], 163-169 [any_of] *)
  Definition d_choice {A} (list_of_parsers : list (dparser A)) : res (dparser A) :=
    fst (reduce (W := unit) list_of_parsers (fun a b => ret (d_or_else a b)) tt).
  Definition d_any_of (list_of_chars : str) : res (dparser str) :=
    d_choice (List.map (fun c => d_pchar [c]) list_of_chars).
  (** parser.py:177-193 [map] *)
  Definition d_map {A B} (mapper : A -> M W B) (parser0 : dparser A) : dparser B := fun d input =>
    framed d (fun d =>
    do result <- d_run parser0 d input;
    match result with
    | Ok (value, remaining) => do new_value <- framed d (fun _ => mapper value); ret (Ok (new_value, remaining))
    | Err error => ret (Err error)
    end).
  (** parser.py:232-247 [apply], [lift2] *)
  Definition d_apply {A B} (f_p : dparser (A -> M W B)) (x_p : dparser A) : dparser B :=
    d_map (fun fx => fst fx (snd fx)) (d_and_then f_p x_p).
  Definition d_lift2 {A B C} (fn : A -> M W (B -> M W C)) (xP : dparser A) (yP : dparser B) : dparser C :=
    d_apply (d_apply (d_preturn fn) xP) yP.
  (** parser.py:250-268 [sequence], when it comes back; its own recursion, one frame for each
      parser, is in Parser.v *)
  Fixpoint d_sequence {A} (parser_list : list (dparser A)) : dparser (list A) :=
    match parser_list with
    | [] => d_preturn []
    | head :: tail => d_lift2 (fun h => ret (fun t => ret (Block.cons t h))) head (d_sequence tail)
    end.
  (** parser.py:270-277 [pstring] *)
  Definition d_pstring (string_input : str) : dparser str :=
    d_map (fun x => ret (List.concat x)) (d_sequence (List.map (fun c => d_pchar [c]) string_input)).
  (** parser.py:280-293 [parse_zero_or_more], 296-320 [many], [many1] *)
  Fixpoint d_zero_or_more {A} (parser0 : dparser A) (d : nat) (input : remaining) : M W (list A * remaining) :=
    match d with
    | 0 => raise RecursionError
    | S d =>
        do first_result <- d_run parser0 d input;
        match first_result with
        | Ok (first_value, input_after_first_parse) =>
            do (subsequent_values, remaining_input) <- d_zero_or_more parser0 d input_after_first_parse;
            ret (Block.cons subsequent_values first_value, remaining_input)
        | Err _ => ret ([], input)
        end
    end.
  Definition d_many {A} (parser0 : dparser A) : dparser (list A) := fun d input =>
    framed d (fun d => do ok <- d_zero_or_more parser0 d input; ret (Ok ok)).
  Definition d_many1 {A} (parser0 : dparser A) : dparser (list A) := fun d input =>
    framed d (fun d =>
    do firstResult <- d_run parser0 d input;
    match firstResult with
    | Ok (first_value, input_after_first_parse) =>
        do (subsequent_values, remaining_input) <- d_zero_or_more parser0 d input_after_first_parse;
        ret (Ok (Block.cons subsequent_values first_value, remaining_input))
    | Err err => ret (Err err)
    end).
  (** parser.py:502-516 [bind] *)
  Definition d_bind {A B} (f : A -> M W (dparser B)) (p : dparser A) : dparser B := fun d input =>
    framed d (fun d =>
    do result1 <- d_run p d input;
    match result1 with
    | Ok (value1, remaning_input) => do p2 <- framed d (fun _ => f value1); d_run p2 d remaning_input
    | Err err => ret (Err err)
    end).
End Depth.
