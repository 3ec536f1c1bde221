(** Model of expression/extra/parser.py.  A string is the list of its code points.  A
    parser is its [_run] function; user functions given to the combinators may have
    effects and may raise.  The name of a parser (parser.py:28, used by repr only) is in
    ParserName.v.  Of the interpreter's recursion limit only the recursion that grows with the
    input is modelled: [limit] is the number of nested calls of parse_zero_or_more, and of
    sequence, that the stack has room for; the frames that the combinators themselves use
    while they run are in ParserDepth.v.  Definitions only. *)
From Coq Require Import List Bool ZArith String Ascii.
From Verif.Model Require Import Base PyList OptionResult Block.
Import ListNotations.
Local Open Scope list_scope.
Local Open Scope py_scope.

(** A str: its code points. *)
Definition str : Type := list nat.
(** Literals. *)
Definition lit (s : string) : str := List.map nat_of_ascii (list_ascii_of_string s).
Definition str_eqb (a b : str) : bool := if list_eq_dec Nat.eq_dec a b then true else false.

(** parser.py:17-18 *)
Definition remaining : Type := str * Z.
Definition presult (A : Type) : Type := result (A * remaining) str.
(** parser.py:21-38: the run function of a Parser object *)
Definition parser (W A : Type) : Type := remaining -> M W (presult A).

Section Basic.
  Context {W : Type}.
  Notation parser := (parser W).

  (** parser.py:31-33 [Parser.__call__]; Result.map with the pure function [fst] *)
  Definition call {A} (p : parser A) (input : str) : M W (result A str) :=
    do r <- p (input, 0%Z); res_map r (fun x => ret (fst x)).

  (** parser.py:95-110 [pchar]; [char] can be any string *)
  Definition pchar (char : str) : parser str := fun input =>
    let (remaining, pos) := input in
    if Z.leb (Z.of_nat (List.length remaining)) pos then ret (Err (lit "no more input"))
    else do first <- lift (index remaining pos);
         if str_eqb [first] char then ret (Ok (char, (remaining, (pos + 1)%Z)))
         else ret (Err (lit "Expecting '" ++ char ++ lit "'. Got '" ++ [first] ++ lit "'")).

  (** parser.py:113-142 [and_then(p2)(p1)]; as a function of p1 and p2 *)
  Definition and_then {A B} (p1 : parser A) (p2 : parser B) : parser (A * B) := fun input =>
    do result1 <- p1 input;
    match result1 with
    | Err error => ret (Err error)
    | Ok (value1, remaining1) =>
        do result2 <- p2 remaining1;
        match result2 with
        | Err error => ret (Err error)
        | Ok (value2, remaining2) => ret (Ok ((value1, value2), remaining2))
        end
    end.

  (** parser.py:145-156 [or_else(p1)(p2)] *)
  Definition or_else {A} (p1 p2 : parser A) : parser A := fun input =>
    do result1 <- p1 input;
    match result1 with Ok _ => ret result1 | Err _ => p2 input end.

  (** parser.py:159-160 [choice] *)
  Definition choice {A} (list_of_parsers : list (parser A)) : res (parser A) :=
    fst (reduce (W := unit) list_of_parsers (fun a b => ret (or_else a b)) tt).

  (** parser.py:163-169 [any_of]; iterating a string gives one-character strings *)
  Definition any_of (list_of_chars : str) : res (parser str) :=
    choice (List.map (fun c => pchar [c]) list_of_chars).

  (** A parser made when the module is imported; the import fails when it raises. *)
  Definition imported {A} (p : res (parser A)) : parser A := match p with Ret p => p | Raise e => fun _ => raise e end.
  (** parser.py:172-174 *)
  Definition parse_lowercase : parser str := imported (any_of (lit "abcdefghijklmnopqrstuvwxyz")).
  Definition parse_letters : parser str := imported (any_of (lit "abcdefghijklmnopqrstuvwxyzABCDEFGHIJKLMNOPQRSTUVWXYZ")).
  Definition parse_digit : parser str := imported (any_of (lit "0123456789")).

  (** parser.py:177-193 [map] *)
  Definition map {A B} (mapper : A -> M W B) (parser0 : parser A) : parser B := fun input =>
    do result <- parser0 input;
    match result with
    | Ok (value, remaining) => do new_value <- mapper value; ret (Ok (new_value, remaining))
    | Err error => ret (Err error)
    end.
  (** parser.py:206-214 [starmap], for pairs *)
  Definition starmap {A B C} (mapper : A -> B -> M W C) (parser0 : parser (A * B)) : parser C :=
    map (fun values => mapper (fst values) (snd values)) parser0.
  (** parser.py:218-222 [preturn] *)
  Definition preturn {A} (x : A) : parser A := fun input => ret (Ok (x, input)).
  (** parser.py:225-229 [fail] *)
  Definition fail {A} (error : str) : parser A := fun _ => ret (Err error).
  (** parser.py:232-242 [apply] *)
  Definition apply {A B} (f_p : parser (A -> M W B)) (x_p : parser A) : parser B :=
    map (fun fx => fst fx (snd fx)) (and_then f_p x_p).
  (** parser.py:245-247 [lift2]; the function is called with one argument at a time *)
  Definition lift2 {A B C} (fn : A -> M W (B -> M W C)) (xP : parser A) (yP : parser B) : parser C :=
    apply (apply (preturn fn) xP) yP.

  (** parser.py:250-268 [sequence], recursive in the list of parsers *)
  Fixpoint sequence {A} (limit : nat) (parser_list : list (parser A)) : res (parser (list A)) :=
    match limit with
    | 0 => Raise RecursionError
    | S limit =>
        match parser_list with
        | [] => Ret (preturn [])
        | head :: tail =>
            dor tail_ <- sequence limit tail;
            Ret (lift2 (fun h => ret (fun t => ret (Block.cons t h))) head tail_)
        end
    end.
  (** parser.py:270-277 [pstring] *)
  Definition pstring (limit : nat) (string_input : str) : res (parser str) :=
    dor ps <- sequence limit (List.map (fun c => pchar [c]) string_input);
    Ret (map (fun x => ret (List.concat x)) ps).

  (** parser.py:280-293 [parse_zero_or_more] *)
  Fixpoint parse_zero_or_more {A} (limit : nat) (parser0 : parser A) (input : remaining) : M W (list A * remaining) :=
    match limit with
    | 0 => raise RecursionError
    | S limit =>
        do first_result <- parser0 input;
        match first_result with
        | Ok (first_value, input_after_first_parse) =>
            do (subsequent_values, remaining_input) <- parse_zero_or_more limit parser0 input_after_first_parse;
            ret (Block.cons subsequent_values first_value, remaining_input)
        | Err _ => ret ([], input)
        end
    end.
  (** parser.py:296-302 [many] *)
  Definition many {A} (limit : nat) (parser0 : parser A) : parser (list A) := fun input =>
    do ok <- parse_zero_or_more limit parser0 input; ret (Ok ok).
  (** parser.py:305-320 [many1] *)
  Definition many1 {A} (limit : nat) (parser0 : parser A) : parser (list A) := fun input =>
    do firstResult <- parser0 input;
    match firstResult with
    | Ok (first_value, input_after_first_parse) =>
        do (subsequent_values, remaining_input) <- parse_zero_or_more limit parser0 input_after_first_parse;
        ret (Ok (Block.cons subsequent_values first_value, remaining_input))
    | Err err => ret (Err err)
    end.

  (** parser.py:352-375 [then_ignore] and 378-403 [ignore_then]; p1 first *)
  Definition then_ignore {A B} (p1 : parser A) (p2 : parser B) : parser A :=
    map (fun value => ret (fst value)) (and_then p1 p2).
  Definition ignore_then {A B} (p1 : parser A) (p2 : parser B) : parser B :=
    map (fun value => ret (snd value)) (and_then p1 p2).

  (** parser.py:323-330 [sep_by1] and 333-335 [sep_by] *)
  Definition sep_by1 {A B} (limit : nat) (p : parser A) (sep : parser B) : parser (list A) :=
    starmap (fun x plist => ret (Block.cons plist x)) (and_then p (many limit (ignore_then sep p))).
  Definition sep_by {A B} (limit : nat) (p : parser A) (sep : parser B) : parser (list A) :=
    or_else (sep_by1 limit p sep) (preturn []).

  (** parser.py:339 *)
  Definition digits (limit : nat) : parser (list str) := many1 limit parse_digit.

  (** parser.py:342-350 [opt] *)
  Definition opt {A} (p : parser A) : parser (option A) :=
    or_else (map (fun a => ret (Some a)) p) (preturn None).

  (** parser.py:473-490 [between(popen)(pclose)(p)] *)
  Definition between {A B C} (popen : parser B) (pclose : parser C) (p : parser A) : parser A :=
    then_ignore (ignore_then popen p) pclose.

  (** parser.py:502-516 [bind] *)
  Definition bind {A B} (f : A -> M W (parser B)) (p : parser A) : parser B := fun input =>
    do result1 <- p input;
    match result1 with
    | Ok (value1, remaning_input) => do p2 <- f value1; p2 remaning_input
    | Err err => ret (Err err)
    end.
  (** parser.py:519-526 [ignore]: the value is None *)
  Definition ignore {A} (p : parser A) : parser unit := map (fun _ => ret tt) p.

  (** parser.py:468-469 *)
  Definition whitespace_char : parser str := imported (any_of [32; 9; 10; 13; 11; 12]).
  Definition whitespace (limit : nat) : parser (list str) := many1 limit whitespace_char.
End Basic.

(** builtins.int on a string of ASCII digits, the only strings pint gives it; [int_limit]
    is sys.get_int_max_str_digits(). *)
Definition digit_value (c : nat) : Z := (Z.of_nat c - 48)%Z.
Definition is_digit (c : nat) : bool := Nat.leb 48 c && Nat.leb c 57.
Definition py_int (int_limit : nat) (s : str) : res Z :=
  if Nat.eqb (List.length s) 0 || negb (forallb is_digit s) || Nat.ltb int_limit (List.length s) then Raise ValueError
  else Ret (fold_left (fun acc c => (10 * acc + digit_value c)%Z) s 0%Z).

Section Numbers.
  Context {W : Type} (limit int_limit : nat).
  Notation parser := (parser W).
  (** parser.py:406-427 [pint] *)
  Definition result_to_int (sign : option str) (digit_list : list str) : M W Z :=
    do r <- lift (py_int int_limit (List.concat digit_list));
    ret (if opt_is_some sign then (r * -1)%Z else r).
  Definition pint : parser Z :=
    starmap result_to_int (and_then (opt (pchar (lit "-"))) (digits limit)).

  (** parser.py:430-465 [pfloat]; [to_float] is builtins.float, [neg] is [* -1] *)
  Context {F : Type} (to_float : str -> res F) (neg : F -> F).
  Definition result_to_float (sd : option str * list str) (digits2 : option (list str)) : M W F :=
    let (sign, digits1) := sd in
    do digits1 <- lift (match digits2 with
                        | Some ds => dor value <- opt_value digits2; Ret (digits1 ++ Block.cons value (lit "."))
                        | None => Ret digits1
                        end);
    do r <- lift (to_float (List.concat digits1));
    ret (if opt_is_some sign then neg r else r).
  Definition pfloat : parser F :=
    starmap result_to_float
      (and_then (and_then (opt (pchar (lit "-"))) (digits limit))
                (opt (ignore_then (pchar (lit ".")) (digits limit)))).
End Numbers.

(** The curried combinators as [pipe] uses them: [pipe(p, and_then(q))] is
    [and_then(q)(p)] (parser.py:113-157, 353-403, curry(1)); the methods of Parser
    (parser.py:50-60). *)
Section Curried.
  Context {W : Type}.
  Notation parser := (parser W).
  (** parser.py:113-143 *)
  Definition curried_and_then {A B} (p2 : parser B) : parser A -> parser (A * B) := fun p1 => and_then p1 p2.
  (** parser.py:353-378 *)
  Definition curried_then_ignore {A B} (p2 : parser B) : parser A -> parser A := fun p1 => then_ignore p1 p2.
  (** parser.py:381-403 *)
  Definition curried_ignore_then {A B} (p2 : parser B) : parser A -> parser B := fun p1 => ignore_then p1 p2.
  (** parser.py:145-156: the first parser is the first argument *)
  Definition curried_or_else {A} (p1 : parser A) : parser A -> parser A := fun p2 => or_else p1 p2.
  (** parser.py:50-60: the methods *)
  Definition method_and_then {A B} (self : parser A) (p2 : parser B) : parser (A * B) := curried_and_then p2 self.
  Definition method_ignore_then {A B} (self : parser A) (p2 : parser B) : parser B := curried_ignore_then p2 self.
  Definition method_then_ignore {A B} (self : parser A) (p2 : parser B) : parser A := curried_then_ignore p2 self.
  Definition method_or_else {A} (self parser2 : parser A) : parser A := curried_or_else self parser2.
End Curried.

(** parser.py:493-499 [starts_with]: str.startswith *)
Fixpoint startswith (s prefix : str) : bool :=
  match prefix, s with
  | [], _ => true
  | c :: prefix, d :: s => Nat.eqb c d && startswith s prefix
  | _ :: _, [] => false
  end.
Definition starts_with {W} (xP yP : parser W str) : parser W bool :=
  lift2 (fun s => ret (fun prefix => ret (startswith s prefix))) xP yP.
