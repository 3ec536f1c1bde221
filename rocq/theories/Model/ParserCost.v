(** extra/parser.py with a counter: how often a parser looks at a character of the input.
    Only pchar looks at the input (parser.py:95-110); all the other parsers run the
    parsers they are made of.  So the combinators are those of Parser.v, in a world with a
    counter, and the parsers that are made of pchar are made again here.  A call of pchar
    at the end of the input counts as well.  Definitions only. *)
From Coq Require Import List Bool ZArith String Ascii.
From Verif.Model Require Import Base PyList OptionResult Block Parser.
Import ListNotations.
Local Open Scope list_scope.
Local Open Scope py_scope.

Section Cost.
  Context {W : Type}.
  Notation counting := (nat * W)%type.
  Notation cparser := (parser counting).

  (** One look more. *)
  Definition tick : M counting unit := fun w => (Ret tt, (S (fst w), snd w)).
  (** parser.py:95-110 [pchar] *)
  Definition c_pchar (char : str) : cparser str := fun input => do _ <- tick; pchar char input.
  (** parser.py:163-169 [any_of] *)
  Definition c_any_of (list_of_chars : str) : res (cparser str) :=
    choice (List.map (fun c => c_pchar [c]) list_of_chars).
  (** parser.py:172-174 *)
  Definition c_parse_digit : cparser str := imported (c_any_of (lit "0123456789")).
  (** parser.py:270-277 [pstring] *)
  Definition c_pstring (limit : nat) (string_input : str) : res (cparser str) :=
    dor ps <- sequence limit (List.map (fun c => c_pchar [c]) string_input);
    Ret (map (fun x => ret (List.concat x)) ps).
  (** parser.py:339 *)
  Definition c_digits (limit : nat) : cparser (list str) := many1 limit c_parse_digit.
  (** parser.py:406-427 [pint] *)
  Definition c_pint (limit int_limit : nat) : cparser Z :=
    starmap (result_to_int int_limit) (and_then (opt (c_pchar (lit "-"))) (c_digits limit)).
  (** parser.py:430-465 [pfloat] *)
  Definition c_pfloat {F} (limit : nat) (to_float : str -> res F) (neg : F -> F) : cparser F :=
    starmap (result_to_float to_float neg)
      (and_then (and_then (opt (c_pchar (lit "-"))) (c_digits limit))
                (opt (ignore_then (c_pchar (lit ".")) (c_digits limit)))).
End Cost.
