(** parser.starmap for values of any number of elements (expression/extra/parser.py:195-214).
    Definitions only. *)
From Coq Require Import List.
From Verif.Model Require Import Base PyList OptionResult Block Parser.
Import ListNotations.

(** parser.py:206-214 [starmap]: the value (a tuple, a Block) is unpacked into the arguments of the
    mapper; a value that is not iterable is a TypeError.  Parser.v has the form for pairs. *)
Definition starmap_args {W X C} (mapper : list X -> M W C) (parser0 : parser W (star X)) : parser W C :=
  Parser.map (call_star mapper) parser0.

(** A parser of Blocks seen as one of values that can be unpacked (block.py:523-524 [__iter__]). *)
Definition unpackable {W X} (p : parser W (list X)) : parser W (star X) :=
  Parser.map (fun xs => ret (Args xs)) p.
