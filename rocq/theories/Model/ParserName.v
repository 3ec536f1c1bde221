(** The names of parsers in expression/extra/parser.py: what [repr] and [str] of a Parser
    give.  Every combinator puts its name together when it is called.  Parsers are
    represented by their names alone; see Parser.v for what they do.  Definitions only. *)
From Coq Require Import String List Bool.
From Verif.Model Require Import Base PyList Block Parser.
Import ListNotations.
Local Open Scope list_scope.
Local Open Scope py_scope.

(** parser.py:26-28 [Parser.__init__], 88-92 [__repr__] and [__str__] *)
Definition name_init (name : option str) : str :=
  match name with None | Some [] => lit "parser" | Some name => name end.
(** parser.py:110, 142, 156, 194, 229, 302, 320, 516 *)
Definition name_pchar (char : str) : str := name_init (Some (lit "pchar('" ++ char ++ lit "')")).
Definition name_and_then (p1 p2 : str) : str := name_init (Some (lit "and_then(" ++ p2 ++ lit ", " ++ p1)).
Definition name_or_else (p1 p2 : str) : str := name_init (Some (lit "or_else(" ++ p2 ++ lit ", " ++ p1)).
Definition name_map (p : str) : str := name_init (Some (lit "map(A => B, " ++ p ++ lit ")")).
Definition name_fail (error : str) : str := name_init (Some (lit "fail(""" ++ error ++ lit """)")).
Definition name_many (p : str) : str := name_init (Some (lit "many(" ++ p ++ lit ")")).
Definition name_many1 (p : str) : str := name_init (Some (lit "many(" ++ p ++ lit ")")).
Definition name_bind (p : str) : str := name_init (Some (lit "bind(A => Parser[B], " ++ p)).
(** parser.py:218-222 [preturn]; [text]: what formatting the value does *)
Definition name_preturn_of (text : str) : str := name_init (Some (lit "preturn(" ++ text ++ lit ")")).
Definition name_preturn {W} (text : M W str) : M W str := do t <- text; ret (name_preturn_of t).
(** parser.py:159-169 [choice], [any_of] *)
Definition name_choice (ps : list str) : res str := fst (reduce (W := unit) ps (fun a b => ret (name_or_else a b)) tt).
Definition name_any_of (list_of_chars : str) : res str := name_choice (List.map (fun c => name_pchar [c]) list_of_chars).
(** parser.py:232-247 [apply], [lift2]; [fn]: the text of the function *)
Definition name_apply (f x : str) : str := name_map (name_and_then f x).
Definition name_lift2 (fn x y : str) : str := name_apply (name_apply (name_preturn_of fn) x) y.
(** parser.py:250-277 [sequence], [pstring]; [cons]: the text of the inner function *)
Fixpoint name_sequence (cons : str) (ps : list str) : str :=
  match ps with [] => name_preturn_of (lit "[]") | p :: ps => name_lift2 cons p (name_sequence cons ps) end.
Definition name_pstring (cons s : str) : str := name_map (name_sequence cons (List.map (fun c => name_pchar [c]) s)).
(** parser.py:352-403 [then_ignore], [ignore_then] *)
Definition name_then_ignore (p1 p2 : str) : str := name_map (name_and_then p1 p2).
Definition name_ignore_then (p1 p2 : str) : str := name_map (name_and_then p1 p2).
(** parser.py:323-335 [sep_by1], [sep_by]; 206-214 [starmap] *)
Definition name_sep_by1 (p sep : str) : str := name_map (name_and_then p (name_many (name_ignore_then sep p))).
Definition name_sep_by (p sep : str) : str := name_or_else (name_sep_by1 p sep) (name_preturn_of (lit "[]")).
(** parser.py:342-350 [opt], 473-490 [between], 519-526 [ignore] *)
Definition name_opt (p : str) : str := name_or_else (name_map p) (name_preturn_of (lit "Nothing")).
Definition name_between (popen pclose p : str) : str := name_then_ignore (name_ignore_then popen p) pclose.
Definition name_ignore (p : str) : str := name_map p.
