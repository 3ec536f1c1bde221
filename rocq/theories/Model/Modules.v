(** Model of the module functions that forward to a method, and of the methods that
    forward to a module function: calls, argument binding and the forwarding bodies.  What
    the methods and the other functions do is modelled elsewhere; here they are called
    with a receiver and arguments.  Definitions only. *)
From Coq Require Import List ZArith Bool String.
From Verif.Model Require Import Base Functions.
Import ListNotations.
Local Open Scope string_scope.
Local Open Scope list_scope.
Local Open Scope py_scope.

Section Binding.
  Context {V : Type}.
  (** A parameter with its default, if it has one. *)
  Definition param : Type := string * option V.
  Fixpoint take_kw (name : string) (kw : kwds V) : option (V * kwds V) :=
    match kw with
    | [] => None
    | (n, v) :: kw =>
        if String.eqb n name then Some (v, kw)
        else match take_kw name kw with Some (x, kw) => Some (x, (n, v) :: kw) | None => None end
    end.
  (** Binding the arguments of a call to the parameters, which have no [*args] and no
      [**kwargs]: positions first, then names, then defaults. *)
  Fixpoint bind_args (ps : list param) (args : list V) (kw : kwds V) : res (list V) :=
    match ps, args with
    | [], [] => match kw with [] => Ret [] | _ => Raise TypeError end
    | [], _ :: _ => Raise TypeError
    | (name, _) :: ps, a :: args =>
        match take_kw name kw with
        | Some _ => Raise TypeError
        | None => dor vs <- bind_args ps args kw; Ret (a :: vs)
        end
    | (name, default) :: ps, [] =>
        match take_kw name kw, default with
        | Some (v, kw), _ => dor vs <- bind_args ps [] kw; Ret (v :: vs)
        | None, Some v => dor vs <- bind_args ps [] kw; Ret (v :: vs)
        | None, None => Raise TypeError
        end
    end.
End Binding.
Arguments param V : clear implicits.

(** How a module function is defined: with [@curry_flip(n)], plainly, or as a function of
    all parameters but the last that returns a function of the last. *)
Inductive style : Type := Flip (n : Z) | Direct | Nested.

(** A module function whose body is [return p.m(q, ...)]: [p] and [q, ...] are given by
    their positions in the parameter list. *)
Record modfun (V : Type) : Type := ModFun {
  f_module : string; f_name : string; f_style : style; f_params : list (param V);
  f_receiver : nat; f_method : string; f_args : list nat }.
Arguments ModFun {V}. Arguments f_module {V}. Arguments f_name {V}. Arguments f_style {V}. Arguments f_params {V}.
Arguments f_receiver {V}. Arguments f_method {V}. Arguments f_args {V}.

Section Forward.
  Context {W V : Type}.
  (** [x.m(args)] *)
  Variable method : V -> string -> list V -> M W V.

  (** The arguments with the given numbers. *)
  Fixpoint pick_all (vs : list V) (is : list nat) : res (list V) :=
    match is with [] => Ret [] | i :: is => dor x <- getitem vs i; dor xs <- pick_all vs is; Ret (x :: xs) end.
  (** The function itself, as Python calls it with all parameters. *)
  Definition body (f : modfun V) : pyfun W V V := fun args kw =>
    do vs <- lift (bind_args (f_params f) args kw);
    do x <- lift (getitem vs (f_receiver f));
    do ys <- lift (pick_all vs (f_args f));
    method x (f_method f) ys.
  (** A function with parameters [ps] around a function of the last parameter. *)
  Definition nested (f : modfun V) (args : list V) (kw : kwds V) : M W (curried W V V + V) :=
    do vs <- lift (bind_args (removelast (f_params f)) args kw);
    ret (inl (_curry [] 1 (fun args kw =>
      do xs <- lift (bind_args (skipn (List.length (f_params f) - 1) (f_params f)) args kw);
      body f (vs ++ xs) []))).
  (** Calling the name the module exports. *)
  Definition call_fun (f : modfun V) (args : list V) (kw : kwds V) : M W (curried W V V + V) :=
    match f_style f with
    | Flip n => call_flipped (curry_flip n (body f)) args kw
    | Direct => do y <- body f args kw; ret (inr y)
    | Nested => nested f args kw
    end.
End Forward.

(** Tables of the forwarding functions.  A parameter without default is [p name]; [false]
    and [zero] are the objects False and 0. *)
Section Tables.
  Context {V : Type} (false_ zero : V).
  Definition p (name : string) : param V := (name, None).
  Definition flip1 (module name : string) (ps : list (param V)) (receiver : nat) (m : string) (args : list nat) : modfun V :=
    ModFun module name (Flip 1) ps receiver m args.

  (** block.py:561-563, 566-568, 571-587, 608-622, 625-652, 655-669, 672-684, 687-697,
      700-711, 714-716, 719-733, 793-810, 831-851, 874-885, 888-899, 902-916, 919-931,
      944-945, 948-959, 962-976, 979-980, 983-994, 1018-1037 *)
  Definition block_functions : list (modfun V) :=
    [flip1 "block" "append" [p "source"; p "other"] 0 "append" [1];
     flip1 "block" "choose" [p "source"; p "chooser"] 0 "choose" [1];
     flip1 "block" "collect" [p "source"; p "mapping"] 0 "collect" [1];
     flip1 "block" "filter" [p "source"; p "predicate"] 0 "filter" [1];
     flip1 "block" "fold" [p "source"; p "folder"; p "state"] 0 "fold" [1; 2];
     flip1 "block" "forall" [p "source"; p "predicate"] 0 "forall" [1];
     ModFun "block" "head" Direct [p "source"] 0 "head" [];
     ModFun "block" "indexed" Direct [p "source"] 0 "indexed" [];
     flip1 "block" "item" [p "source"; p "index"] 0 "item" [1];
     ModFun "block" "is_empty" Direct [p "source"] 0 "is_empty" [];
     flip1 "block" "map" [p "source"; p "mapper"] 0 "map" [1];
     flip1 "block" "mapi" [p "source"; p "mapper"] 0 "mapi" [1];
     flip1 "block" "partition" [p "source"; p "predicate"] 0 "partition" [1];
     flip1 "block" "skip" [p "source"; p "count"] 0 "skip" [1];
     flip1 "block" "skip_last" [p "source"; p "count"] 0 "skip_last" [1];
     flip1 "block" "sort" [p "source"; ("reverse", Some false_)] 0 "sort" [1];
     flip1 "block" "sort_with" [p "source"; p "func"; ("reverse", Some false_)] 0 "sort_with" [1; 2];
     ModFun "block" "tail" Direct [p "source"] 0 "tail" [];
     flip1 "block" "take" [p "source"; p "count"] 0 "take" [1];
     flip1 "block" "take_last" [p "source"; p "count"] 0 "take_last" [1];
     ModFun "block" "dict" Direct [p "source"] 0 "dict" [];
     ModFun "block" "try_head" Direct [p "source"] 0 "try_head" [];
     flip1 "block" "zip" [p "source"; p "other"] 0 "zip" [1]].

  (** map.py:259-277, 280-295, 298-300, 303-305, 312-324, 327-336, 339-343, 346-362,
      373-389, 392-394, 397-399, 402-404, 407-413, 425-429, 432-446, 466-467, 470-471,
      474-489.
      [len(table)] and [table[key]] call [__len__] and [__getitem__]. *)
  Definition map_functions : list (modfun V) :=
    [flip1 "map" "add" [p "table"; p "key"; p "value"] 0 "add" [1; 2];
     flip1 "map" "change" [p "table"; p "key"; p "fn"] 0 "change" [1; 2];
     flip1 "map" "contains_key" [p "table"; p "key"] 0 "contains_key" [1];
     ModFun "map" "count" Direct [p "table"] 0 "__len__" [];
     flip1 "map" "find" [p "table"; p "key"] 0 "__getitem__" [1];
     ModFun "map" "is_empty" Direct [p "table"] 0 "is_empty" [];
     ModFun "map" "iterate" Nested [p "action"; p "table"] 1 "iterate" [0];
     flip1 "map" "try_pick" [p "table"; p "chooser"] 0 "try_pick" [1];
     flip1 "map" "exists" [p "table"; p "predicate"] 0 "exists" [1];
     flip1 "map" "filter" [p "table"; p "predicate"] 0 "filter" [1];
     flip1 "map" "for_all" [p "table"; p "predicate"] 0 "for_all" [1];
     flip1 "map" "map" [p "table"; p "mapping"] 0 "map" [1];
     flip1 "map" "fold" [p "table"; p "folder"; p "state"] 0 "fold" [1; 2];
     flip1 "map" "partition" [p "table"; p "predicate"] 0 "partition" [1];
     flip1 "map" "remove" [p "table"; p "key"] 0 "remove" [1];
     ModFun "map" "to_list" Direct [p "table"] 0 "to_list" [];
     ModFun "map" "to_seq" Direct [p "table"] 0 "to_seq" [];
     flip1 "map" "try_find" [p "table"; p "key"] 0 "try_find" [1]].
  (** map.py:416-422: the parameters are state, folder, table *)
  Definition map_fold_back : modfun V := flip1 "map" "fold_back" [p "state"; p "folder"; p "table"] 2 "fold_back" [1; 0].

  (** option.py:398-415, 418-425, 428-438, 441-442, 445-446, 449-451, 459-468, 471-473,
      476-481, 484-485, 488-489, 492-501, 543-544, 547-548, 551-552, 555-562 *)
  Definition option_functions : list (modfun V) :=
    [flip1 "option" "bind" [p "option"; p "mapper"] 0 "bind" [1];
     flip1 "option" "default_value" [p "option"; p "value"] 0 "default_value" [1];
     ModFun "option" "default_with" Nested [p "getter"; p "option"] 1 "default_with" [0];
     ModFun "option" "is_none" Direct [p "option"] 0 "is_none" [];
     ModFun "option" "is_some" Direct [p "option"] 0 "is_some" [];
     flip1 "option" "map" [p "option"; p "mapper"] 0 "map" [1];
     flip1 "option" "apply" [p "value"; p "function"] 0 "apply" [1];
     flip1 "option" "starmap" [p "option"; p "mapper"] 0 "starmap" [1];
     ModFun "option" "or_else" Direct [p "option"; p "if_none"] 0 "or_else" [1];
     ModFun "option" "to_list" Direct [p "option"] 0 "to_list" [];
     ModFun "option" "to_seq" Direct [p "option"] 0 "to_seq" [];
     ModFun "option" "to_optional" Direct [p "value"] 0 "to_optional" [];
     ModFun "option" "to_result" Direct [p "value"; p "error"] 0 "to_result" [1];
     ModFun "option" "to_result_with" Direct [p "value"; p "error"] 0 "to_result_with" [1];
     ModFun "option" "model_dump" Direct [p "value"] 0 "dict" [];
     ModFun "option" "default_arg" Direct [p "value"; p "default_value"] 0 "default_value" [1]].
  (** option.py:454-457 *)
  Definition option_map2 : modfun V := ModFun "option" "map2" (Flip 2) [p "opt1"; p "opt2"; p "mapper"] 0 "map2" [2; 1].

  (** result.py:381-391, 394-404, 407-409, 421-431, 434-436, 439-444, 447-448, 451-453,
      456-458, 461-467, 470-476, 479-481, 484-486, 489-494, 497-498, 511-512, 515-516 *)
  Definition result_functions : list (modfun V) :=
    [ModFun "result" "default_value" Nested [p "value"; p "result"] 1 "default_value" [0];
     ModFun "result" "default_with" Nested [p "getter"; p "result"] 1 "default_with" [0];
     flip1 "result" "map" [p "result"; p "mapper"] 0 "map" [1];
     flip1 "result" "apply" [p "value"; p "function"] 0 "apply" [1];
     flip1 "result" "map_error" [p "result"; p "mapper"] 0 "map_error" [1];
     flip1 "result" "bind" [p "result"; p "mapper"] 0 "bind" [1];
     ModFun "result" "dict" Direct [p "source"] 0 "dict" [];
     ModFun "result" "is_ok" Direct [p "result"] 0 "is_ok" [];
     ModFun "result" "is_error" Direct [p "result"] 0 "is_error" [];
     flip1 "result" "filter" [p "result"; p "predicate"; p "default"] 0 "filter" [1; 2];
     flip1 "result" "filter_with" [p "result"; p "predicate"; p "default"] 0 "filter_with" [1; 2];
     ModFun "result" "swap" Direct [p "result"] 0 "swap" [];
     flip1 "result" "or_else" [p "result"; p "other"] 0 "or_else" [1];
     flip1 "result" "or_else_with" [p "result"; p "other"] 0 "or_else_with" [1];
     ModFun "result" "merge" Direct [p "result"] 0 "merge" [];
     ModFun "result" "of_option" Direct [p "value"; p "error"] 0 "to_result" [1];
     ModFun "result" "of_option_with" Direct [p "value"; p "error"] 0 "to_result_with" [1]].
  (** result.py:412-418 *)
  Definition result_map2 : modfun V := ModFun "result" "map2" (Flip 2) [p "x"; p "y"; p "mapper"] 0 "map2" [1; 2].

  (** array.py:475-489, 496-510, 513-540, 551-553, 556-558, 592-603, 606-620, 623-634 *)
  Definition array_functions : list (modfun V) :=
    [flip1 "array" "map" [p "source"; p "mapper"] 0 "map" [1];
     flip1 "array" "filter" [p "source"; p "predicate"] 0 "filter" [1];
     flip1 "array" "fold" [p "source"; p "folder"; p "state"] 0 "fold" [1; 2];
     ModFun "array" "is_empty" Direct [p "source"] 0 "is_empty" [];
     flip1 "array" "item" [p "source"; p "index"] 0 "item" [1];
     flip1 "array" "take" [p "source"; p "count"] 0 "take" [1];
     flip1 "array" "take_last" [p "source"; p "count"] 0 "take_last" [1];
     ModFun "array" "try_head" Direct [p "source"] 0 "try_head" []].
  (** array.py:543-548: start is not passed on *)
  Definition array_indexed : modfun V := flip1 "array" "indexed" [p "source"; ("start", Some zero)] 0 "indexed" [].

  (** All of them. *)
  Definition module_functions : list (modfun V) :=
    block_functions ++ map_functions ++ option_functions ++ result_functions ++ array_functions.
End Tables.

(** A method whose body calls a module function with some of its arguments, and the
    result of that with the value that is piped ([self], or an argument): [pipe(self,
    f(a))], [f(a)(self)]; with no argument [f(self)].  [m_wrap]: the result is handed to
    this constructor. *)
Record method_of : Type := MethodOf {
  m_class : string; m_name : string; m_params : list string; m_piped : nat;
  m_module : string; m_function : string; m_args : list (list nat); m_wrap : option string }.

Section Methods.
  Context {W V : Type}.
  (** calling a function a module exports, calling a value, calling a constructor *)
  Variable call_name : string -> string -> list V -> M W V.
  Variable call_value : V -> list V -> M W V.
  Variable construct : string -> V -> M W V.
  Fixpoint call_values (f : V) (groups : list (list V)) : M W V :=
    match groups with [] => ret f | g :: groups => do f <- call_value f g; call_values f groups end.
  Fixpoint pick_groups (vs : list V) (groups : list (list nat)) : res (list (list V)) :=
    match groups with [] => Ret [] | g :: groups => dor x <- pick_all vs g; dor xs <- pick_groups vs groups; Ret (x :: xs) end.
  (** [vs] are the values of the parameters, [self] included. *)
  Definition run_method (m : method_of) (vs : list V) : M W V :=
    do x <- lift (getitem vs (m_piped m));
    do groups <- lift (pick_groups vs (m_args m));
    do y <- match groups with
            | [] => call_name (m_module m) (m_function m) [x]
            | g :: groups =>
                do f <- call_name (m_module m) (m_function m) g;
                do f <- call_values f groups;
                call_value f [x]
            end;
    match m_wrap m with Some c => construct c y | None => ret y end.
End Methods.

(** seq.py:94-95, seq.py:97-112, seq.py:177-179, seq.py:181-183, seq.py:185-198,
      seq.py:215-229, seq.py:231-246, seq.py:248-250, seq.py:284-293, seq.py:295-297,
      seq.py:299-305, seq.py:316-322, seq.py:324-325, seq.py:327-329, seq.py:331-333,
      block.py:255-268, block.py:273-274, block.py:349-369, array.py:372-373,
      array.py:375-379 *)
Definition wrapped := Some "Seq".
Definition seq_methods : list method_of :=
  [MethodOf "Seq" "filter" ["self"; "predicate"] 0 "seq" "filter" [[1]] wrapped;
   MethodOf "Seq" "choose" ["self"; "chooser"] 0 "seq" "choose" [[1]] wrapped;
   MethodOf "Seq" "head" ["self"] 0 "seq" "head" [] None;
   MethodOf "Seq" "length" ["self"] 0 "seq" "length" [] None;
   MethodOf "Seq" "map" ["self"; "mapper"] 0 "seq" "map" [[1]] wrapped;
   MethodOf "Seq" "starmap" ["self"; "mapping"] 0 "seq" "starmap" [[1]] wrapped;
   MethodOf "Seq" "mapi" ["self"; "mapping"] 0 "seq" "mapi" [[1]] wrapped;
   MethodOf "Seq" "pairwise" ["self"] 0 "seq" "pairwise" [] wrapped;
   MethodOf "Seq" "skip" ["self"; "count"] 0 "seq" "skip" [[1]] wrapped;
   MethodOf "Seq" "sum" ["self"] 0 "seq" "sum" [] None;
   MethodOf "Seq" "sum_by" ["self"; "projection"] 0 "seq" "sum_by" [[1]] None;
   MethodOf "Seq" "take" ["self"; "count"] 0 "seq" "take" [[1]] wrapped;
   MethodOf "Seq" "to_list" ["self"] 0 "seq" "to_list" [] None;
   MethodOf "Seq" "try_find_index" ["self"; "predicate"] 0 "seq" "try_find_index" [[1]] None;
   MethodOf "Seq" "try_pick" ["self"; "chooser"] 0 "seq" "try_pick" [[1]] None;
   MethodOf "Block" "starmap" ["self"; "mapping"] 0 "block" "starmap" [[1]] (Some "Block");
   MethodOf "Block" "sum_by" ["self"; "projection"] 0 "block" "sum_by" [[1]] None;
   MethodOf "Block" "reduce" ["self"; "reduction"] 0 "block" "reduce" [[1]] None;
   MethodOf "TypedArray" "sum" ["self"] 0 "array" "sum" [] None;
   MethodOf "TypedArray" "sum_by" ["self"; "projection"] 0 "array" "sum_by" [[1]] None].
(** seq.py:346-367, block.py:469-486, array.py:423-442: unfold(generator, state) pipes the
    state; Seq.unfold is a class method that does not use its class, left out here *)
Definition unfold_methods : list method_of :=
  [MethodOf "Seq" "unfold" ["generator"; "state"] 1 "seq" "unfold" [[0]] None;
   MethodOf "Block" "unfold" ["generator"; "state"] 1 "block" "unfold" [[0]] None;
   MethodOf "TypedArray" "unfold" ["generator"; "state"] 1 "array" "unfold" [[0]] None].
(** parser.py:50-51, 53-54, 56-57, 62-64, 72-73, 75-76, 78-79, 81-83, 85-86 *)
Definition parser_methods : list method_of :=
  [MethodOf "Parser" "and_then" ["self"; "p2"] 0 "parser" "and_then" [[1]] None;
   MethodOf "Parser" "ignore_then" ["self"; "p2"] 0 "parser" "ignore_then" [[1]] None;
   MethodOf "Parser" "then_ignore" ["self"; "p2"] 0 "parser" "then_ignore" [[1]] None;
   MethodOf "Parser" "map" ["self"; "mapper"] 0 "parser" "map" [[1]] None;
   MethodOf "Parser" "starmap" ["self"; "mapper"] 0 "parser" "starmap" [[1]] None;
   MethodOf "Parser" "opt" ["self"] 0 "parser" "opt" [] None;
   MethodOf "Parser" "ignore" ["self"] 0 "parser" "ignore" [] None;
   MethodOf "Parser" "bind" ["self"; "binder"] 0 "parser" "bind" [[1]] None;
   MethodOf "Parser" "between" ["self"; "p2"; "p3"] 0 "parser" "between" [[1]; [2]] None].
(** parser.py:59-60: [or_else(self)(parser2)] *)
Definition parser_or_else : method_of := MethodOf "Parser" "or_else" ["self"; "parser2"] 1 "parser" "or_else" [[0]] None.
