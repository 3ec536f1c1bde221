(** Model of the identity of Option objects, expression/core/option.py: which calls create an
    object, which return the module's [Nothing] (option.py:381-389) and which return one of
    their arguments.  Definitions only. *)
From Coq Require Import List ZArith.
From Verif.Model Require Import Base OptionResult.
Import ListNotations.
Local Open Scope py_scope.

(** An Option object: its identity and its case. *)
Record oobj (A : Type) : Type := OObj { o_id : nat; o_case : option A }.
Arguments OObj {A} o_id o_case.
Arguments o_id {A} o.
Arguments o_case {A} o.

Section Identity.
  Context {U A : Type}.
  (** The state: the number of the next object, and whatever the callbacks act on. *)
  Definition store : Type := nat * U.
  Notation act := (M store).

  (** A callback: it acts on the user's part of the state. *)
  Definition call {B} (m : M U B) : act B := fun w => let (r, u) := m (snd w) in (r, (fst w, u)).
  (** option.py:55-63, 392-394: Option(some=...) and Option(none=None) create an object. *)
  Definition new (c : option A) : act (oobj A) := fun w => (Ret (OObj (fst w) c), (S (fst w), snd w)).
  Definition new_some (x : A) : act (oobj A) := new (Some x).
  (** option.py:60-63 (the static method Option.Nothing) *)
  Definition new_nothing : act (oobj A) := new None.
  (** option.py:381: the module's [Nothing], created first. *)
  Definition nothing : oobj A := OObj 0 None.

  (** option.py:89-99 *)
  Definition obj_map (o : oobj A) (mapper : A -> M U A) : act (oobj A) :=
    match o_case o with Some x => do y <- call (mapper x); new_some y | None => ret nothing end.
  (** option.py:101-111 *)
  Definition obj_map2 (o : oobj A) (mapper : A -> A -> M U A) (other : oobj A) : act (oobj A) :=
    match o_case o, o_case other with
    | Some x, Some y => do z <- call (mapper x y); new_some z
    | _, _ => ret nothing
    end.
  (** option.py:113-123: [some=mapper] of the other option is called by [self.map] *)
  Definition obj_apply (o : oobj A) (run : A -> A -> M U A) (function : oobj A) : act (oobj A) :=
    match o_case function with Some g => obj_map o (run g) | None => ret nothing end.
  (** option.py:138-156; the callback returns an object *)
  Definition obj_bind (o : oobj A) (mapper : A -> act (oobj A)) : act (oobj A) :=
    match o_case o with Some x => mapper x | None => ret nothing end.
  (** option.py:158-164 *)
  Definition obj_or_else (o if_none : oobj A) : act (oobj A) :=
    match o_case o with Some _ => ret o | None => ret if_none end.
  (** option.py:166-176 *)
  Definition obj_or_else_with (o : oobj A) (if_none : act (oobj A)) : act (oobj A) :=
    match o_case o with Some _ => ret o | None => if_none end.
  (** option.py:178-188 *)
  Definition obj_filter (o : oobj A) (predicate : A -> M U bool) : act (oobj A) :=
    match o_case o with
    | Some x => do b <- call (predicate x); if b : bool then ret o else ret nothing
    | None => ret nothing
    end.
  (** option.py:504-518 (of_optional, of_obj), 533-540 (of_result); result.py:246-256, 501-508;
      the searches of the collections, which end in [return Some(x)] or [return Nothing]:
      block.py:457-467, array.py:411-421, seq.py:955-1005, maptree.py:170-181, 360-375.
      [found] is what was found. *)
  Definition obj_of (found : option A) : act (oobj A) :=
    match found with Some x => new_some x | None => ret nothing end.
  (** tagged_union.py:170-175, 75-76: copy, deepcopy and unpickling call the constructor *)
  Definition obj_copy (o : oobj A) : act (oobj A) := new (o_case o).

  (** Programs made of these calls.  The callback of bind and or_else_with is a program. *)
  Inductive prog : Type :=
  | PNothing
  | PSome (x : A)
  | POf (find : M U (option A))
  | PMap (p : prog) (mapper : A -> M U A)
  | PMap2 (p : prog) (mapper : A -> A -> M U A) (q : prog)
  | PApply (p : prog) (run : A -> A -> M U A) (q : prog)
  | PBind (p : prog) (mapper : A -> prog)
  | POrElse (p q : prog)
  | POrElseWith (p q : prog)
  | PFilter (p : prog) (predicate : A -> M U bool)
  | PNewNothing
  | PCopy (p : prog).

  (** Running such a program: each constructor is a call of the function it names. *)
  Fixpoint eval (p : prog) : act (oobj A) :=
    match p with
    | PNothing => ret nothing
    | PSome x => new_some x
    | POf find => do f <- call find; obj_of f
    | PMap p mapper => do o <- eval p; obj_map o mapper
    | PMap2 p mapper q => do o <- eval p; do other <- eval q; obj_map2 o mapper other
    | PApply p run q => do o <- eval p; do f <- eval q; obj_apply o run f
    | PBind p mapper => do o <- eval p; obj_bind o (fun x => eval (mapper x))
    | POrElse p q => do o <- eval p; do other <- eval q; obj_or_else o other
    | POrElseWith p q => do o <- eval p; obj_or_else_with o (eval q)
    | PFilter p predicate => do o <- eval p; obj_filter o predicate
    | PNewNothing => new_nothing
    | PCopy p => do o <- eval p; obj_copy o
    end.
End Identity.
Arguments prog U A : clear implicits.
Arguments store U : clear implicits.
