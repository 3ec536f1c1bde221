(** Model of upcast, downcast and try_downcast of expression/core/typing.py, for Python
    3.10 to 3.13.  Definitions only. *)
From Coq Require Import List Bool.
Import ListNotations.

(** What is passed as the type: None, a class, a parametrised generic such as
    [Option[int]], a union of classes written [int | str], the same written
    [typing.Union[int, str]], and a tuple of classes.  Unions with other members are left
    out. *)
Inductive tyexp (cls : Type) : Type :=
| TyNone
| TyClass (c : cls)
| TyGeneric (origin : cls) (args : list (tyexp cls))
| TyBar (cs : list cls)
| TyUnion (cs : list cls)
| TyTuple (cs : list cls).
Arguments TyNone {cls}. Arguments TyClass {cls} c. Arguments TyGeneric {cls} origin args.
Arguments TyBar {cls} cs. Arguments TyUnion {cls} cs. Arguments TyTuple {cls} cs.

(** What a call does; AssertionError is raised by nothing else in the model. *)
Inductive outcome (A : Type) : Type := Returns (a : A) | Asserts | TypeErrorOf.
Arguments Returns {A} a. Arguments Asserts {A}. Arguments TypeErrorOf {A}.

Section Casts.
  Context {cls obj : Type}.
  (** isinstance(x, c) for a class c; classes whose [__instancecheck__] raises are left
      out *)
  Variable inst : obj -> cls -> bool.
  (** The class types.UnionType, of which [int | str] is an instance. *)
  Variable union_type : cls.
  (** The object None. *)
  Variable none : obj.

  (** builtins.isinstance: a tuple and a union are searched, a parametrised generic and
      None are refused. *)
  Definition isinstance (x : obj) (t : tyexp cls) : outcome bool :=
    match t with
    | TyClass c => Returns (inst x c)
    | TyBar cs | TyUnion cs | TyTuple cs => Returns (existsb (inst x) cs)
    | TyNone | TyGeneric _ _ => TypeErrorOf
    end.

  (** typing.get_origin.  That of [typing.Union[int, str]] is [typing.Union], which
      isinstance refuses, here [SpecialForm]. *)
  Inductive origin : Type := NoOrigin | ClassOrigin (c : cls) | SpecialForm.
  Definition get_origin (t : tyexp cls) : origin :=
    match t with
    | TyNone | TyClass _ | TyTuple _ => NoOrigin
    | TyGeneric c _ => ClassOrigin c
    | TyBar _ => ClassOrigin union_type
    | TyUnion _ => SpecialForm
    end.

  (** typing.py:61-66 *)
  Definition upcast (t : tyexp cls) (expr : obj) : outcome obj := Returns expr.

  (** typing.py:69-79; [asserts] is false when Python runs with -O *)
  Definition downcast (asserts : bool) (t : tyexp cls) (expr : obj) : outcome obj :=
    if asserts then
      match isinstance expr t with
      | Returns true => Returns expr
      | Returns false => Asserts
      | Asserts => Asserts
      | TypeErrorOf => TypeErrorOf
      end
    else Returns expr.

  (** typing.py:82-96 *)
  Definition try_downcast (t : tyexp cls) (expr : obj) : outcome obj :=
    let checked := match get_origin t with
                   | ClassOrigin c => Returns (inst expr c)
                   | SpecialForm => TypeErrorOf
                   | NoOrigin => match t with
                                 | TyNone => Returns false
                                 | _ => isinstance expr t
                                 end
                   end in
    match checked with
    | Returns true => Returns expr
    | Returns false => Returns none
    | Asserts => Asserts
    | TypeErrorOf => TypeErrorOf
    end.
End Casts.
