(** Model of what expression/core/tagged_union.py does to a class, beyond the instance
    dictionary of TaggedUnion.v: which special methods the finished class has, how they
    print, hash and compare instances, and what assignment does to an instance of a union
    that is not frozen.  Also the text of Option, Result and Try.  Definitions only. *)
From Coq Require Import List Bool ZArith Arith String.
From Verif.Model Require Import Base TaggedUnion.
Import ListNotations.
Local Open Scope string_scope.
Local Open Scope py_scope.

(** The special methods that matter here. *)
Inductive special : Type := SRepr | SStr | SEq | SHash | SLt | SLe | SGt | SGe.
(** Where the method of a class comes from: its own body, the decorator, [object]; or it is
    set to None, as Python does with [__hash__] of a class that defines [__eq__] only. *)
Inductive origin : Type := FromBody | Generated | FromObject | SetToNone.

(** tagged_union.py:34-42: a declaration is the name, the fields in order, the four options
    and the special methods that the class body defines. *)
Record decl : Type := {
  d_name : string;
  d_fields : list string;
  d_frozen : bool;
  d_repr : bool;
  d_eq : bool;
  d_order : bool;
  d_body : special -> bool
}.

(** The class before the decorator runs, by the rules of the class statement.  The
    dataclass call (tagged_union.py:58-64) has init, repr, order and eq switched off and
    adds none of these methods. *)
Definition defined (d : decl) (s : special) : origin :=
  if d_body d s then FromBody
  else match s with
       | SHash => if d_body d SEq then SetToNone else FromObject
       | _ => FromObject
       end.

(** The class after the decorator: tagged_union.py:116-117 (repr), 122-131 (eq), 136-143
    (order), 148-165 (frozen).  The assignments do not look at what the body defines. *)
Definition method (d : decl) (s : special) : origin :=
  match s with
  | SRepr => if d_repr d then Generated else defined d SRepr
  | SEq => if d_eq d then Generated else defined d SEq
  | SLt => if d_order d then Generated else defined d SLt
  | SHash => if d_frozen d then Generated else defined d SHash
  | _ => defined d s
  end.

Section Instances.
  Context {V : Type}.

  (** tagged_union.py:113-114 (__repr__): the class name is the one of the decorated class,
      also for an instance of a subclass.  [prepr] is repr() of the payload. *)
  Definition tu_repr {W} (name : string) (prepr : pyobj V -> M W string) (t : table V) : M W string :=
    do x <- lift (active t); do s <- prepr (snd x); ret (name ++ "(" ++ fst x ++ "=" ++ s ++ ")").

  (** repr(x): [body] is the [__repr__] of the class body, [default] that of [object]. *)
  Definition py_repr {W} (d : decl) (body default : table V -> M W string) (prepr : pyobj V -> M W string)
      (t : table V) : M W string :=
    match method d SRepr with
    | Generated => tu_repr (d_name d) prepr t
    | FromBody => body t
    | _ => default t
    end.

  (** [a == b] for two instances of the class itself, with their identities; an
      instance of another class is unequal (tagged_union.py:126). *)
  Definition py_eq (d : decl) (body : table V -> table V -> res bool) (peq : pyobj V -> pyobj V -> bool)
      (ia ib : nat) (a b : table V) : res bool :=
    match method d SEq with
    | Generated => tu_eq peq a b
    | FromBody => body a b
    | _ => Ret (Nat.eqb ia ib)
    end.

  (** hash(x) of the object with identity [oid]: [id_hash] is the hash of [object], [body]
      the [__hash__] of the class body. *)
  Definition py_hash (d : decl) (body : table V -> res Z) (id_hash : nat -> Z) (tuple_hash : string -> string -> Z -> Z)
      (phash : pyobj V -> Z) (oid : nat) (t : table V) : res Z :=
    match method d SHash with
    | Generated => tu_hash (d_name d) tuple_hash phash t
    | FromBody => body t
    | FromObject => Ret (id_hash oid)
    | SetToNone => Raise TypeError
    end.

  (** The comparison operators and their reflections (Python's data model). *)
  Definition reflected (s : special) : special :=
    match s with SLt => SGt | SGt => SLt | SLe => SGe | SGe => SLe | s => s end.
  (** A call of the method for [s]; None is NotImplemented. *)
  Definition attempt (d : decl) (body : special -> table V -> table V -> res (option bool))
      (peq plt : pyobj V -> pyobj V -> bool) (s : special) (a b : table V) : res (option bool) :=
    match method d s with
    | Generated => rmap Some (tu_lt peq plt a b)
    | FromBody => body s a b
    | _ => Ret None
    end.
  (** [a s b] for two instances of the class itself: the method of the left operand, then
      the reflected method of the right one, then TypeError. *)
  Definition compare (d : decl) (body : special -> table V -> table V -> res (option bool))
      (peq plt : pyobj V -> pyobj V -> bool) (s : special) (a b : table V) : res bool :=
    dor r <- attempt d body peq plt s a b;
    match r with
    | Some r => Ret r
    | None =>
        dor r <- attempt d body peq plt (reflected s) b a;
        match r with Some r => Ret r | None => Raise TypeError end
    end.

  (** Assignment and deletion of attributes: the methods of a frozen union
      (tagged_union.py:153-161), those of [object] otherwise. *)
  Definition assign (d : decl) (name : string) (a : attr V) (t : table V) : res unit * table V :=
    if d_frozen d then frozen_setattr (d_fields d) name a t else (Ret tt, set_attr name a t).

  (** option.py:302-307 (Option.__str__); [pstr] is str() of the payload *)
  Definition option_str {W} (pstr : pyobj V -> M W string) (t : table V) : M W string :=
    do tg <- lift (get_tag t);
    if String.eqb tg "some" then do v <- lift (getattr "some" t); do s <- pstr v; ret ("Some " ++ s)
    else ret "Nothing".
  (** result.py:285-290 (Result.__str__) and try_.py:24-30 (Try.__str__), with the words for
      the two cases.  When no case matches the method returns None, which str() refuses. *)
  Definition either_str {W} (yes no : string) (pstr : pyobj V -> M W string) (t : table V) : M W string :=
    do tg <- lift (get_tag t);
    if String.eqb tg "ok" then do v <- lift (getattr "ok" t); do s <- pstr v; ret (yes ++ " " ++ s)
    else match getattr "error" t with
         | Ret v => do s <- pstr v; ret (no ++ " " ++ s)
         | Raise _ => raise TypeError
         end.
End Instances.

(** option.py:43-48, 292-310 and result.py:49-55, 285-293: the declarations of Option and
    Result with the special methods their bodies define. *)
Definition option_decl : decl := {|
  d_name := "Option"; d_fields := option_fields; d_frozen := true; d_repr := true; d_eq := true; d_order := true;
  d_body := fun s => match s with SRepr | SStr | SEq => true | _ => false end |}.
Definition result_decl : decl := {|
  d_name := "Result"; d_fields := result_fields; d_frozen := true; d_repr := true; d_eq := true; d_order := true;
  d_body := fun s => match s with SRepr | SStr => true | _ => false end |}.

(** The three classes.  Try (try_.py:17-30) is a subclass of Result that only redefines
    [__str__]; it inherits the finished [__repr__] of Result. *)
Inductive cls : Type := COption | CResult | CTry.
Definition cls_decl (c : cls) : decl := match c with COption => option_decl | _ => result_decl end.

Section Printing.
  Context {V W : Type}.

  (** str(x) *)
  Definition str (c : cls) (pstr : pyobj V -> M W string) (t : table V) : M W string :=
    match c with
    | COption => option_str pstr t
    | CResult => either_str "Ok" "Error" pstr t
    | CTry => either_str "Success" "Failure" pstr t
    end.
  (** repr(x): the bodies define [__repr__] as str(self) (option.py:309-310,
      result.py:292-293). *)
  Definition repr (c : cls) (pstr prepr : pyobj V -> M W string) (t : table V) : M W string :=
    py_repr (cls_decl c) (str c pstr) (fun _ => raise TypeError) prepr t.
End Printing.

(** copy.copy, copy.deepcopy and pickling with the class of the result.
    tagged_union.py:170-175: [cls] is the decorated class, also for an instance of a
    subclass.  Unpickling makes an instance of the original class (tagged_union.py:75-76). *)
Definition copy_class (c : cls) : cls := match c with COption => COption | _ => CResult end.
Definition copied {V} (x : cls * table V) : res (cls * table V) :=
  dor t <- tu_copy (d_fields (cls_decl (fst x))) (snd x); Ret (copy_class (fst x), t).
Definition deepcopied {V} (dup : pyobj V -> res (pyobj V)) (x : cls * table V) : res (cls * table V) :=
  dor t <- tu_deepcopy (d_fields (cls_decl (fst x))) dup (snd x); Ret (copy_class (fst x), t).
Definition pickled {V} (dup : pyobj V -> res (pyobj V)) (x : cls * table V) : res (cls * table V) :=
  dor t <- pickle_round_trip (d_fields (cls_decl (fst x))) dup (snd x); Ret (fst x, t).
