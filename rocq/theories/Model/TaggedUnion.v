(** Model of expression/core/tagged_union.py: what the decorator does to a class, and
    what its instances are.  Definitions only. *)
From Coq Require Import List Bool ZArith Arith String.
From Verif.Model Require Import Base.
Import ListNotations.
Local Open Scope string_scope.
Local Open Scope py_scope.

(** A Python object as far as this module looks at it: None, a string, or anything else. *)
Inductive pyobj (V : Type) : Type :=
| PNone
| PStr (s : string)
| PObj (v : V).
Arguments PNone {V}.
Arguments PStr {V} s.
Arguments PObj {V} v.

(** Contents of an instance attribute: an object, the integer [_index], or the filtered
    [__dataclass_fields__] (tagged_union.py:103-104), of which only the names matter. *)
Inductive attr (V : Type) : Type :=
| AObj (x : pyobj V)
| AIndex (n : nat)
| AFields (names : list string).
Arguments AObj {V} x.
Arguments AIndex {V} n.
Arguments AFields {V} names.

(** Instance dictionary *)
Definition table (V : Type) : Type := list (string * attr V).

Section TaggedUnion.
  Context {V : Type}.

  (** Reading an attribute from the [__dict__] of an instance (Python's semantics). *)
  Fixpoint get_attr (name : string) (t : table V) : option (attr V) :=
    match t with
    | [] => None
    | (n, a) :: t => if String.eqb n name then Some a else get_attr name t
    end.
  (** [object.__setattr__] *)
  Fixpoint set_attr (name : string) (a : attr V) (t : table V) : table V :=
    match t with
    | [] => [(name, a)]
    | (n, b) :: t => if String.eqb n name then (n, a) :: t else (n, b) :: set_attr name a t
    end.
  (** [object.__delattr__] *)
  Definition del_attr (name : string) (t : table V) : table V :=
    List.filter (fun x => negb (String.eqb (fst x) name)) t.

  (** [getattr(self, name)] expecting an object *)
  Definition getattr (name : string) (t : table V) : res (pyobj V) :=
    match get_attr name t with
    | Some (AObj x) => Ret x
    | Some _ => Raise TypeError
    | None => Raise AttributeError
    end.
  (** [self.tag] used as an attribute name *)
  Definition get_tag (t : table V) : res string :=
    match getattr "tag" t with
    | Ret (PStr s) => Ret s
    | Ret _ => Raise TypeError
    | Raise e => Raise e
    end.

  (** list.index, tagged_union.py:98. *)
  Fixpoint index_of (name : string) (l : list string) : nat :=
    match l with
    | [] => 0
    | x :: l => if String.eqb x name then 0 else S (index_of name l)
    end.
  (** [in] for a list of names. *)
  Definition mem_name (name : string) (l : list string) : bool := existsb (String.eqb name) l.

  (** Keyword arguments: names are distinct, in call order. *)
  Definition kwargs : Type := list (string * pyobj V).
  Definition kw_get (name : string) (kw : kwargs) : option (pyobj V) :=
    option_map snd (List.find (fun x => String.eqb (fst x) name) kw).

  (** tagged_union.py:84-108 (__init__).  [field_names] are the dataclass fields in
      declaration order (line 67), including "tag" when the class declares it.  The
      instance dictionary starts empty.  [tag == name] is string comparison; a tag that
      is neither None nor a string is taken to be different.  [original_init]
      (line 106) is [object.__init__], which does nothing. *)
  Definition init (field_names : list string) (kw : kwargs) : res (table V) :=
    let tag := match kw_get "tag" kw with Some t => t | None => PNone end in
    let kw := List.filter (fun x => negb (String.eqb (fst x) "tag")) kw in
    match kw with
    | [] => Raise TypeError
    | (name, value) :: _ =>
        if negb (mem_name name field_names) then Raise TypeError
        else if negb (Nat.eqb (List.length kw) 1) then Raise TypeError
        else if match tag with PNone => true | PStr s => String.eqb s name | PObj _ => false end then
          let t := set_attr "tag" (AObj (PStr name)) [] in
          let t := set_attr name (AObj value) t in
          let t := set_attr "_index" (AIndex (index_of name field_names)) t in
          let t := set_attr "__dataclass_fields__"
                     (AFields (List.filter (fun n => String.eqb n name || String.eqb n "tag") field_names)) t in
          Ret t
        else Raise TypeError
    end.

  (** [(self.tag, getattr(self, self.tag))] *)
  Definition active (t : table V) : res (string * pyobj V) :=
    dor tg <- get_tag t; dor v <- getattr tg t; Ret (tg, v).

  (** tagged_union.py:122-131 (__eq__), the other operand an instance of the class;
      [peq] is Python's [==] on payloads. *)
  Definition tu_eq (peq : pyobj V -> pyobj V -> bool) (a b : table V) : res bool :=
    dor ta <- get_tag a; dor tb <- get_tag b;
    if String.eqb ta tb then dor x <- getattr ta a; dor y <- getattr ta b; Ret (peq x y)
    else Ret false.

  (** Reading [_index] (tagged_union.py:98, 141). *)
  Definition get_index (t : table V) : res nat :=
    match get_attr "_index" t with
    | Some (AIndex n) => Ret n
    | Some _ => Raise TypeError
    | None => Raise AttributeError
    end.

  (** tagged_union.py:136-143 (__lt__): comparison of the pairs (index, payload) as
      Python tuples: the first components that differ decide. *)
  Definition tu_lt (peq plt : pyobj V -> pyobj V -> bool) (a b : table V) : res bool :=
    dor ia <- get_index a; dor x <- active a;
    dor ib <- get_index b; dor y <- active b;
    if negb (Nat.eqb ia ib) then Ret (Nat.ltb ia ib)
    else if peq (snd x) (snd y) then Ret false
    else Ret (plt (snd x) (snd y)).

  (** tagged_union.py:150-151 (__hash__); [tuple_hash] is the hash of the 3-tuple given
      the class name, the tag and the hash of the payload. *)
  Definition tu_hash (cls_name : string) (tuple_hash : string -> string -> Z -> Z) (phash : pyobj V -> Z)
      (t : table V) : res Z :=
    dor x <- active t; Ret (tuple_hash cls_name (fst x) (phash (snd x))).

  (** tagged_union.py:153-161 on a frozen union: result and instance afterwards *)
  Definition frozen_setattr (field_names : list string) (name : string) (a : attr V) (t : table V) : res unit * table V :=
    if mem_name name field_names then (Raise TypeError, t) else (Ret tt, set_attr name a t).
  Definition frozen_delattr (field_names : list string) (name : string) (t : table V) : res unit * table V :=
    if mem_name name field_names then (Raise TypeError, t)
    else match get_attr name t with
         | Some _ => (Ret tt, del_attr name t)
         | None => (Raise AttributeError, t)
         end.

  (** tagged_union.py:170-171 (__copy__) *)
  Definition tu_copy (field_names : list string) (t : table V) : res (table V) :=
    dor x <- active t; init field_names [x].
  (** tagged_union.py:173-175 (__deepcopy__); [dup] is [deepcopy] of the payload *)
  Definition tu_deepcopy (field_names : list string) (dup : pyobj V -> res (pyobj V)) (t : table V) : res (table V) :=
    dor x <- active t; dor v <- dup (snd x); init field_names [(fst x, v)].

  (** tagged_union.py:72-73 (__getstate__): [fields(self)] reads the instance's own
      [__dataclass_fields__]. *)
  Fixpoint get_all (names : list string) (t : table V) : res kwargs :=
    match names with
    | [] => Ret []
    | n :: names => dor x <- getattr n t; dor xs <- get_all names t; Ret ((n, x) :: xs)
    end.
  Definition getstate (t : table V) : res kwargs :=
    match get_attr "__dataclass_fields__" t with
    | Some (AFields names) => get_all names t
    | _ => Raise AttributeError
    end.
  (** tagged_union.py:75-76 (__setstate__) on the fresh object made by unpickling *)
  Definition setstate (field_names : list string) (state : kwargs) : res (table V) := init field_names state.
  (** pickle round trip: every value of the state goes through [dup] *)
  Fixpoint dup_all (dup : pyobj V -> res (pyobj V)) (state : kwargs) : res kwargs :=
    match state with
    | [] => Ret []
    | (n, x) :: state => dor y <- dup x; dor ys <- dup_all dup state; Ret ((n, y) :: ys)
    end.
  Definition pickle_round_trip (field_names : list string) (dup : pyobj V -> res (pyobj V)) (t : table V) : res (table V) :=
    dor s <- getstate t; dor s <- dup_all dup s; setstate field_names s.
End TaggedUnion.

(** option.py:50-53 and result.py:58-61: the declared fields of Option and Result *)
Definition option_fields : list string := ["tag"; "none"; "some"].
Definition result_fields : list string := ["tag"; "ok"; "error"].
