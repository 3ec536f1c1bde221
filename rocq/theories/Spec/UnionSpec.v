(** What a user may expect of tagged union values. *)
From Coq Require Import List Bool String.
From Verif.Model Require Import Base TaggedUnion.
Import ListNotations.
Local Open Scope string_scope.

(** A class declaration: distinct field names, none of them one of the two names the
    decorator uses for its own bookkeeping attributes. *)
Definition plain (fields : list string) : Prop :=
  NoDup fields /\ ~ In "_index" fields /\ ~ In "__dataclass_fields__" fields.

Section Union.
  Context {V : Type}.

  (** The keyword arguments name exactly one declared case, and a tag, if given, is None
      or that name. *)
  Definition accepted (fields : list string) (kw : kwargs (V := V)) (name : string) (value : pyobj V) : Prop :=
    In (name, value) kw /\ name <> "tag" /\ In name fields /\
    (forall n x, In (n, x) kw -> n = name \/ n = "tag") /\
    (forall x, In ("tag", x) kw -> x = PNone \/ x = PStr name).

  (** Values of a union: results of the constructor. *)
  Definition value_of (fields : list string) (t : table V) : Prop :=
    exists kw, NoDup (List.map fst kw) /\ init fields kw = Ret t.

  (** Histories of attribute assignment and deletion on a frozen value. *)
  Inductive amut : Type := ASet (name : string) (a : attr V) | ADel (name : string).
  Definition amut_name (m : amut) : string := match m with ASet n _ => n | ADel n => n end.
  Definition astep (fields : list string) (m : amut) (t : table V) : res unit * table V :=
    match m with ASet n a => frozen_setattr fields n a t | ADel n => frozen_delattr fields n t end.
  Definition arun (fields : list string) (ms : list amut) (t : table V) : table V :=
    fold_left (fun t m => snd (astep fields m t)) ms t.
End Union.
Arguments amut V : clear implicits.
