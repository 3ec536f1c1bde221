(** Which Python objects belong to a type, independently of the validators. *)
From Coq Require Import List String Bool.
From Verif.Model Require Import Base Pydantic.
Import ListNotations.

Section Types.
  Context {base atom : Type}.
  Notation val := (pv atom).
  (** the values of the other types *)
  Variable good : base -> val -> Prop.
  Inductive typed : ty base -> val -> Prop :=
  | ty_base : forall b v, good b v -> typed (TBase b) v
  | ty_nothing : forall t, typed (TOption t) PNothing
  | ty_some : forall t v, typed t v -> typed (TOption t) (PSome v)
  | ty_ok : forall t u v, typed t v -> typed (TResult t u) (POk v)
  | ty_error : forall t u v, typed u v -> typed (TResult t u) (PError v)
  | ty_block : forall t l, typed_all t l -> typed (TBlock t) (PBlock l)
  with typed_all : ty base -> list val -> Prop :=
  | tya_nil : forall t, typed_all t []
  | tya_cons : forall t v l, typed t v -> typed_all t l -> typed_all t (v :: l).

  (** No instance of Option, Result or Block. *)
  Definition outsider (v : val) : Prop :=
    match v with PSome _ | PNothing | POk _ | PError _ | PBlock _ => False | _ => True end.
  (** ... nor anywhere inside. *)
  Inductive data : val -> Prop :=
  | d_atom : forall a, data (Atom a) | d_str : forall s, data (PStr s) | d_none : data PNone
  | d_list : forall l, data_all l -> data (PList l)
  | d_dict : forall d, data_all (List.map snd d) -> data (PDict d)
  with data_all : list val -> Prop :=
  | da_nil : data_all [] | da_cons : forall v l, data v -> data_all l -> data_all (v :: l).

  (** Types below an Option whose values are never written as None. *)
  Definition told_apart (t : ty base) : Prop := match t with TBase b => ~ good b PNone | TOption _ => False | _ => True end.
  Fixpoint writable (t : ty base) : Prop :=
    match t with
    | TBase _ => True
    | TOption t => told_apart t /\ writable t
    | TResult t u => writable t /\ writable u
    | TBlock t => writable t
    end.
  (** Types without Result whose options hold values of other types only. *)
  Fixpoint flat (t : ty base) : Prop :=
    match t with
    | TBase _ => True
    | TOption (TBase b) => ~ good b PNone
    | TBlock t => flat t
    | _ => False
    end.
End Types.

Fixpoint without_result {base} (t : ty base) : Prop :=
  match t with TBase _ => True | TOption t | TBlock t => without_result t | TResult _ _ => False end.
