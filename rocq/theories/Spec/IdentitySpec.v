(** What a user may expect of [x is Nothing]. *)
From Verif.Model Require Import Base OptionResult Identity.
Local Open Scope py_scope.

(** The two ways to ask whether an option is empty: [x is Nothing], [x.is_none()]. *)
Definition is_nothing {A} (o : oobj A) : Prop := o_id o = 0.
Definition empty {A} (o : oobj A) : Prop := o_case o = None.

(** Programs without the constructor of empty options and without copies (which include
    unpickling). *)
Inductive ordinary {U A} : prog U A -> Prop :=
| o_nothing : ordinary PNothing
| o_some : forall x, ordinary (PSome x)
| o_of : forall f, ordinary (POf f)
| o_map : forall p f, ordinary p -> ordinary (PMap p f)
| o_map2 : forall p f q, ordinary p -> ordinary q -> ordinary (PMap2 p f q)
| o_apply : forall p f q, ordinary p -> ordinary q -> ordinary (PApply p f q)
| o_bind : forall p f, ordinary p -> (forall x, ordinary (f x)) -> ordinary (PBind p f)
| o_or_else : forall p q, ordinary p -> ordinary q -> ordinary (POrElse p q)
| o_or_else_with : forall p q, ordinary p -> ordinary q -> ordinary (POrElseWith p q)
| o_filter : forall p f, ordinary p -> ordinary (PFilter p f).

(** The same program on options without identity. *)
Fixpoint value {U A} (p : prog U A) : M U (option A) :=
  match p with
  | PNothing | PNewNothing => ret None
  | PSome x => ret (Some x)
  | POf find => find
  | PMap p mapper => do o <- value p; opt_map o mapper
  | PMap2 p mapper q => do o <- value p; do other <- value q; opt_map2 o mapper other
  | PApply p run q => do o <- value p; do f <- value q; opt_apply o (option_map run f)
  | PBind p mapper => do o <- value p; opt_bind o (fun x => value (mapper x))
  | POrElse p q => do o <- value p; do other <- value q; ret (opt_or_else o other)
  | POrElseWith p q => do o <- value p; opt_or_else_with o (fun _ => value q)
  | PFilter p predicate => do o <- value p; opt_filter o predicate
  | PCopy p => value p
  end.
