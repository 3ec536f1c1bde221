(** What a piped call of a module function should do. *)
From Coq Require Import List ZArith Bool String.
From Verif.Model Require Import Base Functions Modules.
Import ListNotations.
Local Open Scope list_scope.
Local Open Scope py_scope.

(** [vs]: the values of parameters [ps] in a call with positional arguments [args] and
    keyword arguments [kw]. *)
Inductive supplied {V} : list (param V) -> list V -> kwds V -> list V -> Prop :=
| su_nil : supplied [] [] [] []
| su_position : forall name d ps a args kw vs, ~ In name (List.map fst kw) -> supplied ps args kw vs -> supplied ((name, d) :: ps) (a :: args) kw (a :: vs)
| su_name : forall name d ps kw1 kw2 v vs, supplied ps [] (kw1 ++ kw2) vs -> supplied ((name, d) :: ps) [] (kw1 ++ (name, v) :: kw2) (v :: vs)
| su_default : forall name v ps kw vs, ~ In name (List.map fst kw) -> supplied ps [] kw vs -> supplied ((name, Some v) :: ps) [] kw (v :: vs).

(** The parameters besides the one whose method is called. *)
Definition others {V} (f : modfun V) : list (param V) := firstn (f_receiver f) (f_params f) ++ skipn (S (f_receiver f)) (f_params f).

(** Functions named otherwise than the method they call. *)
Definition renamed : list (string * string) :=
  [("count", "__len__"); ("find", "__getitem__"); ("model_dump", "dict"); ("default_arg", "default_value"); ("of_option", "to_result"); ("of_option_with", "to_result_with")]%string.

(** [f(a1)(a2)...(x)], or [f(x)] without arguments. *)
Section Curried.
  Context {W V : Type} (call_name : string -> string -> list V -> M W V) (call_value : V -> list V -> M W V).
  Fixpoint staged (f : V) (args : list V) : M W V := match args with [] => ret f | a :: args => do g <- call_value f [a]; staged g args end.
  Definition piped_call (module name : string) (args : list V) (x : V) : M W V :=
    match args with
    | [] => call_name module name [x]
    | a :: args => do f <- call_name module name [a]; staged f (args ++ [x])
    end.
End Curried.
(** The module of each class. *)
Definition module_of : list (string * string) := [("Seq", "seq"); ("Block", "block"); ("TypedArray", "array"); ("Parser", "parser")]%string.

(** Using [f] on [recv]: [pipe(recv, f( *args, **kw))], and [f(recv, *args, **kw)] for the
    functions that are not curried. *)
Section Receiver.
  Context {W V : Type} (method : V -> string -> list V -> M W V).
  Definition with_receiver (f : modfun V) (recv : V) (args : list V) (kw : kwds V) : M W V :=
    match f_style f with
    | Direct => do c <- call_fun method f (recv :: args) kw; match c with inr y => ret y | inl _ => raise TypeError end
    | _ => do c <- call_fun method f args kw; do c <- calls c [([recv], [])]; match c with inr y => ret y | inl _ => raise TypeError end
    end.
End Receiver.
