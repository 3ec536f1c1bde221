(** What chains of Result operations should give. *)
From Coq Require Import List.
From Verif.Model Require Import Base OptionResult.
Import ListNotations.
Local Open Scope py_scope.

(** Leftmost error of a list of results, or all the values. *)
Fixpoint all_ok {A E} (rs : list (result A E)) : result (list A) E :=
  match rs with
  | [] => Ok []
  | Err e :: _ => Err e
  | Ok x :: rs => match all_ok rs with Ok xs => Ok (x :: xs) | Err e => Err e end
  end.

(** [Ok(x).bind(f1).bind(f2)...]: the functions run one after the other while the
    results are Ok. *)
Fixpoint while_ok {W A E} (x : A) (fs : list (A -> M W (result A E))) : M W (result A E) :=
  match fs with
  | [] => ret (Ok x)
  | f :: fs => do r <- f x; match r with Ok y => while_ok y fs | Err e => ret (Err e) end
  end.


(** What the caller of [dict()] sees: the payload itself, which may be None, or None. *)
Definition opt_plain {A} (d : pyopt (pyopt A)) : pyopt A := match d with PyNone => PyNone | PyVal v => v end.
