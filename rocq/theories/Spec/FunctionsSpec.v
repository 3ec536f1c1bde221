(** Independent specification of tail recursion. *)
From Coq Require Import List.
From Verif.Model Require Import Base Functions.

Section TailRecSpec.
  Context {W Args R : Type}.
  Variable fn : Args -> M W (bounce Args R).

  (** The recursive reading of the body: a tail call is a call of the function itself. *)
  Inductive evals : Args -> W -> res R -> W -> Prop :=
  | ev_result : forall a w r w1, fn a w = (Ret (Result r), w1) -> evals a w (Ret r) w1
  | ev_raise : forall a w e w1, fn a w = (Raise e, w1) -> evals a w (Raise e) w1
  | ev_call : forall a w a1 w1 r w2,
      fn a w = (Ret (TailCall a1), w1) -> evals a1 w1 r w2 -> evals a w r w2.

  (** The recursion never ends: it makes tail calls for ever. *)
  CoInductive diverges : Args -> W -> Prop :=
  | div_call : forall a w a1 w1, fn a w = (Ret (TailCall a1), w1) -> diverges a1 w1 -> diverges a w.
End TailRecSpec.
