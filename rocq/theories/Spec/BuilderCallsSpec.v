(** Independent specification of the calls that a decorated body makes. *)
From Coq Require Import List.
From Verif.Model Require Import Base OptionResult Builder BuilderCalls.
From Verif.Spec Require Import BuilderSpec.
Import ListNotations.

Section Expected.
  Context {A Mo : Type} (b : builder (pyopt A) Mo).
  Notation V := (pyopt A).
  (** After a yield, whose value is [last] and the result with it [result]: the body yields
      [vs] and ends as [e]. *)
  Fixpoint rest_calls (last result : Mo) (vs : list V) (e : ending V Mo) : list (called V Mo) :=
    CBind last ::
    match vs with
    | v :: vs =>
        [CReturn v; CDelay; CCombine result (b_return b v)] ++ rest_calls (b_return b v) (b_combine b result (b_return b v)) vs e
    | [] =>
        match e with
        | EReturn PyNone => [CRun result]
        | EReturn (PyVal x) => [CReturn (PyVal x); CDelay; CCombine result (b_return b (PyVal x)); CRun (b_combine b result (b_return b (PyVal x)))]
        | EFail m => [CReturnFrom m; CDelay; CCombine result (b_return_from b m); CRun (b_combine b result (b_return_from b m))]
        | EThrow _ => []
        end
    end.
  Definition expected_calls (vs : list V) (e : ending V Mo) : list (called V Mo) :=
    CZero ::
    match vs with
    | v :: vs => [CReturn v; CDelay] ++ rest_calls (b_return b v) (b_return b v) vs e
    | [] =>
        match e with
        | EReturn PyNone => [CRun (b_zero b)]
        | EReturn (PyVal x) => [CReturn (PyVal x); CDelay; CRun (b_return b (PyVal x))]
        | EFail m => [CReturnFrom m; CDelay; CRun (b_return_from b m)]
        | EThrow _ => []
        end
    end.
End Expected.
(** Exceptions that the loop of the builder does not take for a signal. *)
Definition plain_faults {V Mo} (faults : called V Mo -> option exn) : Prop :=
  forall c x, faults c = Some x -> x <> StopIterationExn /\ x <> EffectErrorExn.
