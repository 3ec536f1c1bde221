(** Helpers of computation expressions: a part of a body that is a function of its own,
    either a plain generator function or decorated itself. *)
From Coq Require Import List.
From Verif.Model Require Import Base OptionResult Builder Mixed Handlers.
From Verif.Spec Require Import BuilderSpec MixedSpec HandlersSpec.
Import ListNotations.

Section Helpers.
  Context {W A E : Type}.
  Notation V := (pyopt A).
  Notation N := (outcome A E).
  Notation body := (prog W V N).

  (** [m] is what calls of the helper give when it is decorated with effect.option, or with
      effect.result *)
  Definition decorated_option (helper : body) (m : M W N) : Prop :=
    forall w, settles (fun fuel => call_gen mixed_option_builder susp_resume fuel (generator false helper) w) (m w).
  Definition decorated_result (helper : body) (m : M W N) : Prop :=
    forall w, settles (fun fuel => call_gen mixed_result_builder susp_resume fuel (generator false helper) w) (m w).

  (** The helper returns a value other than None, short circuits or raises (not by the
      EffectError of another call). *)
  Definition gives_value (helper : body) : Prop := forall w vs c w1, means false helper w = (vs, c, w1) ->
    match c with
    | CReturn (PyVal _) => True
    | CRaise (RFail m) => inside m = None
    | CRaise (RThrow e) => e <> EffectErrorExn
    | _ => False
    end.
  (** Or it returns None, without having yielded anything. *)
  Definition gives_value_or_none (helper : body) : Prop := forall w vs c w1, means false helper w = (vs, c, w1) ->
    match c with
    | CReturn (PyVal _) => True
    | CRaise (RFail m) => inside m = None
    | CRaise (RThrow e) => e <> EffectErrorExn
    | _ => vs = []
    end.

  (** The second body is the first with some of the plain helpers decorated. *)
  Inductive decorating : body -> body -> Prop :=
  | dec_same : forall p, decorating p p
  | dec_option : forall helper m k k', gives_value helper -> decorated_option helper m -> (forall v, decorating (k v) (k' v)) ->
      decorating (PDelegate helper k) (PFrom m k')
  | dec_result : forall helper m k k', gives_value_or_none helper -> decorated_result helper m -> (forall v, decorating (k v) (k' v)) ->
      decorating (PDelegate helper k) (PFrom m k')
  | dec_delegate : forall q q' k k', decorating q q' -> (forall v, decorating (k v) (k' v)) -> decorating (PDelegate q k) (PDelegate q' k')
  | dec_do : forall m k k', (forall v, decorating (k v) (k' v)) -> decorating (PDo m k) (PDo m k')
  | dec_yield : forall v k k', (forall v, decorating (k v) (k' v)) -> decorating (PYield v k) (PYield v k')
  | dec_from : forall m k k', (forall v, decorating (k v) (k' v)) -> decorating (PFrom m k) (PFrom m k')
  | dec_try : forall p p' catches h h' f f' k k', decorating p p' -> (forall x, decorating (h x) (h' x)) -> decorating f f' -> (forall v, decorating (k v) (k' v)) ->
      decorating (PTry p catches h f k) (PTry p' catches h' f' k')
  | dec_with : forall p p' exit k k', decorating p p' -> (forall v, decorating (k v) (k' v)) -> decorating (PWith p exit k) (PWith p' exit k')
  | dec_for : forall xs v p p' k k', (forall v x, decorating (p v x) (p' v x)) -> (forall v, decorating (k v) (k' v)) -> decorating (PFor xs v p k) (PFor xs v p' k').

  (** how a body ends, whatever it yields *)
  Definition comes_to (m : meaning) (w : W) : completion V N * W := let '(_, c, w1) := m w in (c, w1).
  Definition settled_end (c : completion V N) : Prop := match c with CReturn (PyVal _) => True | CRaise _ => True | _ => False end.
End Helpers.
