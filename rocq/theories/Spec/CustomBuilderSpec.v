(** Independent specification of what a decorated function gives for a user's own builder. *)
From Coq Require Import List.
From Verif.Model Require Import Base OptionResult Builder.
From Verif.Spec Require Import BuilderSpec.
Import ListNotations.

(** The builder's bind, given a value made by its [return_], is calling the function once;
    its delay runs the function at once (the inherited one does). *)
Definition left_unit {V Mo} (b : builder V Mo) : Prop :=
  forall W v (f : V -> M W Mo) w, b_bind b (b_return b v) f w = f v w.
Definition eager_delay {V Mo} (b : builder V Mo) : Prop :=
  forall W (f : unit -> M W Mo), b_delay b f = f tt.
(** The builder's bind does not call the function: it makes a value that would call it when
    it is run later (a reader, state or task monad). *)
Definition lazy_bind {V Mo} (b : builder V Mo) : Prop :=
  forall m, exists m1, forall W (f : V -> M W Mo) w, b_bind b m f w = (Ret m1, w).

(** The values of the statements of a body: one for each yield, and one for its end. *)
Definition statements {A Mo} (b : builder (pyopt A) Mo) (vs : list (pyopt A)) (e : ending (pyopt A) Mo) : list Mo :=
  List.map (b_return b) vs ++
  match e with
  | EReturn (PyVal x) => [b_return b (PyVal x)]
  | EFail m => [b_return_from b m]
  | _ => []
  end.
(** They are combined from the left; no statement is zero. *)
Definition combined {V Mo} (b : builder V Mo) (ms : list Mo) : Mo :=
  match ms with [] => b_zero b | m :: ms => fold_left (b_combine b) ms m end.
Definition custom_value {A Mo} (b : builder (pyopt A) Mo) (vs : list (pyopt A)) (e : ending (pyopt A) Mo) : res Mo :=
  match e with
  | EThrow e => Raise e
  | _ => Ret (b_run b (combined b (statements b vs e)))
  end.
