(** Specification of aiotools. *)
From Coq Require Import List Bool.
From Verif.Model Require Import Base Aiotools.
Import ListNotations.

(** What code that awaits sees. *)
Inductive outcome (A : Type) : Type := OValue (v : A) | ORaises (e : exn) | OCancelled.
Arguments OValue {A} v.
Arguments ORaises {A} e.
Arguments OCancelled {A}.
Inductive sees {A} : future A -> outcome A -> Prop :=
| sees_value : forall v, sees (Done v) (OValue v)
| sees_raises : forall e, sees (Failed e) (ORaises e)
| sees_cancelled : sees Cancelled OCancelled.
Definition asks_for {A} (k : kcall A) : outcome A :=
  match k with KDone v => OValue v | KError e => ORaises e | KCancel | KAwaiterCancelled => OCancelled end.
