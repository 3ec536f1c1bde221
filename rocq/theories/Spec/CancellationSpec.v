(** Specification of cancellation, in terms of what is observed. *)
From Coq Require Import List Bool Arith.
From Verif.Model Require Import Base Thread Cancellation.
From Verif.Spec Require Export LogSpec.
Import ListNotations.

Definition is_invoked (k : nat) (e : event) : bool := match e with Invoked _ j => Nat.eqb j k | _ => false end.
(** Listeners called, in order. *)
Fixpoint invoked (log : list event) : list nat :=
  match log with
  | [] => []
  | Invoked _ k :: l => invoked l ++ [k]
  | _ :: l => invoked l
  end.
Definition cancel_called (t : nat) (e : event) : bool := match e with CancelCalled u => Nat.eqb u t | _ => false end.
Definition cancel_over (t : nat) (e : event) : bool := match e with CancelReturned u | Aborted u => Nat.eqb u t | _ => false end.
(** All calls of cancel() are over. *)
Definition all_cancels_over (log : list event) : Prop := forall t, count (cancel_called t) log = count (cancel_over t) log.
Definition unregister_called (t k : nat) (e : event) : bool := match e with UnregisterCalled u j => Nat.eqb u t && Nat.eqb j k | _ => false end.
Definition unregister_returned (t k : nat) (e : event) : bool := match e with Unregistered u j => Nat.eqb u t && Nat.eqb j k | _ => false end.
(** The handle of listener [k] was disposed, and all these calls have returned. *)
Definition unregistered (k : nat) (log : list event) : Prop :=
  (exists t, In (UnregisterCalled t k) log) /\ forall t, count (unregister_called t k) log = count (unregister_returned t k) log.
Definition no_cancel (log : list event) : Prop := forall t, ~ In (CancelCalled t) log.

(** Calls and their ends. *)
Definition starts (t : nat) (e : event) : bool :=
  match e with CancelCalled u | RegisterCalled u _ | UnregisterCalled u _ => Nat.eqb u t | _ => false end.
Definition ends (t : nat) (e : event) : bool :=
  match e with
  | CancelReturned u | Aborted u | Registered u _ | RegisterRaised u _ | Unregistered u _ | UnregisterRaised u _ => Nat.eqb u t
  | _ => false
  end.
Definition goes_on (c : choice) : Prop := match c with CRun _ | CEnd _ => True | _ => False end.
(** Events that show that the source is cancelled. *)
Definition shows_cancelled (e : event) : Prop :=
  match e with
  | CancelReturned _ | Aborted _ | Invoked _ _ | RegisterRaised _ _ => True
  | Requested _ b => b = true
  | Entered _ ok => ok = false
  | _ => False
  end.
