(** Specification of disposables, in terms of what is observed. *)
From Coq Require Import List Bool Arith.
From Verif.Model Require Import Base Thread Disposable.
From Verif.Spec Require Export LogSpec.
Import ListNotations.

Definition is_action (e : event) : bool := match e with Action _ => true | _ => false end.
Definition is_called (t : nat) (e : event) : bool := match e with Called u => Nat.eqb u t | _ => false end.
Definition is_returned (t : nat) (e : event) : bool := match e with Returned u => Nat.eqb u t | _ => false end.
(** All calls of dispose() have returned. *)
Definition all_returned (log : list event) : Prop := forall t, count (is_called t) log = count (is_returned t) log.
(** Choices that do not start a new call. *)
Definition goes_on (t : nat) (c : choice) : bool := match c with CRun u | CEnd u => Nat.eqb u t | _ => false end.
Definition new_call (t : nat) (c : choice) : bool := match c with CDispose u => Nat.eqb u t | _ => false end.
Definition by_thread (t : nat) (c : choice) : Prop :=
  match c with CDispose u | CEnter u | CEnd u | CRun u => u = t end.

Definition is_aaction (e : aevent) : bool := match e with AAction _ => true | _ => false end.
Definition is_aaction_of (t : nat) (e : aevent) : bool := match e with AAction u => Nat.eqb u t | _ => false end.
Definition is_acalled (t : nat) (e : aevent) : bool := match e with ACalled u => Nat.eqb u t | _ => false end.
Definition is_areturned (t : nat) (e : aevent) : bool := match e with AReturned u => Nat.eqb u t | _ => false end.

(** Disposables that a disposable disposes, in order. *)
Fixpoint leaves {W} (d : disposable W) : list (nat * M W unit) :=
  match d with
  | Anonymous i action => [(i, action)]
  | Composite ds => (fix go (ds : list (disposable W)) := match ds with [] => [] | d :: ds => leaves d ++ go ds end) ds
  end.
(** Those that run: not disposed before, each object once. *)
Fixpoint to_run {W} (done : list nat) (ls : list (nat * M W unit)) : list (M W unit) :=
  match ls with
  | [] => []
  | (i, a) :: ls => if existsb (Nat.eqb i) done then to_run done ls else a :: to_run (i :: done) ls
  end.
Fixpoint run_actions {W} (xs : list (M W unit)) : M W unit :=
  match xs with [] => ret tt | x :: xs => bind x (fun _ => run_actions xs) end.
(** Flags that are set exactly for [done]. *)
Definition flags_of (done : list nat) : nat -> bool := fun i => existsb (Nat.eqb i) done.
Definition quiet_action {W} (a : M W unit) : Prop := forall w, fst (a w) = Ret tt.

(** try: body finally: fin *)
Definition finally {W A} (body : M W A) (fin : M W unit) : M W A := fun w =>
  let (r, w1) := body w in
  match fin w1 with
  | (Ret _, w2) => (r, w2)
  | (Raise e, w2) => (Raise e, w2)
  end.
(** Code that does not touch the disposables. *)
Definition outside {W A} (m : M W A) : M ((nat -> bool) * W) A := fun '(flags, w) => let (r, w1) := m w in (r, (flags, w1)).
