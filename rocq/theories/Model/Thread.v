(** Threads for the models of lock-based code.  A thread has a stack of frames; the
    scheduler may run any thread at any time for one step, a step being one access to
    shared state.  Definitions only. *)
From Coq Require Import List Bool Arith.
Import ListNotations.

(** threading.RLock: free, or owner and depth. *)
Definition rlock : Type := option (nat * nat).
(** None: the thread is blocked. *)
Definition acquire (t : nat) (l : rlock) : option rlock :=
  match l with
  | None => Some (Some (t, 1))
  | Some (o, n) => if Nat.eqb o t then Some (Some (t, S n)) else None
  end.
(** Releasing a lock that the thread does not own is an error (RuntimeError). *)
Definition release (t : nat) (l : rlock) : option rlock :=
  match l with
  | Some (o, S n) => if Nat.eqb o t then Some (match n with 0 => None | _ => Some (t, n) end) else None
  | _ => None
  end.

(** The stacks of all threads; the number of threads is not bounded. *)
Definition stacks (F : Type) : Type := nat -> list F.
Definition upd {F} (s : stacks F) (t : nat) (st : list F) : stacks F := fun u => if Nat.eqb u t then st else s u.

(** Running a schedule: [step c s] is None when choice [c] is not possible in [s]. *)
Fixpoint exec {C S} (step : C -> S -> option S) (cs : list C) (s : S) : option S :=
  match cs with
  | [] => Some s
  | c :: cs => match step c s with Some s => exec step cs s | None => None end
  end.
