(** Model of expression/system/disposable.py.  Definitions only. *)
From Coq Require Import List Bool Arith.
From Verif.Model Require Import Base Thread.
Import ListNotations.
Local Open Scope py_scope.

(** ** AnonymousDisposable with threads *)

(** Where a call of [dispose] is (disposable.py:52-61).  One step is one access to the
    lock or to [_is_disposed], or the call of the action. *)
Inductive pc : Type :=
| AtAcquire                  (** disposable.py:55 [with self._lock], entering *)
| AtTest                     (** 56 *)
| AtSet                      (** 57-58 *)
| AtRelease (dispose : bool) (** 55, leaving the block; [dispose] is the local variable of 54 *)
| AtAction                   (** 60-61, about to call [self._action()] *)
| InAction.                  (** the action runs, its frame is above *)
(** Frames: user code (the main code of a thread or a running action) and [dispose]. *)
Inductive frame : Type := User | Disp (p : pc).

(** What can be observed. *)
Inductive event : Type :=
| Called (t : nat)                   (** thread t calls dispose() *)
| Action (t : nat)                   (** the action starts on thread t *)
| Returned (t : nat)                 (** dispose() returns, or raises what the action raised *)
| Entered (t : nat) (ok : bool).     (** with: __enter__ returned (true) or raised ObjectDisposedException *)

(** The variables of a disposable (disposable.py:47-50), the threads and what happened. *)
Record state : Type := St { s_disposed : bool; s_lock : rlock; s_stacks : stacks frame; s_log : list event (** latest first *) }.
(** disposable.py:47-50; all threads run user code *)
Definition init : state := St false None (fun _ => [User]) [].

(** What the scheduler or the user code of a thread does next. *)
Inductive choice : Type :=
| CDispose (t : nat)   (** user code calls dispose(), also by leaving a with block (27-35) *)
| CEnter (t : nat)     (** user code enters a with block *)
| CEnd (t : nat)       (** a running action returns or raises *)
| CRun (t : nat).      (** a running dispose() makes a step *)

(** One step of [dispose] in thread [t], whose stack is [Disp p :: st]. *)
Definition run_dispose (t : nat) (p : pc) (st : list frame) (s : state) : option state :=
  match p with
  | AtAcquire => option_map (fun l => St (s_disposed s) l (upd (s_stacks s) t (Disp AtTest :: st)) (s_log s)) (acquire t (s_lock s))
  | AtTest => Some (St (s_disposed s) (s_lock s) (upd (s_stacks s) t (Disp (if s_disposed s then AtRelease false else AtSet) :: st)) (s_log s))
  | AtSet => Some (St true (s_lock s) (upd (s_stacks s) t (Disp (AtRelease true) :: st)) (s_log s))
  | AtRelease dispose =>
      option_map (fun l => St (s_disposed s) l (upd (s_stacks s) t (if dispose then Disp AtAction :: st else st))
                              (if dispose then s_log s else Returned t :: s_log s)) (release t (s_lock s))
  | AtAction => Some (St (s_disposed s) (s_lock s) (upd (s_stacks s) t (User :: Disp InAction :: st)) (Action t :: s_log s))
  | InAction => None
  end.
Definition step (c : choice) (s : state) : option state :=
  match c with
  | CDispose t =>
      match s_stacks s t with
      | User :: st => Some (St (s_disposed s) (s_lock s) (upd (s_stacks s) t (Disp AtAcquire :: User :: st)) (Called t :: s_log s))
      | _ => None
      end
  (** disposable.py:63-66 *)
  | CEnter t =>
      match s_stacks s t with
      | User :: st => Some (St (s_disposed s) (s_lock s) (s_stacks s) (Entered t (negb (s_disposed s)) :: s_log s))
      | _ => None
      end
  | CEnd t =>
      match s_stacks s t with
      | User :: Disp InAction :: st => Some (St (s_disposed s) (s_lock s) (upd (s_stacks s) t st) (Returned t :: s_log s))
      | _ => None
      end
  | CRun t => match s_stacks s t with Disp p :: st => run_dispose t p st s | _ => None end
  end.

(** ** AsyncAnonymousDisposable *)
(** Tasks of one event loop are switched only at an await, so [dispose_async]
    (disposable.py:115-120) has two parts: everything up to the first await inside the
    action, and the rest.  [a_running t]: calls of task t that wait for the action. *)
Inductive aevent : Type := ACalled (t : nat) | AAction (t : nat) | AReturned (t : nat) | AEntered (t : nat) (ok : bool).
Record astate : Type := ASt { a_disposed : bool; a_running : nat -> nat; a_log : list aevent }.
Definition ainit : astate := ASt false (fun _ => 0) [].
Inductive achoice : Type := ADispose (t : nat) | AEnd (t : nat) | AEnter (t : nat).
Definition astep (c : achoice) (s : astate) : option astate :=
  match c with
  | ADispose t =>
      if a_disposed s then Some (ASt true (a_running s) (AReturned t :: ACalled t :: a_log s))
      else Some (ASt true (fun u => if Nat.eqb u t then S (a_running s u) else a_running s u) (AAction t :: ACalled t :: a_log s))
  | AEnd t =>
      match a_running s t with
      | 0 => None
      | S n => Some (ASt (a_disposed s) (fun u => if Nat.eqb u t then n else a_running s u) (AReturned t :: a_log s))
      end
  (** disposable.py:122-125 *)
  | AEnter t => Some (ASt (a_disposed s) (a_running s) (AEntered t (negb (a_disposed s)) :: a_log s))
  end.

(** ** Sequential code: with blocks and composites *)
Section Sequential.
  Context {W : Type}.
  (** Flags of the disposable objects, by object identity, and the user's world. *)
  Notation world := ((nat -> bool) * W)%type.
  (** An AsyncDisposable: an anonymous one with its action, or a composite.  The actions
      do not touch the flags. *)
  Inductive disposable : Type :=
  | Anonymous (i : nat) (action : M W unit)
  | Composite (ds : list disposable).
  (** disposable.py:52-61 when no other thread interferes, and 115-120 *)
  Definition dispose_one (i : nat) (action : M W unit) : M world unit := fun '(flags, w) =>
    if flags i : bool then (Ret tt, (flags, w))
    else let (r, w) := action w in (r, ((fun j => if Nat.eqb j i then true else flags j), w)).
  (** disposable.py:132-134 [AsyncCompositeDisposable.dispose_async] *)
  Fixpoint dispose (d : disposable) : M world unit :=
    match d with
    | Anonymous i action => dispose_one i action
    | Composite ds => (fix go (ds : list disposable) : M world unit :=
                         match ds with [] => ret tt | d :: ds => do _ <- dispose d; go ds end) ds
    end.
  (** [with d: body] (disposable.py:23-35, 63-66; 80-91, 122-125): __enter__ of an
      anonymous disposable raises when it is disposed; __exit__ disposes and returns
      False, so an exception of the body goes on unless dispose raises one itself. *)
  Definition enter (d : disposable) : M world unit := fun '(flags, w) =>
    match d with
    | Anonymous i _ => if flags i : bool then (Raise ObjectDisposed, (flags, w)) else (Ret tt, (flags, w))
    | Composite _ => (Ret tt, (flags, w))
    end.
  Definition with_block {A} (d : disposable) (body : M world A) : M world A :=
    do _ <- enter d;
    fun w => let (r, w) := body w in
             match dispose d w with
             | (Ret _, w) => (r, w)
             | (Raise e, w) => (Raise e, w)
             end.
End Sequential.
Arguments disposable W : clear implicits.
