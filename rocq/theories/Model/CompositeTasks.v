(** Model of AsyncDisposable objects that are disposed by several tasks of one event loop at
    the same time (expression/system/disposable.py:69-134).  The tasks of a loop are switched
    only at an await that suspends; here these are inside the actions.  A call of
    [dispose_async] therefore runs without interruption up to the start of the next action,
    or to its end.  An action may suspend for any time, return, raise or be cancelled; it may
    call [dispose_async] itself, which is one more call here.  Definitions only. *)
From Coq Require Import List Bool Arith.
Import ListNotations.

(** An object of AsyncAnonymousDisposable, by its identity, or of AsyncCompositeDisposable
    (128-130). *)
Inductive member : Type := One (i : nat) | All (ds : list member).

(** How far a call gets: to its end, or into the action of the object [i], with the loops of
    the composites around it still to go on, the innermost one first. *)
Inductive progress : Type := Over | Acts (i : nat) (rest : list (list member)).
(** disposable.py:115-120 up to the await of the action, and 132-134.  [flags]: the
    [_is_disposed] of each object; the flag of the object in [Acts] is set by [goes]. *)
Fixpoint dispose_async (flags : nat -> bool) (d : member) : progress :=
  match d with
  | One i => if flags i then Over else Acts i []
  | All ds =>
      (fix loop (ds : list member) : progress :=
         match ds with
         | [] => Over
         | d :: ds => match dispose_async flags d with Over => loop ds | Acts i rest => Acts i (rest ++ [ds]) end
         end) ds
  end.
(** After the action: the innermost loop goes on (134), then the one around it. *)
Fixpoint goes_on (flags : nat -> bool) (rest : list (list member)) : progress :=
  match rest with
  | [] => Over
  | ds :: rest => match dispose_async flags (All ds) with Over => goes_on flags rest | Acts i inner => Acts i (inner ++ rest) end
  end.

(** What can be observed, call by call; calls are numbered. *)
Inductive event : Type :=
| Called (c : nat) (d : member)      (** dispose_async() of d is called and awaited *)
| Started (c i : nat)                (** the action of the object i starts *)
| Ended (c i : nat) (ok : bool)      (** it returns, or raises (also CancelledError) *)
| Returned (c : nat)
| Raised (c : nat).
Record state : Type := St {
  s_flags : nat -> bool;
  s_calls : nat -> option (nat * list (list member)); (** the action a call waits for, and what is left *)
  s_count : nat;
  s_log : list event (** latest first *) }.
Definition init : state := St (fun _ => false) (fun _ => None) 0 [].
Definition put {A} (f : nat -> A) (i : nat) (x : A) : nat -> A := fun j => if Nat.eqb j i then x else f j.

(** The call [c] goes as far as it gets: 118 sets the flag, 120 awaits the action. *)
Definition goes (c : nat) (p : progress) (s : state) : state :=
  match p with
  | Over => St (s_flags s) (put (s_calls s) c None) (s_count s) (Returned c :: s_log s)
  | Acts i rest => St (put (s_flags s) i true) (put (s_calls s) c (Some (i, rest))) (s_count s) (Started c i :: s_log s)
  end.
(** Some task calls [dispose_async] of any object, or the action a call waits for ends. *)
Inductive choice : Type := CDispose (d : member) | CEnds (c : nat) (ok : bool).
Definition step (ch : choice) (s : state) : option state :=
  match ch with
  | CDispose d => let c := s_count s in Some (goes c (dispose_async (s_flags s) d) (St (s_flags s) (s_calls s) (S c) (Called c d :: s_log s)))
  | CEnds c ok =>
      match s_calls s c with
      | None => None
      | Some (i, rest) =>
          if ok then Some (goes c (goes_on (s_flags s) rest) (St (s_flags s) (s_calls s) (s_count s) (Ended c i true :: s_log s)))
          else Some (St (s_flags s) (put (s_calls s) c None) (s_count s) (Raised c :: Ended c i false :: s_log s))
      end
  end.
