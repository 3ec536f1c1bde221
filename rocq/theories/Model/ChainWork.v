(** Chains of sequence operations (Chain.v) again, now with the work of iterating them: how
    often the results of the stages are asked for an element.  The first component of the
    world counts the calls of [next()]; the rest are the definitions of Seq.v.  Definitions
    only. *)
From Coq Require Import List ZArith.
From Verif.Model Require Import Base Gen Chain.
Import ListNotations.
Local Open Scope py_scope.

(** An iterator whose calls of [next()] are counted, when they answer: with an element, with
    StopIteration or with an exception.  (A [Skip] is work within one call.)  The generator
    expression of [Seq.__iter__] (seq.py:385-388) and [SeqGen.__iter__] (420-423) around the
    result of a stage is asked as often as that result and is not counted again. *)
CoFixpoint counted {W A} (g : gen (nat * W) A) : gen (nat * W) A :=
  Gen (fun w =>
    match step g w with
    | (Ret (Yield x g), (n, w)) => (Ret (Yield x (counted g)), (S n, w))
    | (Ret (Skip g), w) => (Ret (Skip (counted g)), w)
    | (Ret Stop, (n, w)) => (Ret Stop, (S n, w))
    | (Raise e, (n, w)) => (Raise e, (S n, w))
    end).

(** User code does not see the counter. *)
Definition unseen {W A} (m : M W A) : M (nat * W) A := fun nw => let '(r, w) := m (snd nw) in (r, (fst nw, w)).
Definition unseen_stage {W A B} (s : stage W A B) : stage (nat * W) A B :=
  match s in stage _ A B return stage (nat * W) A B with
  | SMap f => SMap (fun x => unseen (f x))
  | SFilter p => SFilter (fun x => unseen (p x))
  | SChoose f => SChoose (fun x => unseen (f x))
  | SCollect f => SCollect (fun x => unseen (f x))
  | SAppend ys => SAppend ys
  | SSkip n => SSkip n
  | STake n => STake n
  | STail => STail
  end.

(** One stage of Chain.v (seq.py:426-1068), its result counted.  What [append] and the
    mappings of [choose] and [collect] are given is not: these are lists. *)
Definition work_stage {W A B} (s : stage W A B) (src : iterable (nat * W) A) : M (nat * W) (iterable (nat * W) B) :=
  do it <- seq_stage (unseen_stage s) src; ret (do g <- it; ret (counted g)).
Fixpoint work_on {W A B} (c : chain W A B) : iterable (nat * W) A -> M (nat * W) (iterable (nat * W) B) :=
  match c in chain _ A B return iterable (nat * W) A -> M (nat * W) (iterable (nat * W) B) with
  | Whole => fun src => ret src
  | Next s c => fun src => do it <- work_stage s src; work_on c it
  end.

(** The same for chains of asynchronous operations (asyncseq.py:49-317): counted are the
    calls of [__anext__()].  Calling an operation of a stage awaits nothing of the source. *)
Fixpoint work_on_async {W A B} (c : chain W A B) : iterable (nat * W) A -> iterable (nat * W) B :=
  match c in chain _ A B return iterable (nat * W) A -> iterable (nat * W) B with
  | Whole => fun src => src
  | Next s c => fun src => work_on_async c (ret (counted (async_stage (unseen_stage s) src)))
  end.
