(** The same chain of transformations written for a Block, for a Seq and for an AsyncSeq:
    block.py, seq.py and asyncseq.py offer them under the same names.  Definitions only. *)
From Coq Require Import List ZArith.
From Verif.Model Require Import Base PyList Gen Block Seq AsyncSeq.
Import ListNotations.
Local Open Scope py_scope.

(** One transformation with its arguments.  What a mapping passed to [collect], or the other
    collection passed to [append], holds is a list here: a Block for Block, and any iterable
    with these elements for Seq and AsyncSeq. *)
Inductive stage (W : Type) : Type -> Type -> Type :=
| SMap : forall A B, (A -> M W B) -> stage W A B
| SFilter : forall A, (A -> M W bool) -> stage W A A
| SChoose : forall A B, (A -> M W (option B)) -> stage W A B
| SCollect : forall A B, (A -> M W (list B)) -> stage W A B
| SAppend : forall A, list A -> stage W A A
| SSkip : forall A, Z -> stage W A A
| STake : forall A, Z -> stage W A A
| STail : forall A, stage W A A.
Arguments SMap {W A B}.  Arguments SFilter {W A}.  Arguments SChoose {W A B}.  Arguments SCollect {W A B}.
Arguments SAppend {W A}.  Arguments SSkip {W A}.  Arguments STake {W A}.  Arguments STail {W A}.

(** block.py:91-149 [append, choose, collect, filter], 239-252 [map], 375-384 [skip], 389-402
    [tail], 421-430 [take]: each runs at once and gives a Block *)
Definition block_stage {W A B} (s : stage W A B) : block A -> M W (block B) :=
  match s in stage _ A B return block A -> M W (block B) with
  | SMap f => fun xs => Block.map xs f
  | SFilter p => fun xs => Block.filter xs p
  | SChoose f => fun xs => Block.choose xs f
  | SCollect f => fun xs => Block.collect xs f
  | SAppend ys => fun xs => ret (Block.append xs ys)
  | SSkip n => fun xs => ret (Block.skip xs n)
  | STake n => fun xs => ret (Block.take xs n)
  | STail => fun xs => lift (Block.tail xs)
  end.

(** seq.py:426-1068, as functions for [pipe]: each gives an iterable; nothing but opening the
    source of [filter] runs before it is iterated.  (The method Seq.collect is eager:
    [seq_collect] in Seq.v.)  For [filter] the result is an iterator, described as an iterable
    that is iterated once. *)
Definition seq_stage {W A B} (s : stage W A B) : iterable W A -> M W (iterable W B) :=
  match s in stage _ A B return iterable W A -> M W (iterable W B) with
  | SMap f => fun src => ret (Seq.map f src)
  | SFilter p => fun src => do g <- Seq.filter p src; ret (ret g)
  | SChoose f => fun src => ret (Seq.choose f src)
  | SCollect f => fun src => ret (Seq.collect (fun x => do ys <- f x; ret (of_list ys)) src)
  | SAppend ys => fun src => ret (Seq.append [of_list ys] src)
  | SSkip n => fun src => ret (Seq.skip n src)
  | STake n => fun src => ret (Seq.take n src)
  | STail => fun src => ret (Seq.tail src)
  end.

(** asyncseq.py:49-317: each gives an async generator object *)
Definition async_stage {W A B} (s : stage W A B) : iterable W A -> gen W B :=
  match s in stage _ A B return iterable W A -> gen W B with
  | SMap f => fun src => AsyncSeq.map f src
  | SFilter p => fun src => AsyncSeq.filter p src
  | SChoose f => fun src => AsyncSeq.choose f src
  | SCollect f => fun src => AsyncSeq.collect (fun x => do ys <- f x; ret (of_list ys)) src
  | SAppend ys => fun src => AsyncSeq.append (of_list ys) src
  | SSkip n => fun src => AsyncSeq.skip n src
  | STake n => fun src => AsyncSeq.take n src
  | STail => fun src => AsyncSeq.tail src
  end.

(** Transformations one after the other: method calls in a row, or [pipe]
    (core/pipe.py:292-303). *)
Inductive chain (W : Type) : Type -> Type -> Type :=
| Whole : forall A, chain W A A
| Next : forall A B C, stage W A B -> chain W B C -> chain W A C.
Arguments Whole {W A}.  Arguments Next {W A B C}.

(** The chain as a pipe of the methods of Block, of functions of Seq and of AsyncSeq; the
    stages are cited above. *)
Fixpoint on_block {W A B} (c : chain W A B) : block A -> M W (block B) :=
  match c in chain _ A B return block A -> M W (block B) with
  | Whole => fun xs => ret xs
  | Next s c => fun xs => do ys <- block_stage s xs; on_block c ys
  end.
Fixpoint on_seq {W A B} (c : chain W A B) : iterable W A -> M W (iterable W B) :=
  match c in chain _ A B return iterable W A -> M W (iterable W B) with
  | Whole => fun src => ret src
  | Next s c => fun src => do it <- seq_stage s src; on_seq c it
  end.
Fixpoint on_async {W A B} (c : chain W A B) : iterable W A -> iterable W B :=
  match c in chain _ A B return iterable W A -> iterable W B with
  | Whole => fun src => src
  | Next s c => fun src => on_async c (ret (async_stage s src))
  end.
