(** Iterating what a seq computation expression gives (Builder.v, [sq]): the iterators of
    its parts with the stack (ChainDepth.v) and with the calls of [next()] counted
    (ChainWork.v).  Definitions only. *)
From Coq Require Import List.
From Verif.Model Require Import Base Gen Seq OptionResult Builder ChainDepth ChainWork.
Import ListNotations.
Local Open Scope py_scope.

Section SeqExpr.
  Context {W A : Type}.
  Notation V := (pyopt A).
  (** iter() of a Seq around a list makes a generator (seq.py:385-388), that of a list does
      not, and that of a concatenation (490-507) makes one around the generator of [gen]
      (420-423); the iterators of the parts are made when [gen] comes to them *)
  Fixpoint d_sq (x : sq A) : diterable W V :=
    match x with
    | SqSeq vs => ret (d_wrap (d_list vs))
    | SqList vs => ret (d_list vs)
    | SqConcat x y => ret (d_wrap (d_concat_loop None [d_sq x; d_sq y]))
    end.
  (** the same without a limit; counted are the calls of [next()] on concatenations *)
  Fixpoint work_sq (x : sq A) : iterable (nat * W) V :=
    match x with
    | SqSeq vs | SqList vs => of_list vs
    | SqConcat x y => ret (counted (concat_loop None [work_sq x; work_sq y]))
    end.
End SeqExpr.
