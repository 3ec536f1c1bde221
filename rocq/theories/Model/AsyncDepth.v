(** Chains of operations of AsyncSeq with the stack, as ChainDepth.v has those of Seq: [d] is
    the number of nested calls that the interpreter's recursion limit still allows.  Every
    async generator that is resumed takes one.  Otherwise the definitions are those of
    AsyncSeq.v.  Definitions only. *)
From Coq Require Import List ZArith Bool.
From Verif.Model Require Import Base Gen MapDepth Chain ChainDepth.
From Verif.Model Require AsyncSeq.
Import ListNotations.
Local Open Scope py_scope.

Section Gens.
  Context {W A B S : Type}.
  (** [each] of AsyncSeq.v: asyncseq.py:49-70, 107-126, 166-208, 278-304 *)
  CoFixpoint a_each (body : S -> A -> M W (AsyncSeq.turn S B)) (s : S) (g : dgen W A) : dgen W B :=
    DGen (fun d => framem d (fun d =>
      do st <- AsyncSeq.in_async (dstep d g);
      match st with
      | Yield x g =>
          do t <- AsyncSeq.in_async (body s x);
          ret match t with
              | AsyncSeq.Give y s => Yield y (a_each body s g)
              | AsyncSeq.Drop s => Skip (a_each body s g)
              | AsyncSeq.Leave => Stop
              end
      | Skip g => ret (Skip (a_each body s g))
      | Stop => ret Stop
      end)).
  Definition a_started (src : diterable W A) (loop : dgen W A -> dgen W B) : dgen W B :=
    DGen (fun d => framem d (fun _ => do g <- AsyncSeq.in_async src; ret (Skip (loop g)))).
  Definition a_async_for (body : S -> A -> M W (AsyncSeq.turn S B)) (s : S) (src : diterable W A) : dgen W B := a_started src (a_each body s).
  (** asyncseq.py:307-317 *)
  CoFixpoint a_collect_loop (f : A -> M W (diterable W B)) (inner : option (dgen W B)) (g : dgen W A) : dgen W B :=
    DGen (fun d => framem d (fun d =>
      match inner with
      | None =>
          do st <- AsyncSeq.in_async (dstep d g);
          match st with
          | Yield x g => do it <- AsyncSeq.in_async (f x); do h <- AsyncSeq.in_async it; ret (Skip (a_collect_loop f (Some h) g))
          | Skip g => ret (Skip (a_collect_loop f None g))
          | Stop => ret Stop
          end
      | Some h =>
          do st <- AsyncSeq.in_async (dstep d h);
          ret match st with
              | Yield y h => Yield y (a_collect_loop f (Some h) g)
              | Skip h => Skip (a_collect_loop f (Some h) g)
              | Stop => Skip (a_collect_loop f None g)
              end
      end)).
  (** asyncseq.py:243-252 *)
  CoFixpoint a_append_loop (other : option (diterable W B)) (g : dgen W B) : dgen W B :=
    DGen (fun d => framem d (fun d =>
      do st <- AsyncSeq.in_async (dstep d g);
      match st with
      | Yield x g => ret (Yield x (a_append_loop other g))
      | Skip g => ret (Skip (a_append_loop other g))
      | Stop => match other with
                | None => ret Stop
                | Some it => do g <- AsyncSeq.in_async it; ret (Skip (a_append_loop None g))
                end
      end)).
End Gens.

(** An async generator that yields these elements, which [append] and the mappings of
    [collect] are given: one frame as well. *)
Definition a_of_list {W A} (xs : list A) : diterable W A := ret (d_wrap (d_list xs)).
(** The stages of Chain.v on an AsyncSeq. *)
Definition a_stage {W A B} (s : stage W A B) : diterable W A -> dgen W B :=
  match s in stage _ A B return diterable W A -> dgen W B with
  | SMap f => a_async_for (fun _ x => do y <- f x; ret (AsyncSeq.Give y tt)) tt
  | SFilter p => a_async_for (fun _ x => do b <- p x; ret (if b : bool then AsyncSeq.Give x tt else AsyncSeq.Drop tt)) tt
  | SChoose f => a_async_for (fun _ x => do o <- f x; ret (match o with Some y => AsyncSeq.Give y tt | None => AsyncSeq.Drop tt end)) tt
  | SCollect f => fun src => a_started src (a_collect_loop (fun x => do ys <- f x; ret (a_of_list ys)) None)
  | SAppend ys => fun src => a_started src (a_append_loop (Some (a_of_list ys)))
  | SSkip n => a_async_for (fun i x => ret (if Z.leb n i then AsyncSeq.Give x (i + 1)%Z else AsyncSeq.Drop (i + 1)%Z)) 0%Z
  | STake n => a_async_for (fun i x => ret (if Z.leb n i then AsyncSeq.Leave else AsyncSeq.Give x (i + 1)%Z)) 0%Z
  | STail => a_async_for (fun first x => ret (if first : bool then AsyncSeq.Drop false else AsyncSeq.Give x false)) true
  end.
Fixpoint d_on_async {W A B} (c : chain W A B) : diterable W A -> diterable W B :=
  match c in chain _ A B return diterable W A -> diterable W B with
  | Whole => fun src => src
  | Next s c => fun src => d_on_async c (ret (a_stage s src))
  end.
