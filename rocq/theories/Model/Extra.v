(** Model of expression/extra/result/traversable.py, extra/result/pipeline.py,
    extra/option/pipeline.py and extra/result/catch.py.  Definitions only. *)
From Coq Require Import List Bool.
From Verif.Model Require Import Base Gen OptionResult Builder Mixed Seq.
Import ListNotations.
Local Open Scope py_scope.

(** ** extra/result/traversable.py *)
Section Traverse.
  Context {W A B E : Type}.

  (** The objects that go through the generator of [folder]: what [fn] gives (never None
      here, None is PyNone) and blocks. *)
  Inductive tobj : Type := TItem (b : B) | TBlock (bs : list (pyopt B)).
  Definition item (v : pyopt B) : pyopt tobj := match v with PyNone => PyNone | PyVal b => PyVal (TItem b) end.
  Definition as_item (v : pyopt tobj) : pyopt B := match v with PyVal (TItem b) => PyVal b | _ => PyNone end.
  Definition res_item (r : result (pyopt B) E) : result (pyopt tobj) E :=
    match r with Ok v => Ok (item v) | Err e => Err e end.

  (** Suspensions of [folder]'s body. *)
  Inductive fstage : Type := FStart | FHead | FTail (h : pyopt B).
  (** traversable.py:25-35: the body of [folder(head, tail)].  [Block([h]) + t] with the
      block [t] (block.py:69-76).  An EffectError that [fn] itself raises leaves the body as
      that of a [yield from] would; those of the library carry Nothing (map.py:365-370,
      option.py:295-300), except that of iterating an Error, which is not modelled here. *)
  Definition folder_body (fn : A -> M W (result (pyopt B) E)) (head : A) (tail : outcome tobj E)
      (s : fstage) (v : pyopt tobj) (w : W) : node (pyopt tobj) (outcome tobj E) fstage * W :=
    match s with
    | FStart => match fn head w with
                | (Ret r, w) => (yield_from (URes (res_item r)) FHead, w)
                | (Raise e, w) => (call_raises e, w)
                end
    | FHead => (yield_from tail (FTail (as_item v)), w)
    | FTail h => match v with
                 | PyVal (TBlock t) => (NReturn (PyVal (TBlock (h :: t))), w)
                 | _ => (NThrow TypeError, w)
                 end
    end.
  (** traversable.py:24: decorated with effect.result.  The body yields at most twice, so
      four iterations of the builder's loop are enough. *)
  Definition folder (fn : A -> M W (result (pyopt B) E)) (head : A) (tail : outcome tobj E) : M W (outcome tobj E) :=
    call_gen mixed_result_builder (folder_body fn head tail) 4 FStart.
  (** traversable.py:17-42.  A block is iterated like a tuple: one step per element and one
      to end (block.py:64-67). *)
  Definition traverse (fn : A -> M W (result (pyopt B) E)) (lst : list A) : M W (outcome tobj E) :=
    fold_back (S (List.length lst)) (folder fn) (of_list lst) (URes (Ok (PyVal (TBlock [])))).
End Traverse.
Arguments tobj B : clear implicits.

(** traversable.py:45-51, with core/misc.py [identity] *)
Definition sequence {W B E} (lst : list (result (pyopt B) E)) : M W (outcome (tobj B) E) :=
  traverse (fun r => ret r) lst.

(** ** pipelines *)
(** extra/result/pipeline.py:68-95: reduce(reducer, fns, Ok).  Each function adds a stack
    frame; the recursion limit is in ChainDepth.v. *)
Definition res_reducer {W A E} (acc : A -> M W (result A E)) (fn : A -> M W (result A E)) : A -> M W (result A E) :=
  fun x => do r <- acc x; res_bind r fn.
Definition res_pipeline {W A E} (fns : list (A -> M W (result A E))) : A -> M W (result A E) :=
  fold_left res_reducer fns (fun x => ret (Ok x)).
(** extra/option/pipeline.py:68-94 *)
Definition opt_reducer {W A} (acc : A -> M W (option A)) (fn : A -> M W (option A)) : A -> M W (option A) :=
  fun x => do r <- acc x; opt_bind r fn.
Definition opt_pipeline {W A} (fns : list (A -> M W (option A))) : A -> M W (option A) :=
  fold_left opt_reducer fns (fun x => ret (Some x)).

(** ** catch *)
(** What a Python function returns, as far as [isinstance(out, Result)] can tell. *)
Inductive returned (A E : Type) : Type :=
| Plain (v : A)
| AResult (r : result A E).
Arguments Plain {A E} v.
Arguments AResult {A E} r.
(** extra/result/catch.py:34-47: [matches] is [except exception], i.e. isinstance of the
    class or tuple of classes; [inj] makes the error value of the exception object. *)
Definition catch {W X A E} (matches : exn -> bool) (inj : exn -> E) (fn : X -> M W (returned A E)) : X -> M W (result A E) :=
  fun args w =>
    match fn args w with
    | (Raise e, w) => if matches e then (Ret (Err (inj e)), w) else (Raise e, w)
    | (Ret (AResult r), w) => (Ret r, w)
    | (Ret (Plain v), w) => (Ret (Ok v), w)
    end.
(** A decorated function returns results only, so it can be decorated again. *)
Definition decorated {W X A E} (f : X -> M W (result A E)) : X -> M W (returned A E) :=
  fun args => do r <- f args; ret (AResult r).
