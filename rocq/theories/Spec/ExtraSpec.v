(** Specification of traverse, pipelines and catch. *)
From Coq Require Import List.
From Verif.Model Require Import Base OptionResult Mixed Extra.
From Verif.Spec Require Import ListM OptionResultSpec.
Import ListNotations.
Local Open Scope py_scope.

(** The result as the user sees it: a block of the values. *)
Definition block_result {B E} (r : result (list (pyopt B)) E) : result (pyopt (tobj B)) E :=
  match r with Ok bs => Ok (PyVal (TBlock bs)) | Err e => Err e end.
(** Inside a generator a StopIteration becomes RuntimeError (PEP 479). *)
Definition in_generator {W B} (m : M W B) : M W B := fun w =>
  match m w with (Raise StopIterationExn, w) => (Raise RuntimeError, w) | x => x end.
(** What the element's call gives: its Result, or nothing when it raises EffectError. *)
Definition or_effect_error {W B} (m : M W B) : M W (option B) := fun w =>
  match m w with
  | (Ret r, w) => (Ret (Some r), w)
  | (Raise EffectErrorExn, w) => (Ret None, w)
  | (Raise e, w) => (Raise e, w)
  end.
(** All values in order, or the leftmost that is not a value. *)
Fixpoint leftmost {B E} (rs : list (option (result B E))) : option (result (list B) E) :=
  match rs with
  | [] => Some (Ok [])
  | None :: _ => None
  | Some (Err e) :: _ => Some (Err e)
  | Some (Ok v) :: rs => match leftmost rs with Some (Ok vs) => Some (Ok (v :: vs)) | x => x end
  end.
Definition traverse_outcome {B E} (r : option (result (list (pyopt B)) E)) : outcome (tobj B) E :=
  match r with Some r => URes (block_result r) | None => UOpt None end.
(** What a left-to-right traversal that stops at the first error would do. *)
Fixpoint traverse_left {W A B E} (fn : A -> M W (result B E)) (l : list A) : M W (result (list B) E) :=
  match l with
  | [] => ret (Ok [])
  | x :: l => do r <- fn x;
              match r with
              | Err e => ret (Err e)
              | Ok y => do rs <- traverse_left fn l; ret (match rs with Ok ys => Ok (y :: ys) | Err e => Err e end)
              end
  end.
(** [Some(x).bind(f1).bind(f2)...]: functions run while there is a value. *)
Fixpoint while_some {W A} (x : A) (fs : list (A -> M W (option A))) : M W (option A) :=
  match fs with
  | [] => ret (Some x)
  | f :: fs => do r <- f x; match r with Some y => while_some y fs | None => ret None end
  end.
