(** Chains of functions and of sequence operations again, now with the stack: [d] is the
    number of nested calls that the interpreter's recursion limit still allows; entering a
    function or resuming a generator without one left raises RecursionError.  Calls that end
    before the next link of the chain is entered (constructors, iter(), the creation of a
    generator) and the callbacks' own calls are left out, that is a fixed number of frames.
    Functions written in C (functools.reduce, builtins.filter, list) have no such frame.
    Otherwise the definitions are those of Functions.v, Extra.v and Seq.v.  Definitions only. *)
From Coq Require Import List ZArith Bool.
From Verif.Model Require Import Base Gen OptionResult MapDepth Chain.
Import ListNotations.
Local Open Scope py_scope.

Section Functions.
  Context {W V E : Type}.
  (** the lambda of compose.py:140 runs in a frame of its own, one function after the other *)
  Fixpoint d_reduce (d : nat) (fns : list (V -> M W V)) (acc : V) : M W V :=
    match fns with
    | [] => ret acc
    | f :: fns => do acc <- framem d (fun _ => f acc); d_reduce d fns acc
    end.
  (** compose.py:116-141; [_compose] is one frame *)
  Definition d_compose (fns : list (V -> M W V)) (d : nat) (source : V) : M W V := framem d (fun d => d_reduce d fns source).
  (** pipe.py:292-303 *)
  Definition d_pipe (value : V) (fns : list (V -> M W V)) (d : nat) : M W V := framem d (fun d => d_compose fns d value).

  (** extra/result/pipeline.py:68-95: [gn] calls [acc], which is the [gn] before it; the first
      one is [Ok] *)
  Definition d_res_gn (acc : nat -> V -> M W (result V E)) (fn : V -> M W (result V E)) : nat -> V -> M W (result V E) := fun d x =>
    framem d (fun d => do r <- acc d x; framem d (fun _ => res_bind r fn)).
  Definition d_res_pipeline (fns : list (V -> M W (result V E))) : nat -> V -> M W (result V E) :=
    fold_left d_res_gn fns (fun d x => framem d (fun _ => ret (Ok x))).
  (** extra/option/pipeline.py:68-94 *)
  Definition d_opt_gn (acc : nat -> V -> M W (option V)) (fn : V -> M W (option V)) : nat -> V -> M W (option V) := fun d x =>
    framem d (fun d => do r <- acc d x; framem d (fun _ => opt_bind r fn)).
  Definition d_opt_pipeline (fns : list (V -> M W (option V))) : nat -> V -> M W (option V) :=
    fold_left d_opt_gn fns (fun d x => framem d (fun _ => ret (Some x))).
End Functions.

(** An iterator whose [next()] is called with [d] frames left. *)
CoInductive dgen (W A : Type) : Type := DGen (next : nat -> W -> res (gstep A (dgen W A)) * W).
Arguments DGen {W A}.
Definition dstep {W A} (d : nat) (g : dgen W A) : M W (gstep A (dgen W A)) := fun w =>
  match g with DGen next => match next d w with (Raise StopIterationExn, w) => (Ret Stop, w) | r => r end end.
Definition diterable (W A : Type) : Type := M W (dgen W A).

(** The iterator of a list: C *)
CoFixpoint d_list {W A} (xs : list A) : dgen W A := DGen (fun _ => ret match xs with [] => Stop | x :: xs => Yield x (d_list xs) end).
Definition d_of_list {W A} (xs : list A) : diterable W A := ret (d_list xs).
(** The iterator of any other source; the frames of its own are left out as those of the
    callbacks are *)
CoFixpoint d_any {W A} (g : gen W A) : dgen W A :=
  DGen (fun _ => do st <- step g; ret match st with Yield x g => Yield x (d_any g) | Skip g => Skip (d_any g) | Stop => Stop end).
Definition d_source {W A} (src : iterable W A) : diterable W A := do g <- src; ret (d_any g).

Section Gens.
  Context {W A B : Type}.
  (** the generator expression of seq.py:385-388 [Seq.__iter__] and 420-423 [SeqGen.__iter__] *)
  CoFixpoint d_wrap (g : dgen W A) : dgen W A :=
    DGen (fun d => framem d (fun d =>
      do st <- dstep d g;
      ret match st with Yield x g => Yield x (d_wrap g) | Skip g => Skip (d_wrap g) | Stop => Stop end)).
  Definition d_opening (src : diterable W A) (loop : dgen W A -> dgen W B) : dgen W B :=
    DGen (fun d => framem d (fun _ => do g <- in_generator src; ret (Skip (loop g)))).
  (** seq.py:691-693 *)
  CoFixpoint d_map_loop (f : A -> M W B) (g : dgen W A) : dgen W B :=
    DGen (fun d => framem d (fun d =>
      do st <- dstep d g;
      match st with
      | Yield x g => do y <- in_generator (f x); ret (Yield y (d_map_loop f g))
      | Skip g => ret (Skip (d_map_loop f g))
      | Stop => ret Stop
      end)).
  (** seq.py:483-485 *)
  CoFixpoint d_collect_loop (f : A -> M W (diterable W B)) (inner : option (dgen W B)) (g : dgen W A) : dgen W B :=
    DGen (fun d => framem d (fun d =>
      match inner with
      | None =>
          do st <- dstep d g;
          match st with
          | Yield x g => do it <- in_generator (f x); do h <- in_generator it; ret (Skip (d_collect_loop f (Some h) g))
          | Skip g => ret (Skip (d_collect_loop f None g))
          | Stop => ret Stop
          end
      | Some h =>
          do st <- dstep d h;
          ret match st with
              | Yield y h => Yield y (d_collect_loop f (Some h) g)
              | Skip h => Skip (d_collect_loop f (Some h) g)
              | Stop => Skip (d_collect_loop f None g)
              end
      end)).
  (** seq.py:503-505 *)
  CoFixpoint d_concat_loop (inner : option (dgen W A)) (its : list (diterable W A)) : dgen W A :=
    DGen (fun d => framem d (fun d =>
      match inner with
      | None =>
          match its with
          | [] => ret Stop
          | it :: its => do h <- in_generator it; ret (Skip (d_concat_loop (Some h) its))
          end
      | Some h =>
          do st <- dstep d h;
          ret match st with
              | Yield y h => Yield y (d_concat_loop (Some h) its)
              | Skip h => Skip (d_concat_loop (Some h) its)
              | Stop => Skip (d_concat_loop None its)
              end
      end)).
  (** builtins.filter, seq.py:529-545 *)
  CoFixpoint d_filter_loop (p : A -> M W bool) (g : dgen W A) : dgen W A :=
    DGen (fun d =>
      do st <- dstep d g;
      match st with
      | Yield x g => do b <- p x; ret (if b : bool then Yield x (d_filter_loop p g) else Skip (d_filter_loop p g))
      | Skip g => ret (Skip (d_filter_loop p g))
      | Stop => ret Stop
      end).
  (** seq.py:890-894 *)
  CoFixpoint d_skip_loop (count i : Z) (g : dgen W A) : dgen W A :=
    DGen (fun d => framem d (fun d =>
      do st <- dstep d g;
      ret match st with
          | Yield n g => if Z.leb count i then Yield n (d_skip_loop count (i + 1) g) else Skip (d_skip_loop count (i + 1) g)
          | Skip g => Skip (d_skip_loop count i g)
          | Stop => Stop
          end)).
  (** seq.py:937-942 *)
  CoFixpoint d_take_loop (count : Z) (after : option Z) (i : Z) (g : dgen W A) : dgen W A :=
    DGen (fun d => framem d (fun d =>
      match after with
      | Some j => ret (if Z.eqb j (count - 1) then Stop else Skip (d_take_loop count None i g))
      | None =>
          do st <- dstep d g;
          ret match st with
              | Yield n g => Yield n (d_take_loop count (Some i) (i + 1) g)
              | Skip g => Skip (d_take_loop count None i g)
              | Stop => Stop
              end
      end)).
End Gens.

(** The stages of Chain.v on a Seq.  seq.py:441-460 [choose]: the mapping gives a Seq. *)
Definition d_stage {W A B} (s : stage W A B) : diterable W A -> M W (diterable W B) :=
  match s in stage _ A B return diterable W A -> M W (diterable W B) with
  | SMap f => fun src => ret (ret (d_wrap (d_opening src (d_map_loop f))))
  | SFilter p => fun src => do g <- src; ret (ret (d_filter_loop p g))
  | SChoose f => fun src => ret (ret (d_wrap (d_opening src (d_collect_loop (fun x => do o <- f x; ret (ret (d_wrap (d_list (opt_to_list o))))) None))))
  | SCollect f => fun src => ret (ret (d_wrap (d_opening src (d_collect_loop (fun x => do ys <- f x; ret (d_of_list ys)) None))))
  | SAppend ys => fun src => ret (ret (d_wrap (d_concat_loop None [src; d_of_list ys])))
  | SSkip n => fun src => ret (ret (d_wrap (d_opening src (d_skip_loop n 0))))
  | STake n => fun src => ret (ret (d_wrap (if Z.ltb 0 n then d_opening src (d_take_loop n None 0) else d_list [])))
  | STail => fun src => ret (ret (d_wrap (d_opening src (d_skip_loop 1 0))))
  end.
Fixpoint d_on_seq {W A B} (c : chain W A B) : diterable W A -> M W (diterable W B) :=
  match c in chain _ A B return diterable W A -> M W (diterable W B) with
  | Whole => fun src => ret src
  | Next s c => fun src => do it <- d_stage s src; d_on_seq c it
  end.
(** [list(it)] called with [d] frames left *)
Fixpoint d_drain {W A} (fuel d : nat) (g : dgen W A) (acc : list A) : M W (list A) :=
  match fuel with
  | 0 => raise OutOfFuel
  | S fuel =>
      do st <- dstep d g;
      match st with
      | Stop => ret acc
      | Skip g => d_drain fuel d g acc
      | Yield x g => d_drain fuel d g (acc ++ [x])
      end
  end.
Definition d_to_list {W A} (fuel d : nat) (it : diterable W A) : M W (list A) := do g <- it; d_drain fuel d g [].
