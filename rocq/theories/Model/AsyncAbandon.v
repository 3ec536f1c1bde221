(** What becomes of async generators of expression/collections/asyncseq.py when an iteration
    is given up, ends or raises.  As AsyncSeq.v, but every outcome leaves an iterator behind
    (as in Resume.v) and an iterator knows what the loss of its last reference asks the event
    loop to do.  asyncio and CPython 3.10 to 3.13, trusted: a suspended async generator
    without references is handed to the finalizer of the loop, which calls
    [call_soon_threadsafe(create_task, agen.aclose())]; the task then throws GeneratorExit
    into it, its [finally] blocks run and its frame lets go of the iterators it holds.  A
    generator that has not been started, or is over, asks for nothing.  A turn of the loop runs
    what was ready when it began.  Not modelled: [finally] blocks that await or raise,
    references kept elsewhere (variables, tracebacks), sources started before they are passed,
    and [shutdown_asyncgens] at the end of [asyncio.run].  Definitions only. *)
From Coq Require Import List ZArith Bool.
From Verif.Model Require Import Base PyList Resume AsyncSeq.
Import ListNotations.
Local Open Scope py_scope.

(** Closing a suspended async generator: its [finally] blocks, and the suspended ones that its
    frame lets go then. *)
Inductive job (W : Type) : Type := Job (exit : W -> W) (rest : list (job W)).
Arguments Job {W}.
(** What is ready to run: [create_task(agen.aclose())], and the task made by it. *)
Inductive handle (W : Type) : Type := NewTask (j : job W) | Close (j : job W).
Arguments NewTask {W}.  Arguments Close {W}.
Record loop (W : Type) : Type := Loop { ready : list (handle W); env : W }.
Arguments Loop {W}.  Arguments ready {W}.  Arguments env {W}.
Definition schedule {W} (hs : list (handle W)) (l : loop W) : loop W := Loop (ready l ++ hs) (env l).
(** [aclose()] of a suspended generator *)
Definition close {W} (j : job W) (l : loop W) : loop W :=
  match j with Job exit rest => schedule (List.map NewTask rest) (Loop (ready l) (exit (env l))) end.
Definition run_handle {W} (l : loop W) (h : handle W) : loop W :=
  match h with NewTask j => schedule [Close j] l | Close j => close j l end.
(** BaseEventLoop._run_once *)
Definition turn {W} (l : loop W) : loop W := fold_left run_handle (ready l) (Loop [] (env l)).
Fixpoint turns {W} (n : nat) (l : loop W) : loop W := match n with O => l | S n => turns n (turn l) end.

(** [held]: the closing that is asked for when the last reference goes. *)
CoInductive agen (W A : Type) : Type := AGen (next : loop W -> rstep A (agen W A) * loop W) (held : option (job W)).
Arguments AGen {W A}.
Definition held {W A} (g : agen W A) : list (job W) := match g with AGen _ (Some j) => [j] | AGen _ None => [] end.
(** One step of [__anext__]; as in AsyncSeq.v a StopIteration stands for the end. *)
Definition anext {W A} (g : agen W A) (l : loop W) : rstep A (agen W A) * loop W :=
  match g with
  | AGen next _ => match next l with (RRaise StopIterationExn g, l) => (RStop g, l) | r => r end
  end.
(** The last reference goes. *)
Definition let_go {W A} (g : agen W A) (l : loop W) : loop W := schedule (List.map NewTask (held g)) l.
(** [await g.aclose()] by the consumer *)
Definition aclose {W A} (g : agen W A) (l : loop W) : loop W := fold_left (fun l j => close j l) (held g) l.
Definition aiterable (W A : Type) : Type := loop W -> res (agen W A) * loop W.

(** An async generator that has returned, raised or been closed. *)
CoFixpoint over {W A} : agen W A := AGen (fun l => (RStop over, l)) None.
(** StopIteration leaves async code as RuntimeError. *)
Definition async_exn (e : exn) : exn := match e with StopIterationExn => RuntimeError | e => e end.
(** A callback: plain code, the loop does not turn while it runs. *)
Definition on_env {W X} (m : M W X) (l : loop W) : res X * loop W :=
  let (r, w) := m (env l) in (r, Loop (ready l) w).

(** An async generator function of the user: [enter; try: (the elements) finally: exit].
    Before each element and before the end it awaits something for a number of turns. *)
CoFixpoint a_body {W A} (exit : W -> W) (ms : list (nat * M W A)) (last : nat) : agen W A :=
  AGen (fun l => match ms with
                 | [] => let l := turns last l in (RStop over, Loop (ready l) (exit (env l)))
                 | (n, m) :: ms =>
                     match on_env m (turns n l) with
                     | (Ret x, l) => (RYield x (a_body exit ms last), l)
                     | (Raise e, l) => (RRaise (async_exn e) over, Loop (ready l) (exit (env l)))
                     end
                 end) (Some (Job exit [])).
Definition a_resource {W A} (enter exit : W -> W) (ms : list (nat * M W A)) (last : nat) : agen W A :=
  AGen (fun l => (RSkip (a_body exit ms last), Loop (ready l) (enter (env l)))) None.

(** A generator function that has handed out elements of its own and awaits nothing. *)
CoFixpoint a_list {W A} (xs : list A) : agen W A :=
  AGen (fun l => (match xs with [] => RStop over | x :: xs => RYield x (a_list xs) end, l)) (Some (Job (fun w => w) [])).

Section Gens.
  Context {W A B S : Type}.

  (** An async generator whose body is [async for value in source: body] *)
  CoFixpoint a_each (body : S -> A -> M W (AsyncSeq.turn S B)) (s : S) (g : agen W A) : agen W B :=
    AGen (fun l =>
      match anext g l with
      | (RYield x g, l) =>
          match on_env (body s x) l with
          | (Ret (Give y s), l) => (RYield y (a_each body s g), l)
          | (Ret (Drop s), l) => (RSkip (a_each body s g), l)
          | (Ret Leave, l) => (RStop over, let_go g l)
          | (Raise e, l) => (RRaise (async_exn e) over, let_go g l)
          end
      | (RSkip g, l) => (RSkip (a_each body s g), l)
      | (RStop g, l) => (RStop over, let_go g l)
      | (RRaise e g, l) => (RRaise e over, let_go g l)
      end) (Some (Job (fun w => w) (held g))).
  (** Nothing runs until the first element is asked for. *)
  Definition a_started (src : aiterable W A) (loop : agen W A -> agen W B) : agen W B :=
    AGen (fun l => match src l with (Ret g, l) => (RSkip (loop g), l) | (Raise e, l) => (RRaise (async_exn e) over, l) end) None.

  (** async for value in source: async for item in mapping(value): yield item.  The mapping
      is plain code; [mapping(value).__aiter__()] opens an iterator.  What two iterators
      ask for is put in the order inner, outer. *)
  CoFixpoint a_collect_loop (f : A -> M W (aiterable W B)) (inner : option (agen W B)) (g : agen W A) : agen W B :=
    AGen (fun l =>
      match inner with
      | None =>
          match anext g l with
          | (RYield x g, l) =>
              match on_env (f x) l with
              | (Ret it, l) => match it l with
                               | (Ret h, l) => (RSkip (a_collect_loop f (Some h) g), l)
                               | (Raise e, l) => (RRaise (async_exn e) over, let_go g l)
                               end
              | (Raise e, l) => (RRaise (async_exn e) over, let_go g l)
              end
          | (RSkip g, l) => (RSkip (a_collect_loop f None g), l)
          | (RStop g, l) => (RStop over, let_go g l)
          | (RRaise e g, l) => (RRaise e over, let_go g l)
          end
      | Some h =>
          match anext h l with
          | (RYield y h, l) => (RYield y (a_collect_loop f (Some h) g), l)
          | (RSkip h, l) => (RSkip (a_collect_loop f (Some h) g), l)
          | (RStop h, l) => (RSkip (a_collect_loop f None g), let_go h l)
          | (RRaise e h, l) => (RRaise e over, let_go g (let_go h l))
          end
      end) (Some (Job (fun w => w) ((match inner with Some h => held h | None => [] end) ++ held g))).
End Gens.

(** async for value in source: yield value; async for value in other: yield value *)
CoFixpoint a_append_loop {W B} (other : option (aiterable W B)) (g : agen W B) : agen W B :=
  AGen (fun l =>
    match anext g l with
    | (RYield x g, l) => (RYield x (a_append_loop other g), l)
    | (RSkip g, l) => (RSkip (a_append_loop other g), l)
    | (RStop g, l) =>
        match other with
        | None => (RStop over, let_go g l)
        | Some it => match it (let_go g l) with
                     | (Ret h, l) => (RSkip (a_append_loop None h), l)
                     | (Raise e, l) => (RRaise (async_exn e) over, l)
                     end
        end
    | (RRaise e g, l) => (RRaise e over, let_go g l)
    end) (Some (Job (fun w => w) (held g))).

(** asyncseq.py:287-292 [map], 21-24 *)
Definition a_map {W A B} (mapper : A -> M W B) (src : aiterable W A) : agen W B :=
  a_started src (a_each (fun _ x => do y <- mapper x; ret (Give y tt)) tt).
(** asyncseq.py:295-304 [choose], 49-70 *)
Definition a_choose {W A B} (chooser : A -> M W (option B)) (src : aiterable W A) : agen W B :=
  a_started src (a_each (fun _ x => do o <- chooser x; ret (match o with Some y => Give y tt | None => Drop tt end)) tt).
(** asyncseq.py:278-284 [filter], 107-126 *)
Definition a_filter {W A} (predicate : A -> M W bool) (src : aiterable W A) : agen W A :=
  a_started src (a_each (fun _ x => do b <- predicate x; ret (if b : bool then Give x tt else Drop tt)) tt).
(** asyncseq.py:307-317 [collect], 72-91 *)
Definition a_collect {W A B} (mapping : A -> M W (aiterable W B)) (src : aiterable W A) : agen W B :=
  a_started src (a_collect_loop mapping None).
(** asyncseq.py:93-105 [concat] *)
Definition a_concat {W A} (src : aiterable W (aiterable W A)) : agen W A := a_started src (a_collect_loop (fun it => ret it) None).
(** asyncseq.py:154-164 [scan]: suspended at its first yield it holds nothing *)
Definition a_scan {W A S} (scanner : S -> A -> M W S) (state : S) (src : aiterable W A) : agen W S :=
  AGen (fun l => (RYield state (AGen (fun l =>
      match a_started src (a_each (fun s x => do s1 <- scanner s x; ret (Give s1 s1)) state) with AGen next _ => next l end)
    (Some (Job (fun w => w) []))), l)) None.
(** asyncseq.py:166-177 [take] *)
Definition a_take {W A} (count : Z) (src : aiterable W A) : agen W A :=
  a_started src (a_each (fun i x => ret (if Z.leb count i then Leave else Give x (i + 1)%Z)) 0%Z).
(** asyncseq.py:179-189 [skip] *)
Definition a_skip {W A} (count : Z) (src : aiterable W A) : agen W A :=
  a_started src (a_each (fun i x => ret (if Z.leb count i then Give x (i + 1)%Z else Drop (i + 1)%Z)) 0%Z).
(** asyncseq.py:197-208 [tail] *)
Definition a_tail {W A} (src : aiterable W A) : agen W A :=
  a_started src (a_each (fun first x => ret (if first : bool then Drop false else Give x false)) true).
(** asyncseq.py:243-252 [append] *)
Definition a_append {W A} (other : aiterable W A) (src : aiterable W A) : agen W A := a_started src (a_append_loop (Some other)).
(** asyncseq.py:255-257 [empty], 260-262 [repeat], 273-275 [range]: a generator that has not
    been started, over what it will hand out *)
Definition a_plain {W A} (xs : res (list A)) : agen W A :=
  AGen (fun l => match xs with Ret xs => (RSkip (a_list xs), l) | Raise e => (RRaise (async_exn e) over, l) end) None.
Definition a_empty {W A} : agen W A := a_plain (Ret []).
Definition a_repeat {W A} (value : A) (times : option Z) : agen W A :=
  a_plain (Ret (List.repeat value (Z.to_nat (match times with Some n => n | None => 0%Z end)))).
Definition a_range {W} (start stop step : Z) : agen W Z := a_plain (py_range start stop step).

(** The object itself as a source *)
Definition a_src {W A} (g : agen W A) : aiterable W A := fun l => (Ret g, l).

(** [async for value in source: body] in a coroutine: [inr] leaves the loop with a value;
    the coroutine ends then and lets the iterator go, as it does when something raises.
    [fuel] bounds the steps. *)
Fixpoint a_loop {W A St R} (fuel : nat) (g : agen W A) (s : St) (body : St -> A -> M W (St + R)) (l : loop W) : res (St + R) * loop W :=
  match fuel with
  | O => (Raise OutOfFuel, l)
  | S fuel =>
      match anext g l with
      | (RYield x g, l) =>
          match on_env (body s x) l with
          | (Ret (inl s), l) => a_loop fuel g s body l
          | (Ret (inr r), l) => (Ret (inr r), let_go g l)
          | (Raise e, l) => (Raise (async_exn e), let_go g l)
          end
      | (RSkip g, l) => a_loop fuel g s body l
      | (RStop g, l) => (Ret (inl s), let_go g l)
      | (RRaise e g, l) => (Raise e, let_go g l)
      end
  end.
(** asyncseq.py:128-137 [fold]; length (210-215) and sum (217-222) are folds *)
Definition a_fold {W A St} (fuel : nat) (folder : St -> A -> M W St) (state : St) (src : aiterable W A) (l : loop W) : res St * loop W :=
  match src l with
  | (Ret g, l) => match a_loop (R := Empty_set) fuel g state (fun s x => do s <- folder s x; ret (inl s)) l with
                  | (Ret (inl s), l) => (Ret s, l)
                  | (Ret (inr v), l) => match v with end
                  | (Raise e, l) => (Raise e, l)
                  end
  | (Raise e, l) => (Raise (async_exn e), l)
  end.
(** asyncseq.py:191-195 [head] *)
Definition a_head {W A} (fuel : nat) (src : aiterable W A) (l : loop W) : res A * loop W :=
  match src l with
  | (Ret g, l) => match a_loop (St := unit) fuel g tt (fun _ x => ret (inr x)) l with
                  | (Ret (inl _), l) => (Raise ValueError, l)
                  | (Ret (inr x), l) => (Ret x, l)
                  | (Raise e, l) => (Raise e, l)
                  end
  | (Raise e, l) => (Raise (async_exn e), l)
  end.
