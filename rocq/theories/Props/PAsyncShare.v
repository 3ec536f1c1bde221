(** C125: async sequences that several tasks ask, and requests that are cancelled or time
    out. *)
From Coq Require Import List ZArith Bool Lia.
From Verif.Model Require Import Base PyList Gen AsyncSeq AsyncShare.
From Verif.Spec Require Import AsyncShareSpec.
From Verif.Proofs Require Import AsyncShareFacts AsyncShareFacts2.
Import ListNotations.
Local Open Scope py_scope.
Local Open Scope list_scope.

(** When nobody interferes these are the functions of AsyncSeq.v. *)
Theorem C125_alone : forall W A B S (f : A -> M W B) (ch : A -> M W (option B)) (p : A -> M W bool) (k : A -> M W (piterable W B)) (k' : A -> M W (iterable W B))
  (sc : S -> A -> M W S) s n (src other : piterable W A) it it2, alone_it src it -> alone_it other it2 -> alone_fun k k' ->
  alone (p_map f src) (AsyncSeq.map f it) /\ alone (p_choose ch src) (AsyncSeq.choose ch it) /\ alone (p_filter p src) (AsyncSeq.filter p it) /\
  alone (p_collect k src) (AsyncSeq.collect k' it) /\ alone (p_scan sc s src) (AsyncSeq.scan sc s it) /\ alone (p_take n src) (AsyncSeq.take n it) /\
  alone (p_skip n src) (AsyncSeq.skip n it) /\ alone (p_tail src) (AsyncSeq.tail it) /\ alone (p_append other src) (AsyncSeq.append it2 it).
Proof.
  intros W A B S f ch p k k' sc s n src other it it2 H1 H2 H3.
  assert (E : forall B0 S0 (body : S0 -> A -> M W (AsyncSeq.turn S0 B0)) s0, alone (p_started src (p_each body s0)) (AsyncSeq.async_for body s0 it)).
  { intros. apply started_alone; [exact H1|]. intros. now apply each_alone. }
  repeat match goal with |- _ /\ _ => split end; try apply E; [|now apply scan_alone|].
  - apply started_alone; [exact H1|]. intros. now apply collect_alone.
  - apply started_alone; [exact H1|]. intros. now apply append_alone.
Qed.
Print Assumptions C125_alone.
Theorem C125_alone_own : forall W A (v : A) t a b c,
  alone (p_empty : pgen W A) AsyncSeq.empty /\ alone (p_repeat v t : pgen W A) (AsyncSeq.repeat v t) /\ alone (p_range a b c : pgen W Z) (AsyncSeq.range a b c).
Proof. intros. repeat split; first [apply list_alone|apply range_alone]. Qed.
Print Assumptions C125_alone_own.

(** Sources for the cases. *)
Definition queue (xs : list Z) : pgen Z Z := p_queue xs false.
Definition double (x : Z) : M Z Z := fun w => (Ret (x * 2)%Z, (w + 1)%Z).
Definition Timeout : exn := UserExn 7.
(** A pipeline over a queue: the task waits, goes on and gets 2, waits again, gets 4; the end. *)
Example C125_alone_ex : history 9 [Ask 0; Goes 0; Ask 0; Other Z.opp; Goes 0; Ask 0] [Ready (p_map double (ret (queue [1; 2])))]%Z 0%Z
  = ([Waiting; Got 2; Waiting; Done; Got 4; Ended], ([Ready p_over], 0))%Z.
Proof. vm_compute. reflexivity. Qed.

(** Any number of tasks that ask one async generator in any order: what happens to the source
    and the world is what one task alone does, that never asks while a request is suspended;
    the elements handed out are the elements that this one task gets, each to one task only;
    whoever asks while a request of another task is suspended gets a RuntimeError, and nothing
    else comes of it. *)
Theorem C125_one_reader : forall W A fuel n es (g : pgen W A) w os t o w', 0 < fuel ->
  history fuel (List.map on_object es) (List.repeat (Ready p_shared) n) (Rests g, w) = (os, (t, (o, w'))) ->
  exists es1 os1 busy t1, as_one n None es os es1 os1 busy /\ history fuel es1 [Ready g] w = (os1, ([t1], w')) /\ got os = got os1 /\
    o = match t1 with Ready g => Rests g | Suspended _ => Busy end.
Proof.
  intros W A fuel n es g w os t o w' FL H. destruct (one_reader_from_rest fuel n es g w os t o w' FL H) as (es1 & os1 & b & t1 & H1 & H2 & H3).
  exists es1, os1, b, t1. repeat split; try assumption. exact (as_one_got _ _ _ _ _ _ _ H1).
Qed.
Print Assumptions C125_one_reader.
(** Three tasks and a pipeline: task 1 is refused while task 0 waits, and gets the next element. *)
Example C125_one_reader_ex :
  fst (history 9 (List.map on_object [Ask 0; Ask 1; Goes 0; Ask 1; Goes 1; Ask 2; Ask 0]) (List.repeat (Ready p_shared) 3)
         (Rests (p_map double (ret (queue [1; 2])))%Z, 0%Z))
  = [Waiting; Failed RuntimeError; Got 2; Waiting; Got 4; Ended; Ended]%Z.
Proof. vm_compute. reflexivity. Qed.

(** A source that keeps its element when an exception is thrown into the wait for it: whatever
    the tasks do, the elements handed out are the first ones of the queue, in order, none lost
    and none twice. *)
Theorem C125_each_once : forall W A fuel n es (xs : list A) (w : W) os t o w', 0 < fuel ->
  history fuel (List.map on_object es) (List.repeat (Ready p_shared) n) (Rests (p_queue xs false), w) = (os, (t, (o, w'))) ->
  exists rest, xs = got os ++ rest.
Proof.
  intros W A fuel n es xs w os t o w' FL H. destruct (C125_one_reader _ _ _ _ _ _ _ _ _ _ _ FL H) as (es1 & os1 & b & t1 & _ & H2 & G & _).
  destruct (queue_history fuel es1 xs _ w FL (or_introl eq_refl)) as (rest & E). rewrite H2 in E. rewrite G. now exists rest.
Qed.
Print Assumptions C125_each_once.
Example C125_each_once_ex :
  fst (history 9 (List.map on_object [Ask 0; Throw 0 Timeout; Ask 1; Goes 1; Ask 0; Goes 0]) (List.repeat (Ready p_shared) 2) (Rests (queue [1; 2; 3])%Z, 0%Z))
  = [Waiting; Failed Timeout; Waiting; Got 1; Waiting; Got 2]%Z.
Proof. vm_compute. reflexivity. Qed.

(** A pipeline of its own over a source that is busy with another task's request: it raises
    RuntimeError and is over, although the source is not. *)
Theorem C125_refused : forall W A B S (body : S -> A -> M (ostate W A * W) (AsyncSeq.turn S B)) s fuel w,
  p_run (Datatypes.S fuel) (p_each body s p_shared) (Busy, w) = (Failed RuntimeError, (Ready p_over, (Busy, w))).
Proof. reflexivity. Qed.
Print Assumptions C125_refused.
Definition half (x : Z) : M (ostate Z Z * Z) Z := fun w => (Ret (x / 2)%Z, w).
(** Two tasks with a pipeline each over one generator; the second is refused and stays over,
    the first gets every element. *)
Example C125_refused_ex :
  let g := p_map double (ret (queue [1; 2]%Z)) in
  fst (history 9 [Ask 0; Ask 1; Goes 0; Ask 1; Ask 0; Goes 0] [Ready (p_map half (ret p_shared)); Ready (p_map half (ret p_shared))] (Rests g, 0%Z))
  = [Waiting; Failed RuntimeError; Got 1; Ended; Waiting; Got 2]%Z.
Proof. vm_compute. reflexivity. Qed.

(** Over sources that do not catch what is thrown into their awaits, every function is over
    once an exception was thrown into a suspended request: the exception comes out of it. *)
Theorem C125_over : forall W A B S (f : A -> M W B) (ch : A -> M W (option B)) (p : A -> M W bool) (k : A -> M W (piterable W B))
  (sc : S -> A -> M W S) s n (src other : piterable W A), passes_it src -> passes_it other ->
  (forall x w it w1, k x w = (Ret it, w1) -> passes_it it) ->
  dies (p_map f src) /\ dies (p_choose ch src) /\ dies (p_filter p src) /\ dies (p_collect k src) /\ dies (p_scan sc s src) /\ dies (p_take n src) /\
  dies (p_skip n src) /\ dies (p_tail src) /\ dies (p_append other src).
Proof.
  intros W A B S f ch p k sc s n src other H1 H2 H3.
  assert (E : forall B0 S0 (body : S0 -> A -> M W (AsyncSeq.turn S0 B0)) s0, dies (p_started src (p_each body s0))).
  { intros. apply started_dies; [exact H1|]. intros. now apply each_dies. }
  repeat match goal with |- _ /\ _ => split end; try apply E.
  - apply started_dies; [exact H1|]. intros. now apply collect_dies.
  - constructor. intros w. cbn. apply dy_yield. apply E.
  - apply started_dies; [exact H1|]. intros. now apply append_dies.
Qed.
Print Assumptions C125_over.
Theorem C125_over_sources : forall W A (v : A) t a b c xs waited,
  dies (p_empty : pgen W A) /\ dies (p_repeat v t : pgen W A) /\ dies (p_range a b c : pgen W Z) /\ passes (p_queue xs waited : pgen W A) /\
  (forall g : pgen W A, dies g -> passes g).
Proof. intros. repeat split; first [apply list_dies|apply range_dies|apply queue_passes|apply dies_passes]; assumption. Qed.
Print Assumptions C125_over_sources.

(** What that means: an exception thrown into a suspended request, wherever the iteration was,
    comes out of it and leaves an iterator that is over ... *)
Theorem C125_thrown : forall W A fuel es (g : pgen W A) w os k w1 e, 0 < fuel -> dies g -> Forall plain es -> e <> StopIterationExn ->
  history fuel es [Ready g] w = (os, ([Suspended k], w1)) -> exists w2, happens fuel (Throw 0 e) [Suspended k] w1 = (Failed e, ([Ready p_over], w2)).
Proof.
  intros W A [|fuel] es g w os k w1 e FL D P N H; [lia|]. destruct (history_dies (Datatypes.S fuel) es (Ready g) w os _ w1 FL P D H) as (t1 & E & D1 & _).
  injection E as <-. exact (throw_dies fuel k w1 e D1 N).
Qed.
Print Assumptions C125_thrown.
(** ... and so it is after any exception, and after the end. *)
Theorem C125_ended : forall W A fuel es (g : pgen W A) w os t w1, 0 < fuel -> dies g -> Forall plain es ->
  history fuel es [Ready g] w = (os, (t, w1)) -> Exists ending os -> t = [Ready p_over].
Proof.
  intros W A fuel es g w os t w1 FL D P H X. destruct (history_dies fuel es (Ready g) w os t w1 FL P D H) as (t1 & -> & _ & G). now rewrite G by now left.
Qed.
Print Assumptions C125_ended.
(** Nobody gets anything of a generator that is over, and asking it has no effects. *)
Theorem C125_over_for_all : forall W A fuel n es (w : W), 0 < fuel ->
  history fuel (List.map on_object es) (List.repeat (Ready p_shared) n) (Rests p_over, w)
  = (List.map (@of_over W A n) es, (List.repeat (Ready p_shared) n, (Rests p_over, others es w))).
Proof. intros. now apply shared_over. Qed.
Print Assumptions C125_over_for_all.
Example C125_over_ex :
  fst (history 9 (List.map on_object [Ask 0; Goes 0; Ask 0; Throw 0 Timeout; Ask 0; Ask 1]) (List.repeat (Ready p_shared) 2)
         (Rests (p_map double (ret (queue [1; 2; 3])))%Z, 0%Z))
  = [Waiting; Got 2; Waiting; Failed Timeout; Ended; Ended]%Z.
Proof. vm_compute. reflexivity. Qed.
Example C125_thrown_ex : dies (p_map double (ret (queue [1; 2; 3])))%Z /\ Forall plain [@Ask Z 0; Goes 0; Ask 0] /\
  exists k, history 9 [Ask 0; Goes 0; Ask 0] [Ready (p_map double (ret (queue [1; 2; 3])))]%Z 0%Z = ([Waiting; Got 2; Waiting]%Z, ([Suspended k], 1%Z)).
Proof.
  split; [|split; [repeat constructor|eexists; reflexivity]]. apply started_dies; [intros w; apply queue_passes|]. intros. now apply each_dies.
Qed.

(** "A timeout around a request costs that wait only: who asks again gets the next element",
    as it does of the queue itself: no, the pipeline ends there, without an exception.  The
    queue still has the element, a new pipeline over it gets it. *)
Theorem C125_timeout_refuted : ~ (forall (f : Z -> M Z Z) (xs : list Z) e, e <> StopIterationExn ->
  fst (history 9 [Ask 0; Throw 0 e; Ask 0; Goes 0] [Ready (p_queue xs false)] 0%Z) = [Waiting; Failed e; Waiting; Got 1%Z] ->
  fst (history 9 [Ask 0; Throw 0 e; Ask 0] [Ready (p_map f (ret (p_queue xs false)))] 0%Z) = [Waiting; Failed e; Waiting]).
Proof. intros H. specialize (H double [1; 2]%Z Timeout ltac:(discriminate) eq_refl). vm_compute in H. discriminate H. Qed.
Print Assumptions C125_timeout_refuted.
Theorem C125_new_pipeline : forall W A B (f : A -> M (ostate W A * W) B) x xs e fuel (w : W), 3 < fuel -> e <> StopIterationExn ->
  history fuel [Ask 0; Throw 0 e; Ask 0; Ask 1; Goes 1] [Ready (p_map f (ret p_shared)); Ready (p_map f (ret p_shared))] (Rests (p_queue (x :: xs) false), w)
  = let w1 := (Rests (p_queue xs false), w) in
    let after := p_each (fun _ x => do y <- f x; ret (Give y tt)) tt p_shared in
    match f x w1 with
    | (Ret y, w1) => ([Waiting; Failed e; Ended; Waiting; Got y], ([Ready p_over; Ready after], w1))
    | (Raise e1, w1) => ([Waiting; Failed e; Ended; Waiting; Failed (match e1 with StopIterationExn => RuntimeError | e1 => e1 end)], ([Ready p_over; Ready p_over], w1))
    end.
Proof.
  intros W A B f x xs e fuel w L N. destruct fuel as [|[|[|[|fuel]]]]; try lia. destruct e; try (now destruct N); cbn; unfold bind;
    (destruct (f x (Rests (p_queue xs false), w)) as [[y|e1] w1]; [reflexivity|destruct e1; reflexivity]).
Qed.
Print Assumptions C125_new_pipeline.
