(** What a consumer of an iterator can observe; specifications for Seq and AsyncSeq. *)
From Coq Require Import List ZArith.
From Verif.Model Require Import Base Gen Seq.
From Verif.Spec Require Import ListM.
Import ListNotations.
Local Open Scope py_scope.

Section Observe.
  Context {W A : Type}.

  (** Iterating to the end: the elements handed out, how it ended (normally, or with an
      exception), and the final world. *)
  Inductive produces : gen W A -> W -> list A -> res unit -> W -> Prop :=
  | pr_stop : forall g w w1, step g w = (Ret Stop, w1) -> produces g w [] (Ret tt) w1
  | pr_raise : forall g w e w1, step g w = (Raise e, w1) -> produces g w [] (Raise e) w1
  | pr_skip : forall g w g1 w1 l r w2,
      step g w = (Ret (Skip g1), w1) -> produces g1 w1 l r w2 -> produces g w l r w2
  | pr_yield : forall g w x g1 w1 l r w2,
      step g w = (Ret (Yield x g1), w1) -> produces g1 w1 l r w2 -> produces g w (x :: l) r w2.

  (** Asking for some elements and no more: the elements, the iterator and the world
      right after the last one was handed out. *)
  Inductive pulled : gen W A -> W -> list A -> gen W A -> W -> Prop :=
  | pu_none : forall g w, pulled g w [] g w
  | pu_skip : forall g w g1 w1 x l g2 w2,
      step g w = (Ret (Skip g1), w1) -> pulled g1 w1 (x :: l) g2 w2 -> pulled g w (x :: l) g2 w2
  | pu_yield : forall g w x g1 w1 l g2 w2,
      step g w = (Ret (Yield x g1), w1) -> pulled g1 w1 l g2 w2 -> pulled g w (x :: l) g2 w2.

  (** The same for an iterable: [iter()] first. *)
  Definition iterates (it : iterable W A) (w : W) (l : list A) (r : res unit) (w2 : W) : Prop :=
    (exists g w1, it w = (Ret g, w1) /\ produces g w1 l r w2) \/
    (exists e, it w = (Raise e, w2) /\ l = [] /\ r = Raise e).
  Definition pulls (it : iterable W A) (w : W) (l : list A) (g2 : gen W A) (w2 : W) : Prop :=
    exists g w1, it w = (Ret g, w1) /\ pulled g w1 l g2 w2.

  (** A source whose i-th element is computed by the i-th effect, which may raise. *)
  CoFixpoint script_gen (ms : list (M W A)) : gen W A :=
    Gen (match ms with [] => ret Stop | m :: ms => do x <- m; ret (Yield x (script_gen ms)) end).
  Definition of_script (ms : list (M W A)) : iterable W A := ret (script_gen ms).

  (** Running effects one after the other, each giving a batch of elements, up to the
      first exception. *)
  Fixpoint emit (ms : list (M W (list A))) (w : W) : list A * res unit * W :=
    match ms with
    | [] => ([], Ret tt, w)
    | m :: ms =>
        match m w with
        | (Ret ys, w1) => let '(zs, r, w2) := emit ms w1 in (ys ++ zs, r, w2)
        | (Raise e, w1) => ([], Raise e, w1)
        end
    end.
End Observe.

(** How an iterator ends for its consumer: StopIteration is the normal end. *)
Definition ended (r : res unit) : res unit := match r with Raise StopIterationExn => Ret tt | _ => r end.

(** Effects that do not raise StopIteration. *)
Definition no_stop {W A} (m : M W A) : Prop := forall w, fst (m w) <> Raise StopIterationExn.

(** Iterating a list of iterables one after the other, inside a generator. *)
Inductive iterates_all {W A} : list (iterable W A) -> W -> list A -> res unit -> W -> Prop :=
| ia_nil : forall w, iterates_all [] w [] (Ret tt) w
| ia_fail : forall it its w l e w1, iterates it w l (Raise e) w1 -> iterates_all (it :: its) w l (leaving (Raise e)) w1
| ia_next : forall it its w l w1 l2 r w2,
    iterates it w l (Ret tt) w1 -> iterates_all its w1 l2 r w2 -> iterates_all (it :: its) w (l ++ l2) r w2.

(** Results of a left fold over all prefixes after the first element on. *)
Fixpoint scan_list {A S} (f : S -> A -> S) (s : S) (l : list A) : list S :=
  match l with [] => [] | x :: l => f s x :: scan_list f (f s x) l end.

(** A source that hands out the same elements whenever it is iterated in a world
    satisfying [I], and keeps [I] true at every step, so also when it is only read in
    part. *)
Section Steady.
  Context {W A : Type}.
  Variable I : W -> Prop.
  Definition steps_to (g : gen W A) (st : gstep A (gen W A)) : Prop :=
    forall w, I w -> exists w1, step g w = (Ret st, w1) /\ I w1.
  Inductive steady : gen W A -> list A -> Prop :=
  | sd_stop : forall g, steps_to g Stop -> steady g []
  | sd_skip : forall g g1 l, steps_to g (Skip g1) -> steady g1 l -> steady g l
  | sd_yield : forall g x g1 l, steps_to g (Yield x g1) -> steady g1 l -> steady g (x :: l).
  Definition reiterable (it : iterable W A) (l : list A) : Prop :=
    exists g, (forall w, I w -> exists w1, it w = (Ret g, w1) /\ I w1) /\ steady g l.
End Steady.

(** A callback that gives the value [F x] on [x] in every world satisfying [I], and
    keeps [I]. *)
Definition gives {W A B} (I : W -> Prop) (f : A -> M W B) (F : A -> B) : Prop :=
  forall x w, I w -> exists w1, f x w = (Ret (F x), w1) /\ I w1.

(** A source that can be opened without any effect (lists, generator functions). *)
Definition quiet {W A} (it : iterable W A) : Prop := forall w, exists g, it w = (Ret g, w).

(** Iterating the same object [n] times, one after the other. *)
Inductive iterated {W A} (it : iterable W A) : nat -> W -> list (list A) -> W -> Prop :=
| it_zero : forall w, iterated it 0 w [] w
| it_more : forall n w l w1 ls w2, iterates it w l (Ret tt) w1 -> iterated it n w1 ls w2 -> iterated it (S n) w (l :: ls) w2.

(** Calling a generator function on successive states. *)
Inductive unfold_steps {W A S} (f : S -> M W (option (A * S))) : S -> W -> list A -> S -> W -> Prop :=
| us_none : forall s w, unfold_steps f s w [] s w
| us_more : forall s w x s1 w1 l s2 w2, f s w = (Ret (Some (x, s1)), w1) -> unfold_steps f s1 w1 l s2 w2 ->
    unfold_steps f s w (x :: l) s2 w2.

(** One batch per pair of effects, the first source being asked first; when only the
    second source has ended, the first has been asked once more. *)
Fixpoint zip_script {W A B} (ms : list (M W A)) (ns : list (M W B)) : list (M W (list (A * B))) :=
  match ms, ns with
  | [], _ => []
  | m :: _, [] => [do _ <- m; ret []]
  | m :: ms, n :: ns => (do x <- m; do y <- n; ret [(x, y)]) :: zip_script ms ns
  end.

(** A left fold whose intermediate states are handed out. *)
Fixpoint scan_emit {W A S} (f : S -> A -> M W S) (s : S) (ms : list (M W A)) (w : W) : list S * res unit * W :=
  match ms with
  | [] => ([], Ret tt, w)
  | m :: ms =>
      match (do x <- m; f s x) w with
      | (Ret s1, w1) => let '(l, r, w2) := scan_emit f s1 ms w1 in (s1 :: l, r, w2)
      | (Raise e, w1) => ([], Raise e, w1)
      end
  end.

(** [m] is the first of the best elements of [l]. *)
Definition first_best {B} (better : B -> B -> bool) (l : list B) (m : B) : Prop :=
  exists pre post, l = pre ++ m :: post /\ (forall y, In y l -> better y m = false) /\ (forall y, In y pre -> better m y = true).
Definition strict_weak {B} (better : B -> B -> bool) : Prop :=
  (forall x, better x x = false) /\
  (forall x y z, better x y = true -> better y z = true -> better x z = true) /\
  (forall x y z, better x y = false -> better y z = false -> better x z = false).

(** Indices of a list. *)
Fixpoint number {A} (i : Z) (l : list A) : list (Z * A) :=
  match l with [] => [] | x :: l => (i, x) :: number (i + 1) l end.

(** Other sources used by a pipeline can be opened without effect. *)
Fixpoint quiet_pipeline {W A B} (p : pipeline W A B) : Prop :=
  match p with
  | Done => True
  | Then o p => match o with OpZip src1 => quiet src1 | _ => True end /\ quiet_pipeline p
  end.

(** Calling [f] on the elements of a list from the first on: it gives [ys], and raises [e]
    on the next element. *)
Inductive stops {W A B} (f : A -> M W B) : list A -> W -> list B -> exn -> W -> Prop :=
| st_here : forall x xs w e w1, f x w = (Raise e, w1) -> stops f (x :: xs) w [] e w1
| st_later : forall x xs w y w1 ys e w2, f x w = (Ret y, w1) -> stops f xs w1 ys e w2 -> stops f (x :: xs) w (y :: ys) e w2.

(** Calling [f] on a state and the elements of a list from the first on, with the state it
    gave before: the states are [ss], and it raises [e] on the next element. *)
Inductive folds_until {W A S} (f : S -> A -> M W S) : S -> list A -> W -> list S -> exn -> W -> Prop :=
| fu_here : forall s x xs w e w1, f s x w = (Raise e, w1) -> folds_until f s (x :: xs) w [] e w1
| fu_later : forall s x xs w s1 w1 ss e w2, f s x w = (Ret s1, w1) -> folds_until f s1 xs w1 ss e w2 -> folds_until f s (x :: xs) w (s1 :: ss) e w2.
