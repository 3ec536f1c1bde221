(** What the holder of an iterator sees when they call [next()] again and again. *)
From Coq Require Import List ZArith.
From Verif.Model Require Import Base Gen Resume.
Import ListNotations.
Local Open Scope py_scope.

Inductive outcome (A : Type) : Type := Got (a : A) | Ended | Raised (e : exn).
Arguments Got {A}.  Arguments Ended {A}.  Arguments Raised {A}.

Section Observe.
  Context {W A : Type}.
  (** one call of [next()] *)
  Inductive next : rgen W A -> W -> outcome A -> rgen W A -> W -> Prop :=
  | nx_got : forall g w a g1 w1, rnext g w = (RYield a g1, w1) -> next g w (Got a) g1 w1
  | nx_ended : forall g w g1 w1, rnext g w = (RStop g1, w1) -> next g w Ended g1 w1
  | nx_raised : forall g w e g1 w1, rnext g w = (RRaise e g1, w1) -> next g w (Raised e) g1 w1
  | nx_skip : forall g w g1 w1 o g2 w2, rnext g w = (RSkip g1, w1) -> next g1 w1 o g2 w2 -> next g w o g2 w2.
  (** one call after the other *)
  Inductive nexts : rgen W A -> W -> list (outcome A) -> rgen W A -> W -> Prop :=
  | nxs_none : forall g w, nexts g w [] g w
  | nxs_more : forall g w o g1 w1 os g2 w2, next g w o g1 w1 -> nexts g1 w1 os g2 w2 -> nexts g w (o :: os) g2 w2.

  (** Whatever is asked of it, it has ended, and nothing happens. *)
  Definition finished (g : rgen W A) : Prop :=
    forall w n, exists g1, nexts g w (repeat Ended n) g1 w /\ (forall os g2 w2, nexts g w os g2 w2 -> List.length os = n -> os = repeat Ended n /\ w2 = w).
  (** The first exception, or the end, is the last thing that happens. *)
  Definition ends_for_good (g : rgen W A) : Prop :=
    forall w os o g1 w1, nexts g w (os ++ [o]) g1 w1 -> (forall a, o <> Got a) -> finished g1.
  Definition ends_for_good_it (it : riterable W A) : Prop := forall w g w1, it w = (Ret g, w1) -> ends_for_good g.

  (** The same iterator as in Gen.v, as long as it is not asked again after it raised or
      ended. *)
  Inductive same_step (F : rgen W A -> gen W A -> Prop) : rstep A (rgen W A) * W -> res (gstep A (gen W A)) * W -> Prop :=
  | same_yield : forall a r g w, F r g -> same_step F (RYield a r, w) (Ret (Yield a g), w)
  | same_skip : forall r g w, F r g -> same_step F (RSkip r, w) (Ret (Skip g), w)
  | same_stop : forall r w, same_step F (RStop r, w) (Ret Stop, w)
  | same_raise : forall e r w, same_step F (RRaise e r, w) (Raise e, w).
  CoInductive follows (r : rgen W A) (g : gen W A) : Prop :=
  | follows_next : (forall w, same_step follows (rnext r w) (step g w)) -> follows r g.
  Definition follows_it (ri : M W (rgen W A)) (it : M W (gen W A)) : Prop :=
    forall w, match ri w, it w with
              | (Ret r, w1), (Ret g, w2) => w1 = w2 /\ follows r g
              | (Raise e, w1), (Raise e2, w2) => e = e2 /\ w1 = w2
              | _, _ => False
              end.
End Observe.

(** How an exception that leaves an iterator is seen. *)
Definition seen {A} (e : exn) : outcome A := match e with StopIterationExn => Ended | e => Raised e end.
(** What the calls of [next()] give one after the other when every element is tried in turn,
    failures included. *)
Fixpoint tried {W A B S} (f : S -> A -> W -> res (list B) * S * W) (s : S) (xs : list A) (w : W) : list (outcome B) * S * W :=
  match xs with
  | [] => ([], s, w)
  | x :: xs =>
      let '(r, s1, w1) := f s x w in
      let '(os, s2, w2) := tried f s1 xs w1 in
      (match r with Ret ys => map Got ys | Raise e => [seen e] end ++ os, s2, w2)
  end.

(** What is tried for one element. *)
Section One.
  Context {W A B S : Type}.
  (** filter: the element of the source, then the predicate *)
  Definition filter_one (p : A -> M W bool) (_ : unit) (m : M W A) (w : W) : res (list A) * unit * W :=
    let '(r, w1) := (do x <- m; do b <- p x; ret (if b : bool then [x] else [])) w in (r, tt, w1).
  (** scan: the total is that of the elements that did not fail *)
  Definition scan_one (f : S -> A -> M W S) (s : S) (m : M W A) (w : W) : res (list S) * S * W :=
    match (do x <- m; f s x) w with (Ret s1, w1) => (Ret [s1], s1, w1) | (Raise e, w1) => (Raise e, s, w1) end.
  (** zip: the second source is asked after the first, and not at all when the first raises *)
  Definition zip_one (ns : list (M W B)) (m : M W A) (w : W) : res (list (A * B)) * list (M W B) * W :=
    match m w with
    | (Ret x, w1) =>
        match ns with
        | [] => (Raise StopIterationExn, [], w1)
        | n :: ns => match n w1 with (Ret y, w2) => (Ret [(x, y)], ns, w2) | (Raise e, w2) => (Raise e, ns, w2) end
        end
    | (Raise e, w1) => (Raise e, ns, w1)
    end.
  (** init_infinite: the callback on the next number *)
  Definition call_one (f : Z -> M W A) (_ : unit) (i : Z) (w : W) : res (list A) * unit * W :=
    let '(r, w1) := (do y <- f i; ret [y]) w in (r, tt, w1).
  Fixpoint upto (i : Z) (n : nat) : list Z := match n with O => [] | Datatypes.S n => i :: upto (i + 1) n end.
End One.
