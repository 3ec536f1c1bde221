(** What giving up an asynchronous iteration does. *)
From Coq Require Import List ZArith.
From Verif.Model Require Import Base Gen Resume AsyncAbandon.
From Verif.Spec Require Import ResumeSpec.
Import ListNotations.

Section Observe.
  Context {W A : Type}.
  (** one [await anext(g)], and one after the other *)
  Inductive acall : agen W A -> loop W -> outcome A -> agen W A -> loop W -> Prop :=
  | ac_got : forall g l a g1 l1, anext g l = (RYield a g1, l1) -> acall g l (Got a) g1 l1
  | ac_ended : forall g l g1 l1, anext g l = (RStop g1, l1) -> acall g l Ended g1 l1
  | ac_raised : forall g l e g1 l1, anext g l = (RRaise e g1, l1) -> acall g l (Raised e) g1 l1
  | ac_skip : forall g l g1 l1 o g2 l2, anext g l = (RSkip g1, l1) -> acall g1 l1 o g2 l2 -> acall g l o g2 l2.
  Inductive acalls : agen W A -> loop W -> list (outcome A) -> agen W A -> loop W -> Prop :=
  | acs_none : forall g l, acalls g l [] g l
  | acs_more : forall g l o g1 l1 os g2 l2, acall g l o g1 l1 -> acalls g1 l1 os g2 l2 -> acalls g l (o :: os) g2 l2.
End Observe.

(** After an exception or the end every further request ends, and nothing else happens. *)
Definition over_for_good {W A} (g : agen W A) : Prop :=
  forall l os o g1 l1, acalls g l (os ++ [o]) g1 l1 -> (forall a, o <> Got a) ->
  forall os2 g2 l2, acalls g1 l1 os2 g2 l2 -> Forall (eq Ended) os2 /\ l2 = l1 /\ held g2 = [].

Definition any {A} (a : A) : Prop := True.
(** * Generators that are open, counted by [open] *)
Section Open.
  Context {W : Type}.
  Variable open : W -> Z.
  (** closing closes [n] of them *)
  Inductive job_owes : Z -> job W -> Prop :=
  | jo : forall exit rest k n, (forall w, open (exit w) = open w - k)%Z -> jobs_owe n rest -> job_owes (k + n) (Job exit rest)
  with jobs_owe : Z -> list (job W) -> Prop :=
  | jos_nil : jobs_owe 0 []
  | jos_cons : forall n j m js, job_owes n j -> jobs_owe m js -> jobs_owe (n + m) (j :: js).
  Definition job_of (h : handle W) : job W := match h with NewTask j => j | Close j => j end.
  (** [b] stay open when all has run that is ready to run *)
  Definition stands (b : Z) (l : loop W) : Prop := exists n, jobs_owe n (map job_of (ready l)) /\ (open (env l) - n = b)%Z.
  Inductive owing {A} (P : A -> Prop) (O : Z -> agen W A -> Prop) (b : Z) : rstep A (agen W A) * loop W -> Prop :=
  | ow_yield : forall a g l n, P a -> O n g -> stands (b + n) l -> owing P O b (RYield a g, l)
  | ow_skip : forall g l n, O n g -> stands (b + n) l -> owing P O b (RSkip g, l)
  | ow_stop : forall g l n, O n g -> stands (b + n) l -> owing P O b (RStop g, l)
  | ow_raise : forall e g l n, O n g -> stands (b + n) l -> owing P O b (RRaise e g, l).
  (** The iterator holds [n] open ones: it opens and closes no others.  The elements it hands
      out are [P]. *)
  CoInductive owes {A} (P : A -> Prop) (n : Z) (g : agen W A) : Prop :=
  | owes_next : jobs_owe n (held g) -> (forall b l, stands (b + n) l -> owing P (owes P) b (anext g l)) -> owes P n g.
  Definition balanced {A} (P : A -> Prop) (it : aiterable W A) : Prop :=
    forall b l, stands b l -> match it l with
                              | (Ret g, l1) => exists n, owes P n g /\ stands (b + n) l1
                              | (Raise _, l1) => stands b l1
                              end.
  Definition neutral {X} (m : M W X) : Prop := forall w, open (snd (m w)) = open w.
End Open.

(** * How long closing takes *)
(** At most [d] generators, one inside the other. *)
Inductive shallow {W} : nat -> job W -> Prop :=
| shl : forall d exit rest, Forall (shallow d) rest -> shallow (S d) (Job exit rest).
Definition soon {W} (k : nat) (h : handle W) : Prop :=
  match h with NewTask j => exists d, shallow d j /\ 2 * d <= k | Close j => exists d, shallow d j /\ 2 * d <= S k end.
Definition patient {W} (k : nat) (l : loop W) : Prop := Forall (soon k) (ready l).
Inductive nesting {W A} (P : A -> Prop) (N : agen W A -> Prop) (k : nat) : rstep A (agen W A) * loop W -> Prop :=
| ne_yield : forall a g l, P a -> N g -> patient k l -> nesting P N k (RYield a g, l)
| ne_skip : forall g l, N g -> patient k l -> nesting P N k (RSkip g, l)
| ne_stop : forall g l, N g -> patient k l -> nesting P N k (RStop g, l)
| ne_raise : forall e g l, N g -> patient k l -> nesting P N k (RRaise e g, l).
(** It never holds more than [d] suspended generators, one inside the other. *)
CoInductive nested {W A} (P : A -> Prop) (d : nat) (g : agen W A) : Prop :=
| nested_next : Forall (shallow d) (held g) -> (forall k l, 2 * d <= k -> patient k l -> nesting P (nested P d) k (anext g l)) -> nested P d g.
Definition nested_it {W A} (P : A -> Prop) (d : nat) (it : aiterable W A) : Prop :=
  forall k l, 2 * d <= k -> patient k l -> match it l with (Ret g, l1) => nested P d g /\ patient k l1 | (Raise _, l1) => patient k l1 end.

(** * Without [finally] blocks *)
Inductive idle {W} : job W -> Prop := idl : forall exit rest, (forall w, exit w = w) -> Forall idle rest -> idle (Job exit rest).
Definition calm {W} (l : loop W) : Prop := Forall idle (map job_of (ready l)).
(** The iterator of Gen.v *)
Inductive same_astep {W A} (F : agen W A -> gen W A -> Prop) : rstep A (agen W A) * loop W -> res (gstep A (gen W A)) * W -> Prop :=
| sa_yield : forall a c g l, F c g -> calm l -> same_astep F (RYield a c, l) (Ret (Yield a g), env l)
| sa_skip : forall c g l, F c g -> calm l -> same_astep F (RSkip c, l) (Ret (Skip g), env l)
| sa_stop : forall c l, Forall idle (held c) -> calm l -> same_astep F (RStop c, l) (Ret Stop, env l)
| sa_raise : forall e c l, Forall idle (held c) -> calm l -> same_astep F (RRaise e c, l) (Raise e, env l).
CoInductive mirrors {W A} (c : agen W A) (g : gen W A) : Prop :=
| mirrors_next : Forall idle (held c) -> (forall l, calm l -> same_astep mirrors (anext c l) (step g (env l))) -> mirrors c g.
Definition mirrors_it {W A} (ci : aiterable W A) (it : iterable W A) : Prop :=
  forall l, calm l -> match ci l, it (env l) with
                      | (Ret c, l1), (Ret g, w1) => env l1 = w1 /\ calm l1 /\ mirrors c g
                      | (Raise e, l1), (Raise e1, w1) => e = e1 /\ env l1 = w1 /\ calm l1
                      | _, _ => False
                      end.
Definition mirrors_fun {W A B} (fc : A -> M W (aiterable W B)) (f : A -> M W (iterable W B)) : Prop :=
  forall x w, match fc x w, f x w with
              | (Ret ci, w1), (Ret it, w2) => w1 = w2 /\ mirrors_it ci it
              | (Raise e1, w1), (Raise e2, w2) => e1 = e2 /\ w1 = w2
              | _, _ => False
              end.
