(** What is seen of a generator that is used with next, send, throw and close. *)
From Coq Require Import List ZArith.
From Verif.Model Require Import Base OptionResult Resume Abandon Protocol.
Import ListNotations.

Inductive op (V : Type) : Type := Next | Send (v : pyopt V) | Throw (e : exn) | Close.
Arguments Next {V}.
Arguments Send {V} v.
Arguments Throw {V} e.
Arguments Close {V}.
Inductive answer (A : Type) : Type :=
| Given (a : A)    (** an element *)
| Over             (** StopIteration *)
| Raises (e : exn)
| Closed.          (** close() returned *)
Arguments Given {A} a.
Arguments Over {A}.
Arguments Raises {A} e.
Arguments Closed {A}.

Section Acts.
  Context {W V A : Type}.
  Inductive goes : rstep A (pgen W V A) * W -> answer A -> pgen W V A -> W -> Prop :=
  | go_given : forall a p w, goes (RYield a p, w) (Given a) p w
  | go_over : forall p w, goes (RStop p, w) Over p w
  | go_raises : forall e p w, goes (RRaise e p, w) (Raises e) p w
  | go_skip : forall p w o p1 w1, goes (p_send p PyNone w) o p1 w1 -> goes (RSkip p, w) o p1 w1.
  Inductive act : pgen W V A -> W -> op V -> answer A -> pgen W V A -> W -> Prop :=
  | act_next : forall p w o p1 w1, goes (p_send p PyNone w) o p1 w1 -> act p w Next o p1 w1
  | act_send : forall p w v o p1 w1, goes (p_send p v w) o p1 w1 -> act p w (Send v) o p1 w1
  | act_throw : forall p w e o p1 w1, goes (p_throw p e w) o p1 w1 -> act p w (Throw e) o p1 w1
  | act_close : forall p w p1 w1, p_close p w = (Ret tt, p1, w1) -> act p w Close Closed p1 w1
  | act_close_raises : forall p w e p1 w1, p_close p w = (Raise e, p1, w1) -> act p w Close (Raises e) p1 w1.
  Inductive acts : pgen W V A -> W -> list (op V) -> list (answer A) -> pgen W V A -> W -> Prop :=
  | acts_none : forall p w, acts p w [] [] p w
  | acts_more : forall p w x o p1 w1 xs os p2 w2, act p w x o p1 w1 -> acts p1 w1 xs os p2 w2 -> acts p w (x :: xs) (o :: os) p2 w2.
End Acts.

(** Operations that ask for an element. *)
Definition asks {V} (x : op V) : Prop := match x with Next | Send _ => True | _ => False end.
(** What an ended generator answers. *)
Definition ended_answer {V A} (x : op V) : answer A := match x with Next | Send _ => Over | Throw e => Raises e | Close => Closed end.
(** Whether the generator has come to its end by an operation with this answer; a value sent
    too early (TypeError) does not end it. *)
Definition ends {V A} (first : bool) (x : op V) (o : answer A) : bool :=
  match o with
  | Given _ => false
  | _ => match first, x with true, Send (PyVal _) => false | _, _ => true end
  end.
