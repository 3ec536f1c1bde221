(** What giving up an iteration does. *)
From Coq Require Import List ZArith.
From Verif.Model Require Import Base Resume Abandon.
From Verif.Spec Require Import ResumeSpec.
Import ListNotations.

Section Observe.
  Context {W A : Type}.
  (** one call of [next()], and one after the other *)
  Inductive call : ogen W A -> W -> outcome A -> ogen W A -> W -> Prop :=
  | cl_got : forall g w a g1 w1, onext g w = (RYield a g1, w1) -> call g w (Got a) g1 w1
  | cl_ended : forall g w g1 w1, onext g w = (RStop g1, w1) -> call g w Ended g1 w1
  | cl_raised : forall g w e g1 w1, onext g w = (RRaise e g1, w1) -> call g w (Raised e) g1 w1
  | cl_skip : forall g w g1 w1 o g2 w2, onext g w = (RSkip g1, w1) -> call g1 w1 o g2 w2 -> call g w o g2 w2.
  Inductive calls : ogen W A -> W -> list (outcome A) -> ogen W A -> W -> Prop :=
  | cls_none : forall g w, calls g w [] g w
  | cls_more : forall g w o g1 w1 os g2 w2, call g w o g1 w1 -> calls g1 w1 os g2 w2 -> calls g w (o :: os) g2 w2.

  (** The iterator of Resume.v, and letting it go (and, with [lv], leaving it) does nothing,
      now and later. *)
  Inductive tracking (T : ogen W A -> rgen W A -> Prop) : rstep A (ogen W A) * W -> rstep A (rgen W A) * W -> Prop :=
  | tk_yield : forall a o r w, T o r -> tracking T (RYield a o, w) (RYield a r, w)
  | tk_skip : forall o r w, T o r -> tracking T (RSkip o, w) (RSkip r, w)
  | tk_stop : forall o r w, T o r -> tracking T (RStop o, w) (RStop r, w)
  | tk_raise : forall e o r w, T o r -> tracking T (RRaise e o, w) (RRaise e r, w).
  CoInductive tracks (lv : bool) (o : ogen W A) (r : rgen W A) : Prop :=
  | tracks_next : (forall w, drop o w = w) -> (lv = true -> forall w, leave o w = w) ->
      (forall w, tracking (tracks lv) (onext o w) (rnext r w)) -> tracks lv o r.
  Definition tracks_it (lv : bool) (oi : M W (ogen W A)) (ri : M W (rgen W A)) : Prop :=
    forall w, match oi w, ri w with
              | (Ret o, w1), (Ret r, w2) => w1 = w2 /\ tracks lv o r
              | (Raise e, w1), (Raise e2, w2) => e = e2 /\ w1 = w2
              | _, _ => False
              end.

  (** Generators that have been entered and not left, counted by [open]: the iterator holds
      [n] of them, and lets go of what it holds and of nothing else. *)
  Variable open : W -> Z.
  Inductive owing (O : Z -> ogen W A -> Prop) (b : Z) : rstep A (ogen W A) * W -> Prop :=
  | ow_yield : forall a g w n, O n g -> (open w - n = b)%Z -> owing O b (RYield a g, w)
  | ow_skip : forall g w n, O n g -> (open w - n = b)%Z -> owing O b (RSkip g, w)
  | ow_stop : forall g w n, O n g -> (open w - n = b)%Z -> owing O b (RStop g, w)
  | ow_raise : forall e g w n, O n g -> (open w - n = b)%Z -> owing O b (RRaise e g, w).
  CoInductive owes (n : Z) (g : ogen W A) : Prop :=
  | owes_next : (forall w, open (drop g w) = (open w - n)%Z) -> (forall w, open (leave g w) = (open w - n)%Z) ->
      (forall w, owing owes (open w - n) (onext g w)) -> owes n g.
  Definition balanced (it : M W (ogen W A)) : Prop :=
    forall w, match it w with
              | (Ret g, w1) => exists n, owes n g /\ (open w1 - n = open w)%Z
              | (Raise _, w1) => open w1 = open w
              end.
  (** a callback that neither enters nor leaves generators *)
  Definition neutral {X} (m : M W X) : Prop := forall w, open (snd (m w)) = open w.
End Observe.

Definition tracks_fun {W A B} (lv : bool) (fo : A -> M W (oiterable W B)) (fr : A -> M W (riterable W B)) : Prop :=
  forall x w, match fo x w, fr x w with
              | (Ret oi, w1), (Ret ri, w2) => w1 = w2 /\ tracks_it lv oi ri
              | (Raise e, w1), (Raise e2, w2) => e = e2 /\ w1 = w2
              | _, _ => False
              end.
(** Whatever has been asked for, letting the iteration go changes nothing. *)
Definition leaves_alone {W A} (it : oiterable W A) : Prop :=
  forall w g w1 os g1 w2, it w = (Ret g, w1) -> calls g w1 os g1 w2 -> drop g1 w2 = w2.
(** Whatever has been asked for, after letting the iteration go no generator is open that was
    not open before; *)
Definition releases {W A} (open : W -> Z) (it : oiterable W A) : Prop :=
  forall w g w1 os g1 w2, it w = (Ret g, w1) -> calls g w1 os g1 w2 -> open (drop g1 w2) = open w.
(** and that holds at once when it ends or raises. *)
Definition releases_at_end {W A} (open : W -> Z) (it : oiterable W A) : Prop :=
  forall w g w1 os o g1 w2, it w = (Ret g, w1) -> calls g w1 (os ++ [o]) g1 w2 -> (forall a, o <> Got a) -> open w2 = open w.
