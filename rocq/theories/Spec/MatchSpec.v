(** What a user may expect of patterns. *)
From Coq Require Import List String.
From Verif.Model Require Import Base.
Import ListNotations.

Section Tried.
  Context {W A B : Type}.
  (** Patterns tried on elements from left to right, in the worlds [w] to [w']: all succeed
      and bind [bs] together, or one fails or raises and the later ones are not tried. *)
  Inductive tried : list (A -> M W (option (list B))) -> list A -> W -> res (option (list B)) -> W -> Prop :=
  | tried_nil : forall w, tried [] [] w (Ret (Some [])) w
  | tried_stop : forall p ps x xs w r w', p x w = (r, w') -> (forall bs, r <> Ret (Some bs)) -> tried (p :: ps) (x :: xs) w r w'
  | tried_more : forall p ps x xs w bs w1 r w2, p x w = (Ret (Some bs), w1) -> tried ps xs w1 r w2 ->
      tried (p :: ps) (x :: xs) w (match r with Ret (Some cs) => Ret (Some (bs ++ cs)%list) | r => r end) w2.
End Tried.

(** The first occurrence of a name. *)
Definition first_at (n : string) (names : list string) (i : nat) : Prop :=
  nth_error names i = Some n /\ forall j, j < i -> nth_error names j <> Some n.

(** What a capture pattern in a sequence pattern binds: an element, or the list for [*rest]. *)
Inductive piece (A : Type) : Type := One (x : A) | Rest (xs : list A).
Arguments One {A} x.
Arguments Rest {A} xs.
