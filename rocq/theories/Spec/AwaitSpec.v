(** What awaiting a coroutine means, without a recursion limit: a relation between the
    state before, the outcome and the state after. *)
From Coq Require Import List.
From Verif.Model Require Import Base Await.
From Verif.Spec Require Import ListM.
Import ListNotations.

(** object [id] was not awaited in [h]; [h'] is [h] after it was *)
Definition takes {W A} (id : nat) (h : objects W A) (c : coro W A) (h' : objects W A) : Prop :=
  exists before after, h = before ++ Some c :: after /\ length before = id /\ h' = before ++ None :: after.
Inductive ends {W A} : coro W A -> W -> objects W A -> res A -> W -> objects W A -> Prop :=
| ends_give : forall r w h, ends (Give r) w h (leaving r) w h
| ends_act : forall f k w h r w' h', ends (k w) (f w) h r w' h' -> ends (Act f k) w h r w' h'
| ends_await : forall id k w h c h1 r1 w2 h2 r w' h', takes id h c h1 -> ends c w h1 r1 w2 h2 ->
    ends (k r1) w2 h2 r w' h' -> ends (Await id k) w h r w' h'
| ends_again : forall id k w h r w' h', (forall c h1, ~ takes id h c h1) ->
    ends (k (Raise RuntimeError)) w h r w' h' -> ends (Await id k) w h r w' h'.

(** the coroutine objects that can still be awaited *)
Definition fresh {W A} (h : objects W A) : nat := length (filter (fun o => match o with Some _ => true | None => false end) h).
