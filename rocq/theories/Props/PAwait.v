(** Property theorems C103 (run_synchronously and the small coroutines of aiotools). *)
From Coq Require Import List Bool Arith Lia.
From Verif.Model Require Import Base Await.
From Verif.Spec Require Import ListM AwaitSpec.
From Verif.Proofs Require Import AwaitFacts.
Import ListNotations.

(** C103: outside of an event loop, with room on the stack for every coroutine there is,
    the computation is run to its end and its outcome is the outcome; there is exactly one
    such end. *)
Theorem C103_runs_partial : forall W A limit id (c : coro W A) w h h1, takes id h c h1 -> fresh h < limit ->
  exists r w' h', run_synchronously limit false id (w, h) = (r, (w', h')) /\ ends c w h1 r w' h' /\
    (forall r2 w2 h2, ends c w h1 r2 w2 h2 -> r2 = r /\ w2 = w' /\ h2 = h').
Proof.
  intros W A limit id c w h h1 T F. destruct (run_sync_pf limit id c w h h1 T F) as (r & w' & h' & E & D & _).
  exists r, w', h'. split; [exact E|]. split; [exact D|]. intros r2 w2 h2 D2. exact (ends_det _ _ _ _ _ _ D2 _ _ _ D).
Qed.
Print Assumptions C103_runs_partial.
Example C103_runs_ex :
  let h : objects nat nat := [Some (Act S (fun w => Await 1 (fun r => Give r))); Some (singleton 7)] in
  takes 0 h (Act S (fun w => Await 1 (fun r => Give r))) [None; Some (singleton 7)] /\ fresh h = 2 /\
  run_synchronously 3 false 0 (5, h) = (Ret 7, (6, [None; None])).
Proof. split; [|split; reflexivity]. exists [], [Some (singleton 7)]. repeat split. Qed.

(** once: running it again raises and does nothing, whatever happened in between *)
Theorem C103_once : forall W A limit id (c : coro W A) w h h1 r w' h' limit2 w2, takes id h c h1 -> fresh h < limit -> 0 < limit2 ->
  run_synchronously limit false id (w, h) = (r, (w', h')) ->
  run_synchronously limit2 false id (w2, h') = (Raise RuntimeError, (w2, h')).
Proof.
  intros W A limit id c w h h1 r w' h' limit2 w2 T F L E. apply run_again_pf; [exact L|].
  destruct (run_sync_pf limit id c w h h1 T F) as (r0 & w0 & h0 & E0 & D & _). rewrite E0 in E. injection E as -> -> ->.
  exact (gone_stays id _ _ _ _ _ _ D (takes_once _ _ _ _ T)).
Qed.
Print Assumptions C103_once.
Example C103_once_ex : run_synchronously 3 false 0 (5, [None; Some (singleton (W := nat) 7)]) = (Raise RuntimeError, (5, [None; Some (singleton 7)])).
Proof. reflexivity. Qed.

(** inside of an event loop it raises, and the computation is not run and can still be awaited *)
Theorem C103_in_loop : forall W A limit id (s : W * objects W A), run_synchronously limit true id s = (Raise RuntimeError, s).
Proof. reflexivity. Qed.
Print Assumptions C103_in_loop.

(** the small coroutines *)
Theorem C103_values : forall W A (x none : A) (pause : nat -> W -> W) msecs w h,
  ends (singleton x) w h (Ret x) w h /\ ends (from_result x) w h (Ret x) w h /\ ends (empty none) w h (Ret none) w h /\
  ends (sleep none pause msecs) w h (Ret none) (pause msecs w) h.
Proof. intros. repeat split; try exact (ends_give (Ret _) _ _). apply ends_act. exact (ends_give (Ret _) _ _). Qed.
Print Assumptions C103_values.

(** A computation that raises StopIteration ends with RuntimeError; and coroutines that
    await each other can be too many for the stack. *)
Theorem C103_refuted : forall W A limit (w : W) (a : A),
  run_synchronously (S (S limit)) false 0 (w, [Some (Give (Raise StopIterationExn) : coro W A)]) = (Raise RuntimeError, (w, [None])) /\
  exists (c : coro W A) h h1 h', takes 0 h c h1 /\ ends c w h1 (Ret a) w h' /\
    fst (run_synchronously limit false 0 (w, h)) = Raise RecursionError.
Proof. intros W A limit w a. split; [reflexivity|]. exact (too_deep_pf limit w a). Qed.
Print Assumptions C103_refuted.
