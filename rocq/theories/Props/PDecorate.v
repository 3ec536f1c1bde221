(** C127: functions under several decorators. *)
From Coq Require Import List Bool Lia.
From Verif.Model Require Import Base Decorate.
From Verif.Spec Require Import DecorateSpec.
From Verif.Proofs Require Import DecorateFacts.
Import ListNotations.
Local Open Scope list_scope.

(** tailrec innermost (once or more), then effect.result, then any number of catches: the tail calls are calls, the
    value is lifted, and the exceptions of every round are caught. *)
Theorem C127_stack : forall W kind_of (body : nat -> list value -> M W value) computation catches eff n i args w o w1,
  kind_of i = PlainFn -> plain_body body i ->
  (gives kind_of body computation (stack catches eff (S n) (User i)) args w o w1 <->
   exists o0, loops (runs body i) args w o0 w1 /\ o = promised catches eff o0).
Proof. exact (@stack_pf). Qed.
Print Assumptions C127_stack.
(** curry outermost: the groups of arguments are one call of whatever is beneath. *)
Theorem C127_curry : forall W kind_of (body : nat -> list value -> M W value) computation n f groups w o w1, length groups = S n ->
  (groups_give kind_of body computation (curry n f) groups w o w1 <-> gives kind_of body computation f (concat groups) w o w1).
Proof. intros W kind_of body computation n f groups w o w1 L. exact (groups_pf kind_of body computation n f groups [] w o w1 L). Qed.
Print Assumptions C127_curry.
(** catch over effect.result of a generator function. *)
Theorem C127_computation : forall W kind_of (body : nat -> list value -> M W value) computation c i args w w1, kind_of i = GenFn ->
  (forall r, computation i args w = (Ret r, w1) -> gives kind_of body computation (Catch c (EffResult (User i))) args w (Ret (result_of r)) w1) /\
  (forall e, computation i args w = (Raise e, w1) -> e <> OutOfFuel ->
     gives kind_of body computation (Catch c (EffResult (User i))) args w (if c e then Ret (VError (VExn e)) else Raise e) w1).
Proof.
  intros W kind_of body computation c i args w w1 K. split.
  - intros r H. exact (catch_eff_gen_pf kind_of body computation c i args w r w1 K H).
  - intros e H N. now apply catch_eff_raise_pf.
Qed.
Print Assumptions C127_computation.
(** Async functions: tailrec_async innermost, then effect.async_result. *)
Theorem C127_async : forall W kind_of (body : nat -> list value -> M W value) computation i args w o w1, kind_of i = AsyncFn ->
  (awaits kind_of body computation (VCoro (TailrecAsync (User i)) args) w o w1 <-> loops (runs body i) args w o w1) /\
  (awaits kind_of body computation (VCoro (EffAsync (TailrecAsync (User i))) args) w o w1 <->
   exists o0, loops (runs body i) args w o0 w1 /\ o = promised [] true o0).
Proof. intros W kind_of body computation i args w o w1 K. split; [now apply tail_async_pf|now apply eff_async_pf]. Qed.
Print Assumptions C127_async.

(** The other orders.  tailrec over catch, and over async functions, does nothing. *)
Theorem C127_tailrec_idle : forall W kind_of (body : nat -> list value -> M W value) computation f args w o w1,
  (exists c g, f = Catch c g) \/ async_like kind_of body computation f ->
  (gives kind_of body computation (Tailrec f) args w o w1 <-> gives kind_of body computation f args w o w1).
Proof.
  intros W kind_of body computation f args w o w1 [(c & g & ->)|A]; [apply tailrec_catch_pf|now apply tailrec_async_fn_pf].
Qed.
Print Assumptions C127_tailrec_idle.
(** tailrec over curry hands TailCalls to the caller. *)
Theorem C127_tailrec_curry : forall W kind_of (body : nat -> list value -> M W value) computation n f groups w o w1, length groups = S (S n) ->
  (groups_give kind_of body computation (Tailrec (curry (S n) f)) groups w o w1 <-> gives kind_of body computation f (concat groups) w o w1).
Proof. exact (@tailrec_curry_pf). Qed.
Print Assumptions C127_tailrec_curry.
(** catch over an async function returns Ok of the coroutine, which nothing has run and which cannot be awaited. *)
Theorem C127_catch_async : forall W kind_of (body : nat -> list value -> M W value) computation c f args w o w1,
  async_like kind_of body computation f -> gives kind_of body computation (Catch c f) args w o w1 ->
  w1 = w /\ exists v, coroutine v /\ o = Ret (VOk v) /\ forall w2 fuel, await kind_of body computation (S fuel) (VOk v) w2 = (Raise TypeError, w2).
Proof. exact (@catch_async_pf). Qed.
Print Assumptions C127_catch_async.
(** These make only a coroutine. *)
Theorem C127_async_like : forall W kind_of (body : nat -> list value -> M W value) computation,
  (forall i, kind_of i = AsyncFn -> async_like kind_of body computation (User i)) /\
  (forall f, async_like kind_of body computation (TailrecAsync f)) /\ (forall f, async_like kind_of body computation (EffAsync f)).
Proof. intros. split; [apply async_user|]. split; [apply async_tailrec_async|apply async_eff]. Qed.
Print Assumptions C127_async_like.
(** catch over curry returns Ok of a function; effect.result over catch a Result in Ok, and never runs generators. *)
Theorem C127_catch_inside : forall W kind_of (body : nat -> list value -> M W value) computation c args w w1,
  (forall n f o, gives kind_of body computation (Catch c (curry (S n) f)) args w o w1 -> exists g, o = Ret (VOk (VFun g)) /\ w1 = w) /\
  (forall f v, gives kind_of body computation (EffResult (Catch c f)) args w (Ret v) w1 -> exists u, is_result u = true /\ v = VOk u) /\
  (forall i o, kind_of i = GenFn -> gives kind_of body computation (EffResult (Catch c (User i))) args w o w1 -> o = Ret (VOk (VOk (VGen i args))) /\ w1 = w).
Proof.
  intros. split; [|split].
  - intros n f o. apply catch_curry_pf.
  - intros f v. apply eff_catch_pf.
  - intros i o. apply eff_catch_gen_pf.
Qed.
Print Assumptions C127_catch_inside.

(** A function that counts down by tail calls and raises at the end. *)
Definition countdown (i : nat) (args : list value) : M nat value :=
  match args with [VOther (S n)] => fun w => (Ret (VTail [VOther n]), S w) | _ => raise ValueError end.
Definition no_computation (i : nat) (args : list value) : M nat (value + value) := ret (inl VNone).
Definition all_plain (i : nat) : kind := PlainFn.
(** The order matters: tailrec over catch is not catch over tailrec. *)
Theorem C127_order_refuted : ~ (forall W kind_of (body : nat -> list value -> M W value) computation c i args w o w1, kind_of i = PlainFn -> plain_body body i ->
  gives kind_of body computation (Tailrec (Catch c (User i))) args w o w1 -> gives kind_of body computation (Catch c (Tailrec (User i))) args w o w1).
Proof.
  intros H.
  assert (P : plain_body countdown 0). { intros args w j a w1. destruct args as [|[] [|]]; try discriminate; destruct n; discriminate. }
  specialize (H _ all_plain countdown no_computation (fun _ => true) 0 [VOther 1] 0 (Ret (VOk (VTail [VOther 0]))) 1 eq_refl P).
  assert (G : gives all_plain countdown no_computation (Tailrec (Catch (fun _ => true) (User 0))) [VOther 1] 0 (Ret (VOk (VTail [VOther 0]))) 1) by (split; [discriminate|exists 5; reflexivity]).
  apply H in G.
  assert (G1 : gives all_plain countdown no_computation (Catch (fun _ => true) (Tailrec (User 0))) [VOther 1] 0 (Ret (VError (VExn ValueError))) 1) by (split; [discriminate|exists 9; reflexivity]).
  destruct (gives_fun _ _ _ _ _ _ _ _ _ _ G G1) as [E _]. discriminate.
Qed.
Print Assumptions C127_order_refuted.
Example C127_stack_case : groups_give all_plain countdown no_computation (curry 0 (stack [fun e => match e with ValueError => true | _ => false end] true 1 (User 0)))
    [[VOther 3]] 0 (Ret (VError (VExn ValueError))) 3 /\
  loops (runs countdown 0) [VOther 3] 0 (Raise ValueError) 3.
Proof.
  split; [split; [discriminate|exists 20; reflexivity]|].
  eapply l_again; [split; [discriminate|reflexivity]|]. eapply l_again; [split; [discriminate|reflexivity]|]. eapply l_again; [split; [discriminate|reflexivity]|].
  apply l_raise. split; [discriminate|reflexivity].
Qed.
Example C127_async_case : awaits (fun _ => AsyncFn) countdown no_computation (VCoro (EffAsync (TailrecAsync (User 0))) [VOther 2]) 0 (Raise ValueError) 2 /\
  gives (fun _ => AsyncFn) countdown no_computation (Catch (fun _ => true) (User 0)) [VOther 2] 0 (Ret (VOk (VCoro (User 0) [VOther 2]))) 0.
Proof. split; (split; [discriminate|exists 9; reflexivity]). Qed.
Example C127_computation_case : gives (fun _ => GenFn) countdown no_computation (Catch (fun _ => true) (EffResult (User 0))) [] 0 (Ret (VOk VNone)) 0 /\
  gives (fun _ => GenFn) countdown no_computation (EffResult (Catch (fun _ => true) (User 0))) [] 0 (Ret (VOk (VOk (VGen 0 [])))) 0.
Proof. split; (split; [discriminate|exists 9; reflexivity]). Qed.
Example C127_tailrec_curry_case : groups_give all_plain (fun _ args w => (Ret (VTail args), w)) no_computation (Tailrec (curry 1 (User 0))) [[VOther 1]; [VOther 2]] 0
  (Ret (VTail [VOther 1; VOther 2])) 0.
Proof. split; [discriminate|exists 9; reflexivity]. Qed.
