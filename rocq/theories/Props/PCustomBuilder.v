(** Property C105: a user's own builder. *)
From Coq Require Import List Bool Lia.
From Verif.Model Require Import Base OptionResult Builder.
From Verif.Spec Require Import BuilderSpec CustomBuilderSpec.
From Verif.Proofs Require Import CustomBuilderFacts.
Import ListNotations.

(** A call of the decorated function comes to an end exactly when its body does, when every
    yielded value is sent back to it; the result is the builder's combination of the
    values of its statements, and the effects are those of the body. *)
Theorem C105_call_partial : forall W A Mo St (b : builder (pyopt A) Mo) (resume : St -> pyopt A -> W -> node (pyopt A) Mo St * W),
  left_unit b -> eager_delay b -> forall s w r w1, r <> Raise OutOfFuel ->
  (settles (fun fuel => call_gen b resume fuel s w) (r, w1) <->
   exists vs e, body_gives resume s PyNone w vs e w1 /\ r = custom_value b vs e).
Proof. exact @custom_call_pf. Qed.
Theorem C105_nontermination : forall W A Mo St (b : builder (pyopt A) Mo) (resume : St -> pyopt A -> W -> node (pyopt A) Mo St * W),
  left_unit b -> eager_delay b -> forall s w, (forall vs e w1, ~ body_gives resume s PyNone w vs e w1) ->
  forall fuel, fst (call_gen b resume fuel s w) = Raise OutOfFuel.
Proof. exact @custom_diverge. Qed.
(** The asynchronous builder does the same with an asynchronous generator. *)
Theorem C105_async_partial : forall W A Mo St (b : builder (pyopt A) Mo) (resume : St -> pyopt A -> W -> node (pyopt A) Mo St * W),
  left_unit b -> eager_delay b -> async_body resume -> forall s w r w1, r <> Raise OutOfFuel ->
  (settles (fun fuel => acall_gen b resume fuel s w) (r, w1) <->
   exists vs e, body_gives resume s PyNone w vs e w1 /\ r = custom_value b vs e).
Proof.
  intros W A Mo St b resume L D B s w r w1 N.
  rewrite <- (custom_call_pf b resume L D s w r w1 N). unfold settles.
  split; intros [n H]; exists n; intros fuel F; rewrite <- (H fuel F); [symmetry|]; apply custom_acall; assumption.
Qed.
(** A body without yield is one statement, also for a bind or delay of any kind. *)
Theorem C105_plain : forall W A Mo (b : builder (pyopt A) Mo) (body : M W (pyopt A)) w,
  (forall v w1, body w = (Ret v, w1) -> call_plain b body w = (custom_value b [] (EReturn v), w1) /\ acall_plain b body w = (custom_value b [] (EReturn v), w1)) /\
  (forall e w1, body w = (Raise e, w1) -> call_plain b body w = (Raise e, w1) /\ acall_plain b body w = (Raise e, w1)).
Proof.
  intros W A Mo b body w. unfold call_plain, acall_plain, bind. split; intros x w1 ->; [destruct x|]; split; reflexivity.
Qed.
(** False for a builder whose bind is lazy: once the body yields, the call does not end. *)
Theorem C105_lazy_refuted : forall W A Mo St (b : builder (pyopt A) Mo) (resume : St -> pyopt A -> W -> node (pyopt A) Mo St * W) s w v s1 w1,
  lazy_bind b -> eager_delay b -> resume s PyNone w = (NYield v s1, w1) ->
  forall fuel, call_gen b resume fuel s w = (Raise OutOfFuel, w1).
Proof. exact lazy_call_pf. Qed.

(** A builder of values with a log: statements append their logs, run adds a mark. *)
Definition logged : Type := pyopt nat * list nat.
Definition log_builder : builder (pyopt nat) logged := {|
  b_bind := fun W xs fn w => match fn (fst xs) w with
                             | (Ret (y, l), w) => (Ret (y, snd xs ++ l), w)
                             | (Raise e, w) => (Raise e, w)
                             end;
  b_return := fun x => (x, []);
  b_return_from := fun xs => xs;
  b_combine := fun xs ys => (fst ys, snd xs ++ [0] ++ snd ys);
  b_zero := (PyNone, [7]);
  b_delay := fun W fn => fn tt;
  b_run := fun xs => (fst xs, snd xs ++ [9])
|}.
Example C105_example_hypotheses : left_unit log_builder /\ eager_delay log_builder.
Proof. split; [|intros W f; reflexivity]. intros W v f w. cbn. destruct (f v w) as [[[]|]]; reflexivity. Qed.
Definition log_body (s : nat) (v : pyopt nat) (w : nat) : node (pyopt nat) logged nat * nat :=
  match s with 0 => (NYield (PyVal 1) 1, S w) | 1 => (NYield v 2, S w) | _ => (NFail (v, [5]), S w) end.
Example C105_example_body : body_gives log_body 0 PyNone 0 [PyVal 1; PyVal 1] (EFail (PyVal 1, [5])) 3.
Proof. eapply bg_yield; [reflexivity|]. eapply bg_yield; [reflexivity|]. apply bg_fail. reflexivity. Qed.
Example C105_example : call_gen log_builder log_body 5 0 0 = (Ret (PyVal 1, [0; 0; 5; 9]), 3).
Proof. reflexivity. Qed.
Example C105_example_async : async_body log_body /\ acall_gen log_builder log_body 5 0 0 = (Ret (PyVal 1, [0; 0; 5; 9]), 3).
Proof. split; [intros [|[|s]] v w; exact I|reflexivity]. Qed.
Example C105_example_plain : call_plain log_builder (fun w : nat => (Ret PyNone, S w)) 0 = (Ret (PyNone, [7; 9]), 1).
Proof. reflexivity. Qed.
(** A task monad: a tower of pending steps, each bind adds one. *)
Definition task_builder : builder (pyopt nat) nat := {|
  b_bind := fun W xs fn => ret (S xs);
  b_return := fun x => 0;
  b_return_from := fun xs => xs;
  b_combine := fun xs ys => ys;
  b_zero := 0;
  b_delay := fun W fn => fn tt;
  b_run := fun xs => xs
|}.
Example C105_example_lazy : lazy_bind task_builder /\ eager_delay task_builder.
Proof. split; [intros m; exists (S m); reflexivity|intros W f; reflexivity]. Qed.
Print Assumptions C105_call_partial.
Print Assumptions C105_nontermination.
Print Assumptions C105_async_partial.
Print Assumptions C105_plain.
Print Assumptions C105_lazy_refuted.
