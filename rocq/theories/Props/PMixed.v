(** Property C108: Options and Results mixed in one computation expression. *)
From Coq Require Import List Bool.
From Verif.Model Require Import Base OptionResult Builder Mixed.
From Verif.Spec Require Import BuilderSpec MixedSpec.
From Verif.Proofs Require Import MixedFacts.
Import ListNotations.
Local Open Scope py_scope.

(** A body that meets both: the call is do-notation in which either kind hands on its value,
    and the first one without a value is the outcome. *)
Theorem C108_do_notation : forall W A E (t : tree W (pyopt A) (outcome A E)) w, returns_value t ->
  settles (fun fuel => call_gen mixed_option_builder (tree_resume yield_from) fuel (fun _ => t) w)
          (do_notation either_bind (fun v => UOpt (Some v)) t w) /\
  settles (fun fuel => call_gen mixed_result_builder (tree_resume yield_from) fuel (fun _ => t) w)
          (do_notation either_bind (fun v => URes (Ok v)) t w).
Proof. split; [apply mixed_do_option_pf|apply mixed_do_result_pf]; assumption. Qed.

(** Any body: what it returns, or the failure itself, whatever its kind. *)
Theorem C108_option_body : forall W A E St (resume : St -> pyopt A -> W -> node (pyopt A) (outcome A E) St * W) s w r w1, r <> Raise OutOfFuel ->
  (settles (fun fuel => call_gen mixed_option_builder resume fuel s w) (r, w1) <->
   exists vs e, body_gives resume s PyNone w vs e w1 /\ r = expression_value (UOpt None) (fun v => UOpt (Some v)) vs e).
Proof. exact @mixed_option_pf. Qed.
Theorem C108_result_body : forall W A E St (resume : St -> pyopt A -> W -> node (pyopt A) (outcome A E) St * W) s w r w1, r <> Raise OutOfFuel ->
  (settles (fun fuel => call_gen mixed_result_builder resume fuel s w) (r, w1) <->
   exists vs e, body_gives resume s PyNone w vs e w1 /\ r = expression_value (URes (Ok PyNone)) (fun v => URes (Ok v)) vs e).
Proof. exact @mixed_result_pf. Qed.
(** The asynchronous builders give the same. *)
Theorem C108_async : forall W A E St (resume : St -> pyopt A -> W -> node (pyopt A) (outcome A E) St * W), async_body resume ->
  forall s w r w1, r <> Raise OutOfFuel ->
  (settles (fun fuel => acall_gen mixed_async_option_builder resume fuel s w) (r, w1) <->
   settles (fun fuel => call_gen mixed_option_builder resume fuel s w) (r, w1)) /\
  (settles (fun fuel => acall_gen mixed_async_result_builder resume fuel s w) (r, w1) <->
   settles (fun fuel => call_gen mixed_result_builder resume fuel s w) (r, w1)).
Proof. split; [apply mixed_async_option_pf|apply mixed_async_result_pf]; assumption. Qed.

(** The outcome is of the builder's own kind as long as no failure of the other kind ends
    the body. *)
Theorem C108_kind_partial : forall W A E St (resume : St -> pyopt A -> W -> node (pyopt A) (outcome A E) St * W) s w u w1,
  (never_fails is_result resume -> settles (fun fuel => call_gen mixed_option_builder resume fuel s w) (Ret u, w1) -> is_option u) /\
  (never_fails is_option resume -> settles (fun fuel => call_gen mixed_result_builder resume fuel s w) (Ret u, w1) -> is_result u).
Proof.
  intros W A E St resume s w u w1. split; intros N S.
  - apply mixed_option_pf in S; [|discriminate]. destruct S as (vs & e & B & Q). symmetry in Q. revert Q.
    apply value_kind; [exists None; reflexivity|intros v; exists (Some v); reflexivity|].
    intros m Q. apply not_option. exact (fails_only _ _ _ _ _ _ N _ _ _ _ _ _ B m Q).
  - apply mixed_result_pf in S; [|discriminate]. destruct S as (vs & e & B & Q). symmetry in Q. revert Q.
    apply value_kind; [exists (Ok PyNone); reflexivity|intros v; exists (Ok v); reflexivity|].
    intros m Q. apply not_result. exact (fails_only _ _ _ _ _ _ N _ _ _ _ _ _ B m Q).
Qed.
(** In general it is not: an option function gives an Error, a result function Nothing. *)
Theorem C108_kind_refuted : forall A E (v : pyopt A) (error : E),
  let before u := TYield v (fun _ => TFrom u (fun x => TReturn x)) : tree unit (pyopt A) (outcome A E) in
  settles (fun fuel => call_gen mixed_option_builder (tree_resume yield_from) fuel (fun _ => before (URes (Err error))) tt) (Ret (URes (Err error)), tt) /\
  settles (fun fuel => call_gen mixed_result_builder (tree_resume yield_from) fuel (fun _ => before (UOpt None)) tt) (Ret (UOpt None), tt).
Proof.
  intros A E v error before. split; (exists 2; intros [|[|fuel]] L; [inversion L|inversion L as [|? L1]; inversion L1|reflexivity]).
Qed.

(** effect.seq: a body that meets no failure gives its values. *)
Theorem C108_seq_values : forall W A E St (resume : St -> pyopt A -> W -> node (pyopt A) (mseq A E) St * W) s w vs e w1,
  body_gives resume s PyNone w vs e w1 -> no_failure e ->
  exists r, settles (fun fuel => call_gen mixed_seq_builder resume fuel s w) (r, w1) /\
    match e with EThrow x => r = Raise x | _ => exists x, r = Ret x /\ elements x = (all_values vs e, None) end.
Proof. exact @seq_no_failure_pf. Qed.
(** A failure of an Option or Result after a yield leaves the call as EffectError; before any
    yield it is returned, and iterating it raises EffectError. *)
Theorem C108_seq_failure_refuted : forall W A E St (resume : St -> pyopt A -> W -> node (pyopt A) (mseq A E) St * W) s w vs e w1 u,
  body_gives resume s PyNone w vs e w1 -> fails_with e u ->
  settles (fun fuel => call_gen mixed_seq_builder resume fuel s w)
          (match vs with [] => Ret (QOut u) | _ => Raise EffectErrorExn end, w1) /\
  elements (QOut u) = ([], Some EffectErrorExn).
Proof.
  intros W A E St resume s w [|v vs] e w1 u B F.
  - split; [eapply seq_first_failure_pf; eauto|]. destruct F as [_ F]. destruct u as [[]|[]]; try discriminate F; reflexivity.
  - split; [eapply seq_later_failure_pf; eauto|]. destruct F as [_ F]. destruct u as [[]|[]]; try discriminate F; reflexivity.
Qed.

(** Concrete cases: a body counts its statements and takes a value from each kind. *)
Definition both : tree nat (pyopt nat) (outcome nat nat) :=
  TFrom (UOpt (Some (PyVal 3))) (fun x => TDo S (fun _ => TFrom (URes (Ok (PyVal 4))) (fun y => TDo S (fun _ =>
    match x, y with PyVal x, PyVal y => TReturn (PyVal (x + y)) | _, _ => TReturn (PyVal 0) end)))).
Example C108_both_hypothesis : returns_value both.
Proof. do 2 (constructor; intros ?; constructor; intros ?). destruct x, x0; constructor. Qed.
Example C108_both : call_gen mixed_option_builder (tree_resume yield_from) 5 (fun _ => both) 0 = (Ret (UOpt (Some (PyVal 7))), 2) /\
  call_gen mixed_result_builder (tree_resume yield_from) 5 (fun _ => both) 0 = (Ret (URes (Ok (PyVal 7))), 2).
Proof. split; reflexivity. Qed.
Definition failing (s : nat) (v : pyopt nat) (w : nat) : node (pyopt nat) (outcome nat nat) nat * nat :=
  match s with 0 => (NYield (PyVal 1) 1, S w) | _ => (NFail (URes (Err 5)), S w) end.
Example C108_failing : async_body failing /\ body_gives failing 0 PyNone 0 [PyVal 1] (EFail (URes (Err 5))) 2 /\
  acall_gen mixed_async_option_builder failing 5 0 0 = (Ret (URes (Err 5)), 2) /\ never_fails is_option failing /\
  acall_gen mixed_async_result_builder failing 5 0 0 = (Ret (URes (Err 5)), 2) /\
  ~ never_fails is_result failing.
Proof.
  split; [intros [|s] v w; exact I|]. split; [eapply bg_yield; [reflexivity|]; apply bg_fail; reflexivity|]. split; [reflexivity|].
  split; [intros [|s] v w u H [o ->]; discriminate H|]. split; [reflexivity|].
  intros H. apply (H 1 PyNone 0 (URes (Err 5))); [reflexivity|]. exists (Err 5). reflexivity.
Qed.
Definition seq_failing (s : nat) (v : pyopt nat) (w : nat) : node (pyopt nat) (mseq nat nat) nat * nat :=
  match s with
  | 0 => (NYield (PyVal 1) 1, S w)
  | 1 => (NFail (QOut (UOpt None)), S w)
  | 2 => (NFromSeq (PyVal 1) [PyVal 2] 3, S w)
  | _ => (NReturn (PyVal 4), S w)
  end.
Example C108_seq_failing : body_gives seq_failing 0 PyNone 0 [PyVal 1] (EFail (QOut (UOpt None))) 2 /\
  call_gen mixed_seq_builder seq_failing 5 0 0 = (Raise EffectErrorExn, 2) /\
  call_gen mixed_seq_builder seq_failing 5 1 0 = (Ret (QOut (UOpt None)), 1).
Proof. split; [eapply bg_yield; [reflexivity|]; apply bg_fail; reflexivity|]. split; reflexivity. Qed.
Example C108_seq_fine : body_gives seq_failing 2 PyNone 0 [PyVal 1; PyVal 2] (EReturn (PyVal 4)) 2 /\
  exists x, call_gen mixed_seq_builder seq_failing 9 2 0 = (Ret x, 2) /\ elements x = ([PyVal 1; PyVal 2; PyVal 4], None).
Proof.
  split; [apply (bg_from_seq seq_failing 2 PyNone 0 (PyVal 1) [PyVal 2] 3 1 []); [reflexivity|]; apply bg_return; reflexivity|].
  eexists. split; reflexivity.
Qed.
Print Assumptions C108_do_notation.
Print Assumptions C108_option_body.
Print Assumptions C108_result_body.
Print Assumptions C108_async.
Print Assumptions C108_kind_partial.
Print Assumptions C108_kind_refuted.
Print Assumptions C108_seq_values.
Print Assumptions C108_seq_failure_refuted.
