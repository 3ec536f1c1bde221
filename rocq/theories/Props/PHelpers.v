(** Property C130: helpers of computation expressions. *)
From Coq Require Import List.
From Verif.Model Require Import Base OptionResult Builder Mixed Handlers.
From Verif.Spec Require Import BuilderSpec MixedSpec HandlersSpec HelpersSpec.
From Verif.Proofs Require Import HandlersFacts HelpersFacts.
From Verif.Props Require Import PHandlers.
Import ListNotations.

(** Decorating some of the helpers of a body changes nothing, wherever they are called, when
    the helpers and the body return values other than None (a helper of effect.result may
    return None if it yields nothing). *)
Theorem C130_decorate_partial : forall W A E (p p' : body W A E) w vs c w1, decorating p p' -> means false p w = (vs, c, w1) -> settled_end c ->
  exists r r', settles (option_call p w) (r, w1) /\ settles (option_call p' w) (r, w1) /\
               settles (result_call p w) (r', w1) /\ settles (result_call p' w) (r', w1).
Proof.
  intros W A E p p' w vs c w1 D Q S. destruct (decorated_same p p' w vs c w1 D Q S) as [vs' Q'].
  exists (expression_value (UOpt None) (fun v => UOpt (Some v)) vs (ends false c)), (expression_value (URes (Ok PyNone)) (fun v => URes (Ok v)) vs (ends false c)).
  split; [apply HandlersFacts.option_call, Q|]. split; [rewrite (value_settled _ _ vs vs' c S); apply HandlersFacts.option_call, Q'|].
  split; [apply HandlersFacts.result_call, Q|]. rewrite (value_settled _ _ vs vs' c S). apply HandlersFacts.result_call, Q'.
Qed.
(** Every helper has a decorated form, so the theorem applies to every body with helpers. *)
Theorem C130_decorated_exists : forall W A E (helper : body W A E), exists m m', decorated_option helper m /\ decorated_result helper m'.
Proof.
  intros W A E helper.
  exists (fun w => let '(vs, c, w1) := means false helper w in (expression_value (UOpt None) (fun v => UOpt (Some v)) vs (ends false c), w1)),
         (fun w => let '(vs, c, w1) := means false helper w in (expression_value (URes (Ok PyNone)) (fun v => URes (Ok v)) vs (ends false c), w1)).
  split; intros w; destruct (means false helper w) as [[vs c] w1] eqn:Q; [apply HandlersFacts.option_call, Q|apply HandlersFacts.result_call, Q].
Qed.
(** False of helpers that return nothing: decorated with effect.option such a helper ends the
    whole expression with Nothing, left plain it does its work and the expression goes on. *)
Theorem C130_none_refuted : forall W A E (helper : body W A E) m w w1 (k : pyopt A -> body W A E) vs c w2,
  means false helper w = ([], CEnd PyNone, w1) -> decorated_option helper m -> means false (k PyNone) w1 = (vs, c, w2) ->
  settles (option_call (PFrom m k) w) (Ret (UOpt None), w1) /\
  settles (option_call (PDelegate helper k) w) (expression_value (UOpt None) (fun v => UOpt (Some v)) vs (ends false c), w2).
Proof.
  intros W A E helper m w w1 k vs c w2 Q D R.
  pose proof (settles_same _ _ _ _ (D w) (HandlersFacts.option_call _ _ _ _ _ Q)) as Hm. cbn in Hm. split.
  - apply (HandlersFacts.option_call _ w [] (CRaise (RFail (UOpt None))) w1). cbn. unfold effect. rewrite Hm. reflexivity.
  - apply HandlersFacts.option_call. cbn. unfold delegate, then_. rewrite Q, R. reflexivity.
Qed.
(** A helper that yields and returns nothing: decorated it gives the last value it yielded,
    left plain None. *)
Theorem C130_yields_refuted : forall W A E (helper : body W A E) m m' w us u w1 (k : pyopt A -> body W A E) w2,
  means false helper w = (us ++ [u], CEnd PyNone, w1) -> decorated_option helper m -> decorated_result helper m' ->
  (forall v, exists vs, means false (k v) w1 = (vs, CReturn v, w2)) -> u <> PyNone ->
  let last := expression_value (A := A) (Mo := outcome A E) (UOpt None) (fun v => UOpt (Some v)) in
  settles (option_call (PFrom m k) w) (Ret (UOpt (Some u)), w2) /\ settles (result_call (PFrom m' k) w) (Ret (URes (Ok u)), w2) /\
  exists vs, settles (option_call (PDelegate helper k) w) (last ((us ++ [u]) ++ vs) (EReturn PyNone), w2).
Proof.
  intros W A E helper m m' w us u w1 k w2 Q D D' R U.
  pose proof (settles_same _ _ _ _ (D w) (HandlersFacts.option_call _ _ _ _ _ Q)) as Hm.
  pose proof (settles_same _ _ _ _ (D' w) (HandlersFacts.result_call _ _ _ _ _ Q)) as Hm'.
  cbn in Hm, Hm'. unfold last_of in Hm, Hm'. rewrite fold_left_app in Hm, Hm'. cbn in Hm, Hm'.
  destruct (R u) as [vs Ru]. destruct (R PyNone) as [vs0 R0]. split; [|split].
  - assert (X : means false (PFrom m k) w = (u :: vs, CReturn u, w2)) by (cbn; unfold effect; rewrite Hm; cbn; unfold yields; rewrite Ru; reflexivity).
    pose proof (HandlersFacts.option_call _ _ _ _ _ X) as Y. destruct u as [|u]; [contradiction U; reflexivity|]. exact Y.
  - assert (X : means false (PFrom m' k) w = (u :: vs, CReturn u, w2)) by (cbn; unfold effect; rewrite Hm'; cbn; unfold yields; rewrite Ru; reflexivity).
    pose proof (HandlersFacts.result_call _ _ _ _ _ X) as Y. destruct u as [|u]; [contradiction U; reflexivity|]. exact Y.
  - exists vs0. assert (X : means false (PDelegate helper k) w = ((us ++ [u]) ++ vs0, CReturn PyNone, w2)) by (cbn; unfold delegate, then_; rewrite Q, R0; reflexivity).
    exact (HandlersFacts.option_call _ _ _ _ _ X).
Qed.
Print Assumptions C130_decorate_partial.
Print Assumptions C130_decorated_exists.
Print Assumptions C130_none_refuted.
Print Assumptions C130_yields_refuted.

(** def helper(): log 1; x = yield from m; return x *)
Definition fetch (m : outcome nat nat) : body (list nat) nat nat := PDo (say 1) (fun _ => PFrom (ret m) PReturn).
(** def main(): try: y = yield from helper(); log 2; return y; finally: log 3 *)
Definition user (call : (pyopt nat -> body (list nat) nat nat) -> body (list nat) nat nat) : body (list nat) nat nat :=
  PTry (call (fun y => PDo (say 2) (fun _ => PReturn y))) (fun _ => false) (fun x => PRaise x) (PDo (say 3) PEnd) PEnd.
Example C130_example : forall o : option nat,
  let m := UOpt (option_map PyVal o) in
  gives_value (fetch m) /\
  decorated_option (fetch m) (fun log => (Ret m, log ++ [1])) /\
  decorating (user (PDelegate (fetch m))) (user (PFrom (fun log => (Ret m, log ++ [1])))) /\
  option_call (user (PDelegate (fetch m))) [] 9 = (Ret m, match o with Some _ => [1; 2; 3] | None => [1; 3] end) /\
  option_call (user (PFrom (fun log => (Ret m, log ++ [1])))) [] 9 = (Ret m, match o with Some _ => [1; 2; 3] | None => [1; 3] end).
Proof.
  intros o m.
  assert (G : gives_value (fetch m)).
  { intros w vs c w1 H. destruct o as [x|]; cbn in H; injection H as <- <- <-; cbn; auto. }
  assert (D : decorated_option (fetch m) (fun log => (Ret m, log ++ [1]))).
  { intros w. destruct o as [x|].
    - exact (HandlersFacts.option_call (fetch m) w [PyVal x] (CReturn (PyVal x)) (w ++ [1]) eq_refl).
    - exact (HandlersFacts.option_call (fetch m) w [] (CRaise (RFail (UOpt None))) (w ++ [1]) eq_refl). }
  split; [exact G|]. split; [exact D|]. split.
  - unfold user. apply dec_try; try (intros; apply dec_same). apply dec_option; auto. intros v. apply dec_same.
  - destruct o; split; reflexivity.
Qed.
(** def greet(): log 1 *)
Example C130_none_example :
  decorated_option (PDo (say 1) PEnd : body (list nat) nat nat) (fun log => (Ret (UOpt None), log ++ [1])) /\
  option_call (PDelegate (PDo (say 1) PEnd) (fun _ => PReturn (PyVal 7)) : body (list nat) nat nat) [] 9 = (Ret (UOpt (Some (PyVal 7))), [1]) /\
  option_call (PFrom (fun log => (Ret (UOpt None), log ++ [1])) (fun _ => PReturn (PyVal 7)) : body (list nat) nat nat) [] 9 = (Ret (UOpt None), [1]).
Proof.
  split; [|split; reflexivity]. intros w. exact (HandlersFacts.option_call (PDo (say 1) PEnd : body (list nat) nat nat) w [] (CEnd PyNone) (w ++ [1]) eq_refl).
Qed.
