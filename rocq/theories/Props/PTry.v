(** Property theorems C110: a Try stays a Try. *)
From Coq Require Import List Bool String.
From Verif.Model Require Import Base OptionResult Builder TryClass.
From Verif.Spec Require Import ListM BuilderSpec TrySpec.
From Verif.Proofs Require Import TryFacts.
Import ListNotations.
Local Open Scope py_scope.

(** C110. Apart from its class a Try behaves as a Result: every operation does to tag and
    payload what the operation of Result does (the theorems about Result hold of Try). *)
Theorem C110_same : forall W A B C E F (self : kresult A E),
  (forall f : A -> M W B, forget (k_map self f) ==m res_map (snd self) f) /\
  (forall (other : kresult B E) (f : A -> B -> M W C), forget (k_map2 self other f) ==m res_map2 (snd self) (snd other) f) /\
  (forall function : kresult (A -> M W B) E, forget (k_apply self function) ==m res_apply (snd self) (snd function)) /\
  (forall f : E -> M W F, forget (k_map_error self f) ==m res_map_error (snd self) f) /\
  (forall f : A -> M W (kresult B E), forget (k_bind self f) ==m res_bind (snd self) (fun a => forget (f a))) /\
  (forall (p : A -> M W bool) default, forget (k_filter self p default) ==m res_filter (snd self) p default) /\
  (forall (p : A -> M W bool) default, forget (k_filter_with self p default) ==m res_filter_with (snd self) p default) /\
  snd (k_swap self) = res_swap (snd self) /\
  (forall other, snd (k_or_else self other) = res_or_else (snd self) (snd other)) /\
  (forall other : E -> M W (kresult A E), forget (k_or_else_with self other) ==m res_or_else_with (snd self) (fun e => forget (other e))).
Proof.
  intros W A B C E F self. repeat split.
  - apply forget_map.
  - apply forget_map2.
  - apply forget_apply.
  - apply forget_map_error.
  - apply forget_bind.
  - apply forget_filter.
  - apply forget_filter_with.
  - destruct self as [k [a|e]]; reflexivity.
  - intros other. unfold k_or_else, res_or_else. destruct (res_is_ok (snd self)); reflexivity.
  - apply forget_or_else_with.
Qed.
Print Assumptions C110_same.
(** Made by Success and Failure it is a Try and prints as one; or_else and or_else_with
    among Trys give a Try. *)
Theorem C110_made : forall W A E (a : A) (e : E) (sa : A -> M W string) (se : E -> M W string),
  is_try (E := E) (Success a) /\ is_try (A := A) (Failure e) /\
  k_str sa se (Success a) ==m (do s <- sa a; ret ("Success " ++ s)%string) /\
  k_str sa se (Failure e) ==m (do s <- se e; ret ("Failure " ++ s)%string).
Proof. repeat split. Qed.
Print Assumptions C110_made.
Theorem C110_or_else : forall W A E (self other : kresult A E) (ow : E -> M W (kresult A E)),
  is_try self -> is_try other -> (forall e, gives (ow e) is_try) ->
  is_try (k_or_else self other) /\ gives (k_or_else_with self ow) is_try.
Proof. exact (fun W A E => gives_or_else). Qed.
Print Assumptions C110_or_else.
(** filter and filter_with: the Try itself, or when the predicate rejects it a Result. *)
Theorem C110_filter_partial : forall W A E (self : kresult A E) (p : A -> M W bool) default (dw : A -> M W E),
  gives (k_filter self p default) (fun x => x = self \/ (is_plain_result x /\ snd x = Err default)) /\
  gives (k_filter_with self p dw) (fun x => x = self \/ (is_plain_result x /\ exists e, snd x = Err e)).
Proof. exact (fun W A E => gives_filter). Qed.
Print Assumptions C110_filter_partial.
(** bind: what the mapper gives, or for a Failure a Result. *)
Theorem C110_bind_partial : forall W A B E (self : kresult A E) (f : A -> M W (kresult B E)),
  (forall a, snd self = Ok a -> k_bind self f ==m f a) /\
  (forall e, snd self = Err e -> k_bind self f ==m ret (mkError e)).
Proof. exact (fun W A B E => gives_bind). Qed.
Print Assumptions C110_bind_partial.
(** map, map2, apply, map_error and swap give a Result, of whatever classes the operands
    are. *)
Theorem C110_class_refuted : forall W A B C E F (self : kresult A E) (other : kresult B E) (function : kresult (A -> M W B) E)
  (h : A -> M W B) (f : A -> B -> M W C) (g : E -> M W F),
  gives (k_map self h) is_plain_result /\ gives (k_map2 self other f) is_plain_result /\ gives (k_apply self function) is_plain_result /\
  gives (k_map_error self g) is_plain_result /\ is_plain_result (k_swap self).
Proof. exact (fun W A B C E F self other function h f g => conj (gives_map A B self h) (gives_fresh self other function f g)). Qed.
Print Assumptions C110_class_refuted.
(** It shows: mapping the identity over a Try changes its text. *)
Theorem C110_text_refuted : forall W A E (x : result A E) (sa : A -> M W string) (se : E -> M W string) w w' w'' w3 y s s',
  k_map (KTry, x) (fun a => ret a) w = (Ret y, w') ->
  k_str sa se (KTry, x) w' = (Ret s, w'') -> k_str sa se y w'' = (Ret s', w3) -> s <> s'.
Proof.
  intros W A E [a|e] sa se w w' w'' w3 y s s'; cbn; unfold k_map, bind, ret; cbn; intros [= <- <-]; cbn.
  - unfold bind. destruct (sa a w) as [[u|] w1]; [|discriminate]. intros [= <- <-].
    destruct (sa a w1) as [[u'|] w2]; [|discriminate]. intros [= <- _]. discriminate.
  - unfold bind. destruct (se e w) as [[u|] w1]; [|discriminate]. intros [= <- <-].
    destruct (se e w1) as [[u'|] w2]; [|discriminate]. intros [= <- _]. discriminate.
Qed.
Print Assumptions C110_text_refuted.
(** effect.try_: the first Failure that the body meets is given itself; otherwise the
    value is wrapped with Ok. *)
Theorem C110_builder_partial : forall W A E St (resume : St -> pyopt A -> W -> node (pyopt A) (kresult (pyopt A) E) St * W) s w r w1, r <> Raise OutOfFuel ->
  (settles (fun fuel => call_gen try_builder resume fuel s w) (r, w1) <->
   exists vs e, body_gives resume s PyNone w vs e w1 /\ r = expression_value (mkOk PyNone) mkOk vs e).
Proof. exact try_call_pf. Qed.
Print Assumptions C110_builder_partial.
(** So a function decorated with effect.try_ that returns a value never gives a Try. *)
Theorem C110_builder_refuted : forall W A E St (resume : St -> pyopt A -> W -> node (pyopt A) (kresult (pyopt A) E) St * W) s w r w1,
  settles (fun fuel => call_gen try_builder resume fuel s w) (Ret r, w1) -> (exists v, snd r = Ok v) ->
  (forall s v w u, fst (resume s v w) = NFail u -> exists e, snd u = Err e) -> is_plain_result r.
Proof.
  intros W A E St resume s w r w1 S [v V] Fail. apply try_call_pf in S; [|discriminate]. destruct S as (vs & e & B & Q).
  destruct e as [[|x]|e|m]; cbn in Q; try discriminate; injection Q as ->.
  - unfold last_of. assert (P : is_plain_result (mkOk (A := pyopt A) (E := E) PyNone)) by reflexivity. clear - P. revert P.
    generalize (mkOk (A := pyopt A) (E := E) PyNone). induction vs as [|v vs IH]; intros z P; cbn; [exact P|]. apply IH. reflexivity.
  - reflexivity.
  - exfalso. clear - B Fail V. remember (EFail m) as e eqn:Q. induction B; try discriminate; auto.
    injection Q as ->. destruct (Fail s v0 w m) as [e Er]; [now rewrite H|]. congruence.
Qed.
Print Assumptions C110_builder_refuted.
(** The Failure that a body takes a value from is given itself. *)
Theorem C110_failure : forall W A E (m : kresult (pyopt A) E) e (k : pyopt A -> tree W (pyopt A) (kresult (pyopt A) E)) w, snd m = Err e ->
  settles (fun fuel => call_gen try_builder (tree_resume k_yield) fuel (fun _ => TFrom m k) w) (Ret m, w).
Proof.
  intros W A E [c r] e k w Q. cbn in Q. subst r.
  exists 2; intros [|[|fuel]] L; [inversion L|inversion L as [|? L1]; inversion L1|reflexivity].
Qed.
Print Assumptions C110_failure.
(** pipeline: the object that the last function gives; a Failure of an earlier function
    comes out as a Result. *)
Theorem C110_pipeline_partial : forall W A E (fns : list (A -> M W (kresult A E))) f x w r w1,
  k_pipeline fns x w = (Ret r, w1) ->
  (forall a, snd r = Ok a -> k_pipeline (fns ++ [f]) x w = f a w1) /\
  (forall e, snd r = Err e -> k_pipeline (fns ++ [f]) x w = (Ret (mkError e), w1)).
Proof.
  intros W A E fns f x w r w1 H. destruct (gives_bind r f) as [G1 G2].
  split; intros y Y; rewrite pipeline_last; unfold bind; rewrite H; [now apply G1|now apply G2].
Qed.
Print Assumptions C110_pipeline_partial.
(** catch: a Try that the function returns is handed on; what it makes itself is a Result. *)
Theorem C110_catch_partial : forall W X A E matches inj (fn : X -> M W (A + kresult A E)) x w,
  match fn x w with
  | (Ret (inr r), w') => k_catch matches inj fn x w = (Ret r, w')
  | (Ret (inl a), w') => k_catch matches inj fn x w = (Ret (mkOk a), w')
  | (Raise e, w') => k_catch matches inj fn x w = (if matches e then Ret (mkError (inj e)) else Raise e, w')
  end.
Proof. exact (fun W X A E => catch_pf X). Qed.
Print Assumptions C110_catch_partial.

Example C110_example : forall w : unit,
  let show n := ret (if Nat.eqb n 5 then "5" else "6")%string in
  fst (k_str show show (Success 5) w) = Ret "Success 5"%string /\
  fst ((do y <- k_map (E := nat) (Success 5) (fun x => ret (S x)); k_str show show y) w) = Ret "Ok 6"%string /\
  fst ((do y <- k_filter (Success 5) (fun x => ret (Nat.eqb x 5)) 6; k_str show show y) w) = Ret "Success 5"%string /\
  fst ((do y <- k_filter (Success 5) (fun x => ret (Nat.eqb x 4)) 6; k_str show show y) w) = Ret "Error 6"%string /\
  fst (k_str show show (k_or_else (Failure 6) (Success 5)) w) = Ret "Success 5"%string.
Proof. repeat split. Qed.
Example C110_builder_example :
  let body : tree unit (pyopt nat) (kresult (pyopt nat) nat) := TFrom (Success (PyVal 3)) (fun x => TReturn x) in
  settles (fun fuel => call_gen try_builder (tree_resume k_yield) fuel (fun _ => body) tt) (Ret (mkOk (PyVal 3)), tt).
Proof. exists 2; intros [|[|fuel]] L; [inversion L|inversion L as [|? L1]; inversion L1|reflexivity]. Qed.
