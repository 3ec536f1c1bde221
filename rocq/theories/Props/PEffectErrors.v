(** Property C129: exceptions of calls inside computation expressions. *)
From Coq Require Import List.
From Verif.Model Require Import Base OptionResult Builder Mixed Handlers MapTree Map Extra.
From Verif.Spec Require Import ListM BuilderSpec HandlersSpec OptionResultSpec ExtraSpec MapSpec KeyInstances.
From Verif.Proofs Require Import HandlersFacts ExtraFacts.
From Verif.Props Require Import PMap PHandlers.
Import ListNotations.
Local Open Scope py_scope.

(** A call in the body raises something other than EffectError: that exception leaves the
    decorated function (a StopIteration as the RuntimeError that generators make of it). *)
Theorem C129_other_exceptions_partial : forall W A E (p : body W A E) w vs e w1, e <> EffectErrorExn ->
  let left_as := match e with StopIterationExn => RuntimeError | e => e end in
  (means false p w = (vs, CRaise (RThrow e), w1) -> settles (option_call p w) (Raise left_as, w1) /\ settles (result_call p w) (Raise left_as, w1)) /\
  (means true p w = (vs, CRaise (RThrow e), w1) -> settles (async_option_call p w) (Raise left_as, w1) /\ settles (async_result_call p w) (Raise left_as, w1)).
Proof.
  intros W A E p w vs e w1 N. cbn zeta.
  assert (X : forall b zero (pure : pyopt A -> outcome A E), expression_value zero pure vs (ends b (CRaise (RThrow e))) = Raise (match e with StopIterationExn => RuntimeError | e => e end))
    by (intros; destruct e; try reflexivity; contradiction N; reflexivity).
  split; intros H; split.
  - rewrite <- (X false (UOpt None) (fun v => UOpt (Some v))). apply HandlersFacts.option_call, H.
  - rewrite <- (X false (URes (Ok PyNone)) (fun v => URes (Ok v))). apply HandlersFacts.result_call, H.
  - rewrite <- (X true (UOpt None) (fun v => UOpt (Some v))). apply HandlersFacts.async_option_call, H.
  - rewrite <- (X true (URes (Ok PyNone)) (fun v => URes (Ok v))). apply HandlersFacts.async_result_call, H.
Qed.
(** False for the EffectErrors of other calls: the decorated function returns Nothing, an
    effect.result one as well. *)
Theorem C129_effect_errors_refuted : forall W A E (p : body W A E) w vs w1,
  (means false p w = (vs, CRaise (RThrow EffectErrorExn), w1) -> settles (option_call p w) (Ret (UOpt None), w1) /\ settles (result_call p w) (Ret (UOpt None), w1)) /\
  (means true p w = (vs, CRaise (RThrow EffectErrorExn), w1) -> settles (async_option_call p w) (Ret (UOpt None), w1) /\ settles (async_result_call p w) (Ret (UOpt None), w1)).
Proof.
  intros W A E p w vs w1. split; intros H; split.
  - exact (HandlersFacts.option_call _ _ _ _ _ H).
  - exact (HandlersFacts.result_call _ _ _ _ _ H).
  - exact (HandlersFacts.async_option_call _ _ _ _ _ H).
  - exact (HandlersFacts.async_result_call _ _ _ _ _ H).
Qed.
(** So a lookup with Map.pick that finds nothing raises outside of such a body and passes
    for the result of the whole expression inside. *)
Theorem C129_pick_refuted : forall W A E K V (KO : KeyOrd K) (f : K -> V -> M W (option (pyopt A))) (m : MapTree.tree K V) (k : pyopt A -> body W A E) w w1,
  firstM (fun kv => f (fst kv) (snd kv)) (to_list m) w = (Ret None, w1) ->
  pick f m w = (Raise EffectErrorExn, w1) /\
  settles (result_call (PDo (pick f m) k) w) (Ret (UOpt None), w1) /\ settles (async_result_call (PDo (pick f m) k) w) (Ret (UOpt None), w1) /\
  settles (option_call (PDo (pick f m) k) w) (Ret (UOpt None), w1) /\ settles (async_option_call (PDo (pick f m) k) w) (Ret (UOpt None), w1).
Proof.
  intros W A E K V KO f m k w w1 H. assert (P := C14_pick_partial K V KO W _ f m w). rewrite H in P. split; [exact P|].
  destruct (C129_effect_errors_refuted W A E (PDo (pick f m) k) w [] w1) as [S AS].
  destruct S as [S1 S2]; [cbn; unfold effect; rewrite P; reflexivity|]. destruct AS as [S3 S4]; [cbn; unfold effect; rewrite P; reflexivity|]. auto.
Qed.
(** Likewise Map.change, where the change of an absent key to Nothing raises. *)
Theorem C129_change_refuted : forall W E K V (KO : KeyOrd K) (u : option V -> M W (option V)) (m : MapTree.tree K V) key (k : pyopt (MapTree.tree K V) -> body W (MapTree.tree K V) E) w w1,
  Reach m -> mem key m = false -> falls_off key m -> u None w = (Ret None, w1) ->
  change key u m w = (Raise EffectErrorExn, w1) /\
  settles (result_call (PDo (do t <- change key u m; ret (PyVal t)) k) w) (Ret (UOpt None), w1).
Proof.
  intros W E K V KO u m key k w w1 R N F H. destruct (C04_change_absent_nothing_partial K V KO W m key u w w1 R N H) as [P _]. specialize (P F). split; [exact P|].
  destruct (C129_effect_errors_refuted W (MapTree.tree K V) E (PDo (do t <- change key u m; ret (PyVal t)) k) w [] w1) as [S _].
  apply S. cbn. unfold effect, bind. rewrite P. reflexivity.
Qed.
(** traverse is a computation expression: when the function raises EffectError on some
    elements, the leftmost of those and of the Errors decides, and traverse returns Nothing
    or that Error.  Other exceptions propagate. *)
Theorem C129_traverse_refuted : forall W A B E (fn : A -> M W (result (pyopt B) E)) lst,
  traverse fn lst ==m (do rs <- mapM (fun x => or_effect_error (in_generator (fn x))) (rev lst); ret (traverse_outcome (leftmost (rev rs)))).
Proof. exact @traverse_pf. Qed.
Theorem C129_leftmost : forall B E (rs : list (option (result B E))),
  (forall vs, leftmost rs = Some (Ok vs) <-> rs = List.map (fun v => Some (Ok v)) vs) /\
  (leftmost rs = None <-> exists vs rest, rs = List.map (fun v => Some (Ok v)) vs ++ None :: rest) /\
  (forall e, leftmost rs = Some (Err e) <-> exists vs rest, rs = List.map (fun v => Some (Ok v)) vs ++ Some (Err e) :: rest).
Proof. exact @leftmost_cases. Qed.
Print Assumptions C129_other_exceptions_partial.
Print Assumptions C129_effect_errors_refuted.
Print Assumptions C129_pick_refuted.
Print Assumptions C129_change_refuted.
Print Assumptions C129_traverse_refuted.
Print Assumptions C129_leftmost.

(** @effect.result() def f(): log 1; x = map.pick(lambda k, v: Some(v) if k > limit else Nothing, table); log 2; return x *)
Definition lookup (limit : nat) : body (list nat) nat nat :=
  PDo (say 1) (fun _ => PDo (pick (fun k v => ret (if Nat.ltb limit k then Some (PyVal v) else None)) ex_map) (fun x => PDo (say 2) (fun _ => PReturn x))).
Example C129_example :
  result_call (lookup 4) [] 5 = (Ret (URes (Ok (PyVal 50))), [1; 2]) /\
  result_call (lookup 40) [] 5 = (Ret (UOpt None), [1]) /\
  result_call (PDo (fun log => (Raise KeyError, log)) PReturn : body (list nat) nat nat) [] 5 = (Raise KeyError, []).
Proof. repeat split; reflexivity. Qed.
Example C129_change_example : Reach ex_map /\ mem 2 ex_map = false /\ falls_off 2 ex_map.
Proof. split; [exact ex_map_reach|]. split; [reflexivity|]. apply C04_falls_off_case. Qed.
Example C129_traverse_example :
  traverse (fun x : nat => fun w : list nat => if Nat.eqb x 2 then (Raise EffectErrorExn, w ++ [x]) else (Ret (Ok (PyVal x) : result (pyopt nat) nat), w ++ [x])) [1; 2; 3] [] =
  (Ret (UOpt None), [3; 2; 1]).
Proof. reflexivity. Qed.
