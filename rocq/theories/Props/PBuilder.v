(** Properties C47-C51: computation expressions. *)
From Coq Require Import List Bool Lia.
From Verif.Model Require Import Base OptionResult Builder.
From Verif.Spec Require Import ListM BuilderSpec.
From Verif.Proofs Require Import BuilderFacts BuilderFacts2.
Import ListNotations.

Notation one := (PyVal 1).
Notation two := (PyVal 2).
(** x = yield 1; (world += 1); y = yield from Some(2) / Nothing; return y *)
Definition sample (m : option (pyopt nat)) : tree nat (pyopt nat) (option (pyopt nat)) :=
  TYield one (fun x => TDo Nat.succ (fun _ => TFrom m (fun y => TDo Nat.succ (fun _ => TReturn (match y with PyNone => x | _ => y end))))).
Definition rsample (m : result (pyopt nat) nat) : tree nat (pyopt nat) (result (pyopt nat) nat) :=
  TYield one (fun x => TDo Nat.succ (fun _ => TFrom m (fun y => TDo Nat.succ (fun _ => TReturn (PyVal 3))))).
(** ** C47 *)
(** The call is the chain of binds, with the same effects. *)
Theorem C47_option_do_notation : forall W A (t : tree W (pyopt A) (option (pyopt A))) w, returns_value t ->
  settles (fun fuel => call_gen option_builder (tree_resume yield_from_option) fuel (fun _ => t) w) (do_notation opt_bind Some t w).
Proof. exact C47_option_pf. Qed.
Theorem C47_result_do_notation : forall W A E (t : tree W (pyopt A) (result (pyopt A) E)) w, returns_value t ->
  settles (fun fuel => call_gen result_builder (tree_resume yield_from_result) fuel (fun _ => t) w) (do_notation res_bind Ok t w).
Proof. exact C47_result_pf. Qed.
(** Arbitrary bodies, also ones that need not end. *)
Theorem C47_option_body : forall W A St (resume : St -> pyopt A -> W -> node (pyopt A) (option (pyopt A)) St * W) s w r w1, r <> Raise OutOfFuel ->
  (settles (fun fuel => call_gen option_builder resume fuel s w) (r, w1) <->
   exists vs e, body_gives resume s PyNone w vs e w1 /\ r = expression_value None Some vs e).
Proof. exact @C47_option_body_pf. Qed.
Theorem C47_result_body : forall W A E St (resume : St -> pyopt A -> W -> node (pyopt A) (result (pyopt A) E) St * W) s w r w1, r <> Raise OutOfFuel ->
  (settles (fun fuel => call_gen result_builder resume fuel s w) (r, w1) <->
   exists vs e, body_gives resume s PyNone w vs e w1 /\ r = expression_value (Ok PyNone) Ok vs e).
Proof. exact @C47_result_body_pf. Qed.
Theorem C47_nontermination : forall W A E St,
  (forall (resume : St -> pyopt A -> W -> node (pyopt A) (option (pyopt A)) St * W) s w, (forall vs e w1, ~ body_gives resume s PyNone w vs e w1) ->
     forall fuel, fst (call_gen option_builder resume fuel s w) = Raise OutOfFuel) /\
  (forall (resume : St -> pyopt A -> W -> node (pyopt A) (result (pyopt A) E) St * W) s w, (forall vs e w1, ~ body_gives resume s PyNone w vs e w1) ->
     forall fuel, fst (call_gen result_builder resume fuel s w) = Raise OutOfFuel).
Proof. exact @C47_diverge_pf. Qed.
Example C47_example_returns : returns_value (TYield one (fun x => TDo Nat.succ (fun _ => TFrom (Some two) (fun y => TReturn (PyVal 3)))) : tree nat (pyopt nat) (option (pyopt nat))).
Proof. repeat constructor. Qed.
Example C47_example : call_gen option_builder (tree_resume yield_from_option) 10 (fun _ => sample (Some two)) 0 = (Ret (Some two), 2).
Proof. reflexivity. Qed.
Definition forever (s : unit) (v : pyopt nat) (w : nat) : node (pyopt nat) (option (pyopt nat)) unit * nat := (NYield v tt, S w).
Example C47_example_forever : forall fuel, fst (call_gen option_builder forever fuel tt 0) = Raise OutOfFuel.
Proof.
  apply (proj1 (C47_nontermination nat nat nat unit)). intros vs e w1 B. induction B; unfold forever in *; try discriminate; auto.
Qed.
Print Assumptions C47_option_do_notation.
Print Assumptions C47_result_do_notation.
Print Assumptions C47_option_body.
Print Assumptions C47_result_body.
Print Assumptions C47_nontermination.

(** ** C48 *)
(** The body fails after any number of yields: the result is that failure, and the world
    is the one in which it failed. *)
Theorem C48_option_short_circuit : forall W A St (resume : St -> pyopt A -> W -> node (pyopt A) (option (pyopt A)) St * W) s w vs w1,
  body_gives resume s PyNone w vs (EFail None) w1 ->
  settles (fun fuel => call_gen option_builder resume fuel s w) (Ret None, w1).
Proof. intros W A St resume s w vs w1 B. exact (option_complete resume _ _ _ _ _ B). Qed.
Theorem C48_result_short_circuit : forall W A E St (resume : St -> pyopt A -> W -> node (pyopt A) (result (pyopt A) E) St * W) s w vs error w1,
  body_gives resume s PyNone w vs (EFail (Err error)) w1 ->
  settles (fun fuel => call_gen result_builder resume fuel s w) (Ret (Err error), w1).
Proof. intros W A E St resume s w vs error w1 B. exact (result_complete resume _ _ _ _ _ B). Qed.
Theorem C48_exceptions_propagate : forall W A E St,
  (forall (resume : St -> pyopt A -> W -> node (pyopt A) (option (pyopt A)) St * W) s w vs e w1, body_gives resume s PyNone w vs (EThrow e) w1 ->
     settles (fun fuel => call_gen option_builder resume fuel s w) (Raise e, w1)) /\
  (forall (resume : St -> pyopt A -> W -> node (pyopt A) (result (pyopt A) E) St * W) s w vs e w1, body_gives resume s PyNone w vs (EThrow e) w1 ->
     settles (fun fuel => call_gen result_builder resume fuel s w) (Raise e, w1)).
Proof. intros W A E St; split; intros resume s w vs e w1 B; [exact (option_complete resume _ _ _ _ _ B)|exact (result_complete resume _ _ _ _ _ B)]. Qed.
Example C48_example : call_gen option_builder (tree_resume yield_from_option) 10 (fun _ => sample None) 0 = (Ret None, 1) /\
  call_gen result_builder (tree_resume yield_from_result) 10 (fun _ => rsample (Err 7)) 0 = (Ret (Err 7), 1) /\
  body_gives (tree_resume yield_from_option) (fun _ => sample None) PyNone 0 [one] (EFail None) 1.
Proof. repeat split; try reflexivity. eapply bg_yield; [reflexivity|]. eapply bg_fail. reflexivity. Qed.
Print Assumptions C48_option_short_circuit.
Print Assumptions C48_result_short_circuit.
Print Assumptions C48_exceptions_propagate.

(** ** C49 *)
(** False: after a yield, the result is the value yielded last, not zero. *)
Theorem C49_no_return_value_refuted : exists (t : tree unit (pyopt nat) (option (pyopt nat))),
  body_gives (tree_resume yield_from_option) (fun _ => t) PyNone tt [one] (EReturn PyNone) tt /\
  settles (fun fuel => call_gen option_builder (tree_resume yield_from_option) fuel (fun _ => t) tt) (Ret (Some one), tt) /\
  Some one <> b_zero option_builder.
Proof.
  exists (TYield one (fun _ => TReturn PyNone)).
  assert (B : body_gives (tree_resume yield_from_option) (fun _ : pyopt nat => TYield one (fun _ => TReturn PyNone) : tree unit (pyopt nat) (option (pyopt nat))) PyNone tt [one] (EReturn PyNone) tt)
    by (eapply bg_yield; [reflexivity|]; constructor; reflexivity).
  split; [exact B|]. split; [exact (option_complete _ _ _ _ _ _ B)|discriminate].
Qed.
Theorem C49_result_no_return_value_refuted : exists (t : tree unit (pyopt nat) (result (pyopt nat) nat)),
  body_gives (tree_resume yield_from_result) (fun _ => t) PyNone tt [one] (EReturn PyNone) tt /\
  settles (fun fuel => call_gen result_builder (tree_resume yield_from_result) fuel (fun _ => t) tt) (Ret (Ok one), tt) /\
  Ok one <> b_zero (@result_builder nat nat).
Proof.
  exists (TYield one (fun _ => TReturn PyNone)).
  assert (B : body_gives (tree_resume yield_from_result) (fun _ : pyopt nat => TYield one (fun _ => TReturn PyNone) : tree unit (pyopt nat) (result (pyopt nat) nat)) PyNone tt [one] (EReturn PyNone) tt)
    by (eapply bg_yield; [reflexivity|]; constructor; reflexivity).
  split; [exact B|]. split; [exact (result_complete _ _ _ _ _ _ B)|discriminate].
Qed.
(** What holds: zero when nothing was yielded, and otherwise the value yielded last. *)
Theorem C49_option_partial : forall W A St (resume : St -> pyopt A -> W -> node (pyopt A) (option (pyopt A)) St * W) s w w1,
  (body_gives resume s PyNone w [] (EReturn PyNone) w1 ->
   settles (fun fuel => call_gen option_builder resume fuel s w) (Ret None, w1)) /\
  (forall vs v, body_gives resume s PyNone w (vs ++ [v]) (EReturn PyNone) w1 ->
   settles (fun fuel => call_gen option_builder resume fuel s w) (Ret (Some v), w1)).
Proof.
  intros W A St resume s w w1. split; [intros B|intros vs v B]; pose proof (option_complete resume _ _ _ _ _ B) as C; [exact C|].
  unfold expression_value in C. rewrite last_of_snoc in C. exact C.
Qed.
Theorem C49_result_partial : forall W A E St (resume : St -> pyopt A -> W -> node (pyopt A) (result (pyopt A) E) St * W) s w w1,
  (body_gives resume s PyNone w [] (EReturn PyNone) w1 ->
   settles (fun fuel => call_gen result_builder resume fuel s w) (Ret (Ok PyNone), w1)) /\
  (forall vs v, body_gives resume s PyNone w (vs ++ [v]) (EReturn PyNone) w1 ->
   settles (fun fuel => call_gen result_builder resume fuel s w) (Ret (Ok v), w1)).
Proof.
  intros W A E St resume s w w1. split; [intros B|intros vs v B]; pose proof (result_complete resume _ _ _ _ _ B) as C; [exact C|].
  unfold expression_value in C. rewrite last_of_snoc in C. exact C.
Qed.
(** A plain function body: its value, zero for None, its exceptions. *)
Theorem C49_plain_body : forall W A E (body : M W (pyopt A)) w,
  call_plain option_builder body w =
    (match fst (body w) with Ret PyNone => Ret None | Ret (PyVal x) => Ret (Some (PyVal x)) | Raise e => Raise e end, snd (body w)) /\
  call_plain (@result_builder A E) body w =
    (match fst (body w) with Ret PyNone => Ret (Ok PyNone) | Ret (PyVal x) => Ret (Ok (PyVal x)) | Raise e => Raise e end, snd (body w)) /\
  match call_plain seq_builder body w with
  | (Ret x, w1) => exists v, body w = (Ret v, w1) /\ sq_elems x = match v with PyNone => [] | PyVal _ => [v] end
  | (Raise e, w1) => body w = (Raise e, w1)
  end.
Proof.
  intros W A E body w. unfold call_plain, bind. destruct (body w) as [[[|x]|e] w1]; cbn; repeat split; eexists; split; reflexivity.
Qed.
Example C49_example : call_gen option_builder (tree_resume yield_from_option) 5 (fun _ => TDo Nat.succ (fun _ => TReturn (@PyNone nat))) 0 = (Ret None, 1).
Proof. reflexivity. Qed.
Print Assumptions C49_no_return_value_refuted.
Print Assumptions C49_result_no_return_value_refuted.
Print Assumptions C49_option_partial.
Print Assumptions C49_result_partial.
Print Assumptions C49_plain_body.

(** ** C50 *)
(** The elements are the yielded values and then the returned one; the effects are those
    of the body run once, before the call returns. *)
Theorem C50_elements_partial : forall W A St (resume : St -> pyopt A -> W -> node (pyopt A) (sq A) St * W) s w r w1, r <> Raise OutOfFuel ->
  (settles (fun fuel => (rmap sq_elems (fst (call_gen seq_builder resume fuel s w)), snd (call_gen seq_builder resume fuel s w))) (r, w1) <->
   exists vs e, body_gives resume s PyNone w vs e w1 /\ r = sequence_value sq_elems vs e).
Proof. exact @C50_pf. Qed.
(** Iterating the result, as long as the nesting of generators stays within the limit. *)
Theorem C50_iteration_partial : forall W A St (resume : St -> pyopt A -> W -> node (pyopt A) (sq A) St * W) s w vs v w1 limit,
  body_gives resume s PyNone w vs (EReturn v) w1 -> 2 * length vs + 1 <= limit ->
  exists x, settles (fun fuel => call_gen seq_builder resume fuel s w) (Ret x, w1) /\
    sq_iterate limit x = Ret (vs ++ match v with PyNone => [] | PyVal _ => [v] end).
Proof. exact @C50_iterate_pf. Qed.
(** bind concatenates the results of the function for the elements, called in order. *)
Theorem C50_bind : forall W A (xs : sq A) (fn : pyopt A -> M W (sq A)),
  b_bind seq_builder xs fn ==m (do rs <- mapM fn (sq_elems xs); ret (SqList (concat (map sq_elems rs))))%py.
Proof. exact @C50_bind_pf. Qed.
Example C50_bind_example : b_bind seq_builder (SqConcat (SqList [one]) (SqSeq [two])) (fun v w => (Ret (SqList [v; PyVal w]), S w)) 5
  = (Ret (SqList [one; PyVal 5; two; PyVal 6]), 7).
Proof. reflexivity. Qed.
(** False: for every recursion limit some body that only yields gives a sequence that
    cannot be iterated. *)
Theorem C50_long_sequences_refuted : forall limit, exists n x,
  body_gives (countdown (Mo := sq nat)) n PyNone tt (down n) (EReturn PyNone) tt /\
  settles (fun fuel => call_gen seq_builder countdown fuel n tt) (Ret x, tt) /\
  sq_iterate limit x = Raise RecursionError.
Proof.
  intros limit. destruct (C50_recursion_pf limit) as (n & x & S & _ & R). exists n, x. split; [apply countdown_gives|]. split; assumption.
Qed.
(** False: yield from a plain list raises AttributeError. *)
Definition from_list_body (s : bool) (v : pyopt nat) (w : unit) : node (pyopt nat) (sq nat) bool * unit :=
  if s then (NFromList one [two] false, w) else (NReturn PyNone, w).
Theorem C50_yield_from_list_refuted :
  settles (fun fuel => call_gen seq_builder from_list_body fuel true tt) (Raise AttributeError, tt).
Proof.
  apply (seq_complete _ _ _ [one] (EThrow AttributeError)).
  apply (bg_from_list_value _ _ _ _ one [two] false _ [] 1 [two]); auto.
Qed.
Example C50_example : rmap sq_elems (fst (call_gen seq_builder (fun s v w =>
    match s with 0 => (NYield one 1, w) | 1 => (NFromSeq two [one; two] 2, S w) | _ => (NReturn (PyVal 9), S w) end) 10 0 0))
  = Ret [one; two; one; two; PyVal 9].
Proof. reflexivity. Qed.
Print Assumptions C50_elements_partial.
Print Assumptions C50_iteration_partial.
Print Assumptions C50_bind.
Print Assumptions C50_long_sequences_refuted.
Print Assumptions C50_yield_from_list_refuted.

(** ** C51 *)
Theorem C51_async_option_partial : forall W A St (resume : St -> pyopt A -> W -> node (pyopt A) (option (pyopt A)) St * W), async_body resume ->
  forall fuel s w, acall_gen async_option_builder resume fuel s w = call_gen option_builder resume fuel s w.
Proof. exact C51_option_pf. Qed.
Theorem C51_async_result_partial : forall W A E St (resume : St -> pyopt A -> W -> node (pyopt A) (result (pyopt A) E) St * W), async_body resume ->
  forall fuel s w, acall_gen async_result_builder resume fuel s w = call_gen result_builder resume fuel s w.
Proof. exact C51_result_pf. Qed.
Theorem C51_plain_coroutine_partial : forall W A E (body : M W (pyopt A)) w,
  acall_plain async_option_builder body w = call_plain option_builder body w /\
  acall_plain (@async_result_builder A E) body w = call_plain (@result_builder A E) body w.
Proof. intros; split; reflexivity. Qed.
(** False: in a coroutine without yield, awaiting Nothing raises EffectError out of the
    call, while the synchronous body [yield from Nothing] gives Nothing. *)
Theorem C51_await_nothing_refuted : 
  settles (fun fuel => call_gen option_builder (tree_resume yield_from_option) fuel (fun _ => TFrom None (fun x => TReturn x) : tree unit (pyopt nat) _) tt) (Ret None, tt) /\
  acall_plain async_option_builder (raise EffectErrorExn : M unit (pyopt nat)) tt = (Raise EffectErrorExn, tt).
Proof. split; [|reflexivity]. exists 5. intros [|[|[|[|[|fuel]]]]] L; try lia. reflexivity. Qed.
(** False: [yield 1; x = await Some(2)] gives Some(1), and [yield 1; x = yield from Some(2)]
    gives Some(2). *)
Definition await_body : tree unit (pyopt nat) (option (pyopt nat)) := TYield one (fun _ => TFrom (Some two) (fun _ => TReturn PyNone)).
Theorem C51_await_value_refuted :
  settles (fun fuel => call_gen option_builder (tree_resume yield_from_option) fuel (fun _ => await_body) tt) (Ret (Some two), tt) /\
  settles (fun fuel => acall_gen async_option_builder (await_resume (fun m => m)) fuel (fun _ => await_body) tt) (Ret (Some one), tt).
Proof. split; exists 5; intros [|[|[|[|[|fuel]]]]] L; try lia; reflexivity. Qed.
Example C51_example : async_body (fun (s : bool) (v : pyopt nat) (w : nat) => if s then (NYield one false, S w) else (NFail (None (A := pyopt nat)), S w)) /\
  acall_gen async_option_builder (fun (s : bool) (v : pyopt nat) (w : nat) => if s then (NYield one false, S w) else (NFail None, S w)) 5 true 0 = (Ret None, 2).
Proof. split; [intros [] v w; exact I|reflexivity]. Qed.
Print Assumptions C51_async_option_partial.
Print Assumptions C51_async_result_partial.
Print Assumptions C51_plain_coroutine_partial.
Print Assumptions C51_await_nothing_refuted.
Print Assumptions C51_await_value_refuted.
