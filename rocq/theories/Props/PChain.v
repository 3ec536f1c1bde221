(** C104: a chain of transformations gives the same on a Block, a Seq and an AsyncSeq.
    Model: Model/Chain.v (Model/Block.v, Model/Seq.v, Model/AsyncSeq.v).
    Spec: Spec/ChainSpec.v, Spec/SeqSpec.v. *)
From Coq Require Import List ZArith Bool Lia.
From Verif.Model Require Import Base Gen Chain.
From Verif.Spec Require Import ListM SeqSpec ChainSpec.
From Verif.Proofs Require Import SeqFacts SeqFacts3 ChainFacts.
Import ListNotations.
Local Open Scope py_scope.

(** Any chain whose callbacks return values that depend on their arguments only (they may have
    other effects): what the Block chain returns is what the Seq chain and the AsyncSeq chain
    hand out, in the same order. *)
Theorem C104_chain_partial : forall W (I : W -> Prop) A B (c : chain W A B) xs w ys w1,
  settled_chain I c -> I w -> on_block c xs w = (Ret ys, w1) ->
  (exists it w2 w3, on_seq c (of_list xs) w = (Ret it, w2) /\ iterates it w2 ys (Ret tt) w3 /\ I w3) /\
  (exists w3, iterates (on_async c (of_list xs)) w ys (Ret tt) w3 /\ I w3).
Proof. exact (fun W => @chain_agree_pf W). Qed.
Print Assumptions C104_chain_partial.
(** Without [tail] the Block chain does return. *)
Theorem C104_returns : forall W (I : W -> Prop) A B (c : chain W A B), settled_chain I c -> no_tail c -> forall xs w, I w ->
  exists ys w1, on_block c xs w = (Ret ys, w1).
Proof. exact (fun W => @chain_total W). Qed.
Print Assumptions C104_returns.
(** One transformation, with callbacks that may do and raise anything but StopIteration: also
    the effects, their order and the exception are the same. *)
Theorem C104_one_partial : forall W A B (s : stage W A B), never_stops s -> forall xs w,
  (exists it, seq_stage s (of_list xs) w = (Ret it, w) /\ iterates_like it (block_stage s xs) w) /\
  iterates_like (ret (async_stage s (of_list xs))) (block_stage s xs) w.
Proof. exact (fun W => @stage_like W). Qed.
Print Assumptions C104_one_partial.

(** Two transformations: the Block runs the first on every element before the second starts;
    Seq and AsyncSeq take the elements through one at a time.  So the order of effects
    differs, and with it the exception that is seen. *)
Definition noting (k : nat) : nat -> M (list nat) nat := fun x log => (Ret x, log ++ [k + x]).
Definition failing (k : nat) (e : exn) : nat -> M (list nat) nat := fun x log => (if Nat.eqb x k then Raise e else Ret x, log).
Ltac run := repeat first [eapply pr_yield; [reflexivity|] | eapply pr_skip; [reflexivity|] | apply pr_stop; reflexivity | apply pr_raise; reflexivity].
Ltac run_it := left; eexists _, _; split; [reflexivity|run].
Theorem C104_order_refuted :
  let c := Next (SMap (noting 10)) (Next (SMap (noting 20)) Whole) in
  on_block c [1; 2] [] = (Ret [1; 2], [11; 12; 21; 22]) /\
  (exists it, on_seq c (of_list [1; 2]) [] = (Ret it, []) /\ iterates it [] [1; 2] (Ret tt) [11; 21; 12; 22]) /\
  iterates (on_async c (of_list [1; 2])) [] [1; 2] (Ret tt) [11; 21; 12; 22].
Proof. split; [reflexivity|]. split; [eexists; split; [reflexivity|]|]; run_it. Qed.
Print Assumptions C104_order_refuted.
Theorem C104_exception_refuted :
  let c := Next (SMap (failing 2 TypeError)) (Next (SMap (failing 1 KeyError)) Whole) in
  on_block c [1; 2] [] = (Raise TypeError, []) /\
  (exists it, on_seq c (of_list [1; 2]) [] = (Ret it, []) /\ iterates it [] [] (Raise KeyError) []) /\
  iterates (on_async c (of_list [1; 2])) [] [] (Raise KeyError) [].
Proof. split; [reflexivity|]. split; [eexists; split; [reflexivity|]|]; run_it. Qed.
Print Assumptions C104_exception_refuted.
(** A callback that raises StopIteration ends the Block early and makes the others fail. *)
Theorem C104_stop_iteration_refuted :
  let s := SMap (failing 2 StopIterationExn) in
  block_stage s [1; 2; 3] [] = (Ret [1], []) /\
  (exists it, seq_stage s (of_list [1; 2; 3]) [] = (Ret it, []) /\ iterates it [] [1] (Raise RuntimeError) []) /\
  iterates (ret (async_stage s (of_list [1; 2; 3]))) [] [1] (Raise RuntimeError) [].
Proof. split; [reflexivity|]. split; [eexists; split; [reflexivity|]|]; run_it. Qed.
Print Assumptions C104_stop_iteration_refuted.
(** [tail] of an empty Block raises; of an empty Seq or AsyncSeq it is empty. *)
Theorem C104_tail_refuted : forall W A (w : W),
  block_stage STail ([] : list A) w = (Raise ValueError, w) /\
  (exists it, seq_stage STail (of_list ([] : list A)) w = (Ret it, w) /\ iterates it w [] (Ret tt) w) /\
  iterates (ret (async_stage STail (of_list ([] : list A)))) w [] (Ret tt) w.
Proof. intros W A w. split; [reflexivity|]. split; [eexists; split; [reflexivity|]|]; run_it. Qed.
Print Assumptions C104_tail_refuted.
(** Negative counts are slices for a Block and zero for the others. *)
Theorem C104_negative_refuted : forall W A (x y : A) (w : W),
  block_stage (STake (-1)) [x; y] w = (Ret [x], w) /\ block_stage (SSkip (-1)) [x; y] w = (Ret [y], w) /\
  (exists it, seq_stage (STake (-1)) (of_list [x; y]) w = (Ret it, w) /\ iterates it w [] (Ret tt) w) /\
  (exists it, seq_stage (SSkip (-1)) (of_list [x; y]) w = (Ret it, w) /\ iterates it w [x; y] (Ret tt) w) /\
  iterates (ret (async_stage (STake (-1)) (of_list [x; y]))) w [] (Ret tt) w /\
  iterates (ret (async_stage (SSkip (-1)) (of_list [x; y]))) w [x; y] (Ret tt) w.
Proof. intros W A x y w. do 2 (split; [reflexivity|]). repeat split; try (eexists; split; [reflexivity|]); run_it. Qed.
Print Assumptions C104_negative_refuted.

(** The callbacks note their calls; the elements agree, though the notes do not. *)
Example C104_example :
  let c : chain (list nat) nat nat :=
    Next (SMap (noting 10)) (Next (SFilter (fun x log => (Ret (Nat.even x), log ++ [x])))
      (Next (SCollect (fun x => ret [x; x])) (Next (SAppend [9]) (Next (SSkip 1) (Next (STake 3) (Next STail Whole)))))) in
  settled_chain (fun _ => True) c /\ on_block c [1; 2; 4] [] = (Ret [4; 4], [11; 12; 14; 1; 2; 4]) /\
  (exists it w2, on_seq c (of_list [1; 2; 4]) [] = (Ret it, []) /\ iterates it [] [4; 4] (Ret tt) w2).
Proof.
  cbv zeta. split; [|split; [reflexivity|]].
  - cbn. repeat split; try lia.
    + exists (fun x => x). intros x w _. eexists. split; [reflexivity|exact Logic.I].
    + exists Nat.even. intros x w _. eexists. split; [reflexivity|exact Logic.I].
    + exists (fun x => [x; x]). intros x w _. eexists. split; [reflexivity|exact Logic.I].
  - eexists _, _. split; [reflexivity|]. run_it.
Qed.
Example C104_one_case : never_stops (SMap (failing 2 KeyError)) /\
  iterates (ret (async_stage (SMap (failing 2 KeyError)) (of_list [1; 2; 3]))) [] [1] (Raise KeyError) [].
Proof. split; [|run_it]. intros x w. cbn. destruct (Nat.eqb x 2); discriminate. Qed.
