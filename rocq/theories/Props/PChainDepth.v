(** C121: the stack that chains take. *)
From Coq Require Import List ZArith Lia.
From Verif.Model Require Import Base Gen OptionResult Block Chain ChainDepth AsyncDepth.
From Verif.Model Require Functions Extra.
From Verif.Spec Require Import ChainDepthSpec ChainWorkSpec.
From Verif.Proofs Require Import ChainDepthFacts AsyncDepthFacts.
Import ListNotations.
Local Open Scope py_scope.

(** compose and pipe need two and three frames for any number of functions. *)
Theorem C121_compose : forall W V (fns : list (V -> M W V)) d x,
  (2 <= d -> d_compose fns d x ==m Functions.compose fns x) /\ (3 <= d -> d_pipe x fns d ==m Functions.pipe x fns).
Proof. intros W V fns d x. split; [apply d_compose_eq|apply d_pipe_eq]. Qed.
Print Assumptions C121_compose.
Example C121_compose_instance : d_pipe 0 (repeat (fun x => ret (x + 1)) 20) 3 tt = (Ret 20, tt) /\ d_pipe 0 (repeat (fun x => ret (x + 1)) 20) 2 tt = (Raise RecursionError, tt).
Proof. split; reflexivity. Qed.

(** pipeline needs a frame for every function and one more, and without them no function is
    called. *)
Theorem C121_pipeline_partial : forall W V E (fns : list (V -> M W (result V E))) (ofns : list (V -> M W (option V))) d x,
  (length fns < d -> d_res_pipeline fns d x ==m Extra.res_pipeline fns x) /\
  (d <= length fns -> forall w, d_res_pipeline fns d x w = (Raise RecursionError, w)) /\
  (length ofns < d -> d_opt_pipeline ofns d x ==m Extra.opt_pipeline ofns x) /\
  (d <= length ofns -> forall w, d_opt_pipeline ofns d x w = (Raise RecursionError, w)).
Proof.
  intros W V E fns ofns d x.
  exact (conj (proj1 (res_pipeline_depth fns d x)) (conj (proj2 (res_pipeline_depth fns d x)) (opt_pipeline_depth ofns d x))).
Qed.
Print Assumptions C121_pipeline_partial.
(** A chain of sequence operations needs two frames for every stage but filter, whatever its
    source is. *)
Theorem C121_seq_partial : forall W A B (c : chain W A B) d,
  (2 * generators c < d -> forall src fuel,
     (do it <- d_on_seq c (d_source src); d_to_list fuel d it) ==m (do it <- on_seq c src; to_list fuel it)) /\
  (d < 2 * generators c -> all_ask c -> forall g w, exists n, forall fuel, n <= fuel ->
     (do it <- d_on_seq c (d_source (ret g)); d_to_list fuel d it) w = (Raise RecursionError, w)).
Proof. intros W A B c d. split; [intros D src fuel; now apply chain_source|intros D P g w; now apply chain_source_overflow]. Qed.
Print Assumptions C121_seq_partial.
Example C121_seq_instance :
  let c : chain nat nat nat := Next (SMap (fun x w => (Ret (x + w), S w))) (Next (SFilter (fun x => ret (Nat.even x))) (Next (STake 2) Whole)) in
  generators c = 2 /\ all_ask c /\
  (do it <- d_on_seq c (d_source (of_list [0; 1; 2; 3])); d_to_list 30 5 it) 0 = (Ret [0; 2], 2) /\
  (do it <- d_on_seq c (d_source (of_list [0; 1; 2; 3])); d_to_list 30 3 it) 0 = (Raise RecursionError, 0).
Proof. cbv zeta. repeat split. Qed.

(** A chain of operations of AsyncSeq needs one frame for every stage. *)
Theorem C121_async_partial : forall W A B (c : chain W A B) d,
  (stages c < d -> forall src fuel, d_to_list fuel d (d_on_async c (d_source src)) ==m to_list fuel (on_async c src)) /\
  (d < stages c -> forall g w, exists n, forall fuel, n <= fuel ->
     d_to_list fuel d (d_on_async c (d_source (ret g))) w = (Raise RecursionError, w)).
Proof. intros W A B c d. split; [intros D src fuel; now apply achain_list|intros D g w; now apply achain_overflow]. Qed.
Print Assumptions C121_async_partial.
Example C121_async_instance :
  let c : chain nat nat nat := Next (SMap (fun x w => (Ret (x + w), S w))) (Next (SFilter (fun x => ret (Nat.even x))) (Next (STake 2) (Next (SAppend [9]) Whole))) in
  stages c = 4 /\
  d_to_list 40 5 (d_on_async c (d_source (of_list [0; 1; 2; 3; 4]))) 0 = (Ret [0; 2; 9], 3) /\
  d_to_list 40 3 (d_on_async c (d_source (of_list [0; 1; 2; 3; 4]))) 0 = (Raise RecursionError, 0).
Proof. cbv zeta. repeat split. Qed.

(** False: for every recursion limit there is a pipeline, and there are sequences made by
    map or append alone, that raise RecursionError; on a Block the same chain works. *)
Theorem C121_long_chains_refuted : forall W d (w : W), exists n,
  d_res_pipeline (repeat (fun x : nat => ret (Ok x : result nat nat)) n) d 7 w = (Raise RecursionError, w) /\
  Extra.res_pipeline (repeat (fun x : nat => ret (Ok x : result nat nat)) n) 7 w = (Ret (Ok 7), w) /\
  (exists m, forall fuel, m <= fuel -> (do it <- d_on_seq (maps n) (d_of_list [7]); d_to_list fuel d it) w = (Raise RecursionError, w)) /\
  on_block (maps n) [7] w = (Ret [7], w) /\
  (exists m, forall fuel, m <= fuel -> (do it <- d_on_seq (appends n 8) (d_of_list [7]); d_to_list fuel d it) w = (Raise RecursionError, w)) /\
  on_block (appends n 8) [7] w = (Ret (7 :: repeat 8 n), w).
Proof.
  intros W d w. exists (S d). split; [|split; [|split; [|split; [|split]]]].
  - apply (res_pipeline_depth (repeat (fun x : nat => ret (Ok x : result nat nat)) (S d)) d 7). rewrite repeat_length. lia.
  - unfold Extra.res_pipeline. generalize (S d). intros n. assert (H : forall (acc : nat -> M W (result nat nat)), acc 7 w = (Ret (Ok 7), w) ->
      fold_left Extra.res_reducer (repeat (fun x : nat => ret (Ok x : result nat nat)) n) acc 7 w = (Ret (Ok 7), w)).
    { induction n as [|n IH]; intros acc H; cbn; [exact H|]. apply IH. unfold Extra.res_reducer, bind. rewrite H. reflexivity. }
    apply H. reflexivity.
  - apply chain_overflow; [generalize (S d); intros n; induction n; cbn; auto|]. assert (G : forall n, generators (W := W) (A := nat) (maps n) = n) by (induction n; cbn; auto). rewrite G. lia.
  - generalize (S d). intros n. induction n as [|n IH]; [reflexivity|]. cbn [maps on_block block_stage]. unfold bind. cbn. exact IH.
  - apply chain_overflow; [generalize (S d); intros n; induction n; cbn; auto|]. assert (G : forall n, generators (W := W) (A := nat) (appends n 8) = n) by (induction n; cbn; auto). rewrite G. lia.
  - generalize (S d). intros n. assert (H : forall xs, on_block (appends n 8) (7 :: xs) w = (Ret (7 :: xs ++ repeat 8 n), w)).
    { induction n as [|n IH]; intros xs; [cbn; now rewrite app_nil_r|]. cbn [appends on_block block_stage]. unfold bind. cbn. specialize (IH (xs ++ [8])). rewrite <- app_assoc in IH. exact IH. }
    exact (H []).
Qed.
Print Assumptions C121_long_chains_refuted.

(** False of AsyncSeq too. *)
Theorem C121_async_chains_refuted : forall W d (w : W), exists n,
  (exists m, forall fuel, m <= fuel -> d_to_list fuel d (d_on_async (maps n) (d_source (of_list [7]))) w = (Raise RecursionError, w)) /\
  on_block (maps n) [7] w = (Ret [7], w).
Proof.
  intros W d w. exists (S d). split.
  - apply achain_overflow. assert (G : forall n, stages (W := W) (A := nat) (maps n) = n) by (induction n; cbn; auto). rewrite G. lia.
  - generalize (S d). intros n. induction n as [|n IH]; [reflexivity|]. cbn [maps on_block block_stage]. unfold bind. cbn. exact IH.
Qed.
Print Assumptions C121_async_chains_refuted.
