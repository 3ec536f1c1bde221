(** C107: iterations of one collection at the same time. *)
From Coq Require Import List Arith ZArith Lia.
From Verif.Model Require Import Base MapTree Map Gen Seq Interleave.
From Verif.Spec Require Import SeqSpec MapSpec InterleaveSpec.
From Verif.Proofs Require Import SeqFacts2 ChainFacts InterleaveFacts.
From Verif.Props Require Import PSeq.
Import ListNotations.

(** C107: every iterator hears what it would hear alone, whatever the others and the rest of
    the program do in between.  Partial: the collection must give a new iterator each time
    (Block, Map and the SeqGen results of C28; not what filter, scan, zip, unfold and
    Map.to_seq give, see below). *)
Theorem C107_each_alone_partial : forall W A (I : W -> Prop) (it : iterable W A) l, reiterable I it l ->
  exists F, forall fuel, F <= fuel -> forall es w, I w -> proper I 0 es ->
  exists os t w', consume fuel it es [] w = (os, (t, w')) /\ I w' /\ List.length os = List.length es /\
    forall j, heard j es os = alone l (asked j es).
Proof. exact consume_pf. Qed.
Print Assumptions C107_each_alone_partial.
(** Nested loops over one collection see all pairs. *)
Theorem C107_nested_partial : forall W A (I : W -> Prop) (it : iterable W A) l, reiterable I it l ->
  exists F, forall fuel w, F <= fuel -> I w -> exists w', nested fuel it w = (Ret (list_prod l l), w') /\ I w'.
Proof. exact (fun W A I => @nested_ok W A I). Qed.
Print Assumptions C107_nested_partial.
(** Iterating a Map (its keys) is such a collection. *)
Theorem C107_map : forall W K V (I : W -> Prop) (m : tree K V) fuel, depth m + 2 <= fuel ->
  reiterable I (map_iter fuel m) (List.map fst (MapTree.to_list m)).
Proof. exact map_iter_pf. Qed.
Print Assumptions C107_map.
(** Nested loops over one one-shot object: the inner loop takes all that is left and the
    outer one ends after its first element. *)
Theorem C107_one_shot_refuted : forall W A (I : W -> Prop) (g : gen W A) x l, steady I g (x :: l) ->
  exists F, forall fuel w, F <= fuel -> I w -> exists w', nested fuel shared (Some g, w) = (Ret (List.map (pair x) l), (None, w')) /\ I w'.
Proof. exact (fun W A I => @nested_shared W A I). Qed.
Print Assumptions C107_one_shot_refuted.
(** So with what Map.to_seq() returns, for every map with two items or more ... *)
Theorem C107_to_seq_refuted : forall W K V (m : tree K V) fuel (w : W) x l, depth m + 2 <= fuel -> MapTree.to_list m = x :: l ->
  exists g, to_seq_object fuel m w = (Ret g, w) /\
    exists F, forall fuel, F <= fuel -> exists w', nested fuel shared (Some g, w) = (Ret (List.map (pair x) l), (None, w')).
Proof.
  intros W K V m fuel w x l Hf E. destruct (to_seq_steady W K V (fun _ => True) m fuel w Hf) as (g & E1 & S). exists g. split; [exact E1|].
  rewrite E in S. destruct (nested_shared (fun _ => True) g x l S) as [F H]. exists F. intros f L. destruct (H f w L Logic.I) as (w' & E' & _). exists w'. exact E'.
Qed.
Print Assumptions C107_to_seq_refuted.
(** ... and with what filter returns. *)
Theorem C107_filter_refuted : forall W A (P : A -> bool) (xs : list A) (w : W) x l, List.filter P xs = x :: l ->
  exists g, filter (fun x => ret (P x)) (of_list xs) w = (Ret g, w) /\
    exists F, forall fuel, F <= fuel -> exists w', nested fuel shared (Some g, w) = (Ret (List.map (pair x) l), (None, w')).
Proof.
  intros W A P xs w x l E. exists (filter_loop (fun x => ret (P x)) (list_gen xs)). split; [reflexivity|].
  assert (S : steady (fun _ : W => True) (filter_loop (fun x => ret (P x)) (list_gen xs)) (List.filter P xs)).
  { apply filter_steady; [|apply steady_list]. intros y w0 _. exists w0. auto. }
  rewrite E in S. destruct (nested_shared (fun _ => True) _ x l S) as [F H]. exists F. intros f L. destruct (H f w L Logic.I) as (w' & E' & _). exists w'. exact E'.
Qed.
Print Assumptions C107_filter_refuted.

(** Two iterators of a map of three keys, one of them opened later, and one read past its
    end; then nested loops over it, and over one to_seq() object. *)
Definition ex_tree : tree nat nat := Node 2 20 (Leaf 1 10) (Leaf 3 30) 2.
Example C107_example :
  fst (consume 10 (map_iter 9 ex_tree) [Open; Next 0; Other S; Next 0; Open; Next 1; Next 0; Next 0; Next 0; Next 1] [] 0)
    = [Opened; Got 1; Done; Got 2; Opened; Got 1; Got 3; Ended; Ended; Got 2]
  /\ fst (nested 10 (map_iter 9 ex_tree) 0) = Ret [(1, 1); (1, 2); (1, 3); (2, 1); (2, 2); (2, 3); (3, 1); (3, 2); (3, 3)]
  /\ match to_seq_object 9 ex_tree 0 with
     | (Ret g, w) => fst (nested 10 shared (Some g, w)) = Ret [((1, 10), (2, 20)); ((1, 10), (3, 30))]
     | _ => False
     end
  /\ proper (fun _ => True) 0 [Open; Next 0; Other S; Next 0; Open; Next 1; Next 0; Next 0; Next 0; Next 1].
Proof. vm_compute. repeat split; auto with arith. Qed.
(** A pipeline of Seq operations on a list with a callback that counts its calls. *)
Example C107_seq_example :
  reiterable (fun _ : nat => True) (map (fun x n => (Ret (x * 2), S n)) (skip 1 (of_list [1; 2; 3]))) [4; 6]
  /\ fst (nested 20 (map (fun x n => (Ret (x * 2), S n)) (skip 1 (of_list [1; 2; 3]))) 0) = Ret [(4, 4); (4, 6); (6, 4); (6, 6)]
  /\ snd (nested 20 (map (fun x n => (Ret (x * 2), S n)) (skip 1 (of_list [1; 2; 3]))) 0) = 6.
Proof.
  split; [|vm_compute; auto].
  apply (C28_reiterable_partial nat nat nat (fun _ => True) (skip 1 (of_list [1; 2; 3])) [2; 3]) with (F := fun x => x * 2).
  - apply (C28_reiterable_partial nat nat nat (fun _ => True) (of_list [1; 2; 3]) [1; 2; 3] (C28_lists _ _ _ _)).
  - intros x w _. eexists. split; [reflexivity|exact Logic.I].
Qed.
