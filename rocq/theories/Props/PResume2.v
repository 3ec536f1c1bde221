(** C119: filter, scan and zip asked again and again, over any source. *)
From Coq Require Import List ZArith Bool Lia.
From Verif.Model Require Import Base Gen Resume.
From Verif.Spec Require Import ResumeSpec ResumeSpec2.
From Verif.Proofs Require Import ResumeFacts ResumeFacts2.
From Verif.Props Require Import PResume.
Import ListNotations.
Local Open Scope py_scope.

(** The calls of [next()] give [os] and leave the world in [w1] exactly when the source, asked
    again and again and whatever it does after it raised or ended, and the callback make it so. *)
Theorem C119_any_source_partial : forall W A B S (src : riterable W A) w,
  (forall (p : A -> M W bool) obj w0, r_filter p src w = (Ret obj, w0) -> exists g, src w = (Ret g, w0) /\
     forall os w1, (exists h, nexts obj w0 os h w1) <-> (exists s g1, tries (keep_if p) tt g w0 os s g1 w1)) /\
  (forall (f : S -> A -> M W S) st obj w0, r_scan f st src w = (Ret obj, w0) -> exists g, src w = (Ret g, w0) /\
     forall o os w1, (exists h, nexts obj w0 (o :: os) h w1) <-> (o = Got st /\ exists s g1, tries (next_total f) st g w0 os s g1 w1)) /\
  (forall (src2 : riterable W B) obj w0, r_zip src src2 w = (Ret obj, w0) -> exists g w2 h, src w = (Ret g, w2) /\ src2 w2 = (Ret h, w0) /\
     forall os w1, (exists k, nexts obj w0 os k w1) <-> (exists g1 h1, tries_pairs g h w0 os g1 h1 w1)).
Proof.
  intros W A B S src w. split; [|split].
  - intros p obj w0 E. unfold r_filter, bind in E. destruct (src w) as [[g|e] w2]; [|discriminate]. inversion E; subst.
    exists g. split; [reflexivity|]. intros os w1. split.
    + intros [h N]. apply filter_nexts in N as (s & g1 & _ & T). eauto.
    + intros (s & g1 & T). eexists. apply filter_nexts. eauto.
  - intros f st obj w0 E. unfold r_scan, bind in E. destruct (src w) as [[g|e] w2]; [|discriminate]. inversion E; subst.
    exists g. split; [reflexivity|]. intros o os w1. split.
    + intros [h N]. inversion N as [|? ? ? ? ? ? ? ? X Y]; subst. inversion X as [? ? ? ? ? Z|? ? ? ? Z|? ? ? ? ? Z|? ? ? ? ? ? ? Z]; subst; cbn in Z; inversion Z; subst.
      split; [reflexivity|]. apply scan_nexts in Y as (s & g2 & _ & T). eauto.
    + intros (-> & s & g1 & T). eexists. eapply nxs_more; [apply nx_got; reflexivity|]. apply scan_nexts. eauto.
  - intros src2 obj w0 E. unfold r_zip, bind in E. destruct (src w) as [[g|e] w2]; [|discriminate]. destruct (src2 w2) as [[h|e] w3] eqn:E2; [|discriminate].
    inversion E; subst. exists g, w2, h. split; [reflexivity|]. split; [exact E2|]. intros os w1. split.
    + intros [k N]. apply zip_nexts in N as (g1 & h1 & _ & T). eauto.
    + intros (g1 & h1 & T). eexists. apply zip_nexts. eauto.
Qed.
Print Assumptions C119_any_source_partial.
(** A source that ends and then goes on: filter goes on as well. *)
Example C119_any_source_instance : exists s g1,
  tries (keep_if small) tt (r_script (map ret [5; 0]%Z ++ [raise StopIterationExn] ++ map ret [1; 3]%Z)) [] [Got 5; Raised ValueError; Ended; Got 3; Ended]%Z s g1 [5; 0; 1; 3]%Z.
Proof.
  do 2 eexists.
  eapply tr_given; [apply nx_got; reflexivity|reflexivity|].
  change (Raised (A := Z) ValueError) with (seen (A := Z) ValueError). eapply tr_failed; [apply nx_got; reflexivity|reflexivity|].
  eapply tr_ended; [apply nx_ended; reflexivity|].
  eapply tr_passed; [apply nx_got; reflexivity|reflexivity|].
  eapply tr_given; [apply nx_got; reflexivity|reflexivity|].
  eapply tr_ended; [apply nx_ended; reflexivity|]. apply tr_none.
Qed.
Example C119_any_source_instance2 : exists g1 h1,
  tries_pairs (r_list [1; 2; 3]%Z) (r_script [quotient 5; quotient 0; quotient 2]%Z) [] [Got (1, 2); Raised ValueError; Got (3, 5); Ended]%Z g1 h1 [5; 0; 2]%Z.
Proof.
  do 2 eexists.
  eapply tp_given; [apply nx_got; reflexivity|apply nx_got; reflexivity|].
  eapply tp_raised2; [apply nx_got; reflexivity|apply nx_raised; reflexivity|].
  eapply tp_given; [apply nx_got; reflexivity|apply nx_got; reflexivity|].
  eapply tp_ended; [apply nx_ended; reflexivity|]. apply tp_none.
Qed.
