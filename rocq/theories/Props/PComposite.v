(** C133: composites disposed by several tasks. *)
From Coq Require Import List Bool Arith Lia.
From Verif.Model Require Import Thread CompositeTasks.
From Verif.Spec Require Import LogSpec CompositeSpec.
From Verif.Proofs Require Import CompositeFacts.
Import ListNotations.

(** No action is started twice, or ends twice. *)
Theorem C133_at_most_once : forall cs s i, exec step cs init = Some s -> count (starts i) (s_log s) <= 1 /\ count (ends i) (s_log s) <= 1.
Proof.
  intros cs s i E. pose proof (exec_inv _ _ _ init_inv E) as I. split.
  - rewrite (i_once _ I). destruct (s_flags s i); lia.
  - pose proof (i_ends _ I i) as K. destruct (s_flags s i); lia.
Qed.
Print Assumptions C133_at_most_once.
(** A call starts an action only when those of all objects in front have been started. *)
Theorem C133_order : forall cs s l2 c i l1 d a b, exec step cs init = Some s -> s_log s = l2 ++ Started c i :: l1 -> In (Called c d) (s_log s) ->
  objects d = a ++ i :: b -> ~ In i a -> forall j, In j a -> has_started l1 j.
Proof.
  intros cs s l2 c i l1 d a b E L C O N j J. pose proof (exec_inv _ _ _ init_inv E) as I.
  destruct (i_order _ I _ _ _ _ L) as (d2 & C2 & K). assert (C3 : In (Called c d2) (s_log s)) by (rewrite L; apply in_or_app; right; now right).
  rewrite (i_one_call _ I _ _ _ C3 C) in K. eapply K; eassumption.
Qed.
Print Assumptions C133_order.
(** When a call has returned, the actions of all objects have been started, by this call or
    another one. *)
Theorem C133_returned_partial : forall cs s c d i, exec step cs init = Some s -> In (Called c d) (s_log s) -> In (Returned c) (s_log s) ->
  In i (objects d) -> count (starts i) (s_log s) = 1.
Proof.
  intros cs s c d i E C R J. pose proof (exec_inv _ _ _ init_inv E) as I. rewrite (i_once _ I). now rewrite (i_returned _ I _ _ R C _ J).
Qed.
Print Assumptions C133_returned_partial.
(** When all calls have returned, each action has been run once to its end. *)
Theorem C133_all_released : forall cs s c d i, exec step cs init = Some s -> all_return (s_log s) -> In (Called c d) (s_log s) -> In i (objects d) ->
  count (starts i) (s_log s) = 1 /\ count (ends i) (s_log s) = 1 /\ exists c2, In (Ended c2 i true) (s_log s).
Proof.
  intros cs s c d i E A C J. pose proof (exec_inv _ _ _ init_inv E) as I.
  pose proof (i_returned _ I _ _ (A _ _ C) C _ J) as F. split; [rewrite (i_once _ I), F; reflexivity|].
  apply (i_flags _ I) in F as F2. destruct F2 as (c2 & S2). destruct (i_start_called _ I _ _ S2) as (d2 & C2 & _).
  pose proof (A _ _ C2) as R. destruct (i_started _ I _ _ S2) as [[b B]|[rest X]].
  - destruct b; [|now destruct (i_not_both _ I c2 R (i_failed _ I _ _ B))]. split; [|now exists c2].
    pose proof (i_ends _ I i) as K. rewrite F in K.
    assert (0 < count (ends i) (s_log s)); [|lia]. unfold count.
    assert (In (Ended c2 i true) (filter (ends i) (s_log s))) by (apply filter_In; split; [exact B|cbn; apply Nat.eqb_refl]).
    destruct (filter (ends i) (s_log s)); [contradiction|cbn; lia].
  - destruct (i_over _ I c2 (or_introl R)). congruence.
Qed.
Print Assumptions C133_all_released.
(** What a call waits for is its own action, so that it ends when that ends: no deadlock. *)
Theorem C133_no_deadlock : forall cs s c d, exec step cs init = Some s -> In (Called c d) (s_log s) ->
  In (Returned c) (s_log s) \/ In (Raised c) (s_log s) \/
  exists i, In (Started c i) (s_log s) /\ (forall b, ~ In (Ended c i b) (s_log s)) /\ forall ok, exists s1, step (CEnds c ok) s = Some s1.
Proof.
  intros cs s c d E C. pose proof (exec_inv _ _ _ init_inv E) as I.
  assert (K : In (Returned c) (s_log s) \/ In (Raised c) (s_log s) \/ s_calls s c <> None).
  { revert s E I C. apply (rev_ind (fun cs => forall s, exec step cs init = Some s -> inv s -> In (Called c d) (s_log s) -> In (Returned c) (s_log s) \/ In (Raised c) (s_log s) \/ s_calls s c <> None)).
    - intros s E I C. inversion E; subst. contradiction.
    - clear cs. intros ch cs IH s E I C.
      assert (Q : exists s0, exec step cs init = Some s0 /\ step ch s0 = Some s).
      { clear - E. revert E. generalize init. induction cs as [|x cs IH]; intros s0 E; cbn in *; [destruct (step ch s0) eqn:E1; [|discriminate]; eexists; split; [reflexivity|congruence]|].
        destruct (step x s0) as [s2|]; [|discriminate]. now apply IH. }
      destruct Q as (s0 & E0 & E1). pose proof (exec_inv _ _ _ init_inv E0) as I0. specialize (IH s0 E0 I0).
      assert (G : forall c2 p s2, In (Called c d) (s_log (goes c2 p s2)) -> c = c2 \/ (In (Called c d) (s_log s2) -> In (Returned c) (s_log s2) \/ In (Raised c) (s_log s2) \/ s_calls s2 c <> None) ->
        In (Returned c) (s_log (goes c2 p s2)) \/ In (Raised c) (s_log (goes c2 p s2)) \/ s_calls (goes c2 p s2) c <> None).
      { intros c2 p s2 D [<-|H]; destruct p as [|i rest]; cbn in *.
        - now left; left.
        - right; right. now rewrite put_same.
        - destruct D as [D|D]; [discriminate|]. destruct (Nat.eq_dec c c2) as [<-|N]; [now left; left|]. destruct (H D) as [X|[X|X]]; [left; now right|right; left; now right|]. right; right. now rewrite put_other.
        - destruct D as [D|D]; [discriminate|]. destruct (Nat.eq_dec c c2) as [<-|N]; [right; right; now rewrite put_same|].
          destruct (H D) as [X|[X|X]]; [left; now right|right; left; now right|]. right; right. now rewrite put_other. }
      destruct ch as [d2|c2 ok]; cbn in E1.
      + inversion E1; subst s. apply G; [exact C|]. destruct (Nat.eq_dec c (s_count s0)) as [->|N]; [now left|]. right. cbn. intros [D|D]; [inversion D; congruence|].
        destruct (IH D) as [X|[X|X]]; auto.
      + destruct (s_calls s0 c2) as [[i rest]|] eqn:E2; [|discriminate]. destruct ok; inversion E1; subst s.
        * apply G; [exact C|]. destruct (Nat.eq_dec c c2) as [->|N]; [now left|]. right. cbn. intros [D|D]; [discriminate|]. destruct (IH D) as [X|[X|X]]; auto.
        * cbn in *. destruct C as [D|[D|D]]; try discriminate. destruct (Nat.eq_dec c c2) as [->|N]; [right; left; now left|].
          destruct (IH D) as [X|[X|X]]; [left; auto|right; left; auto|]. right; right. now rewrite put_other. }
  destruct K as [K|[K|K]]; [now left|now right; left|]. right; right. destruct (s_calls s c) as [[i rest]|] eqn:E2; [|congruence].
  destruct (i_active _ I _ _ _ E2) as (_ & S1 & _). destruct (i_ends_active _ I _ _ _ E2) as (Z & _). exists i. split; [exact S1|]. split.
  - intros b B. assert (In (Ended c i b) (filter (ends i) (s_log s))) by (apply filter_In; split; [exact B|cbn; apply Nat.eqb_refl]).
    unfold count in Z. destruct (filter (ends i) (s_log s)); [contradiction|discriminate].
  - intros []; cbn; rewrite E2; eauto.
Qed.
Print Assumptions C133_no_deadlock.

(** A composite in a composite, with an object that is in both. *)
Definition nested : member := All [One 1; All [One 2; One 1]; One 3].
(** Two tasks: the second returns while the first action still runs. *)
Theorem C133_returned_refuted : exists cs s, exec step cs init = Some s /\ In (Called 1 (All [One 1])) (s_log s) /\ In (Returned 1) (s_log s) /\
  In (Started 0 1) (s_log s) /\ count (ends 1) (s_log s) = 0.
Proof. exists [CDispose (All [One 1]); CDispose (All [One 1])]. eexists. split; [reflexivity|]. cbn. intuition. Qed.
Print Assumptions C133_returned_refuted.
(** An action that raised, or was cancelled, is not run again: later calls pass it, go on with
    the others and return. *)
Theorem C133_failed_refuted : forall cs s c i cs1 s1, exec step cs init = Some s -> In (Ended c i false) (s_log s) -> exec step cs1 s = Some s1 ->
  count (starts i) (s_log s1) = 1 /\ forall c2, ~ In (Ended c2 i true) (s_log s1).
Proof.
  intros cs s c i cs1 s1 E F E1. pose proof (exec_inv _ _ _ init_inv E) as I. pose proof (exec_inv _ _ _ I E1) as I1.
  assert (F1 : In (Ended c i false) (s_log s1)).
  { clear - F E1. revert s F E1. induction cs1 as [|ch cs1 IH]; intros s F E1; cbn in E1; [inversion E1; now subst|].
    destruct (step ch s) as [s2|] eqn:E; [|discriminate]. apply (IH s2); [|exact E1].
    destruct ch as [d|c2 ok]; cbn in E.
    - inversion E; subst. destruct (dispose_async (s_flags s) d); cbn; auto.
    - destruct (s_calls s c2) as [[j rest]|]; [|discriminate]. destruct ok; inversion E; subst; [destruct (goes_on (s_flags s) rest)|]; cbn; auto. }
  assert (Z : forall e, In e (s_log s1) -> ends i e = true -> e = Ended c i false).
  { intros e J Ee. pose proof (i_ends _ I1 i) as K. assert (L : count (ends i) (s_log s1) <= 1) by (destruct (s_flags s1 i); lia).
    unfold count in L. assert (Q1 : In e (filter (ends i) (s_log s1))) by (apply filter_In; auto).
    assert (Q2 : In (Ended c i false) (filter (ends i) (s_log s1))) by (apply filter_In; split; [exact F1|cbn; apply Nat.eqb_refl]).
    destruct (filter (ends i) (s_log s1)) as [|x [|y l]]; [contradiction| |cbn in L; lia].
    destruct Q1 as [<-|[]]. destruct Q2 as [<-|[]]. reflexivity. }
  split.
  - rewrite (i_once _ I1). pose proof (i_ends _ I1 i) as K. destruct (s_flags s1 i); [reflexivity|].
    assert (Q2 : In (Ended c i false) (filter (ends i) (s_log s1))) by (apply filter_In; split; [exact F1|cbn; apply Nat.eqb_refl]).
    unfold count in K. destruct (filter (ends i) (s_log s1)); [contradiction|cbn in K; lia].
  - intros c2 J. specialize (Z _ J). cbn in Z. rewrite Nat.eqb_refl in Z. specialize (Z eq_refl). discriminate.
Qed.
Print Assumptions C133_failed_refuted.
Example C133_all_released_instance : exists s,
  exec step [CDispose nested; CDispose nested; CEnds 0 true; CEnds 1 true; CEnds 0 true] init = Some s /\ all_return (s_log s) /\
  rev (s_log s) = [Called 0 nested; Started 0 1; Called 1 nested; Started 1 2; Ended 0 1 true; Started 0 3; Ended 1 2 true; Returned 1; Ended 0 3 true; Returned 0].
Proof. eexists. split; [reflexivity|]. split; [|reflexivity]. intros c d. cbn. intuition (try discriminate); match goal with X : Called _ _ = _ |- _ => inversion X; subst end; auto. Qed.
Example C133_failed_instance : exists s, exec step [CDispose nested; CEnds 0 true; CEnds 0 false; CDispose nested; CEnds 1 true] init = Some s /\
  rev (s_log s) = [Called 0 nested; Started 0 1; Ended 0 1 true; Started 0 2; Ended 0 2 false; Raised 0; Called 1 nested; Started 1 3; Ended 1 3 true; Returned 1].
Proof. eexists. split; reflexivity. Qed.
