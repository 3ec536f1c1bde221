(** Lemmas about cancellation: the theorems. *)
From Coq Require Import List Bool Arith Lia.
From Verif.Model Require Import Base Thread Cancellation.
From Verif.Spec Require Import LogSpec CancellationSpec.
From Verif.Proofs Require Import ThreadFacts CancellationFacts CancellationFacts2 CancellationFacts3 CancellationFacts4 CancellationFacts5.
Import ListNotations.

Definition R_of (s : state) : rests := fun u => rest (s_stacks s u).
Definition N_of (s : state) : nums := fun u => cancels (s_stacks s u).
Lemma inv3_ext : forall s T R N s1 T1 R1 N1, s_disposed s1 = s_disposed s -> s_listeners s1 = s_listeners s -> s_log s1 = s_log s ->
  (forall u, T1 u = T u) -> (forall u, R1 u = R u) -> (forall u, N1 u = N u) -> inv3 s T R N -> inv3 s1 T1 R1 N1.
Proof.
  intros s T R N s1 T1 R1 N1 E1 E2 E3 ET ER EN K. destruct K. constructor; rewrite ?E2, ?E3; auto.
  - intros t p. rewrite ET. apply d_cancel.
  - unfold phase in *. rewrite E1, E3. destruct (s_disposed s).
    + destruct d_phase as (P1 & P2 & P3). split; [intros u; rewrite ET; apply P1|]. split; [exact P2|].
      destruct P3 as [(t0 & A1 & A2 & A3 & A4)|[A1 (S & t0 & A2 & A3 & A4 & A5 & A6)]].
      * left. exists t0. rewrite ET. split; [exact A1|]. split; [exact A2|]. split; [intros u; rewrite ER; apply A3|intros u; rewrite ET; apply A4].
      * right. split; [intros u; rewrite ET; apply A1|]. exists S, t0. rewrite ER. split; [exact A2|]. split; [intros u; rewrite ER; apply A3|]. split; [exact A4|]. split; [exact A5|].
        destruct A6. constructor; rewrite ?E3; auto. intros u k. rewrite ET. apply n_notpre.
    + destruct d_phase as (P1 & P2 & P3 & P4). split; [exact P1|]. split; [intros u; rewrite ER; apply P2|]. split; [intros u; rewrite EN, ET; apply P3|].
      intros u. rewrite ET. apply P4.
Qed.

(** ** Calls and their ends *)
Definition other (p : option pc) : nat := match p with Some p => 1 - cancels1 (Call p) | None => 0 end.
Record inv4 (s : state) : Prop := {
  e_cancels : forall t, count (cancel_called t) (s_log s) = count (cancel_over t) (s_log s) + N_of s t;
  e_calls : forall t, count (starts t) (s_log s) = count (ends t) (s_log s) + N_of s t + other (T_of s t);
  e_invoked : forall t k, In (Invoked t k) (s_log s) -> In (CancelCalled t) (s_log s)
}.
Lemma count_in : forall t log, 1 <= count (cancel_called t) log -> In (CancelCalled t) log.
Proof. intros t log H. apply count_pos in H. destruct H as ([] & A & B); try discriminate. cbn in B. apply Nat.eqb_eq in B. subst. exact A. Qed.
Definition N1 (v : view) : nat := snd v.
Definition T1 (v : view) : option pc := fst (fst v).
(** the counts after a step, for one thread *)
Lemma vstep_counts : forall t s v v1 s1, vstep t s v v1 s1 ->
  (forall u, u <> t -> count (cancel_called u) (s_log s1) = count (cancel_called u) (s_log s) /\ count (cancel_over u) (s_log s1) = count (cancel_over u) (s_log s) /\
                       count (starts u) (s_log s1) = count (starts u) (s_log s) /\ count (ends u) (s_log s1) = count (ends u) (s_log s)) /\
  (count (cancel_called t) (s_log s1) + count (cancel_over t) (s_log s) + N1 v = count (cancel_called t) (s_log s) + count (cancel_over t) (s_log s1) + N1 v1) /\
  (count (starts t) (s_log s1) + count (ends t) (s_log s) + N1 v + other (T1 v) = count (starts t) (s_log s) + count (ends t) (s_log s1) + N1 v1 + other (T1 v1)).
Proof.
  intros t s v v1 s1 V. destruct V; try destruct ok; cbn [s_log say set_lock set_disposed set_id set_listeners add_handle claim count_call N1 T1 fst snd other cancels1 Nat.sub];
    (split; [intros u X|]); rewrite ?count_cons; cbn [cancel_called cancel_over starts ends]; rewrite ?Nat.eqb_refl;
    try (rewrite (proj2 (Nat.eqb_neq t u)) by auto); try (repeat split; lia).
  destruct (s_disposed s); cbn; lia.
Qed.
Lemma vstep_log : forall t s v v1 s1, vstep t s v v1 s1 -> s_log s1 = s_log s \/ exists e, s_log s1 = e :: s_log s.
Proof. intros t s v v1 s1 V. destruct V; cbn; eauto. Qed.
Lemma vstep_invoked : forall t s v v1 s1 u k, vstep t s v v1 s1 -> In (Invoked u k) (s_log s1) -> In (Invoked u k) (s_log s) \/ (u = t /\ exists ls, T1 v = Some (C_Next ls)).
Proof.
  intros t s v v1 s1 u k V H. destruct V; try destruct ok; cbn in H; try (left; exact H); try (destruct H as [H|H]; [discriminate|left; exact H]).
  destruct H as [H|H]; [|left; exact H]. injection H as -> ->. right. split; [reflexivity|]. eexists; reflexivity.
Qed.
Definition inv (s : state) : Prop := inv1 s /\ inv2 s (T_of s) /\ inv3 s (T_of s) (R_of s) (N_of s) /\ inv4 s.
Lemma inv_init : inv init.
Proof.
  split; [apply inv1_init|]. split; [exact inv2_init|]. split; [exact inv3_init|].
  constructor; cbn; try reflexivity. tauto.
Qed.
Lemma inv_step : forall c s s1, inv s -> step c s = Some s1 -> inv s1.
Proof.
  intros c s s1 (I & J & K & C) E. pose proof (inv1_step _ _ _ I E) as I1. pose proof (inv2_step _ _ _ I J E) as J1.
  split; [exact I1|]. split; [exact J1|]. destruct (step_view c s s1 I E) as (t & st1 & s2 & G & V & E1 & U).
  assert (ET : forall u, T_of s1 u = set_top (T_of s) t (top st1) u) by (intros u; unfold T_of, set_top; rewrite U; destruct (Nat.eqb u t); reflexivity).
  assert (ER : forall u, R_of s1 u = set_rest (R_of s) t (rest st1) u) by (intros u; unfold R_of, set_rest; rewrite U; destruct (Nat.eqb u t); reflexivity).
  assert (EN : forall u, N_of s1 u = set_num (N_of s) t (cancels st1) u) by (intros u; unfold N_of, set_num; rewrite U; destruct (Nat.eqb u t); reflexivity).
  assert (EL : s_log s1 = s_log s2) by (rewrite E1; reflexivity). split.
  - eapply inv3_ext with (s := s2); [rewrite E1; reflexivity..|exact ET|exact ER|exact EN|].
    eapply inv3_vstep; [exact J|exact (excl s I)|exact K|exact V|]. exact (inv2_vstep t s (T_of s) _ _ _ _ _ _ J (excl s I) V).
  - destruct C as [C1 C2 C3]. destruct (vstep_counts _ _ _ _ _ V) as (A1 & A2 & A3). unfold N1, T1, look in A2, A3; cbn [fst snd] in A2, A3. constructor.
    + intros u. rewrite EL, EN. unfold set_num. destruct (Nat.eqb_spec u t) as [->|X].
      * specialize (C1 t). unfold N_of in C1. lia.
      * destruct (A1 u X) as (B1 & B2 & _). rewrite B1, B2. apply C1.
    + intros u. rewrite EL, EN, ET. unfold set_num. bytop u t.
      * rewrite Nat.eqb_refl. specialize (C2 t). unfold N_of, T_of in C2. lia.
      * destruct (Nat.eqb_spec u t); [congruence|]. destruct (A1 u n) as (_ & _ & B1 & B2). rewrite B1, B2. apply C2.
    + intros u k H. rewrite EL in *. assert (M : In (CancelCalled u) (s_log s) -> In (CancelCalled u) (s_log s2)).
      { destruct (vstep_log _ _ _ _ _ V) as [->|(e & ->)]; [auto|right; assumption]. }
      destruct (vstep_invoked _ _ _ _ _ _ _ V H) as [A|[-> (ls & A)]]; [apply M, (C3 _ _ A)|]. apply M, count_in. rewrite C1. unfold N_of. unfold T1, look in A. cbn in A.
      destruct (s_stacks s t) as [|[|p] st]; try discriminate. cbn in A. injection A as ->. unfold cancels. cbn. lia.
Qed.
Lemma inv_exec : forall cs s, exec step cs init = Some s -> inv s.
Proof. intros cs s E. eapply (exec_ind step (fun _ => inv)); [exact inv_init|intros; eapply inv_step; eassumption|exact E]. Qed.

(** ** The state at an event *)
Lemma step_log : forall c s s1, inv s -> step c s = Some s1 -> s_log s1 = s_log s \/ exists e, s_log s1 = e :: s_log s.
Proof.
  intros c s s1 (I & _) E. destruct (step_view c s s1 I E) as (t & st1 & s2 & G & V & E1 & U). rewrite E1. exact (vstep_log _ _ _ _ _ V).
Qed.
Lemma exec_event : forall cs s l2 e l1, exec step cs init = Some s -> s_log s = l2 ++ e :: l1 ->
  exists cs1 c cs2 s0 s1, exec step cs1 init = Some s0 /\ step c s0 = Some s1 /\ exec step cs2 s1 = Some s /\ s_log s0 = l1 /\ s_log s1 = e :: l1.
Proof.
  intros cs s l2 e l1 E. revert l2. 
  refine (proj2 (proj2 (exec_ind step (fun cs s => inv s /\ exec step cs init = Some s /\ forall l2, s_log s = l2 ++ e :: l1 -> exists cs1 c cs2 s0 s1, exec step cs1 init = Some s0 /\ step c s0 = Some s1 /\
     exec step cs2 s1 = Some s /\ s_log s0 = l1 /\ s_log s1 = e :: l1) init _ _ cs s E))).
  - split; [exact inv_init|]. split; [reflexivity|]. intros [|? ?]; discriminate.
  - clear. intros cs c s s1 (I & E & H) S.
    assert (X : exec step (cs ++ [c]) init = Some s1).
    { clear - E S. revert E. generalize init. induction cs as [|d cs IH]; intros s0 E; cbn in *; [injection E as ->; rewrite S; reflexivity|]. destruct (step d s0); [apply IH, E|discriminate]. }
    split; [eapply inv_step; eassumption|]. split; [exact X|]. intros l2 L.
    assert (G : forall l, s_log s = l ++ e :: l1 -> exists cs1 c cs2 s0 s2, exec step cs1 init = Some s0 /\ step c s0 = Some s2 /\ exec step cs2 s2 = Some s1 /\ s_log s0 = l1 /\ s_log s2 = e :: l1).
    { intros l L1. destruct (H _ L1) as (cs1 & c1 & cs2 & s0 & s2 & A1 & A2 & A3 & A4). exists cs1, c1, (cs2 ++ [c]), s0, s2. split; [exact A1|]. split; [exact A2|]. split; [|exact A4].
      clear - A3 S. revert s2 A3. induction cs2 as [|d cs IH]; intros s0 E; cbn in *; [injection E as ->; rewrite S; reflexivity|]. destruct (step d s0); [apply IH, E|discriminate]. }
    destruct (step_log _ _ _ I S) as [L1|(x & L1)]; [apply (G l2); congruence|]. rewrite L1 in L. destruct l2 as [|y l2]; cbn in L; injection L as -> L; [|exact (G _ L)].
    exists cs, c, [], s, s1. rewrite L1, L. auto.
Qed.

Section Theorems.
  Variable cs : list choice.
  Variable s : state.
  Hypothesis E : exec step cs init = Some s.
  Let I1 : inv1 s. Proof. exact (proj1 (inv_exec _ _ E)). Qed.
  Let I2 : inv2 s (T_of s). Proof. exact (proj1 (proj2 (inv_exec _ _ E))). Qed.
  Let I3 : inv3 s (T_of s) (R_of s) (N_of s). Proof. exact (proj1 (proj2 (proj2 (inv_exec _ _ E)))). Qed.
  Let I4 : inv4 s. Proof. exact (proj2 (proj2 (proj2 (inv_exec _ _ E)))). Qed.

  Lemma late_disposed : forall e, In e (s_log s) -> shows_cancelled e -> s_disposed s = true.
  Proof.
    intros e H L. pose proof (d_phase _ _ _ _ I3) as P. unfold phase in P. destruct (s_disposed s); [reflexivity|]. destruct P as [P _]. specialize (P _ H).
    destruct e; cbn in *; try tauto; try discriminate; subst; discriminate.
  Qed.
  Lemma disposed_called : s_disposed s = true -> exists t, In (CancelCalled t) (s_log s).
  Proof. intros D. pose proof (d_phase _ _ _ _ I3) as P. unfold phase in P. rewrite D in P. destruct P as (_ & P & _). apply has_cc, P. Qed.
  (** what was called is a part of a snapshot *)
  Lemma called_part : invoked (s_log s) = [] \/ exists S, subseq (invoked (s_log s)) S /\ snap s (T_of s) S /\ (exists t0, forall u k, In (Invoked u k) (s_log s) -> u = t0).
  Proof.
    pose proof (d_phase _ _ _ _ I3) as P. unfold phase in P. destruct (s_disposed s).
    - destruct P as (_ & _ & [(t0 & _ & A & _)|[_ (S & t0 & A2 & A3 & A4 & A5 & A6)]]); [auto|]. right. exists S. split; [|split; [exact A6|eauto]].
      rewrite <- (app_nil_r (R_of s t0)) in A2. apply sub_drop in A2. rewrite app_nil_r in A2. exact A2.
    - left. apply no_late_invoked, P.
  Qed.
  Lemma nodup_count : forall k l, NoDup l -> count (Nat.eqb k) l <= 1.
  Proof.
    intros k l H. induction H as [|x l N H IH]; [cbn; lia|]. rewrite count_cons. destruct (Nat.eqb_spec k x) as [->|]; [|lia].
    assert (Z : count (Nat.eqb x) l = 0). { clear - N. induction l as [|y l IH]; [reflexivity|]. rewrite count_cons. destruct (Nat.eqb_spec x y) as [->|]; [destruct N; left; reflexivity|]. apply IH. intros H. apply N. right; exact H. }
    lia.
  Qed.
  Lemma in_count : forall k l, In k l -> 1 <= count (Nat.eqb k) l.
  Proof. induction l as [|y l IH]; intros H; [destruct H|]. rewrite count_cons. destruct H as [->|H]; [rewrite Nat.eqb_refl; lia|specialize (IH H); lia]. Qed.
  Lemma at_most_once_pf : forall k, count (is_invoked k) (s_log s) <= 1.
  Proof.
    intros k. rewrite count_invoked. destruct called_part as [->|(S & A & B & _)]; [cbn; lia|]. apply nodup_count. eapply sub_nodup; [exact A|apply (n_dup _ _ _ B)].
  Qed.
  Lemma one_thread_pf : forall t u k j, In (Invoked t k) (s_log s) -> In (Invoked u j) (s_log s) -> t = u.
  Proof.
    intros t u k j A B. destruct called_part as [X|(S & _ & _ & t0 & X)]; [|rewrite (X _ _ A), (X _ _ B); reflexivity].
    exfalso. assert (H : In k (invoked (s_log s))) by (apply invoked_in; eauto). rewrite X in H. destruct H.
  Qed.
  Lemma part_in : forall t k, In (Invoked t k) (s_log s) -> exists S, In k S /\ snap s (T_of s) S.
  Proof.
    intros t k A. assert (H : In k (invoked (s_log s))) by (apply invoked_in; eauto). destruct called_part as [X|(S & X & Y & _)]; [rewrite X in H; destruct H|].
    exists S. split; [exact (sub_in _ _ X _ H)|exact Y].
  Qed.
  Lemma raised_pf : forall t u k, In (RegisterRaised t k) (s_log s) -> ~ In (Invoked u k) (s_log s).
  Proof. intros t u k A B. destruct (part_in _ _ B) as (S & C & D). exact (n_raised _ _ _ D _ _ A C). Qed.
  Lemma unregistered_pf : forall l2 t l1 k, s_log s = l2 ++ CancelCalled t :: l1 -> no_cancel l1 -> unregistered k l1 -> forall u, ~ In (Invoked u k) (s_log s).
  Proof.
    intros l2 t l1 k L NC U u B. destruct (part_in _ _ B) as (S & C & D). apply (n_gone _ _ _ D k); [|exact C]. rewrite L, pre_split by exact NC. exact U.
  Qed.
  Lemma registered_called : forall t k, In (Invoked t k) (s_log s) -> exists u, In (RegisterCalled u k) (s_log s).
  Proof. intros t k A. destruct (part_in _ _ A) as (S & C & D). exact (n_old _ _ _ D _ C). Qed.
  Lemma no_frames : all_cancels_over (s_log s) -> forall t, R_of s t = [] /\ T_of s t <> Some C_Snapshot.
  Proof.
    intros A t. assert (Z : N_of s t = 0) by (pose proof (e_cancels _ I4 t) as B; specialize (A t); lia).
    unfold N_of, cancels in Z. unfold R_of, T_of, rest. split.
    - induction (s_stacks s t) as [|f st IH]; [reflexivity|]. cbn in *. destruct f as [|[]]; cbn in *; try lia; auto.
    - destruct (s_stacks s t) as [|[|p] st]; cbn in *; try discriminate. intros X. injection X as ->. discriminate.
  Qed.
  Lemma called_once_pf : forall l2 t l1 u k, s_log s = l2 ++ CancelCalled t :: l1 -> no_cancel l1 -> In (Registered u k) l1 ->
    (forall v, ~ In (UnregisterCalled v k) (s_log s)) -> all_cancels_over (s_log s) -> (forall v, ~ In (Aborted v) (s_log s)) -> count (is_invoked k) (s_log s) = 1.
  Proof.
    intros l2 t l1 u k L NC RK NU AO NA. pose proof (at_most_once_pf k) as M. rewrite count_invoked in *. enough (In k (invoked (s_log s))) by (apply in_count in H; lia).
    assert (D : s_disposed s = true).
    { assert (P : 1 <= count (cancel_over t) (s_log s)).
      { rewrite <- AO, L. clear. induction l2 as [|e l2 IH]; cbn [app]; rewrite count_cons; [cbn; rewrite Nat.eqb_refl; lia|lia]. }
      apply count_pos in P. destruct P as (e & P & Q). apply (late_disposed e P). destruct e; try discriminate; exact I. }
    pose proof (d_phase _ _ _ _ I3) as P. unfold phase in P. rewrite D in P. destruct P as (_ & _ & [(t0 & A & _)|[_ (S & t0 & A2 & A3 & A4 & A5 & A6)]]).
    - destruct (no_frames AO t0) as [_ X]. destruct (X A).
    - specialize (A4 NA). rewrite (proj1 (no_frames AO t0)), app_nil_r in A4. rewrite A4. eapply (n_early _ _ _ A6); [|exact NU]. rewrite L, pre_split by exact NC. exact RK.
  Qed.
  Lemma before_either : forall (log : list event) e1 e2, In e1 log -> In e2 log -> e1 <> e2 -> before log e1 e2 \/ before log e2 e1.
  Proof.
    induction log as [|x log IH]; intros e1 e2 A B N; [destruct A|]. destruct A as [A|A], B as [B|B]; try congruence.
    - right. apply before_cons. auto.
    - left. apply before_cons. auto.
    - destruct (IH _ _ A B N); [left|right]; apply before_cons; auto.
  Qed.
  Lemma invoked_app : forall l2 l1, invoked (l2 ++ l1) = invoked l1 ++ invoked l2.
  Proof. induction l2 as [|e l2 IH]; intros l1; cbn; [rewrite app_nil_r; reflexivity|]. destruct e; rewrite IH; auto. rewrite app_assoc. reflexivity. Qed.
  Lemma order_pf : forall u v a b x y, before (s_log s) (Registered u b) (RegisterCalled v a) -> In (Invoked x b) (s_log s) -> In (Invoked y a) (s_log s) ->
    before (s_log s) (Invoked x b) (Invoked y a).
  Proof.
    intros u v a b x y B IB IA.
    assert (N : a <> b).
    { intros ->. destruct B as (l2 & l1 & L & R). destruct (exec_event _ _ _ _ _ E L) as (cs1 & c & cs2 & s0 & s1 & A1 & A2 & A3 & A4 & A5).
      pose proof (inv_exec _ _ A1) as (J1 & J2 & _). destruct (a_reg _ _ J2 u b) as [Q _]; [rewrite A4; exact R|]. pose proof (a_fresh _ _ J2 _ _ Q) as F.
      destruct (step_view _ _ _ J1 A2) as (t & st1 & s2 & G & V & E1 & U). rewrite E1 in A5. cbn in A5. revert A5. rewrite <- A4. clear - F V.
      assert (Z : forall x : list event, x <> RegisterCalled v b :: x) by (intros z Ez; apply (f_equal (@length _)) in Ez; cbn in Ez; lia).
      assert (W : forall e, e :: s_log s0 = RegisterCalled v b :: s_log s0 -> e = RegisterCalled v b) by (intros e We; congruence).
      revert V. generalize (look (s_stacks s0 t)), (look st1). intros w w1 V. destruct V; try destruct ok; cbn; intros A5; try (destruct (Z _ A5)); try (apply W in A5; discriminate).
      apply W in A5. injection A5 as -> A5. lia. }
    destruct (before_either (s_log s) (Invoked x b) (Invoked y a) IB IA) as [H|H]; [congruence|exact H|]. exfalso.
    destruct called_part as [X|(S & X & Y & _)].
    - assert (H1 : In a (invoked (s_log s))) by (apply invoked_in; eauto). rewrite X in H1. destruct H1.
    - pose proof (sub_ordered _ _ _ X (n_order _ _ _ Y)) as O. destruct H as (l2 & l1 & L & R). rewrite L in O at 2. rewrite invoked_app in O. cbn in O.
      assert (H1 : In a (invoked l1)) by (apply invoked_in; eauto). clear - O H1 B. unfold ordered in O. induction (invoked l1) as [|z l IH]; [destruct H1|].
      cbn in O. inversion O; subst. destruct H1 as [->|H1]; [|exact (IH H3 H1)]. rewrite Forall_forall in H2. apply (H2 b); [rewrite !in_app_iff; cbn; auto|]. exists u, v. exact B.
  Qed.
  Lemma goes_on_pf : forall t, count (starts t) (s_log s) <> count (ends t) (s_log s) -> exists c, goes_on c /\ exists s1, step c s = Some s1.
  Proof.
    intros t H. destruct (s_lock s) as [[o n]|] eqn:L.
    - destruct (i_lock _ I1 _ _ L) as [-> C]. exists (CRun o). split; [exact I|]. cbn. destruct (s_stacks s o) as [|[|p] st]; try discriminate.
      destruct p; try discriminate; cbn; unfold unlocked; rewrite ?L; cbn; rewrite ?Nat.eqb_refl; cbn; try (eexists; reflexivity).
      destruct (dict_del i (s_listeners s)); eexists; reflexivity.
    - pose proof (e_calls _ I4 t) as A. pose proof (i_good _ I1 t) as G. pose proof (i_crit _ I1 t) as C. unfold N_of, T_of in A.
      destruct (s_stacks s t) as [|[|p] st] eqn:ES; [destruct G| |].
      + exists (CEnd t). split; [exact I|]. cbn. rewrite ES. destruct st as [|[|[]] st]; cbn in G; try tauto; [cbn in A; lia|]. eexists; reflexivity.
      + exists (CRun t). split; [exact I|]. cbn. rewrite ES. destruct G as [W _]. rewrite L in C. cbn [top] in C.
        destruct p as [| | | |ls|[|k ls]|ls|k|k|k|k i|k i|k i|k i|k i|k i|k ok]; cbn in C |- *; try (specialize (C eq_refl); discriminate); unfold locked; rewrite ?L; cbn; try (eexists; reflexivity); try discriminate.
        * destruct (s_disposed s); eexists; reflexivity.
        * destruct (existsb (Nat.eqb k) (s_claimed s)); eexists; reflexivity.
  Qed.
  (** what a step that adds an event says about the state before *)
  Lemma event_state : forall l2 e l1, s_log s = l2 ++ e :: l1 -> exists d : bool, (d = true -> exists t, In (CancelCalled t) l1) /\ (forall x, In x l1 -> shows_cancelled x -> d = true) /\
    match e with Requested _ b => b = d | Entered _ ok => ok = negb d | RegisterRaised _ _ => d = true | _ => True end.
  Proof.
    intros l2 e l1 L. destruct (exec_event _ _ _ _ _ E L) as (cs1 & c & cs2 & s0 & s1 & A1 & A2 & A3 & A4 & A5). exists (s_disposed s0). 
    pose proof (inv_exec _ _ A1) as (J1 & J2 & J3 & J4). pose proof (d_phase _ _ _ _ J3) as P. unfold phase in P. split; [|split].
    - intros D. rewrite D in P. destruct P as (_ & P & _). rewrite <- A4. apply has_cc, P.
    - intros x X Y. destruct (s_disposed s0); [reflexivity|]. destruct P as [P _]. rewrite <- A4 in X. specialize (P _ X). destruct x; cbn in *; try tauto; try discriminate; subst; discriminate.
    - destruct (step_view _ _ _ J1 A2) as (t & st1 & s2 & G & V & E1 & U). rewrite E1 in A5. cbn in A5. revert A5. rewrite <- A4. clear - V.
      assert (Z : forall x : list event, x <> e :: x) by (intros z Ez; apply (f_equal (@length _)) in Ez; cbn in Ez; lia).
      assert (W : forall x, x :: s_log s0 = e :: s_log s0 -> x = e) by (intros x We; congruence).
      revert V. generalize (look (s_stacks s0 t)), (look st1). intros w w1 V. destruct V; try destruct ok; cbn; intros A5; try (destruct (Z _ A5)); apply W in A5; subst e; auto.
  Qed.
  Lemma flag_pf : forall l2 t b l1, s_log s = l2 ++ Requested t b :: l1 ->
    ((exists e, In e l1 /\ shows_cancelled e) -> b = true) /\ (no_cancel l1 -> b = false).
  Proof.
    intros l2 t b l1 L. destruct (event_state _ _ _ L) as (d & A & B & C). subst b. split.
    - intros (e & X & Y). eapply B; eassumption.
    - intros N. destruct d; [|reflexivity]. destruct (A eq_refl) as (u & X). destruct (N u X).
  Qed.
  Lemma enter_pf : forall l2 t ok l1, s_log s = l2 ++ Entered t ok :: l1 ->
    ((exists e, In e l1 /\ shows_cancelled e) -> ok = false) /\ (no_cancel l1 -> ok = true).
  Proof.
    intros l2 t b l1 L. destruct (event_state _ _ _ L) as (d & A & B & C). subst b. split.
    - intros (e & X & Y). rewrite (B _ X Y). reflexivity.
    - intros N. destruct d; [|reflexivity]. destruct (A eq_refl) as (u & X). destruct (N u X).
  Qed.
  Lemma raised_after_pf : forall l2 t k l1, s_log s = l2 ++ RegisterRaised t k :: l1 -> ~ no_cancel l1.
  Proof. intros l2 t k l1 L N. destruct (event_state _ _ _ L) as (d & A & B & C). destruct (A C) as (u & X). exact (N u X). Qed.
  Lemma invoked_after_pf : forall l2 t k l1, s_log s = l2 ++ Invoked t k :: l1 -> In (CancelCalled t) l1 /\ exists u, In (RegisterCalled u k) l1.
  Proof.
    intros l2 t k l1 L. destruct (exec_event _ _ _ _ _ E L) as (cs1 & c & cs2 & s0 & s1 & A1 & A2 & A3 & A4 & A5).
    pose proof (inv_exec _ _ A1) as J0. pose proof (inv_step _ _ _ J0 A2) as (J1 & J2 & J3 & J4). split.
    - pose proof (e_invoked _ J4 t k) as X. rewrite A5 in X. destruct (X (or_introl eq_refl)) as [Y|Y]; [discriminate|exact Y].
    - assert (X : exec step (cs1 ++ [c]) init = Some s1).
      { clear - A1 A2. revert A1. generalize init. induction cs1 as [|d cs IH]; intros x X; cbn in *; [injection X as ->; rewrite A2; reflexivity|]. destruct (step d x); [apply IH, X|discriminate]. }
      clear E I1 I2 I3 I4 L. assert (Y : exists u, In (RegisterCalled u k) (s_log s1)).
      { pose proof (d_phase _ _ _ _ J3) as P. unfold phase in P. destruct (s_disposed s1).
        - destruct P as (_ & _ & [(t0 & _ & A & _)|[_ (S & t0 & B2 & B3 & B4 & B5 & B6)]]).
          + assert (H : In k (invoked (s_log s1))) by (apply invoked_in; rewrite A5; exists t; left; reflexivity). rewrite A in H. destruct H.
          + apply (n_old _ _ _ B6). eapply sub_in; [exact B2|]. apply in_app_iff. left. apply invoked_in. rewrite A5. exists t. left; reflexivity.
        - destruct P as [P _]. specialize (P (Invoked t k)). rewrite A5 in P. specialize (P (or_introl eq_refl)). discriminate. }
      destruct Y as (u & Y). rewrite A5 in Y. destruct Y as [Y|Y]; [discriminate|eauto].
  Qed.
End Theorems.

(** ** Registering after cancel *)
Definition late (k : nat) (s : state) : Prop :=
  s_disposed s = true /\ (forall u p, T_of s u = Some p -> inreg (Some p) = Some k -> p = R_Check k) /\ (forall u, ~ In (Registered u k) (s_log s)).
Lemma late_step : forall k c s s1, inv1 s -> late k s -> step c s = Some s1 -> late k s1.
Proof.
  intros k c s s1 B1 (Q1 & Q2 & Q3) A2. destruct (step_view _ _ _ B1 A2) as (t1 & st1 & s2 & G & V & E1 & U).
  assert (ET : forall u, T_of s1 u = set_top (T_of s) t1 (top st1) u) by (intros u; unfold T_of, set_top; rewrite U; destruct (Nat.eqb u t1); reflexivity).
  assert (G1 : s_disposed s2 = true /\ (forall p, top st1 = Some p -> inreg (Some p) = Some k -> p = R_Check k) /\ (forall u, ~ In (Registered u k) (s_log s2))).
  { pose proof (Q2 t1) as Q2t. unfold look, T_of in *. clear - V Q1 Q2t Q3.
    remember (top (s_stacks s t1), rest (s_stacks s t1), cancels (s_stacks s t1)) as v eqn:Ev. remember (top st1, rest st1, cancels st1) as v1 eqn:Ev1.
    destruct V; injection Ev; injection Ev1; intros EN1 ER1 EQ EN ER ET; rewrite <- EQ; rewrite <- ET in Q2t; clear Ev Ev1 EN1 ER1 EQ EN ER ET;
      try destruct ok; cbn [s_disposed s_log say set_lock set_disposed set_id set_listeners add_handle claim count_call];
      (split; [auto|]); (split; [intros p H0 H1; try discriminate H0; injection H0 as <-; try (destruct (s_disposed s)); cbn in H1; try discriminate H1; try injection H1 as ->|]); auto;
      try (intros u [H0|H0]; [try discriminate H0|exact (Q3 _ H0)]); try congruence; try (specialize (Q2t _ eq_refl eq_refl); congruence).
    injection H0 as -> ->. specialize (Q2t _ eq_refl eq_refl). discriminate. }
  destruct G1 as (G1 & G2 & G3). rewrite E1. split; [exact G1|]. split; [|exact G3]. intros u p. rewrite <- E1, ET. bytop u t1; [apply G2|apply Q2].
Qed.
Lemma late_exec : forall k cs s s1, inv s -> late k s -> exec step cs s = Some s1 -> late k s1.
Proof.
  induction cs as [|c cs IH]; intros s s1 I L E; cbn in E; [injection E as <-; exact L|]. destruct (step c s) as [s2|] eqn:S; [|discriminate].
  eapply IH; [eapply inv_step; eassumption|eapply late_step; [exact (proj1 I)|exact L|exact S]|exact E].
Qed.
Lemma register_late_pf : forall cs s l2 t k l1, exec step cs init = Some s -> s_log s = l2 ++ RegisterCalled t k :: l1 -> (exists e, In e l1 /\ shows_cancelled e) ->
  forall u, ~ In (Registered u k) (s_log s).
Proof.
  intros cs s l2 t k l1 E L (e & X & Y). destruct (exec_event _ _ _ _ _ E L) as (cs1 & c & cs2 & s0 & s1 & A1 & A2 & A3 & A4 & A5).
  pose proof (inv_exec _ _ A1) as J0. pose proof (inv_step _ _ _ J0 A2) as J1.
  assert (D0 : s_disposed s0 = true) by (eapply late_disposed; [exact A1|rewrite A4; exact X|exact Y]).
  apply (late_exec k cs2 s1 s J1); [|exact A3].
  destruct J0 as (B1 & B2 & B3 & B4). destruct (step_view _ _ _ B1 A2) as (t1 & st1 & s2 & G & V & E1 & U).
  assert (EQ : s_log s2 = RegisterCalled t k :: s_log s0) by (rewrite E1 in A5; cbn in A5; congruence).
  assert (ET : forall u, T_of s1 u = set_top (T_of s0) t1 (top st1) u) by (intros u; unfold T_of, set_top; rewrite U; destruct (Nat.eqb u t1); reflexivity).
  assert (Z : forall x : list event, x <> RegisterCalled t k :: x) by (intros z Ez; apply (f_equal (@length _)) in Ez; cbn in Ez; lia).
  assert (W : forall x, x :: s_log s0 = RegisterCalled t k :: s_log s0 -> x = RegisterCalled t k) by (intros x We; congruence).
  assert (F : forall u, ~ In (RegisterCalled u (s_calls s0)) (s_log s0)) by (intros u H; pose proof (a_fresh _ _ B2 _ _ H); lia).
  assert (V2 : k = s_calls s0 /\ top st1 = Some (R_Check k) /\ s2 = say (RegisterCalled t k) (count_call s0)).
  { unfold look in *. clear - V EQ Z W. remember (top st1, rest st1, cancels st1) as v1 eqn:Ev1. revert V. generalize (top (s_stacks s0 t1), rest (s_stacks s0 t1), cancels (s_stacks s0 t1)). intros v V.
    destruct V; try destruct ok; cbn in EQ; try (destruct (Z _ EQ)); apply W in EQ; try discriminate. injection EQ as -> <-. injection Ev1; intros; subst. auto. }
  destruct V2 as (-> & V2 & ->). rewrite E1. split; [exact D0|]. split.
  - rewrite <- E1. intros u p. rewrite ET. bytop u t1.
    + rewrite V2. intros H _. injection H as <-. reflexivity.
    + intros H1 H2. rewrite <- H1 in H2. destruct (a_inreg _ _ B2 _ _ H2) as [H _]. destruct (F _ H).
  - intros u [H|H]; [discriminate|]. destruct (a_reg _ _ B2 _ _ H) as [H1 _]. exact (F _ H1).
Qed.

(** ** Every call of register ends in one of two ways *)
Definition settled (s : state) : Prop :=
  forall t k, In (RegisterCalled t k) (s_log s) -> inreg (T_of s t) = Some k \/ In (Registered t k) (s_log s) \/ In (RegisterRaised t k) (s_log s).
Lemma settled_step : forall c s s1, inv1 s -> settled s -> step c s = Some s1 -> settled s1.
Proof.
  intros c s s1 B1 Q A2. destruct (step_view _ _ _ B1 A2) as (t1 & st1 & s2 & G & V & E1 & U).
  assert (ET : forall u, T_of s1 u = set_top (T_of s) t1 (top st1) u) by (intros u; unfold T_of, set_top; rewrite U; destruct (Nat.eqb u t1); reflexivity).
  assert (L : incl (s_log s) (s_log s2)) by (destruct (vstep_log _ _ _ _ _ V) as [->|(e & ->)]; [apply incl_refl|apply incl_tl, incl_refl]).
  assert (G1 : forall t k, In (RegisterCalled t k) (s_log s2) -> In (RegisterCalled t k) (s_log s) \/ (t = t1 /\ inreg (top st1) = Some k)).
  { unfold look in V. clear - V. intros t k. remember (top st1, rest st1, cancels st1) as v1 eqn:Ev1. revert V. generalize (top (s_stacks s t1), rest (s_stacks s t1), cancels (s_stacks s t1)). intros v V.
    destruct V; try destruct ok; cbn; try (intros [H1|H1]; [try discriminate H1|]; auto); auto. injection H1 as <- <-. injection Ev1 as <- _ _. auto. }
  assert (G2 : forall k, inreg (T_of s t1) = Some k -> inreg (top st1) = Some k \/ In (Registered t1 k) (s_log s2) \/ In (RegisterRaised t1 k) (s_log s2)).
  { unfold look, T_of in *. clear - V. intros k. remember (top (s_stacks s t1), rest (s_stacks s t1), cancels (s_stacks s t1)) as v eqn:Ev. remember (top st1, rest st1, cancels st1) as v1 eqn:Ev1.
    destruct V; injection Ev as <- _ _; injection Ev1 as <- _ _; cbn; try discriminate; auto; intros H1; injection H1 as ->; auto. }
  rewrite E1. intros t k H. cbn in H. cbn [s_log with_stacks]. rewrite <- E1, ET.
  destruct (G1 _ _ H) as [H1|[-> H1]]; [|rewrite set_top_same; auto]. destruct (Q _ _ H1) as [H2|[H2|H2]]; auto. bytop t t1; auto.
Qed.
Lemma register_ends_pf : forall cs s t k, exec step cs init = Some s -> In (RegisterCalled t k) (s_log s) -> count (starts t) (s_log s) = count (ends t) (s_log s) ->
  In (Registered t k) (s_log s) \/ In (RegisterRaised t k) (s_log s).
Proof.
  intros cs s t k E H C. pose proof (inv_exec _ _ E) as (_ & _ & _ & J).
  assert (Q : settled s).
  { refine (proj2 (exec_ind step (fun _ s => inv s /\ settled s) init _ _ cs s E)).
    - split; [exact inv_init|]. intros u j [].
    - intros _ c x x1 [A B] D. split; [eapply inv_step; eassumption|eapply settled_step; [exact (proj1 A)|exact B|exact D]]. }
  destruct (Q _ _ H) as [X|X]; [|exact X]. exfalso. pose proof (e_calls _ J t) as Y. destruct (T_of s t) as [[]|]; cbn in *; try discriminate; lia.
Qed.

(** ** When cancel is over nothing more is called *)
Definition finished (s : state) : Prop := s_disposed s = true /\ forall t, R_of s t = [] /\ T_of s t <> Some C_Snapshot /\ T_of s t <> Some C_Set.
Lemma finished_step : forall c s s1, inv1 s -> finished s -> step c s = Some s1 -> finished s1 /\ invoked (s_log s1) = invoked (s_log s).
Proof.
  intros c s s1 B1 [D Q] A2. destruct (step_view _ _ _ B1 A2) as (t1 & st1 & s2 & G & V & E1 & U). pose proof (Q t1) as (Q1 & Q2 & Q3). unfold T_of, R_of, look in *.
  assert (G1 : s_disposed s2 = true /\ rest st1 = [] /\ top st1 <> Some C_Snapshot /\ top st1 <> Some C_Set /\ invoked (s_log s2) = invoked (s_log s)).
  { clear - D V Q1 Q2 Q3. remember (top (s_stacks s t1), rest (s_stacks s t1), cancels (s_stacks s t1)) as v eqn:Ev. remember (top st1, rest st1, cancels st1) as v1 eqn:Ev1.
    destruct V; injection Ev; injection Ev1; intros EN1 ER1 EQ EN ER ET; rewrite <- EQ, <- ER1; rewrite <- ET in Q2, Q3; rewrite <- ER in Q1; clear Ev Ev1 EN1 ER1 EQ EN ER ET;
      try destruct ok; cbn; repeat split; auto; try discriminate; try congruence; try (apply app_eq_nil in Q1; tauto).
    - rewrite D. discriminate.
    - rewrite D. discriminate. }
  destruct G1 as (G1 & G2 & G3 & G4 & G5). split; [|rewrite E1; exact G5]. split; [rewrite E1; exact G1|]. intros t. unfold T_of, R_of. rewrite U. destruct (Nat.eqb t t1); [auto|apply Q].
Qed.
Lemma finished_exec : forall cs s s1, inv s -> finished s -> exec step cs s = Some s1 -> invoked (s_log s1) = invoked (s_log s).
Proof.
  induction cs as [|c cs IH]; intros s s1 I F E; cbn in E; [congruence|]. destruct (step c s) as [s2|] eqn:S; [|discriminate].
  destruct (finished_step _ _ _ (proj1 I) F S) as [F2 <-]. eapply IH; [eapply inv_step; eassumption|exact F2|exact E].
Qed.
Lemma nothing_more_pf : forall cs s t cs1 s1, exec step cs init = Some s -> In (CancelCalled t) (s_log s) -> all_cancels_over (s_log s) ->
  exec step cs1 s = Some s1 -> invoked (s_log s1) = invoked (s_log s).
Proof.
  intros cs s t cs1 s1 E H A E1. pose proof (inv_exec _ _ E) as I. eapply finished_exec; [exact I| |exact E1].
  assert (D : s_disposed s = true).
  { assert (P : 1 <= count (cancel_over t) (s_log s)).
    { rewrite <- A. clear - H. induction (s_log s) as [|e l IH]; [destruct H|]. rewrite count_cons. destruct H as [->|H]; [cbn; rewrite Nat.eqb_refl; lia|specialize (IH H); lia]. }
    apply count_pos in P. destruct P as (e & P & Q). apply (late_disposed _ _ E e P). destruct e; try discriminate; constructor. }
  split; [exact D|]. intros u. destruct (no_frames _ _ E A u) as [X Y]. split; [exact X|]. split; [exact Y|].
  destruct I as (_ & _ & I & _). pose proof (d_phase _ _ _ _ I) as P. unfold phase in P. rewrite D in P. apply P.
Qed.
