(** Lemmas about cancellation: the invariant about what cancel calls is preserved. *)
From Coq Require Import List Bool Arith Lia.
From Verif.Model Require Import Base Thread Cancellation.
From Verif.Spec Require Import LogSpec CancellationSpec.
From Verif.Proofs Require Import ThreadFacts CancellationFacts CancellationFacts2 CancellationFacts3 CancellationFacts4.
Import ListNotations.

Section Step.
  Variable s : state.
  Variable T : tops.
  Variable R : rests.
  Variable N : nums.
  Variable t : nat.
  Hypothesis J : inv2 s T.
  Hypothesis K : inv3 s T R N.

  Lemma phase_mark : mark (T t) = true -> T t <> Some C_Set -> s_disposed s = true.
  Proof.
    intros A B. pose proof (d_phase _ _ _ _ K) as P. unfold phase in P. destruct (s_disposed s); [reflexivity|]. destruct P as (_ & _ & _ & P). elim B. auto.
  Qed.
  Lemma phase_num : T t = None -> N t <> 0 -> s_disposed s = true.
  Proof.
    intros A B. pose proof (d_phase _ _ _ _ K) as P. unfold phase in P. destruct (s_disposed s); [reflexivity|]. destruct P as (_ & _ & P & _). elim B. rewrite P, A. reflexivity.
  Qed.
  Lemma phase_same : s_disposed s = false -> N t = own (T t).
  Proof. intros A. pose proof (d_phase _ _ _ _ K) as P. unfold phase in P. rewrite A in P. apply P. Qed.

  Lemma p_set : (forall t u, critical (T t) = true -> critical (T u) = true -> t = u) -> T t = Some C_Set ->
    phase (set_disposed s) (set_top T t (Some C_Snapshot)) (set_rest R t (R t)) (set_num N t (N t)).
  Proof.
    intros EX ET. pose proof (d_phase _ _ _ _ K) as P. unfold phase in *. cbn.
    destruct (s_disposed s) eqn:D; [destruct P as [P _]; destruct (P _ ET)|]. destruct P as (P1 & P2 & P3 & P4).
    split; [|split].
    - intros u. bytop u t; [discriminate|]. intros E. apply n. apply EX; [rewrite E|rewrite ET]; reflexivity.
    - eapply (d_cancel _ _ _ _ K); [exact ET|reflexivity].
    - left. exists t. rewrite set_top_same. split; [reflexivity|]. split; [apply no_late_invoked, P1|]. split.
      + intros u. rewrite set_rest_same. apply P2.
      + intros u. bytop u t; [auto|]. intros E. specialize (P4 u). rewrite E in P4. specialize (P4 eq_refl). discriminate.
  Qed.
  Lemma p_snapshot : T t = Some C_Snapshot ->
    phase s (set_top T t (Some (C_Release (map snd (s_listeners s))))) (set_rest R t (map snd (s_listeners s) ++ R t)) (set_num N t (N t)).
  Proof.
    intros ET. assert (D : s_disposed s = true) by (apply phase_mark; rewrite ET; [reflexivity|discriminate]).
    pose proof (d_phase _ _ _ _ K) as P. unfold phase in *. rewrite D in *. destruct P as (P1 & P2 & [(t0 & A1 & A2 & A3 & A4)|[A _]]); [|destruct (A _ ET)].
    assert (t0 = t) by (symmetry; apply A4, ET). subst t0. split; [|split; [exact P2|]].
    - intros u. bytop u t; [discriminate|apply P1].
    - right. split; [intros u; bytop u t; [discriminate|]; intros X; apply n, A4, X|].
      exists (map snd (s_listeners s)), t. rewrite A2, set_rest_this, A3, app_nil_r. split; [apply sub_refl|]. split; [|split; [|split]].
      + intros u X. rewrite set_rest_other by exact X. apply A3.
      + reflexivity.
      + intros u k X. assert (In k (invoked (s_log s))) by (apply invoked_in; eauto). rewrite A2 in H. destruct H.
      + constructor.
        * apply (a_labels _ _ J).
        * exact P2.
        * intros u k X Y. destruct (a_reg _ _ J u k (pre_incl _ _ X)) as [_ (i & H)]. destruct (a_live _ _ J _ _ H) as [L|L].
          -- apply in_map_iff. exists (i, k). auto.
          -- destruct (a_claimed _ _ J _ L) as (v & C). destruct (Y v C).
        * apply (d_gone _ _ _ _ K).
        * apply (d_order _ _ _ _ K).
        * intros k H. apply in_map_iff in H. destruct H as ([i x] & E & H). cbn in E. subst. apply (a_list _ _ J _ _ H).
        * intros u k X H. apply in_map_iff in H. destruct H as ([i x] & E & H). cbn in E. subst. bytop u t; [discriminate|]. exact (a_pre _ _ J _ _ i X H).
        * intros u k X H. apply in_map_iff in H. destruct H as ([i x] & E & H). cbn in E. subst. destruct (a_raised _ _ J _ _ X) as (_ & _ & Y & _). exact (Y _ H).
  Qed.
  Lemma snap_say : forall S e q, snap s T S -> prestore q = None -> (forall v a, e <> RegisterCalled v a) -> (forall v a, e <> RegisterRaised v a) -> snap (say e s) (set_top T t q) S.
  Proof.
    intros S e q H Q E1 E2. eapply snap_step; [exact J|exact H| |].
    - right. exists e. split; [reflexivity|]. split; intros v a X; [destruct (E1 _ _ X)|destruct (E2 _ _ X)].
    - intros k X. congruence.
  Qed.
  Lemma p_invoke : forall k ls r, T t = Some (C_Next (k :: ls)) -> R t = k :: ls ++ r ->
    phase (say (Invoked t k) s) (set_top T t None) (set_rest R t (ls ++ r)) (set_num N t (N t)).
  Proof.
    intros k ls r ET ER. assert (D : s_disposed s = true) by (apply phase_mark; rewrite ET; [reflexivity|discriminate]).
    pose proof (d_phase _ _ _ _ K) as P. unfold phase in *. cbn. rewrite D in *. destruct P as (P1 & P2 & [(t0 & A1 & A2 & A3 & A4)|[A1 (S & t0 & A2 & A3 & A4 & A5 & A6)]]).
    { rewrite A3 in ER. discriminate. }
    assert (t = t0). { destruct (Nat.eq_dec t t0) as [E|E]; [exact E|]. rewrite A3 in ER by exact E. discriminate. } subst t0.
    assert (EQ : (invoked (s_log s) ++ [k]) ++ ls ++ r = invoked (s_log s) ++ R t) by (rewrite ER, <- app_assoc; reflexivity).
    split; [intros u; bytop u t; [discriminate|apply P1]|]. split; [exact P2|]. right. split; [intros u; bytop u t; [discriminate|apply A1]|].
    exists S, t. rewrite set_rest_this, EQ. split; [exact A2|]. split; [intros u X; rewrite set_rest_other by exact X; auto|]. split; [|split].
    - intros X. apply A4. intros u Y. apply (X u). right; exact Y.
    - intros u j [X|X]; [congruence|eapply A5; exact X].
    - apply snap_say; [exact A6|reflexivity|discriminate|discriminate].
  Qed.
  Lemma p_abort : forall ls r n, T t = None -> R t = ls ++ r -> N t = S n ->
    phase (say (Aborted t) s) (set_top T t None) (set_rest R t r) (set_num N t n).
  Proof.
    intros ls r n ET ER EN. assert (D : s_disposed s = true) by (apply phase_num; congruence).
    pose proof (d_phase _ _ _ _ K) as P. unfold phase in *. cbn. rewrite D in *. destruct P as (P1 & P2 & P3).
    split; [intros u; bytop u t; [discriminate|apply P1]|]. split; [exact P2|]. destruct P3 as [(t0 & A1 & A2 & A3 & A4)|[A1 (S & t0 & A2 & A3 & A4 & A5 & A6)]].
    - left. exists t0. rewrite set_top_other by congruence. split; [exact A1|]. split; [exact A2|]. split.
      + intros u. unfold set_rest. destruct (Nat.eqb_spec u t); [|apply A3]. rewrite A3 in ER. symmetry in ER. apply app_eq_nil in ER. tauto.
      + intros u. bytop u t; [discriminate|apply A4].
    - right. split; [intros u; bytop u t; [discriminate|apply A1]|]. exists S, t0. split; [|split; [|split; [|split]]].
      + destruct (Nat.eq_dec t0 t) as [->|X]; [rewrite set_rest_this|rewrite set_rest_other by exact X; exact A2]. apply (sub_drop _ ls). rewrite <- ER. exact A2.
      + intros u X. unfold set_rest. destruct (Nat.eqb_spec u t) as [->|]; [|apply A3; exact X]. rewrite A3 in ER by exact X. symmetry in ER. apply app_eq_nil in ER. tauto.
      + intros X. destruct (X t). left; reflexivity.
      + intros u j [X|X]; [discriminate|eapply A5; exact X].
      + apply snap_say; [exact A6|reflexivity|discriminate|discriminate].
  Qed.

  (** everything but the phase, when the listeners stay *)
  Lemma inv3_still : forall q r1 n1 s1, inv2 s1 (set_top T t q) -> s_listeners s1 = s_listeners s ->
    (s_log s1 = s_log s \/ exists e, s_log s1 = e :: s_log s /\ forall v a, e = RegisterCalled v a -> a = s_calls s) ->
    (own q = 0 \/ own (T t) = 1 \/ s_log s1 = CancelCalled t :: s_log s \/ existsb is_cc (s_log s) = true) ->
    phase s1 (set_top T t q) (set_rest R t r1) (set_num N t n1) -> inv3 s1 (set_top T t q) (set_rest R t r1) (set_num N t n1).
  Proof.
    intros q r1 n1 s1 J1 EL L C P. constructor; [| | |exact P].
    - eapply gone_step; [exact J|exact J1|exact (d_gone _ _ _ _ K)| |].
      + destruct L as [L|(e & L & _)]; [auto|]. right. exists e. auto.
      + intros k. rewrite EL. auto.
    - rewrite EL. destruct L as [->|(e & -> & L)]; [exact (d_order _ _ _ _ K)|]. apply ordered_log; [exact (d_order _ _ _ _ K)|].
      intros v a E H. rewrite (L _ _ E) in H. apply in_map_iff in H. destruct H as ([i x] & E1 & H). cbn in E1. subst x.
      destruct (a_list _ _ J _ _ H) as [(u & X) _]. pose proof (a_fresh _ _ J _ _ X). lia.
    - assert (LC : existsb is_cc (s_log s) = true -> existsb is_cc (s_log s1) = true).
      { destruct L as [->|(e & -> & _)]; [auto|]. cbn. intros ->. apply orb_true_r. }
      intros u p. bytop u t; intros E1 E2; [|apply LC; eapply (d_cancel _ _ _ _ K); eassumption].
      subst q. cbn [own] in C. rewrite E2 in C. destruct C as [C|[C|[C|C]]]; [discriminate| | |apply LC, C].
      + apply LC. unfold own in C. destruct (T t) as [p1|] eqn:ET; [|discriminate]. eapply (d_cancel _ _ _ _ K); eassumption.
      + rewrite C. reflexivity.
  Qed.
End Step.

Lemma inv3_vstep : forall t s T R N q r1 n1 s1, inv2 s T -> (forall t u, critical (T t) = true -> critical (T u) = true -> t = u) -> inv3 s T R N ->
  vstep t s (T t, R t, N t) (q, r1, n1) s1 -> inv2 s1 (set_top T t q) -> inv3 s1 (set_top T t q) (set_rest R t r1) (set_num N t n1).
Proof.
  intros t s T R N q r1 n1 s1 J EX K V. remember (T t, R t, N t) as v eqn:Ev. remember (q, r1, n1) as v1 eqn:Ev1.
  pose proof (d_phase _ _ _ _ K) as P. pose proof (phase_same s T R N t K) as PS.
  destruct V; injection Ev; injection Ev1; intros EN1 ER1 EQ EN ER ET J1; symmetry in ET; subst; clear Ev Ev1.
  (* steps where the listeners stay and the phase is quiet *)
  Ltac quiet J K ET PS := eapply inv3_still; [exact J|exact K|assumption|reflexivity| | |
    eapply phase_quiet; [exact J|exact (d_phase _ _ _ _ K)|rewrite ET; try discriminate|split; try discriminate|
      intros DF MQ; try discriminate MQ|reflexivity|intros DF; specialize (PS DF); rewrite ET in PS; cbn in *; try congruence|try (left; reflexivity)|rewrite ET; cbn; try discriminate; auto]].
  - quiet J K ET PS.
    + right. eexists. split; [reflexivity|]. discriminate.
    + right. right. left. reflexivity.
    + right. eexists. split; [reflexivity|]. repeat split; discriminate.
  - quiet J K ET PS.
    + right. eexists. split; [reflexivity|]. intros v a E. injection E as _ <-. reflexivity.
    + left. reflexivity.
    + right. eexists. split; [reflexivity|]. repeat split; try discriminate. intros v a E. injection E as _ <-. reflexivity.
    + intros k E. injection E as <-. auto.
  - quiet J K ET PS.
    + right. eexists. split; [reflexivity|]. discriminate.
    + left. reflexivity.
    + right. eexists. split; [reflexivity|]. repeat split; discriminate.
  - quiet J K ET PS.
    + right. eexists. split; [reflexivity|]. discriminate.
    + left. reflexivity.
    + right. eexists. split; [reflexivity|]. repeat split; try discriminate. intros ->. reflexivity.
  - quiet J K ET PS.
    + right. eexists. split; [reflexivity|]. discriminate.
    + left. reflexivity.
    + right. eexists. split; [reflexivity|]. repeat split; try discriminate. intros ->. reflexivity.
  - (* end of a listener *)
    assert (D : s_disposed s = true) by (eapply phase_num; [exact K|exact ET|congruence]). rewrite ER. quiet J K ET PS.
    + left. reflexivity.
    + right. right. right. unfold phase in P. rewrite D in P. apply P.
    + congruence.
  - (* a listener is stopped *)
    eapply inv3_still; [exact J|exact K|assumption|reflexivity| | |].
    + right. eexists. split; [reflexivity|]. discriminate.
    + left. reflexivity.
    + eapply p_abort; eauto.
  - quiet J K ET PS.
    + left. reflexivity.
    + right. left. rewrite ET. reflexivity.
  - quiet J K ET PS.
    + left. reflexivity.
    + right. left. rewrite ET. reflexivity.
    + rewrite H. discriminate.
    + rewrite H. discriminate.
    + rewrite DF. reflexivity.
    + rewrite DF in *. exact PS.
    + intros k. destruct (s_disposed s); discriminate.
  - eapply inv3_still; [exact J|exact K|assumption|reflexivity|left; reflexivity|right; left; rewrite ET; reflexivity|]. apply p_set; assumption.
  - eapply inv3_still; [exact J|exact K|assumption|reflexivity|left; reflexivity|right; left; rewrite ET; reflexivity|]. apply p_snapshot; assumption.
  - assert (D : s_disposed s = true) by (eapply phase_mark; [exact K|rewrite ET; reflexivity|rewrite ET; discriminate]). quiet J K ET PS.
    + left. reflexivity.
    + right. left. rewrite ET. reflexivity.
    + congruence.
  - assert (D : s_disposed s = true) by (eapply phase_mark; [exact K|rewrite ET; reflexivity|rewrite ET; discriminate]). quiet J K ET PS.
    + right. eexists. split; [reflexivity|]. discriminate.
    + left. reflexivity.
    + right. eexists. split; [reflexivity|]. repeat split; try discriminate. congruence.
  - eapply inv3_still; [exact J|exact K|assumption|reflexivity| | |].
    + right. eexists. split; [reflexivity|]. discriminate.
    + left. reflexivity.
    + eapply p_invoke; eauto.
  - quiet J K ET PS.
    + right. eexists. split; [reflexivity|]. discriminate.
    + left. reflexivity.
    + right. eexists. split; [reflexivity|]. repeat split; try discriminate; [|congruence]. intros v a E. injection E as _ <-. rewrite ET. reflexivity.
  - quiet J K ET PS; left; reflexivity.
  - quiet J K ET PS; left; reflexivity.
  - quiet J K ET PS; left; reflexivity.
  - (* store *)
    destruct (a_inreg _ _ J t k) as [RC NH]; [rewrite ET; reflexivity|].
    assert (NL : forall j, ~ In (j, k) (s_listeners s)) by (intros j; apply (a_pre _ _ J t); rewrite ET; reflexivity).
    assert (EI : i = s_id s) by (apply (a_id _ _ J t); rewrite ET; reflexivity).
    assert (EL : dict_set i k (s_listeners s) = s_listeners s ++ [(i, k)]).
    { eapply set_fresh; eauto. }
    constructor; cbn [s_listeners set_listeners].
    + eapply gone_step; [exact J|exact J1|exact (d_gone _ _ _ _ K)|left; reflexivity|]. cbn [s_listeners set_listeners]. rewrite EL, map_app. intros j X.
      apply in_app_iff in X. destruct X as [X|[<-|[]]]; [auto|]. right. intros u X. destruct (a_called _ _ J _ _ X) as (y & Y). exact (NH _ Y).
    + rewrite EL, map_app. apply ordered_app_one; [exact (d_order _ _ _ _ K)|]. intros a (u & v & X). apply before_in in X. destruct X as [X _].
      destruct (a_reg _ _ J _ _ X) as [_ (y & Y)]. exact (NH _ Y).
    + intros u p. bytop u t; intros E1 E2; [injection E1 as <-; discriminate|]. eapply (d_cancel _ _ _ _ K); eassumption.
    + eapply phase_quiet; [exact J|exact P|rewrite ET; discriminate|split; discriminate|discriminate|reflexivity|intros DF; rewrite (PS DF), ET; reflexivity|left; reflexivity|discriminate].
  - quiet J K ET PS; left; reflexivity.
  - quiet J K ET PS.
    + right. eexists. split; [reflexivity|]. discriminate.
    + left. reflexivity.
    + right. eexists. split; [reflexivity|]. repeat split; discriminate.
  - quiet J K ET PS.
    + right. eexists. split; [reflexivity|]. discriminate.
    + left. reflexivity.
    + right. eexists. split; [reflexivity|]. repeat split; discriminate.
  - quiet J K ET PS; left; reflexivity.
  - quiet J K ET PS; left; reflexivity.
  - (* del *)
    destruct (del_some s T J t k i ET) as (d1 & d2 & E1 & E2). rewrite E2 in H. injection H as <-.
    constructor; cbn [s_listeners set_listeners].
    + eapply gone_step; [exact J|exact J1|exact (d_gone _ _ _ _ K)|left; reflexivity|]. cbn [s_listeners set_listeners]. rewrite E1, !map_app. cbn. intros j X.
      left. rewrite in_app_iff in *. cbn. tauto.
    + pose proof (d_order _ _ _ _ K) as O. rewrite E1, map_app in O. rewrite map_app. eapply ordered_del. exact O.
    + intros u p. bytop u t; intros X1 X2; [injection X1 as <-; discriminate|]. eapply (d_cancel _ _ _ _ K); eassumption.
    + eapply phase_quiet; [exact J|exact P|rewrite ET; discriminate|split; discriminate|discriminate|reflexivity|intros DF; rewrite (PS DF), ET; reflexivity|left; reflexivity|discriminate].
  - quiet J K ET PS; left; reflexivity.
  - quiet J K ET PS.
    + right. eexists. split; [reflexivity|]. destruct ok; discriminate.
    + left. reflexivity.
    + right. eexists. split; [reflexivity|]. destruct ok; repeat split; discriminate.
Qed.
