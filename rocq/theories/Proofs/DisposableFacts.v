(** Lemmas about disposables. *)
From Coq Require Import List Bool Arith Lia.
From Verif.Model Require Import Base Thread Disposable.
From Verif.Spec Require Import DisposableSpec.
From Verif.Proofs Require Import ThreadFacts.
Import ListNotations.

Fixpoint user_stack (st : list frame) : Prop :=
  match st with
  | [User] => True
  | User :: Disp InAction :: st => user_stack st
  | _ => False
  end.
Definition good_stack (st : list frame) : Prop :=
  match st with Disp p :: st => p <> InAction /\ user_stack st | _ => user_stack st end.
Definition critical (st : list frame) : bool :=
  match st with Disp (AtTest | AtSet | AtRelease _) :: _ => true | _ => false end.
Definition pend1 (f : frame) : nat := match f with Disp (AtRelease true | AtAction) => 1 | _ => 0 end.
Definition pend (st : list frame) : nat := match st with f :: _ => pend1 f | [] => 0 end.
Definition ndisp (st : list frame) : nat := count (fun f => match f with Disp _ => true | User => false end) st.

Definition fresh (st : list frame) : Prop :=
  match st with [User] | [Disp (AtAcquire | AtTest | AtSet); User] => True | _ => False end.

Record inv (s : state) : Prop := {
  i_good : forall t, good_stack (s_stacks s t);
  i_crit : forall t, critical (s_stacks s t) = true -> s_lock s = Some (t, 1);
  i_lock : forall o n, s_lock s = Some (o, n) -> n = 1 /\ critical (s_stacks s o) = true;
  i_once : if s_disposed s
           then (exists t0, pend (s_stacks s t0) + count is_action (s_log s) = 1 /\ forall t, t <> t0 -> pend (s_stacks s t) = 0)
                /\ (forall t st, s_stacks s t <> Disp AtSet :: st)
           else count is_action (s_log s) = 0 /\ (forall t, fresh (s_stacks s t)) /\ (forall t, count (is_returned t) (s_log s) = 0);
  i_count : forall t, count (is_called t) (s_log s) = count (is_returned t) (s_log s) + ndisp (s_stacks s t)
}.

Lemma user_pend : forall st, user_stack st -> pend st = 0.
Proof. intros [|[|p] st]; cbn; tauto. Qed.
Lemma user_crit : forall st, user_stack st -> critical st = false.
Proof. intros [|[|p] st]; cbn; tauto. Qed.
Lemma user_good : forall st, user_stack st -> good_stack st.
Proof. intros [|[|p] st]; cbn; tauto. Qed.
Lemma user_head : forall st, user_stack st -> exists st', st = User :: st'.
Proof. intros [|[|p] st]; cbn; try tauto. eauto. Qed.
Lemma fresh_pend : forall st, fresh st -> pend st = 0.
Proof. intros [|[|[]] [|[|[]] [|]]]; cbn; tauto. Qed.

Lemma inv_init : inv init.
Proof. constructor; cbn; try discriminate; auto. Qed.

Lemma inv_step : forall c s s1, inv s -> step c s = Some s1 -> inv s1.
Proof.
  intros c s s1 I E. destruct c as [t|t|t|t]; cbn in E.
  - (* call *)
    destruct (s_stacks s t) as [|[|p] st] eqn:ES; try discriminate. injection E; intros <-; clear E.
    assert (G : user_stack (User :: st)) by (pose proof (i_good _ I t) as G; rewrite ES in G; exact G).
    destruct I as [I1 I2 I3 I5 I6]. constructor; cbn [s_stacks s_lock s_disposed s_log].
    + intros u. byt u t; auto. cbn. split; [discriminate|exact G].
    + intros u. byt u t; auto. cbn. discriminate.
    + intros o n H. specialize (I3 o n H). byt o t; auto. rewrite ES in I3. cbn in I3. destruct I3; discriminate.
    + rewrite count_cons. cbn [is_action plus]. destruct (s_disposed s).
      * destruct I5 as ((t0 & H & H') & H''). split; [|intros u st'; byt u t; [discriminate|auto]]. exists t0. split; [byt t0 t; auto; rewrite ES in H; exact H|].
        intros u N. byt u t; auto.
      * destruct I5 as (H & H' & H''). split; auto. split; [|intros u; rewrite count_cons; cbn; auto].
        intros u. byt u t; auto. specialize (H' t). rewrite ES in H'. destruct st as [|[|[]] [|]]; cbn in H'; try tauto; exact I.
    + intros u. rewrite !count_cons. cbn [is_called is_returned]. specialize (I6 u). byt u t.
      * rewrite ES in I6. rewrite Nat.eqb_refl. cbn in *. unfold ndisp, count in *. cbn in *. lia.
      * neq t u. lia.
  - (* enter *)
    destruct (s_stacks s t) as [|[|p] st] eqn:ES; try discriminate. injection E; intros <-; clear E.
    destruct I as [I1 I2 I3 I5 I6]. constructor; cbn [s_stacks s_lock s_disposed s_log]; auto.
  - (* end of the action *)
    destruct (s_stacks s t) as [|[|p] [|[|[]] st]] eqn:ES; try discriminate. injection E; intros <-; clear E.
    assert (G : user_stack st) by (pose proof (i_good _ I t) as G; rewrite ES in G; exact G).
    destruct I as [I1 I2 I3 I5 I6]. constructor; cbn [s_stacks s_lock s_disposed s_log].
    + intros u. byt u t; auto using user_good.
    + intros u. byt u t; auto. rewrite user_crit by exact G. discriminate.
    + intros o n H. specialize (I3 o n H). byt o t; auto. rewrite ES in I3. destruct I3; discriminate.
    + rewrite count_cons. cbn [is_action plus]. destruct (s_disposed s).
      * destruct I5 as ((t0 & H & H') & H''). split; [|intros u st'; byt u t; [destruct (user_head _ G); congruence|auto]]. exists t0. split; [byt t0 t; auto; rewrite ES in H; rewrite user_pend by exact G; exact H|].
        intros u N. byt u t; auto using user_pend.
      * destruct I5 as (H & H' & H''). specialize (H' t). rewrite ES in H'. destruct H'.
    + intros u. rewrite !count_cons. cbn [is_called is_returned]. specialize (I6 u). byt u t.
      * rewrite ES in I6. rewrite Nat.eqb_refl. unfold ndisp, count in *. cbn in *. lia.
      * neq t u. lia.
  - (* dispose *)
    destruct (s_stacks s t) as [|[|p] st] eqn:ES; try discriminate.
    assert (Gt := i_good _ I t). rewrite ES in Gt. cbn in Gt. destruct Gt as [Np G].
    assert (Cr := i_crit _ I t). rewrite ES in Cr.
    destruct I as [I1 I2 I3 I5 I6]. destruct p as [| | |b| |]; cbn [run_dispose] in E.
    + (* acquire *)
      destruct (acquire t (s_lock s)) as [l|] eqn:EL; [|discriminate]. injection E; intros <-; clear E.
      apply acquire_inv in EL. destruct EL as [[EL ->]|(n & EL & ->)].
      2:{ destruct (I3 _ _ EL) as [_ X]. rewrite ES in X. discriminate. }
      constructor; cbn [s_stacks s_lock s_disposed s_log].
      * intros u. byt u t; auto. cbn. split; [discriminate|exact G].
      * intros u. byt u t; auto. intros X. apply I2 in X. congruence.
      * intros o n H. injection H; intros; subst. rewrite upd_same. auto.
      * destruct (s_disposed s).
        -- destruct I5 as ((t0 & H & H') & H''). split; [|intros u st'; byt u t; [discriminate|auto]]. exists t0. split; [byt t0 t; auto; rewrite ES in H; exact H|].
           intros u N. byt u t; auto.
        -- destruct I5 as (H & H' & H''). split; auto. split; auto. intros u. byt u t; auto. specialize (H' t). rewrite ES in H'. exact H'.
      * intros u. specialize (I6 u). byt u t; auto. rewrite ES in I6. exact I6.
    + (* test *)
      injection E; intros <-; clear E. specialize (Cr eq_refl).
      constructor; cbn [s_stacks s_lock s_disposed s_log].
      * intros u. byt u t; auto. cbn. split; [destruct (s_disposed s); discriminate|exact G].
      * intros u. byt u t; auto.
      * intros o n H. destruct (I3 _ _ H) as [? X]. split; auto. byt o t; auto. cbn. destruct (s_disposed s); reflexivity.
      * destruct (s_disposed s).
        -- destruct I5 as ((t0 & H & H') & H''). split; [|intros u st'; byt u t; [discriminate|auto]]. exists t0. split; [byt t0 t; auto; rewrite ES in H; exact H|].
           intros u N. byt u t; auto.
        -- destruct I5 as (H & H' & H''). split; auto. split; auto. intros u. byt u t; auto. specialize (H' t). rewrite ES in H'. exact H'.
      * intros u. specialize (I6 u). byt u t; auto. rewrite ES in I6. exact I6.
    + (* set *)
      injection E; intros <-; clear E. specialize (Cr eq_refl).
      assert (D : s_disposed s = false) by (destruct (s_disposed s); auto; destruct I5 as [_ X]; destruct (X t st ES)).
      rewrite D in I5. destruct I5 as (H & H' & H'').
      constructor; cbn [s_stacks s_lock s_disposed s_log].
      * intros u. byt u t; auto. cbn. split; [discriminate|exact G].
      * intros u. byt u t; auto.
      * intros o n X. destruct (I3 _ _ X) as [? Y]. split; auto. byt o t; auto.
      * split.
        -- exists t. rewrite upd_same. cbn. rewrite H. split; [reflexivity|]. intros u N. rewrite upd_other by exact N. apply fresh_pend; auto.
        -- intros u st'. byt u t; [discriminate|]. intros X. assert (Y : critical (s_stacks s u) = true) by (rewrite X; reflexivity).
           apply I2 in Y. congruence.
      * intros u. specialize (I6 u). byt u t; auto. rewrite ES in I6. exact I6.
    + (* release *)
      specialize (Cr eq_refl). rewrite Cr in E. destruct (release t (Some (t, 1))) as [l|] eqn:EL; [|discriminate].
      apply release_inv in EL; [|reflexivity]. subst l. injection E; intros <-; clear E.
      assert (D : s_disposed s = true) by (destruct (s_disposed s); auto; destruct I5 as (_ & X & _); specialize (X t); rewrite ES in X; destruct X).
      rewrite D in *.
      constructor; cbn [s_stacks s_lock s_disposed s_log].
      * intros u. byt u t; auto. destruct b; [split; [discriminate|exact G]|apply user_good, G].
      * intros u. byt u t; [destruct b; [discriminate|rewrite user_crit by exact G; discriminate]|]. intros X. apply I2 in X. congruence.
      * discriminate.
      * destruct I5 as ((t0 & H & H') & H''). split.
        -- exists t0. split.
           ++ byt t0 t; [rewrite ES in H|]; destruct b; rewrite ?count_cons; cbn in *; rewrite ?(user_pend _ G); auto.
           ++ intros u N. specialize (H' u N). byt u t; auto. rewrite ES in H'. destruct b; [discriminate|apply user_pend, G].
        -- intros u st'. byt u t; auto. destruct b; [discriminate|]. destruct (user_head _ G); congruence.
      * intros u. specialize (I6 u). byt u t.
        -- rewrite ES in I6. destruct b; [exact I6|]. rewrite !count_cons. cbn [is_called is_returned]. rewrite Nat.eqb_refl. unfold ndisp, count in *. cbn in *. lia.
        -- destruct b; [exact I6|]. rewrite !count_cons. cbn [is_called is_returned]. neq t u. exact I6.
    + (* call the action *)
      injection E; intros <-; clear E.
      assert (D : s_disposed s = true) by (destruct (s_disposed s); auto; destruct I5 as (_ & X & _); specialize (X t); rewrite ES in X; destruct X).
      rewrite D in *.
      constructor; cbn [s_stacks s_lock s_disposed s_log].
      * intros u. byt u t; auto.
      * intros u. byt u t; auto; discriminate.
      * intros o n H. destruct (I3 _ _ H) as [? X]. split; auto. byt o t; auto. rewrite ES in X. discriminate.
      * destruct I5 as ((t0 & H & H') & H''). split.
        -- assert (t = t0). { destruct (Nat.eq_dec t t0); auto. specialize (H' t n). rewrite ES in H'. discriminate. } subst t0.
           exists t. split; [rewrite upd_same, count_cons; rewrite ES in H; cbn in *; lia|]. intros u N. rewrite upd_other by exact N. auto.
        -- intros u st'. byt u t; auto. discriminate.
      * intros u. specialize (I6 u). rewrite !count_cons. cbn [is_called is_returned]. byt u t; auto. rewrite ES in I6. unfold ndisp, count in *. cbn in *. lia.
    + discriminate.
Qed.
Lemma inv_exec : forall cs s, exec step cs init = Some s -> inv s.
Proof. intros cs s E. revert E. apply (exec_ind step (fun _ s => inv s)); [apply inv_init|]. intros; eapply inv_step; eauto. Qed.

(** ** C61 *)
Lemma once_pf : forall cs s, exec step cs init = Some s -> count is_action (s_log s) <= 1.
Proof.
  intros cs s E. destruct (inv_exec cs s E) as [_ _ _ I _]. destruct (s_disposed s); [|lia]. destruct I as ((t0 & H & _) & _). lia.
Qed.
Lemma returned_pf : forall cs s, exec step cs init = Some s -> all_returned (s_log s) -> (exists t, In (Called t) (s_log s)) ->
  count is_action (s_log s) = 1.
Proof.
  intros cs s E A (t & C). destruct (inv_exec cs s E) as [_ _ _ I5 I6]. 
  assert (Z : forall u, ndisp (s_stacks s u) = 0) by (intros u; specialize (I6 u); specialize (A u); lia).
  assert (P : forall u, pend (s_stacks s u) = 0).
  { intros u. specialize (Z u). destruct (s_stacks s u) as [|[|p] st]; auto. discriminate. }
  destruct (s_disposed s).
  - destruct I5 as ((t0 & H & _) & _). rewrite P in H. exact H.
  - destruct I5 as (_ & _ & R). specialize (A t). rewrite R in A. 
    assert (X : 1 <= count (is_called t) (s_log s)); [|lia]. clear - C. induction (s_log s) as [|e l IH]; [destruct C|].
    rewrite count_cons. destruct C as [->|C]; [cbn; rewrite Nat.eqb_refl; lia|specialize (IH C); lia].
Qed.
(** nothing waits for ever *)
Lemma progress_pf : forall cs s t, exec step cs init = Some s -> count (is_called t) (s_log s) <> count (is_returned t) (s_log s) ->
  exists u c s1, goes_on u c = true /\ step c s = Some s1.
Proof.
  intros cs s t E N. pose proof (inv_exec cs s E) as I. 
  assert (X : (exists o n, s_lock s = Some (o, n)) \/ s_lock s = None) by (destruct (s_lock s) as [[o n]|]; eauto).
  destruct X as [(o & n & L)|L].
  - exists o, (CRun o). destruct (i_lock _ I _ _ L) as [-> C]. cbn. rewrite Nat.eqb_refl.
    destruct (s_stacks s o) as [|[|p] st]; try discriminate. destruct p; try discriminate; cbn; rewrite ?L; cbn; rewrite ?Nat.eqb_refl; cbn; eauto.
  - pose proof (i_good _ I t) as G. pose proof (i_count _ I t) as K. exists t. destruct (s_stacks s t) as [|[|p] st] eqn:ES; [destruct G| |].
    + destruct st as [|[|[]] st]; try destruct G.
      * cbn in K. lia.
      * exists (CEnd t). cbn. rewrite Nat.eqb_refl, ES. eauto.
    + exists (CRun t). cbn. rewrite Nat.eqb_refl, ES. destruct p; cbn; rewrite ?L; cbn; eauto.
      * pose proof (i_crit _ I t) as Cr. rewrite ES in Cr. specialize (Cr eq_refl). congruence.
      * destruct G as [G _]. congruence.
Qed.
(** each call takes at most six steps *)
Definition weight1 (f : frame) : nat :=
  match f with
  | User => 0
  | Disp AtAcquire => 6 | Disp AtTest => 5 | Disp AtSet => 4 | Disp (AtRelease true) => 3 | Disp (AtRelease false) => 1
  | Disp AtAction => 2 | Disp InAction => 1
  end.
Definition weight (st : list frame) : nat := list_sum (map weight1 st).
Lemma bounded_pf : forall cs s t, exec step cs init = Some s ->
  count (goes_on t) cs <= 6 * count (new_call t) cs.
Proof.
  intros cs s t E. enough (count (goes_on t) cs + weight (s_stacks s t) <= 6 * count (new_call t) cs) by lia.
  revert E. apply (exec_ind step (fun cs s => count (goes_on t) cs + weight (s_stacks s t) <= 6 * count (new_call t) cs)); [cbn; lia|].
  clear. intros cs c s s1 IH E.
  assert (A : forall f, count f (cs ++ [c]) = count f cs + if f c then 1 else 0).
  { intros f. unfold count. rewrite filter_app, app_length. cbn. destruct (f c); reflexivity. }
  rewrite !A. destruct c as [u|u|u|u]; cbn [goes_on new_call step] in *.
  - destruct (s_stacks s u) as [|[|p] st] eqn:ES; try discriminate. injection E; intros <-; cbn [s_stacks].
    byt t u; [rewrite Nat.eqb_refl; rewrite ES in IH; unfold weight, list_sum in *; cbn in *; lia|neq u t; cbv iota; lia].
  - destruct (s_stacks s u) as [|[|p] st] eqn:ES; try discriminate. injection E; intros <-; cbn [s_stacks]. lia.
  - destruct (s_stacks s u) as [|[|p] [|[|[]] st]] eqn:ES; try discriminate. injection E; intros <-; cbn [s_stacks].
    byt t u; [rewrite Nat.eqb_refl; rewrite ES in IH; unfold weight, list_sum in *; cbn in *; lia|neq u t; cbv iota; lia].
  - destruct (s_stacks s u) as [|[|p] st] eqn:ES; try discriminate. 
    destruct p as [| | |b| |]; cbn [run_dispose] in E; try discriminate;
      try (destruct (acquire u (s_lock s)); [|discriminate]); try (destruct (release u (s_lock s)); [|discriminate]);
      injection E; intros <-; cbn [s_stacks]; (byt t u; [rewrite Nat.eqb_refl; rewrite ES in IH; cbn in *; 
        try (destruct (s_disposed s)); try destruct b; cbn; unfold weight, list_sum in *; cbn in *; lia|neq u t; cbv iota; lia]).
Qed.
(** with *)
Lemma entered_pf : forall cs s, exec step cs init = Some s -> forall l2 t l1, s_log s = l2 ++ Entered t true :: l1 ->
  forall u, ~ In (Returned u) l1 /\ ~ In (Action u) l1.
Proof.
  intros cs s E. 
  assert (X : forall cs s, exec step cs init = Some s -> forall e, In e (s_log s) -> (exists u, e = Returned u \/ e = Action u) -> s_disposed s = true).
  { clear. intros cs s E e H (u & D). pose proof (inv_exec cs s E) as I. pose proof (i_once _ I) as O. destruct (s_disposed s); auto. exfalso.
    destruct O as (O1 & _ & O2). specialize (O2 u). destruct D as [-> | ->].
    - assert (count (is_returned u) (s_log s) <> 0); [|congruence]. clear - H. induction (s_log s) as [|e l IH]; [destruct H|]. rewrite count_cons.
      destruct H as [->|H]; [cbn; rewrite Nat.eqb_refl; lia|specialize (IH H); lia].
    - assert (count is_action (s_log s) <> 0); [|congruence]. clear - H. induction (s_log s) as [|e l IH]; [destruct H|]. rewrite count_cons.
      destruct H as [->|H]; [cbn; lia|specialize (IH H); lia]. }
  enough (G : exec step cs init = Some s /\ forall l2 t l1, s_log s = l2 ++ Entered t true :: l1 -> forall u, ~ In (Returned u) l1 /\ ~ In (Action u) l1) by apply G.
  revert E. apply (exec_ind step (fun cs s => exec step cs init = Some s /\ forall l2 t l1, s_log s = l2 ++ Entered t true :: l1 -> forall u, ~ In (Returned u) l1 /\ ~ In (Action u) l1)).
  { split; [reflexivity|]. intros [|] t l1 H; discriminate. }
  intros cs0 c s0 s1 [E0 IH] E1. split.
  { clear - E0 E1. revert E0. generalize init. induction cs0 as [|c0 cs0 IH]; intros i E0; cbn in *.
    - injection E0; intros; subst. rewrite E1. reflexivity.
    - destruct (step c0 i); [auto|discriminate]. }
  assert (Y : s_log s1 = s_log s0 \/ (exists e, s_log s1 = e :: s_log s0 /\ (forall t, e = Entered t true -> s_disposed s0 = false))).
  { destruct c as [u|u|u|u]; cbn in E1.
    - destruct (s_stacks s0 u) as [|[|p] st]; try discriminate. injection E1; intros <-. right. eexists. split; [reflexivity|]. discriminate.
    - destruct (s_stacks s0 u) as [|[|p] st]; try discriminate. injection E1; intros <-. right. eexists. split; [reflexivity|].
      intros t H. injection H; intros. destruct (s_disposed s0); [discriminate|reflexivity].
    - destruct (s_stacks s0 u) as [|[|p] [|[|[]] st]]; try discriminate. injection E1; intros <-. right. eexists. split; [reflexivity|]. discriminate.
    - destruct (s_stacks s0 u) as [|[|p] st]; try discriminate. destruct p as [| | |b| |]; cbn [run_dispose] in E1; try discriminate;
        try (destruct (acquire u (s_lock s0)); [|discriminate]); try (destruct (release u (s_lock s0)); [|discriminate]);
        injection E1; intros <-; cbn [s_log]; auto; try destruct b; auto; right; eexists; split; try reflexivity; discriminate. }
  destruct Y as [->|(e & -> & He)]; [exact IH|]. intros l2 t l1 H u. destruct l2 as [|e2 l2]; cbn in H.
  - injection H; intros; subst. specialize (He t eq_refl). split; intros N; pose proof (X cs0 s0 E0 _ N) as D; rewrite D in He; try discriminate; eauto.
  - injection H; intros. eapply IH; eauto.
Qed.
Definition alone (t : nat) (s : state) : Prop :=
  (s_disposed s = true -> In (Action t) (s_log s) \/ 1 <= pend (s_stacks s t)) /\
     (forall u, u <> t -> s_stacks s u = [User]) /\ (forall u, In (Action u) (s_log s) -> u = t) /\ ((exists u, In (Returned u) (s_log s)) -> In (Action t) (s_log s)).
(** one thread only: when dispose() returned, the action has run *)
Lemma one_thread_pf : forall cs s t, Forall (by_thread t) cs -> exec step cs init = Some s -> forall u, In (Returned u) (s_log s) -> In (Action t) (s_log s).
Proof.
  intros cs s t F E.
  assert (X : Forall (by_thread t) cs -> alone t s).
  2:{ intros u H. apply X in F. destruct F as (_ & _ & _ & F). eauto. }
  clear F. pose proof E as E'. revert E'.
  enough (G : forall cs s, exec step cs init = Some s -> inv s /\ (Forall (by_thread t) cs -> alone t s)) by (intros _; apply G, E).
  clear cs s E. apply (exec_ind step (fun cs s => inv s /\ (Forall (by_thread t) cs -> alone t s))).
  { split; [apply inv_init|]. intros _. unfold alone. cbn. repeat split; auto; try discriminate; try tauto. intros (u & []). }
  intros cs c s s1 [I IH] E. split; [eapply inv_step; eauto|]. intros F. apply Forall_app in F. destruct F as [F Fc]. inversion Fc as [|? ? Fc1 _]; subst; clear Fc.
  destruct (IH F) as (H1 & H2 & H3 & H4); clear IH. unfold alone.
  pose proof (i_once _ I) as O. pose proof (i_good _ I t) as Gt. pose proof (i_crit _ I t) as Cr.
  destruct c as [u|u|u|u]; cbn in Fc1; subst u; cbn in E.
  - destruct (s_stacks s t) as [|[|p] st] eqn:ES; try discriminate. injection E; intros <-; cbn [s_stacks s_log s_disposed].
    repeat split.
    + intros D. destruct (H1 D) as [H|H]; [left; right; exact H|cbn in H; lia].
    + intros u N. rewrite upd_other by exact N. auto.
    + intros u [H|H]; [discriminate|auto].
    + intros (u & [H|H]); [discriminate|right; apply H4; eauto].
  - destruct (s_stacks s t) as [|[|p] st] eqn:ES; try discriminate. injection E; intros <-; cbn [s_stacks s_log s_disposed]. rewrite ES.
    repeat split; auto.
    + intros D. destruct (H1 D) as [H|H]; [left; right; exact H|cbn in H; lia].
    + intros u [H|H]; [discriminate|auto].
    + intros (u & [H|H]); [discriminate|right; apply H4; eauto].
  - destruct (s_stacks s t) as [|[|p] [|[|[]] st]] eqn:ES; try discriminate. injection E; intros <-; cbn [s_stacks s_log s_disposed].
    assert (D : s_disposed s = true).
    { destruct (s_disposed s); auto. destruct O as (_ & O & _). specialize (O t). rewrite ES in O. destruct O. }
    assert (A : In (Action t) (s_log s)) by (destruct (H1 D) as [H|H]; [exact H|cbn in H; lia]).
    repeat split.
    + intros _. left; right; exact A.
    + intros u N. rewrite upd_other by exact N. auto.
    + intros u [H|H]; [discriminate|auto].
    + intros _. right; exact A.
  - destruct (s_stacks s t) as [|[|p] st] eqn:ES; try discriminate. cbn in Gt. destruct Gt as [Np G].
    destruct p as [| | |b| |]; cbn [run_dispose] in E; try discriminate.
    + destruct (acquire t (s_lock s)); [|discriminate]. injection E; intros <-; cbn [s_stacks s_log s_disposed]. rewrite upd_same.
      repeat split; auto. * intros u N. rewrite upd_other by exact N. auto.
    + injection E; intros <-; cbn [s_stacks s_log s_disposed]. rewrite upd_same.
      repeat split; auto. * intros D. rewrite D. apply H1, D. * intros u N. rewrite upd_other by exact N. auto.
    + injection E; intros <-; cbn [s_stacks s_log s_disposed]. rewrite upd_same.
      repeat split; auto. * intros u N. rewrite upd_other by exact N. auto.
    + destruct (release t (s_lock s)); [|discriminate]. injection E; intros <-; cbn [s_stacks s_log s_disposed]. rewrite upd_same.
      assert (D : s_disposed s = true).
      { destruct (s_disposed s); auto. destruct O as (_ & O & _). specialize (O t). rewrite ES in O. destruct O. }
      destruct b.
      * repeat split; auto. intros u N. rewrite upd_other by exact N. auto.
      * assert (A : In (Action t) (s_log s)) by (destruct (H1 D) as [H|H]; [exact H|cbn in H; lia]).
        repeat split.
        -- intros _. left; right; exact A.
        -- intros u N. rewrite upd_other by exact N. auto.
        -- intros u [H|H]; [discriminate|auto].
        -- intros _. right; exact A.
    + injection E; intros <-; cbn [s_stacks s_log s_disposed]. rewrite upd_same. repeat split.
      * intros _. left; left; reflexivity.
      * intros u N. rewrite upd_other by exact N. auto.
      * intros u [H|H]; [congruence|auto].
      * intros _. left; reflexivity.
Qed.

(** ** The asynchronous one *)
Lemma async_once_pf : forall cs s, exec astep cs ainit = Some s ->
  count is_aaction (a_log s) = (if a_disposed s then 1 else 0) /\ (a_disposed s = true <-> exists t, In (ACalled t) (a_log s)).
Proof.
  apply (exec_ind astep (fun _ s => count is_aaction (a_log s) = (if a_disposed s then 1 else 0) /\ (a_disposed s = true <-> exists t, In (ACalled t) (a_log s)))).
  { cbn. split; auto. split; [discriminate|intros (t & [])]. }
  intros _ c s s1 [I J] E. destruct c as [t|t|t]; cbn in E.
  - destruct (a_disposed s) eqn:D; injection E; intros <-; cbn [a_log a_disposed]; rewrite !count_cons; cbn [is_aaction]; rewrite I; split; auto;
      split; auto; intros _; exists t; cbn; auto.
  - destruct (a_running s t); [discriminate|]. injection E; intros <-; cbn [a_log a_disposed]; rewrite !count_cons; cbn [is_aaction]; rewrite I; split; auto.
    rewrite J. split; intros (u & H); exists u; [right; exact H|destruct H; [discriminate|assumption]].
  - injection E; intros <-; cbn [a_log a_disposed]; rewrite !count_cons; cbn [is_aaction]; rewrite I; split; auto.
    rewrite J. split; intros (u & H); exists u; [right; exact H|destruct H; [discriminate|assumption]].
Qed.

Lemma async_running_pf : forall cs s, exec astep cs ainit = Some s -> forall t,
  count (is_acalled t) (a_log s) = count (is_areturned t) (a_log s) + a_running s t /\ a_running s t <= count (is_aaction_of t) (a_log s).
Proof.
  apply (exec_ind astep (fun _ s => forall t,
    count (is_acalled t) (a_log s) = count (is_areturned t) (a_log s) + a_running s t /\ a_running s t <= count (is_aaction_of t) (a_log s))).
  { intros t. cbn. auto. }
  intros _ c s s1 I E t. destruct (I t) as [I1 I2]. destruct c as [u|u|u]; cbn in E.
  - destruct (a_disposed s); injection E; intros <-; cbn [a_log a_running]; rewrite !count_cons;
      cbn [is_acalled is_areturned is_aaction_of]; rewrite (Nat.eqb_sym t u) || idtac; destruct (Nat.eqb u t); lia.
  - destruct (a_running s u) eqn:R; [discriminate|]. injection E; intros <-; cbn [a_log a_running]; rewrite !count_cons;
      cbn [is_acalled is_areturned is_aaction_of]. rewrite (Nat.eqb_sym t u). destruct (Nat.eqb_spec u t); [subst|]; lia.
  - injection E; intros <-; cbn [a_log a_running]; rewrite !count_cons; cbn [is_acalled is_areturned is_aaction_of]; lia.
Qed.
Lemma async_calls_pf : forall cs s, exec astep cs ainit = Some s -> forall t,
  count (is_areturned t) (a_log s) <= count (is_acalled t) (a_log s) /\
  count (is_acalled t) (a_log s) <= count (is_areturned t) (a_log s) + count (is_aaction_of t) (a_log s).
Proof. intros cs s E t. destruct (async_running_pf cs s E t). lia. Qed.

(** ** Sequential *)
Section Sequential.
  Context {W : Type}.
  Section Ind.
    Variable P : disposable W -> Prop.
    Hypothesis HA : forall i a, P (Anonymous i a).
    Hypothesis HC : forall ds, Forall P ds -> P (Composite ds).
    Fixpoint disposable_ind2 (d : disposable W) : P d :=
      match d with
      | Anonymous i a => HA i a
      | Composite ds => HC ds ((fix go (ds : list (disposable W)) : Forall P ds :=
                                  match ds with [] => Forall_nil _ | d :: ds => Forall_cons d (disposable_ind2 d) (go ds) end) ds)
      end.
  End Ind.
  Fixpoint run_leaves (ls : list (nat * M W unit)) : M ((nat -> bool) * W) unit :=
    match ls with [] => ret tt | (i, a) :: ls => bind (dispose_one i a) (fun _ => run_leaves ls) end.
  Lemma run_leaves_app : forall xs ys w, run_leaves (xs ++ ys) w = bind (run_leaves xs) (fun _ => run_leaves ys) w.
  Proof.
    induction xs as [|[i a] xs IH]; intros ys w; cbn; [reflexivity|]. unfold bind in *. destruct (dispose_one i a w) as [[u|e] w1]; auto.
  Qed.
  Lemma dispose_leaves : forall (d : disposable W) w, dispose d w = run_leaves (leaves d) w.
  Proof.
    apply (disposable_ind2 (fun d : disposable W => forall w, dispose d w = run_leaves (leaves d) w)).
    - intros i a w. cbn. unfold bind. destruct (dispose_one i a w) as [[[]|e] w1]; reflexivity.
    - intros ds F w. cbn [dispose leaves]. revert w. induction F as [|d ds H F IH]; intros w; [reflexivity|].
      rewrite run_leaves_app. unfold bind. rewrite H. destruct (run_leaves (leaves d) w) as [[u|e] w1]; auto.
  Qed.
  (** What disposing does, in full. *)
  Lemma dispose_pf : forall (d : disposable W) flags done w, (forall j, flags j = flags_of done j) ->
    exists flags1, dispose d (flags, w) = (let (r, w1) := run_actions (to_run done (leaves d)) w in (r, (flags1, w1))) /\
      (forall j, flags1 j = true -> In j (map fst (leaves d)) \/ In j done) /\ (forall j, In j done -> flags1 j = true) /\
      (fst (dispose d (flags, w)) = Ret tt -> forall j, In j (map fst (leaves d)) -> flags1 j = true).
  Proof.
    intros d flags done w H. rewrite dispose_leaves. generalize (leaves d). clear d. intros ls. revert flags done w H.
    induction ls as [|[i a] ls IH]; intros flags done w H.
    - exists flags. repeat split; auto. + intros j E. right. rewrite H in E. apply existsb_exists in E. destruct E as (x & X & E). apply Nat.eqb_eq in E. congruence.
      + intros j E. rewrite H. apply existsb_exists. exists j. rewrite Nat.eqb_refl. auto.
    - cbn [run_leaves to_run map fst]. unfold bind, dispose_one. rewrite H. unfold flags_of at 1 2. destruct (existsb (Nat.eqb i) done) eqn:X.
      + destruct (IH flags done w H) as (f1 & E & H1 & H2 & H3). exists f1. split; [exact E|]. repeat split; auto.
        * intros j J. apply H1 in J. cbn. tauto.
        * intros R j [<-|J]; [|auto]. apply H2. apply existsb_exists in X. destruct X as (x & X & Y). apply Nat.eqb_eq in Y. congruence.
      + cbn [run_actions]. unfold bind. destruct (a w) as [[u|e] w1].
        * destruct (IH (fun j => if Nat.eqb j i then true else flags j) (i :: done) w1) as (f1 & E & H1 & H2 & H3).
          { intros j. unfold flags_of. cbn. destruct (Nat.eqb j i); [reflexivity|apply H]. }
          exists f1. split; [exact E|]. split; [|split].
          -- intros j J. apply H1 in J. cbn in *. tauto.
          -- intros j J. apply H2. right; exact J.
          -- intros R j [<-|J]; [apply H2; left; reflexivity|auto].
        * eexists. split; [reflexivity|]. split; [|split].
          -- intros j J. cbn in J. destruct (Nat.eqb j i) eqn:Y0; [left; left; apply Nat.eqb_eq in Y0; congruence|]. right. rewrite H in J. apply existsb_exists in J. destruct J as (x & J & Y). apply Nat.eqb_eq in Y. congruence.
          -- intros j J. cbn. destruct (Nat.eqb j i); auto. rewrite H. apply existsb_exists. exists j. rewrite Nat.eqb_refl. auto.
          -- cbn. discriminate.
  Qed.

  Lemma with_pf : forall A (d : disposable W) flags done (body : M W A) w, (forall j, flags j = flags_of done j) ->
    (forall i a, d = Anonymous i a -> ~ In i done) ->
    exists flags1, with_block d (outside body) (flags, w) =
        (let (r, w1) := finally body (run_actions (to_run done (leaves d))) w in (r, (flags1, w1))) /\
      (forall j, flags1 j = true -> In j (map fst (leaves d)) \/ In j done) /\ (forall j, In j done -> flags1 j = true) /\
      (fst (run_actions (to_run done (leaves d)) (snd (body w))) = Ret tt -> forall j, In j (map fst (leaves d)) -> flags1 j = true).
  Proof.
    intros A d flags done body w H N. unfold with_block, bind.
    assert (E : enter d (flags, w) = (Ret tt, (flags, w))).
    { destruct d as [i a|ds]; [|reflexivity]. cbn. destruct (flags i) eqn:F; [|reflexivity]. exfalso. apply (N i a eq_refl).
      rewrite H in F. apply existsb_exists in F. destruct F as (x & X & Y). apply Nat.eqb_eq in Y. congruence. }
    rewrite E. unfold outside, finally. destruct (body w) as [r w1]. destruct (dispose_pf d flags done w1 H) as (f1 & E1 & H1 & H2 & H3).
    rewrite E1 in H3. rewrite E1. cbn [snd]. destruct (run_actions (to_run done (leaves d)) w1) as [[[]|e] w2]; exists f1; repeat split; auto.
  Qed.
  Lemma with_any_pf : forall A i (a : M W unit) (flags : nat -> bool) (body : M ((nat -> bool) * W) A) w, flags i = false ->
    exists r flags1 w1, body (flags, w) = (r, (flags1, w1)) /\
      with_block (Anonymous i a) body (flags, w) =
        (if flags1 i then (r, (flags1, w1))
         else match a w1 with
              | (Ret _, w2) => (r, ((fun j => if Nat.eqb j i then true else flags1 j), w2))
              | (Raise e, w2) => (Raise e, ((fun j => if Nat.eqb j i then true else flags1 j), w2))
              end).
  Proof.
    intros A i a flags body w F. destruct (body (flags, w)) as [r [f1 w1]] eqn:E. exists r, f1, w1. split; [reflexivity|].
    unfold with_block, bind, enter. rewrite F, E. cbn [dispose dispose_one]. destruct (f1 i); [reflexivity|]. destruct (a w1) as [[[]|e] w2]; reflexivity.
  Qed.
  Lemma with_disposed_pf : forall A i (a : M W unit) (flags : nat -> bool) (body : M ((nat -> bool) * W) A) w, flags i = true ->
    with_block (Anonymous i a) body (flags, w) = (Raise ObjectDisposed, (flags, w)).
  Proof. intros A i a flags body w F. unfold with_block, bind, enter. rewrite F. reflexivity. Qed.
  Lemma composite_quiet_pf : forall (xs : list (M W unit)) w, Forall quiet_action xs ->
    run_actions xs w = (Ret tt, fold_left (fun w x => snd (x w)) xs w).
  Proof.
    intros xs w F. revert w. induction F as [|x xs Q F IH]; intros w; [reflexivity|]. cbn. unfold bind. specialize (Q w).
    destruct (x w) as [r w1]. cbn in *. subst r. apply IH.
  Qed.
  Lemma to_run_incl : forall (ls : list (nat * M W unit)) done, incl (to_run done ls) (map snd ls).
  Proof.
    induction ls as [|[i a] ls IH]; intros done; cbn; [apply incl_refl|]. destruct (existsb (Nat.eqb i) done); [apply incl_tl, IH|].
    intros x [<-|X]; [left; reflexivity|right; eapply IH; exact X].
  Qed.
  Lemma to_run_distinct : forall (ls : list (nat * M W unit)) done, NoDup (map fst ls) -> (forall i, In i (map fst ls) -> ~ In i done) ->
    to_run done ls = map snd ls.
  Proof.
    induction ls as [|[i a] ls IH]; intros done N D; cbn in *; [reflexivity|]. inversion N; subst.
    destruct (existsb (Nat.eqb i) done) eqn:X.
    - exfalso. apply existsb_exists in X. destruct X as (x & X & Y). apply Nat.eqb_eq in Y. apply (D i); [left; reflexivity|congruence].
    - f_equal. apply IH; auto. intros j J [<-|K]; [auto|]. apply (D j); auto.
  Qed.
  Lemma to_run_done : forall (ls : list (nat * M W unit)) done, (forall i, In i (map fst ls) -> In i done) -> to_run done ls = [].
  Proof.
    induction ls as [|[i a] ls IH]; intros done D; cbn in *; [reflexivity|].
    destruct (existsb (Nat.eqb i) done) eqn:X; [apply IH; auto|]. exfalso. assert (existsb (Nat.eqb i) done = true); [|congruence].
    apply existsb_exists. exists i. rewrite Nat.eqb_refl. auto.
  Qed.
End Sequential.
