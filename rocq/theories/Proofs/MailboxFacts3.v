(** Mailboxes on the loop's thread: executions. *)
From Coq Require Import List Bool Arith Lia.
From Verif.Model Require Import Base Thread Aiotools Mailbox.
From Verif.Spec Require Import MailboxSpec.
From Verif.Proofs Require Import ThreadFacts MailboxFacts MailboxFacts2.
Import ListNotations.

Record all (cons : list nat) (s : state) : Prop := {
  a_inv : inv cons s; a_finv : finv cons s; a_ginv : ginv cons s; a_oinv : oinv s; a_winv : winv s }.
Lemma all_init : all [] init.
Proof. constructor; [apply inv_init|apply finv_init|apply ginv_init|apply oinv_init|]. intros _ H. destruct H. reflexivity. Qed.
Lemma all_step : forall c s s1 cons, on_loop c -> all cons s -> step c s = Some s1 -> all (cons ++ eats c s) s1.
Proof.
  intros c s s1 cons L [A B C D E] S.
  constructor; [eapply inv_step|eapply finv_step|eapply ginv_step|eapply oinv_step|eapply winv_step]; eassumption.
Qed.
(** Induction on executions on the loop. *)
Lemma loop_ind : forall (P : list nat -> state -> Prop), P [] init ->
  (forall c s s1 cons, on_loop c -> all cons s -> P cons s -> step c s = Some s1 -> P (cons ++ eats c s) s1) ->
  forall cs s, Forall on_loop cs -> exec step cs init = Some s -> exists cons, all cons s /\ P cons s.
Proof.
  intros P H0 HS cs s L E. revert L.
  apply (exec_ind step (fun cs s => Forall on_loop cs -> exists cons, all cons s /\ P cons s) init) with (cs := cs) (s := s); [| |exact E].
  - intros _. exists []. split; [apply all_init|exact H0].
  - intros ds c x y IH Sx F. apply Forall_app in F. destruct F as [F1 F2]. inversion F2; subst. destruct (IH F1) as (cons & A & B).
    exists (cons ++ eats c x). split; [eapply all_step; eassumption|eapply HS; eassumption].
Qed.
Lemma loop_all : forall cs s, Forall on_loop cs -> exec step cs init = Some s -> exists cons, all cons s.
Proof. intros cs s L E. destruct (loop_ind (fun _ _ => True) Logic.I (fun _ _ _ _ _ _ _ _ => Logic.I) cs s L E) as (cons & A & _). eauto. Qed.

Lemma position_pf : forall cs s f m i, Forall on_loop cs -> exec step cs init = Some s ->
  In (Received f m) (s_log s) -> nth_error (accepted (s_log s)) i = Some f -> nth_error (posted (s_log s)) i = Some m.
Proof.
  intros cs s f m i L E H N. destruct (loop_all cs s L E) as (cons & A). destruct (f_received _ _ (a_finv _ _ A) f m H) as (j & J1 & J2).
  assert (i = j) by (eapply nodup_nth; [apply (i_dup _ _ (a_inv _ _ A))|eassumption|eassumption]). subst j.
  rewrite (i_queue _ _ (a_inv _ _ A)). apply nth_app_old, J2.
Qed.
Lemma received_accepted_pf : forall cs s f m, Forall on_loop cs -> exec step cs init = Some s -> In (Received f m) (s_log s) -> In f (accepted (s_log s)).
Proof. intros cs s f m L E H. destruct (loop_all cs s L E) as (cons & A). apply (o_end _ (a_oinv _ _ A)). left. eauto. Qed.

(** One task. *)
Definition pinv (cons : list nat) (s : state) : Prop := one_body (s_log s) -> prefix (received (s_log s)) cons /\
  exists l, (forall g, In g l -> exists m, In (Received g m) (s_log s)) /\ length (received (s_log s)) = length l /\
    (accepted (s_log s) = l \/ exists f, accepted (s_log s) = l ++ [f] /\ forall m, ~ In (Received f m) (s_log s)).
Lemma prefix_app : forall (a b c : list nat), prefix a b -> prefix a (b ++ c).
Proof. intros a b c [k ->]. exists (k ++ c). rewrite app_assoc. reflexivity. Qed.
Lemma pinv_silent : forall cons k s s1, pinv cons s -> s_log s1 = s_log s -> pinv (cons ++ k) s1.
Proof. intros cons k s s1 P H B. rewrite H in *. destruct (P B) as [P1 P2]. split; [apply prefix_app, P1|exact P2]. Qed.
Lemma pinv_say : forall cons k s s1 e, pinv cons s -> s_log s1 = e :: s_log s -> match e with Received _ _ | ReceiveCalled _ => False | _ => True end -> pinv (cons ++ k) s1.
Proof.
  intros cons k s s1 e P H He B. rewrite H in *. assert (B1 : one_body (s_log s)) by (destruct e; try contradiction; exact B).
  destruct (P B1) as (P1 & l & P2 & P3 & P4).
  assert (R : received (e :: s_log s) = received (s_log s)) by (destruct e; try contradiction; reflexivity).
  assert (Ac : accepted (e :: s_log s) = accepted (s_log s)) by (destruct e; try contradiction; reflexivity).
  rewrite R, Ac. split; [apply prefix_app, P1|]. exists l. split; [intros g Hg; destruct (P2 g Hg) as [m0 Hm]; exists m0; right; exact Hm|]. split; [exact P3|].
  destruct P4 as [P4|(f & P4 & P5)]; [auto|]. right. exists f. split; [exact P4|]. intros m0 [X|X]; [subst; contradiction|exact (P5 _ X)].
Qed.
Lemma pinv_step : forall c s s1 cons, on_loop c -> all cons s -> pinv cons s -> step c s = Some s1 -> pinv (cons ++ eats c s) s1.
Proof.
  intros c s s1 cons L [I F G O W] P E. destruct c as [t m|t m| | |f|f|t|t]; cbn [step] in E.
  - destruct (is_idle (s_thr s t)) eqn:X; [|discriminate]. injection E as <-. eapply pinv_say; [exact P|reflexivity|exact Logic.I].
  - destruct (is_idle (s_thr s t)) eqn:X; [|discriminate]. injection E as <-. eapply pinv_say; [exact P|reflexivity|exact Logic.I].
  - destruct (is_idle (s_thr s 0)) eqn:X; [|discriminate]. injection E as <-. eapply pinv_silent; [exact P|reflexivity].
  - destruct (s_ready s) eqn:R; [discriminate|]. destruct (is_idle (s_thr s 0)) eqn:X; [|discriminate]. injection E as <-. eapply pinv_silent; [exact P|reflexivity].
  - destruct (awaited f s) eqn:Aw; [|discriminate]. pose proof (awaited_accepted _ _ _ F Aw) as Ac. apply awaited_inv in Aw. destruct Aw as (W1 & W2 & W3).
    destruct (s_fut s f) as [|m|e|] eqn:Ff; try discriminate; injection E as <-; [|eapply pinv_say; [exact P|reflexivity|exact Logic.I]].
    cbn [eats]. rewrite app_nil_r. intros B. cbn in B. destruct (P B) as (P1 & l & P2 & P3 & P4). cbn [s_log say finish received accepted].
    assert (Old : In f l -> False). { intros H. destruct (P2 f H) as [m0 Hm]. assert (X : log_end s f) by (left; eauto). apply (o_end _ O) in X. destruct X. congruence. }
    destruct P4 as [P4|(g & P4 & P5)]; [rewrite P4 in Ac; destruct (Old Ac)|]. assert (f = g). { rewrite P4 in Ac. apply in_app_iff in Ac. destruct Ac as [Ac|[Ac|[]]]; [destruct (Old Ac)|congruence]. } subst g.
    assert (N : nth_error cons (length l) = Some m) by (eapply (f_done _ _ F); [rewrite P4; apply nth_last|exact Ff]).
    split.
    + destruct P1 as [k P1]. rewrite P1, <- P3 in N. rewrite nth_error_app2, Nat.sub_diag in N by lia. destruct k as [|x k]; [discriminate|]. injection N as ->. exists k. rewrite P1, <- app_assoc. reflexivity.
    + exists (l ++ [f]). split; [|split; [rewrite !app_length; cbn; lia|left; exact P4]]. intros g Hg. apply in_app_iff in Hg. destruct Hg as [Hg|[<-|[]]]; [|exists m; left; reflexivity].
      destruct (P2 g Hg) as [m0 Hm]. exists m0. right. exact Hm.
  - destruct (awaited f s) eqn:Aw; [|discriminate]. injection E as <-. eapply pinv_say; [exact P|reflexivity|exact Logic.I].
  - destruct (is_idle (s_thr s t)); [|discriminate]. injection E as <-. eapply pinv_say; [exact P|reflexivity|exact Logic.I].
  - assert (Q : s_log s1 = s_log s \/ (exists f, s_log s1 = ReceiveRaised f :: s_log s) \/ exists f, ~ In f (accepted (s_log s)) /\ s_log s1 = ReceiveCalled f :: s_log s).
    { unfold run in E. assert (N0 := i_new _ _ I). destruct t as [|t].
      - destruct (s_thr s 0) eqn:T; try discriminate E; try (injection E as <-; auto; fail).
        + destruct (N0 _ eq_refl) as [N1 N2]. destruct (s_cont s); injection E as <-; cbn; eauto.
        + destruct c; injection E as <-; auto.
        + destruct (acquire 0 (s_lock s)); [|discriminate]. injection E as <-. auto.
        + destruct (s_queue s); [discriminate|]. injection E as <-. auto.
        + destruct c; injection E as <-; auto.
        + destruct (release 0 (s_lock s)); [|discriminate]. injection E as <-. auto.
      - pose proof (i_other _ _ I t) as [X|X]; rewrite X in *; [discriminate|]. injection E as <-. auto. }
    destruct Q as [Q|[(f & Q)|(f & N & Q)]]; [eapply pinv_silent; [exact P|exact Q]|eapply pinv_say; [exact P|exact Q|exact Logic.I]|].
    intros B. rewrite Q in *. cbn in B. destruct B as [B1 B2]. destruct (P B2) as (P1 & l & P2 & P3 & P4). cbn. split; [apply prefix_app, P1|].
    destruct P4 as [P4|(g & P4 & P5)]; [|destruct (B1 g) as [m0 Hm]; [rewrite P4, in_app_iff; cbn; auto|destruct (P5 _ Hm)]].
    exists l. split; [intros g Hg; destruct (P2 g Hg) as [m0 Hm]; exists m0; right; exact Hm|]. split; [exact P3|]. right. exists f. rewrite P4. split; [reflexivity|].
    intros m0 [X|X]; [discriminate|]. apply N. apply (o_end _ O). left. eauto.
Qed.
Lemma prefix_pf : forall cs s, Forall on_loop cs -> exec step cs init = Some s -> one_body (s_log s) -> prefix (received (s_log s)) (posted (s_log s)).
Proof.
  intros cs s L E B. destruct (loop_ind pinv) with (cs := cs) (s := s) as (cons & A & P); auto.
  - intros _. cbn. split; [exists []; reflexivity|]. exists []. cbn. split; [intros g []|auto].
  - apply pinv_step.
  - rewrite (i_queue _ _ (a_inv _ _ A)). apply prefix_app. apply P, B.
Qed.

(** Quiet states. *)
Lemma runs : forall cons s t, inv cons s -> s_thr s t <> Idle -> run t s <> None.
Proof.
  intros cons s t I H. unfold run. destruct t as [|t].
  - assert (IL := i_lock _ _ I). assert (IG := i_get _ _ I). destruct (s_thr s 0) eqn:T; try discriminate; try congruence; cbn in IL; rewrite ?IL; try discriminate.
    + destruct (s_cont s); discriminate.
    + destruct (s_queue s); [|discriminate]. destruct (IG eq_refl eq_refl).
  - destruct (i_other _ _ I t) as [X|X]; rewrite X in *; [congruence|discriminate].
Qed.
Lemma quiet_inv : forall cons s, all cons s -> quiet s -> (forall t, s_thr s t = Idle) /\ s_ready s = 0 /\ forall f, f < s_nfut s -> s_over s f = false -> s_fut s f = Pending.
Proof.
  intros cons s A Q. assert (T : forall t, s_thr s t = Idle).
  { intros t. destruct (is_idle (s_thr s t)) eqn:X; [apply idle, X|]. exfalso. apply (runs cons s t (a_inv _ _ A)); [intros Y; rewrite Y in X; discriminate|]. apply (Q (CRun t)). exact Logic.I. }
  split; [exact T|]. split.
  - specialize (Q CTurn Logic.I). cbn in Q. rewrite (T 0) in Q. destruct (s_ready s); [reflexivity|discriminate].
  - intros f H1 H2. specialize (Q (CResume f) Logic.I). cbn in Q. unfold awaited in Q. rewrite (T 0), H2 in Q. apply Nat.ltb_lt in H1. rewrite H1 in Q. cbn in Q.
    pose proof (g_failed _ _ (a_ginv _ _ A) f) as G. destruct (s_fut s f) as [|v|e|]; try discriminate; [reflexivity|destruct (G e eq_refl)].
Qed.
Lemma all_delivered_pf : forall cs s i f m, Forall on_loop cs -> exec step cs init = Some s -> quiet s -> (forall t, ~ In (CancelRequested t) (s_log s)) ->
  nth_error (accepted (s_log s)) i = Some f -> nth_error (posted (s_log s)) i = Some m -> In (Received f m) (s_log s) \/ In (Abandoned f) (s_log s).
Proof.
  intros cs s i f m L E Q NC Hf Hm. destruct (loop_all cs s L E) as (cons & A). destruct (quiet_inv _ _ A Q) as (T & R & S).
  assert (Fl : s_flag s = false). { destruct (s_flag s) eqn:X; [|reflexivity]. apply (o_flag _ (a_oinv _ _ A)) in X. destruct X as [t X]. destruct (NC t X). }
  assert (Ph := i_phase _ _ (a_inv _ _ A)). rewrite T in Ph. cbn in Ph.
  assert (Li : i < length cons).
  { assert (H1 : i < length (accepted (s_log s))) by (apply nth_error_Some; congruence). assert (H2 : i < length (posted (s_log s))) by (apply nth_error_Some; congruence).
    rewrite (i_queue _ _ (a_inv _ _ A)), app_length in H2. destruct (s_cont s) as [c|] eqn:C; cbn in Ph; [|lia].
    destruct (s_queue s) eqn:Qu; [cbn in H2; lia|]. exfalso. destruct (a_winv _ _ A Fl) as [H|[(t & H)|H]]; [congruence|congruence|lia|rewrite T in H; discriminate|rewrite T in H; discriminate]. }
  assert (ND : s_fut s f <> Pending) by (eapply (g_settled _ _ (a_ginv _ _ A)); [exact Hf|rewrite T; exact Li]).
  assert (Ac : In f (accepted (s_log s))) by (eapply nth_error_In; exact Hf).
  destruct (s_over s f) eqn:Ov; [|destruct ND; apply S; [apply (i_old _ _ (a_inv _ _ A)), Ac|exact Ov]].
  destruct (o_over _ (a_oinv _ _ A) f Ov Ac) as [(m0 & H)|[H|H]]; [|auto|].
  - left. pose proof (position_pf cs s f m0 i L E H Hf). congruence.
  - apply (o_told _ (a_oinv _ _ A)) in H. congruence.
Qed.

(** receive raises only while the previous receive has not returned. *)
Lemma raised_pf : forall cs s l1 l2 f, Forall on_loop cs -> exec step cs init = Some s -> s_log s = l1 ++ ReceiveRaised f :: l2 ->
  exists l g, accepted l2 = l ++ [g] /\ forall m, ~ In (Received g m) l2.
Proof.
  intros cs s l1 l2 f L E. revert l1 l2 f. destruct (loop_ind (fun _ s => forall l1 l2 f, s_log s = l1 ++ ReceiveRaised f :: l2 -> exists l g, accepted l2 = l ++ [g] /\ forall m, ~ In (Received g m) l2)) with (cs := cs) (s := s) as (cons & A & P); auto.
  - intros [|e l1] l2 f H; discriminate.
  - clear. intros c s s1 cons L [I F G O W] P E.
    assert (Say : forall e, s_log s1 = e :: s_log s -> (forall f, e = ReceiveRaised f -> exists l g, accepted (s_log s) = l ++ [g] /\ forall m, ~ In (Received g m) (s_log s)) ->
      forall l1 l2 f, s_log s1 = l1 ++ ReceiveRaised f :: l2 -> exists l g, accepted l2 = l ++ [g] /\ forall m, ~ In (Received g m) l2).
    { intros e He H l1 l2 f X. rewrite He in X. destruct l1 as [|e1 l1]; injection X as X1 X2; [subst; eauto|eauto]. }
    destruct c as [t m|t m| | |f|f|t|t]; cbn [step] in E.
    + destruct (is_idle (s_thr s t)) eqn:X; [|discriminate]. injection E as <-. eapply Say; [reflexivity|discriminate].
    + destruct (is_idle (s_thr s t)) eqn:X; [|discriminate]. injection E as <-. eapply Say; [reflexivity|discriminate].
    + destruct (is_idle (s_thr s 0)) eqn:X; [|discriminate]. injection E as <-. exact P.
    + destruct (s_ready s) eqn:R; [discriminate|]. destruct (is_idle (s_thr s 0)) eqn:X; [|discriminate]. injection E as <-. exact P.
    + destruct (awaited f s) eqn:Aw; [|discriminate]. destruct (s_fut s f); try discriminate; injection E as <-; (eapply Say; [reflexivity|discriminate]).
    + destruct (awaited f s) eqn:Aw; [|discriminate]. injection E as <-. eapply Say; [reflexivity|discriminate].
    + destruct (is_idle (s_thr s t)); [|discriminate]. injection E as <-. eapply Say; [reflexivity|discriminate].
    + unfold run in E. destruct t as [|t].
      * assert (Ph := i_phase _ _ I). destruct (s_thr s 0) eqn:T; try discriminate E; try (injection E as <-; exact P).
        -- destruct (s_cont s) as [g|]; injection E as <-; (eapply Say; [reflexivity|]); [|discriminate]. intros f0 _. destruct Ph as (l & Ph1 & Ph2). exists l, g. split; [exact Ph1|].
           intros m H. destruct (f_received _ _ F g m H) as (i & H1 & H2). assert (i = length l) by (eapply nodup_nth; [apply (i_dup _ _ I)|exact H1|rewrite Ph1; apply nth_last]).
           assert (i < length cons) by (apply nth_error_Some; congruence). lia.
        -- destruct c; injection E as <-; exact P.
        -- destruct (acquire 0 (s_lock s)); [|discriminate]. injection E as <-. exact P.
        -- destruct (s_queue s); [discriminate|]. injection E as <-. exact P.
        -- destruct c; injection E as <-; exact P.
        -- destruct (release 0 (s_lock s)); [|discriminate]. injection E as <-. exact P.
      * pose proof (i_other _ _ I t) as [X|X]; rewrite X in *; [discriminate|]. injection E as <-. exact P.
Qed.
