(** Agents: a mailbox with the task of its body. *)
From Coq Require Import List Bool Arith Lia.
From Verif.Model Require Import Base Thread Aiotools Mailbox Agent.
From Verif.Spec Require Import MailboxSpec AgentSpec.
From Verif.Proofs Require Import ThreadFacts MailboxFacts MailboxFacts2 MailboxFacts3 MailboxFacts6 MailboxFacts7.
Import ListNotations.

(** What a step of the mailbox changes that is not a step of the body. *)
Definition quiet_event (e : event) : Prop := match e with Posted _ _ | CancelRequested _ => True | _ => False end.
Inductive box_change (s s1 : state) : Prop :=
| bc_same : s_over s1 = s_over s -> s_log s1 = s_log s -> box_change s s1
| bc_said : forall e, s_over s1 = s_over s -> s_log s1 = e :: s_log s -> quiet_event e -> box_change s s1
| bc_called : forall t f, s_thr s t = V_Check f -> s_cont s = None -> s_over s1 = s_over s -> s_log s1 = ReceiveCalled f :: s_log s -> box_change s s1
| bc_raised : forall t f g, s_thr s t = V_Check f -> s_cont s = Some g -> s_over s1 = (fun h => if Nat.eqb h f then true else s_over s h) -> s_log s1 = ReceiveRaised f :: s_log s -> box_change s s1.
Lemma box_cases : forall c s s1, match c with CReceive | CResume _ | CAbandon _ => False | _ => True end -> step c s = Some s1 ->
  s_nfut s1 = s_nfut s /\ (s_flag s = true -> s_flag s1 = true) /\ box_change s s1.
Proof.
  intros c s s1 N E. destruct c as [t m|t m| | |f|f|t|t]; try contradiction; cbn [step] in E.
  - destruct (is_idle (s_thr s t)); [|discriminate]. injection E as <-. repeat split; auto. eapply bc_said; reflexivity || exact Logic.I.
  - destruct (is_idle (s_thr s t)); [|discriminate]. injection E as <-. repeat split; auto. eapply bc_said; reflexivity || exact Logic.I.
  - destruct (s_ready s); [discriminate|]. destruct (is_idle (s_thr s 0)); [|discriminate]. injection E as <-. repeat split; auto. apply bc_same; reflexivity.
  - destruct (is_idle (s_thr s t)); [|discriminate]. injection E as <-. repeat split; auto. eapply bc_said; reflexivity || exact Logic.I.
  - unfold run in E. destruct (s_thr s t) eqn:T; try discriminate E; try (injection E as <-; repeat split; auto; apply bc_same; reflexivity).
    + destruct (s_cont s) eqn:C; injection E as <-; repeat split; auto; [eapply bc_raised|eapply bc_called]; try eassumption; reflexivity.
    + destruct c; injection E as <-; repeat split; auto; apply bc_same; reflexivity.
    + destruct (acquire t (s_lock s)); [|discriminate]. injection E as <-. repeat split; auto; apply bc_same; reflexivity.
    + destruct (s_queue s); [discriminate|]. injection E as <-. repeat split; auto; apply bc_same; reflexivity.
    + destruct c; injection E as <-; repeat split; auto; apply bc_same; reflexivity.
    + destruct (release t (s_lock s)); [|discriminate]. injection E as <-. repeat split; auto; apply bc_same; reflexivity.
Qed.
Lemma box_received : forall s s1, box_change s s1 -> received (s_log s1) = received (s_log s) /\ forall f m, In (Received f m) (s_log s1) <-> In (Received f m) (s_log s).
Proof.
  intros s s1 [_ L|e _ L Q|t f _ _ _ L|t f g _ _ _ L]; rewrite L; (split; [try reflexivity; destruct e; try contradiction; reflexivity|]); intros h m; cbn; try tauto;
    (split; [intros [H|H]; [try discriminate H; subst; contradiction|exact H]|auto]).
Qed.

Section Agent.
  Context {B O : Type} (next : B -> act B O) (b0 : B).
  Implicit Types a : agent B O.

  Lemma sequential_snoc_did : forall b tr b1 o b2, sequential next b tr b1 -> next b1 = Do o b2 -> sequential next b (tr ++ [Did o]) b2.
  Proof. induction 1; intros N; cbn; [eapply sq_did; [exact N|apply sq_nil]|eapply sq_got; eauto|eapply sq_did; eauto]. Qed.
  Lemma sequential_snoc_got : forall b tr b1 k m, sequential next b tr b1 -> next b1 = Receive k -> sequential next b (tr ++ [Got m]) (k m).
  Proof. induction 1; intros N; cbn; [eapply sq_got; [exact N|apply sq_nil]|eapply sq_got; eauto|eapply sq_did; eauto]. Qed.
  Lemma messages_app : forall (l r : list (happening O)), messages (l ++ r) = messages l ++ messages r.
  Proof. induction l as [|[m|o] l IH]; intros r; cbn; congruence. Qed.

  (** For all executions. *)
  Record tinv a : Prop := {
    ti_msgs : messages (rev (a_trace a)) = received (s_log (a_box a));
    ti_seq : match a_body a with
             | Starts b | Ready b => sequential next b0 (rev (a_trace a)) b
             | Waits f k => exists b, sequential next b0 (rev (a_trace a)) b /\ next b = Receive k
             | Over => exists b, sequential next b0 (rev (a_trace a)) b
             end }.
  Lemma tinv_step : forall c a a1, tinv a -> astep next c a = Some a1 -> tinv a1.
  Proof.
    intros c a a1 [T1 T2] E. destruct c as [c| | |]; cbn [astep] in E.
    - assert (N : match c with CReceive | CResume _ | CAbandon _ => False | _ => True end) by (destruct c; try exact Logic.I; discriminate E).
      assert (S : exists s, step c (a_box a) = Some s /\ a1 = Agent s (a_body a) (a_trace a)).
      { destruct (step c (a_box a)) as [s|] eqn:S; [exists s; split; [reflexivity|]|]; destruct c; try contradiction; rewrite ?S in E; cbn in E; congruence. }
      destruct S as (s & S & ->). destruct (box_cases _ _ _ N S) as (_ & _ & C). destruct (box_received _ _ C) as [R _]. constructor; cbn; [now rewrite R|exact T2].
    - destruct (a_body a) as [b|b|f k|] eqn:SB; try discriminate; (destruct (is_idle _) eqn:I0; [|discriminate]); destruct (next b) as [k|o b1| |] eqn:N.
      all: try (injection E as <-; constructor; cbn; [rewrite ?messages_app; cbn; rewrite ?app_nil_r; exact T1|eauto using sequential_snoc_did; fail]).
      all: cbn in E; rewrite I0 in E; cbn in E; injection E as <-; constructor; cbn; [exact T1|eauto].
    - destruct (a_body a) as [b|b|f k|] eqn:SB; try discriminate. destruct T2 as (b & T2 & N). destruct (s_over (a_box a) f).
      + destruct (is_idle _); [|discriminate]. injection E as <-. constructor; cbn; eauto.
      + cbn [step] in E. destruct (awaited f (a_box a)); [|discriminate]. destruct (s_fut (a_box a) f) as [|m|e|] eqn:F; try discriminate; injection E as <-.
        * constructor; cbn; [rewrite messages_app; cbn; rewrite T1; reflexivity|eapply sequential_snoc_got; eassumption].
        * constructor; cbn; eauto.
    - destruct (s_flag (a_box a)); [|discriminate]. destruct (a_body a) as [b|b|f k|] eqn:SB; try discriminate.
      + injection E as <-. constructor; cbn; eauto.
      + cbn [step] in E. destruct (awaited f (a_box a)); [|discriminate]. injection E as <-. destruct T2 as (b & T2 & N). constructor; cbn; eauto.
  Qed.
  Lemma tinv_start : tinv (start b0).
  Proof. constructor; cbn; [reflexivity|apply sq_nil]. Qed.
  Lemma sequential_pf : forall cs a, exec (astep next) cs (start b0) = Some a -> tinv a.
  Proof.
    intros cs a E. revert cs a E. apply (exec_ind (astep next) (fun _ a => tinv a)); [apply tinv_start|]. intros. eapply tinv_step; eassumption.
  Qed.

  (** On the loop. *)
  Definition got (s : state) (g : nat) : Prop := exists m, In (Received g m) (s_log s).
  Record ainv a : Prop := {
    ai_run : exists cs, Forall on_loop cs /\ exec step cs init = Some (a_box a);
    ai_one : one_body (s_log (a_box a));
    ai_got : forall g, In g (accepted (s_log (a_box a))) -> got (a_box a) g \/ (exists k, a_body a = Waits g k) \/ a_body a = Over;
    ai_open : forall g, g < s_nfut (a_box a) -> s_over (a_box a) g = false -> exists k, a_body a = Waits g k;
    ai_wait : forall f k, a_body a = Waits f k -> f < s_nfut (a_box a) /\ (s_over (a_box a) f = true -> ~ In f (accepted (s_log (a_box a))));
    ai_raised : forall f, ~ In (ReceiveRaised f) (s_log (a_box a));
    ai_live : forall f k, a_body a = Waits f k -> s_over (a_box a) f = false;
    ai_over : a_body a = Over -> (exists b, sequential next b0 (rev (a_trace a)) b /\ finished next b) \/ s_flag (a_box a) = true }.
  Lemma ainv_start : ainv (start b0).
  Proof.
    constructor; cbn; auto; try discriminate; try contradiction; [|lia]. exists []. split; [constructor|reflexivity].
  Qed.
  Lemma run_more : forall c s s1, on_loop c -> (exists cs, Forall on_loop cs /\ exec step cs init = Some s) -> step c s = Some s1 -> exists cs, Forall on_loop cs /\ exec step cs init = Some s1.
  Proof.
    intros c s s1 L (cs & F & E) S. exists (cs ++ [c]). split; [apply Forall_app; auto|].
    assert (X : forall ds x, exec step ds x = Some s -> exec step (ds ++ [c]) x = Some s1).
    { induction ds as [|d ds IH]; intros x H; cbn in *; [injection H as ->; rewrite S; reflexivity|]. destruct (step d x); [auto|discriminate]. }
    now apply X.
  Qed.
  (** The receive is never called while another one waits. *)
  Lemma never_twice : forall a f g, ainv a -> s_thr (a_box a) 0 = V_Check f -> s_cont (a_box a) = Some g -> False.
  Proof.
    intros a f g I T C. destruct (ai_run _ I) as (cs & F & E). destruct (loop_all cs _ F E) as (cons & A). pose proof (a_inv _ _ A) as IA.
    destruct (i_new _ _ IA f T) as [N1 N2]. pose proof (i_phase _ _ IA) as P. rewrite T, C in P. cbn in P. destruct P as (l & P1 & P2).
    assert (OV : s_over (a_box a) f = false). { destruct (s_over (a_box a) f) eqn:OV; [|reflexivity]. destruct (o_old _ (a_oinv _ _ A) f OV) as [_ X]. congruence. }
    destruct (ai_open _ I f N1 OV) as (k & W). assert (G : In g (accepted (s_log (a_box a)))) by (rewrite P1; apply in_app_iff; cbn; auto).
    destruct (ai_got _ I g G) as [[m R]|[(k1 & W1)|W1]]; [|assert (f = g) by congruence; subst; contradiction|congruence].
    destruct (f_received _ _ (a_finv _ _ A) g m R) as (i & H1 & H2). assert (i < length cons) by (apply nth_error_Some; congruence).
    assert (L1 : nth_error (accepted (s_log (a_box a))) (length l) = Some g) by (rewrite P1; apply nth_last).
    pose proof (nodup_nth _ _ _ _ _ (i_dup _ _ IA) H1 L1). lia.
  Qed.
  Lemma ainv_step : forall c a a1, agent_on_loop c -> tinv a -> ainv a -> astep next c a = Some a1 -> ainv a1.
  Proof.
    intros c a a1 L [_ TS] I E. destruct (ai_run _ I) as (cs & F & X). destruct (loop_all cs _ F X) as (cons & A). pose proof (a_inv _ _ A) as IA. pose proof (a_oinv _ _ A) as OA.
    destruct c as [c| | |]; cbn [astep] in E.
    - assert (N : match c with CReceive | CResume _ | CAbandon _ => False | _ => True end) by (destruct c; try exact Logic.I; discriminate E).
      assert (S : exists s, step c (a_box a) = Some s /\ a1 = Agent s (a_body a) (a_trace a)).
      { destruct (step c (a_box a)) as [s|] eqn:S; [exists s; split; [reflexivity|]|]; destruct c; try contradiction; rewrite ?S in E; cbn in E; congruence. }
      destruct S as (s & S & ->). destruct (box_cases _ _ _ N S) as (NF & FL & C). destruct (box_received _ _ C) as [_ R]. pose proof (run_more c _ _ L (ai_run _ I) S) as RM.
      assert (V : forall t f, s_thr (a_box a) t = V_Check f -> t = 0) by (intros [|t] f T; [reflexivity|destruct (i_other _ _ IA t); congruence]).
      destruct C as [CO CL|e CO CL Q|t f T CN CO CL|t f g T CN CO CL].
      4: { exfalso. pose proof (V _ _ T). subst t. eapply never_twice; eassumption. }
      + constructor; cbn; rewrite ?CL, ?CO, ?NF; try apply I; [exact RM| |].
        * intros h H. destruct (ai_got _ I h H) as [(m & G)|G]; [left; exists m; cbn; rewrite CL; exact G|auto].
        * intros W. destruct (ai_over _ I W) as [G|G]; auto.
      + assert (AC : accepted (e :: s_log (a_box a)) = accepted (s_log (a_box a))) by (destruct e; try contradiction; reflexivity).
        constructor; cbn [a_box a_body a_trace]; rewrite ?CL, ?CO, ?NF, ?AC; try apply I; [exact RM| | | |].
        * destruct e; try contradiction; apply I.
        * intros h H. destruct (ai_got _ I h H) as [(m & G)|G]; [left; exists m; cbn; rewrite CL; right; exact G|auto].
        * intros f [H|H]; [subst; contradiction|]. eapply ai_raised; eassumption.
        * intros W. destruct (ai_over _ I W) as [G|G]; auto.
      + pose proof (V _ _ T). subst t. destruct (i_new _ _ IA f T) as [N1 N2].
        assert (OV : s_over (a_box a) f = false). { destruct (s_over (a_box a) f) eqn:OV; [|reflexivity]. destruct (o_old _ OA f OV) as [_ Y]. congruence. }
        destruct (ai_open _ I f N1 OV) as (k & W).
        constructor; cbn [a_box a_body a_trace]; rewrite ?CL, ?CO, ?NF; try apply I; [exact RM| | | | |].
        * cbn. split; [|apply I]. intros h H. destruct (ai_got _ I h H) as [G|[(k1 & G)|G]]; [exact G|assert (h = f) by congruence; subst; contradiction|congruence].
        * intros h H. cbn in H. apply in_app_iff in H. destruct H as [H|[<-|[]]]; [|eauto]. destruct (ai_got _ I h H) as [(m & G)|G]; [left; exists m; cbn; rewrite CL; right; exact G|auto].
        * intros h k1 W1. split; [eapply ai_wait; eassumption|]. pose proof (ai_live _ I _ _ W1). congruence.
        * intros h [H|H]; [discriminate|]. eapply ai_raised; eassumption.
        * intros W1. congruence.
    - assert (IDLE : is_idle (s_thr (a_box a) 0) = true) by (destruct (a_body a); try discriminate E; (destruct (is_idle _); [reflexivity|discriminate])).
      rewrite IDLE in E.
      assert (G : exists b, (a_body a = Starts b \/ a_body a = Ready b) /\ sequential next b0 (rev (a_trace a)) b /\
        match next b with
        | Receive k => option_map (fun s => Agent s (Waits (s_nfut (a_box a)) k) (a_trace a)) (step CReceive (a_box a))
        | Do o b => Some (Agent (a_box a) (Ready b) (Did o :: a_trace a))
        | Returns | Raises => Some (Agent (a_box a) Over (a_trace a))
        end = Some a1) by (destruct (a_body a) as [b|b|f k|]; try discriminate; exists b; auto).
      clear E. destruct G as (b & SB & SQ & E).
      assert (GA : forall g, In g (accepted (s_log (a_box a))) -> got (a_box a) g) by (intros g H; destruct (ai_got _ I g H) as [G|[(k & G)|G]]; [exact G|destruct SB; congruence|destruct SB; congruence]).
      assert (GO : forall g, g < s_nfut (a_box a) -> s_over (a_box a) g = false -> False) by (intros g H1 H2; destruct (ai_open _ I g H1 H2) as (k & G); destruct SB; congruence).
      destruct (next b) as [k|o b1| |] eqn:N.
      + destruct (step CReceive (a_box a)) as [s|] eqn:S; [|discriminate]. cbn in E. injection E as <-. pose proof (run_more CReceive _ _ Logic.I (ai_run _ I) S) as RM.
        cbn in S. rewrite IDLE in S. injection S as <-.
        assert (OV : s_over (a_box a) (s_nfut (a_box a)) = false). { destruct (s_over (a_box a) (s_nfut (a_box a))) eqn:OV; [|reflexivity]. destruct (o_old _ OA _ OV) as [Y _]. lia. }
        constructor; cbn; try apply I; [exact RM| | | | |discriminate].
        * intros g H. left. apply GA, H.
        * intros g H1 H2. destruct (Nat.eq_dec g (s_nfut (a_box a))) as [->|D]; [eauto|]. destruct (GO g); [lia|exact H2].
        * intros f k1 [= <- <-]. split; [lia|]. congruence.
        * intros f k1 [= <- <-]. exact OV.
      + injection E as <-. constructor; cbn; try apply I; try discriminate; [|].
        * intros g H. left. apply GA, H.
        * intros g H1 H2. destruct (GO g H1 H2).
      + injection E as <-. constructor; cbn; try apply I; try discriminate; auto.
        * intros g H1 H2. destruct (GO g H1 H2).
        * intros _. left. exists b. split; [exact SQ|left; exact N].
      + injection E as <-. constructor; cbn; try apply I; try discriminate; auto.
        * intros g H1 H2. destruct (GO g H1 H2).
        * intros _. left. exists b. split; [exact SQ|right; exact N].
    - destruct (a_body a) as [b|b|f k|] eqn:SB; try discriminate. rewrite (ai_live _ I f k SB) in E.
      destruct (step (CResume f) (a_box a)) as [s|] eqn:S; [|discriminate]. pose proof (run_more (CResume f) _ _ Logic.I (ai_run _ I) S) as RM.
      cbn [step] in S. destruct (awaited f (a_box a)) eqn:AW; [|discriminate].
      destruct (s_fut (a_box a) f) as [|m|e|] eqn:FU; try discriminate; injection S as <-; injection E as <-.
      + constructor; cbn; try apply I; try discriminate; [exact RM| | |].
        * intros g H. destruct (ai_got _ I g H) as [(m1 & G)|[(k1 & G)|G]]; [left; exists m1; cbn; auto|assert (g = f) by congruence; subst; left; exists m; cbn; auto|congruence].
        * intros g H1 H2. destruct (Nat.eqb_spec g f) as [->|D]; [discriminate|]. destruct (ai_open _ I g H1 H2) as (k1 & G). congruence.
        * intros g [H|H]; [discriminate|]. eapply ai_raised; eassumption.
      + assert (FT : s_flag (a_box a) = true). { destruct (o_cancelled _ OA f FU) as [G|G]; [exact G|]. destruct (o_end _ OA f) as [Y _]; [right; left; exact G|]. rewrite (ai_live _ I f k SB) in Y. discriminate. }
        constructor; cbn; try apply I; try discriminate; auto.
        * intros g H1 H2. destruct (Nat.eqb_spec g f) as [->|D]; [discriminate|]. destruct (ai_open _ I g H1 H2) as (k1 & G). congruence.
        * intros g [H|H]; [discriminate|]. eapply ai_raised; eassumption.
    - destruct (s_flag (a_box a)) eqn:FT; [|discriminate]. destruct (a_body a) as [b|b|f k|] eqn:SB; try discriminate.
      + injection E as <-. constructor; cbn; try apply I; try discriminate; auto. intros g H1 H2. destruct (ai_open _ I g H1 H2) as (k1 & G). congruence.
      + destruct (step (CAbandon f) (a_box a)) as [s|] eqn:S; [|discriminate]. cbn in E. injection E as <-. pose proof (run_more (CAbandon f) _ _ Logic.I (ai_run _ I) S) as RM.
        cbn [step] in S. destruct (awaited f (a_box a)) eqn:AW; [|discriminate]. injection S as <-.
        constructor; cbn; try apply I; try discriminate; auto.
        * intros g H1 H2. destruct (Nat.eqb_spec g f) as [->|D]; [discriminate|]. destruct (ai_open _ I g H1 H2) as (k1 & G). congruence.
        * intros g [H|H]; [discriminate|]. eapply ai_raised; eassumption.
  Qed.
  Lemma loop_pf : forall cs a, Forall agent_on_loop cs -> exec (astep next) cs (start b0) = Some a -> tinv a /\ ainv a.
  Proof.
    intros cs a L E. revert L. apply (exec_ind (astep next) (fun cs a => Forall agent_on_loop cs -> tinv a /\ ainv a) (start b0)) with (cs := cs) (s := a); [| |exact E].
    - intros _. split; [apply tinv_start|apply ainv_start].
    - intros ds c x y IH Sx F. apply Forall_app in F. destruct F as [F1 F2]. inversion F2; subst. destruct (IH F1). split; [eapply tinv_step|eapply ainv_step]; eassumption.
  Qed.

  Lemma agent_prefix_inv : forall a, tinv a -> ainv a ->
    (exists b, sequential next b0 (rev (a_trace a)) b) /\ prefix (messages (rev (a_trace a))) (posted (s_log (a_box a))) /\ forall f, ~ In (ReceiveRaised f) (s_log (a_box a)).
  Proof.
    intros a [T1 T2] I. split; [destruct (a_body a) as [b|b|f k|]; eauto; destruct T2 as (b & T2 & _); eauto|].
    destruct (ai_run _ I) as (ds & F & X). split; [rewrite T1; eapply prefix_pf; try eassumption; apply I|apply I].
  Qed.
  Lemma agent_prefix_pf : forall cs a, Forall agent_on_loop cs -> exec (astep next) cs (start b0) = Some a ->
    (exists b, sequential next b0 (rev (a_trace a)) b) /\ prefix (messages (rev (a_trace a))) (posted (s_log (a_box a))) /\ forall f, ~ In (ReceiveRaised f) (s_log (a_box a)).
  Proof. intros cs a L E. destruct (loop_pf cs a L E) as [T I]. exact (agent_prefix_inv a T I). Qed.
  Lemma agent_all_inv : forall a, tinv a -> ainv a -> agent_quiet next a ->
    (forall t, ~ In (CancelRequested t) (s_log (a_box a))) ->
    exists b, sequential next b0 (rev (a_trace a)) b /\ ((a_body a = Over /\ finished next b) \/ (exists f k, a_body a = Waits f k /\ next b = Receive k /\ messages (rev (a_trace a)) = posted (s_log (a_box a)))).
  Proof.
    intros a [T1 T2] I Q NC. destruct (ai_run _ I) as (ds & F & X). destruct (loop_all ds _ F X) as (cons & A).
    assert (FL : s_flag (a_box a) = false). { destruct (s_flag (a_box a)) eqn:Y; [|reflexivity]. apply (o_flag _ (a_oinv _ _ A)) in Y. destruct Y as [t Y]. destruct (NC t Y). }
    assert (QB : quiet (a_box a)).
    { intros c G. destruct c as [t m|t m| | |f|f|t|t]; try contradiction.
      - specialize (Q (Box CTurn) Logic.I). cbn [astep] in Q. destruct (step CTurn (a_box a)); [discriminate|reflexivity].
      - destruct (step (CResume f) (a_box a)) as [s|] eqn:S; [|reflexivity]. exfalso.
        assert (AW : awaited f (a_box a) = true) by (cbn in S; destruct (awaited f (a_box a)); [reflexivity|discriminate]).
        destruct (awaited_inv _ _ AW) as (W1 & W2 & _). destruct (ai_open _ I f W1 W2) as (k & W).
        specialize (Q Resume Logic.I). cbn [astep] in Q. rewrite W, W2, S in Q. destruct (s_fut (a_box a) f); discriminate.
      - specialize (Q (Box (CRun t)) Logic.I). cbn [astep] in Q. destruct (step (CRun t) (a_box a)); [discriminate|reflexivity]. }
    destruct (quiet_inv _ _ A QB) as (TI & _ & _).
    assert (NR : forall b, a_body a = Starts b \/ a_body a = Ready b -> False).
    { intros b SB. specialize (Q Go Logic.I). cbn [astep] in Q. rewrite (TI 0) in Q. destruct SB as [SB|SB]; rewrite SB in Q; cbn [is_idle] in Q; destruct (next b); try discriminate; cbn in Q; rewrite (TI 0) in Q; discriminate. }
    destruct (a_body a) as [b|b|f k|] eqn:SB; [destruct (NR b); auto|destruct (NR b); auto| |].
    - destruct T2 as (b & T2 & N). exists b. split; [exact T2|]. right. exists f, k. split; [reflexivity|]. split; [exact N|]. rewrite T1.
      destruct (ai_wait _ I f k SB) as [W1 _]. pose proof (ai_live _ I f k SB) as W2.
      assert (AC : In f (accepted (s_log (a_box a)))). { destruct (f_known _ _ (a_finv _ _ A) f W1) as [Y|[Y|Y]]; [exact Y|congruence|rewrite TI in Y; discriminate]. }
      assert (NE : ~ log_end (a_box a) f) by (intros Y; destruct (o_end _ (a_oinv _ _ A) f Y); congruence).
      assert (NA : forall g, ~ In (Abandoned g) (s_log (a_box a))).
      { intros g Y. destruct (o_end _ (a_oinv _ _ A) g) as [_ G]; [right; left; exact Y|]. destruct (ai_got _ I g G) as [(m & H)|[(k1 & H)|H]]; [|assert (g = f) by congruence; subst; apply NE; right; left; exact Y|congruence].
        pose proof (two_ends _ g _ _ (ends_once_pf ds _ g X) H Y (Nat.eqb_refl g) (Nat.eqb_refl g)). discriminate. }
      eapply all_received_pf; try eassumption; [apply I|].
      destruct (In_nth_error _ _ AC) as (i & Hi). assert (i < length (accepted (s_log (a_box a)))) by (apply nth_error_Some; congruence).
      destruct (le_lt_dec (length (posted (s_log (a_box a)))) (length (accepted (s_log (a_box a))))) as [H1|H1]; [exact H1|].
      exfalso. destruct (nth_error (posted (s_log (a_box a))) i) as [m|] eqn:Hm; [|apply nth_error_None in Hm; lia].
      destruct (all_delivered_pf ds _ i f m F X QB NC Hi Hm) as [Y|Y]; apply NE; [left; eauto|right; left; exact Y].
    - destruct (ai_over _ I SB) as [(b & S1 & S2)|H]; [|congruence]. eauto.
  Qed.
  Lemma agent_all_pf : forall cs a, Forall agent_on_loop cs -> exec (astep next) cs (start b0) = Some a -> agent_quiet next a ->
    (forall t, ~ In (CancelRequested t) (s_log (a_box a))) ->
    exists b, sequential next b0 (rev (a_trace a)) b /\ ((a_body a = Over /\ finished next b) \/ (exists f k, a_body a = Waits f k /\ next b = Receive k /\ messages (rev (a_trace a)) = posted (s_log (a_box a)))).
  Proof. intros cs a L E. destruct (loop_pf cs a L E) as [T I]. exact (agent_all_inv a T I). Qed.
End Agent.
