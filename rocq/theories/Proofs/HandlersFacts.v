(** Lemmas about bodies with handlers. *)
From Coq Require Import List Lia.
From Verif.Model Require Import Base OptionResult Builder Mixed Handlers.
From Verif.Spec Require Import BuilderSpec MixedSpec CustomBuilderSpec HandlersSpec.
From Verif.Proofs Require Import BuilderFacts BuilderFacts2 CustomBuilderFacts MixedFacts.
Import ListNotations.

Section Facts.
  Context {W A Er : Type}.
  Notation V := (pyopt A).
  Notation N := (outcome A Er).
  Variable awaiting : bool.
  Notation out := (node V N (susp W V N) * W)%type.
  Notation run := (run awaiting).
  Notation means := (means awaiting).

  Lemma view_inside : forall m : N, outcome_view m = inside m.
  Proof. intros [[v|]|[v|e]]; reflexivity. Qed.

  (** Going on from a suspension or end. *)
  Inductive goes : out -> list V -> ending V N -> W -> Prop :=
  | go_return : forall x w, goes (NReturn x, w) [] (EReturn x) w
  | go_throw : forall e w, goes (NThrow e, w) [] (EThrow (match e with StopIterationExn => RuntimeError | _ => e end)) w
  | go_fail : forall m w, goes (NFail m, w) [] (EFail m) w
  | go_yield : forall u on w vs e w1, goes (on u w) vs e w1 -> goes (NYield u (Susp on), w) (u :: vs) e w1.

  Lemma goes_gives : forall o vs e w1, goes o vs e w1 -> forall s v w, susp_resume s v w = o -> body_gives susp_resume s v w vs e w1.
  Proof.
    induction 1 as [x w0|e w0|m w0|u on w0 vs e w1 G IH]; intros s v w E.
    - eapply bg_return; eassumption.
    - eapply bg_throw; eassumption.
    - eapply bg_fail; eassumption.
    - eapply bg_yield; [eassumption|]. apply IH. reflexivity.
  Qed.

  (** [K] follows completion [c] *)
  Lemma run_goes : forall (p : prog W V N) w vs c w1, means p w = (vs, c, w1) ->
    forall (K : completion V N -> W -> out) us e w2, goes (K c w1) us e w2 -> goes (run p K w) (vs ++ us) e w2.
  Proof.
    induction p as [v|v|x|m k IH|v k IH|m k IH|helper IHp k IH|body IHb catches handler IHh final IHf next IHn|body IHb exit next IHn|xs v0 body IHb next IHn|v|v];
      intros w vs c w1 E K us e w2 G; cbn [HandlersSpec.means Handlers.run] in *.
    - injection E as <- <- <-. exact G.
    - injection E as <- <- <-. exact G.
    - injection E as <- <- <-. exact G.
    - unfold effect in E. destruct (m w) as [[x|e0] w0].
      + eapply IH; eassumption.
      + injection E as <- <- <-. exact G.
    - unfold yields in E. destruct (means (k v) w) as [[vs0 c0] w0] eqn:E0. injection E as <- <- <-.
      cbn. apply go_yield. eapply IH; eassumption.
    - unfold effect in E. destruct (m w) as [[m0|e0] w0]; [|injection E as <- <- <-; exact G].
      rewrite view_inside. destruct (inside m0) as [v|].
      + assert (Q : forall b : bool, (if b then means (k v) else yields v (means (k v))) w0 = (vs, c, w1) ->
                  goes (if b then run (k v) K w0 else (NYield v (Susp (fun x w => run (k x) K w)), w0)) (vs ++ us) e w2); [|exact (Q awaiting E)].
        intros []; intros E5; [eapply IH; eassumption|]. unfold yields in E5. destruct (means (k v) w0) as [[vs0 c0] w3] eqn:E0. injection E5 as <- <- <-.
        cbn. apply go_yield. eapply IH; eassumption.
      + injection E as <- <- <-. exact G.
    - unfold delegate, then_ in E. destruct (means helper w) as [[vs1 c1] w3] eqn:E1. destruct c1 as [v|v|x|v|v].
      + destruct (means (k PyNone) w3) as [[us0 d] w4] eqn:E2. injection E as <- <- <-. rewrite <- app_assoc. eapply IHp; [exact E1|]. eapply IH; eassumption.
      + destruct (means (k v) w3) as [[us0 d] w4] eqn:E2. injection E as <- <- <-. rewrite <- app_assoc. eapply IHp; [exact E1|]. eapply IH; eassumption.
      + assert (Q : (vs1, CRaise (match x with RThrow StopIterationExn => RThrow RuntimeError | x => x end), w3) = (vs, c, w1)).
        { rewrite <- E. destruct x as [m|[]]; cbn; rewrite app_nil_r; reflexivity. }
        injection Q as <- <- <-. eapply IHp; [exact E1|]. exact G.
      + destruct (means (k PyNone) w3) as [[us0 d] w4] eqn:E2. injection E as <- <- <-. rewrite <- app_assoc. eapply IHp; [exact E1|]. eapply IH; eassumption.
      + destruct (means (k PyNone) w3) as [[us0 d] w4] eqn:E2. injection E as <- <- <-. rewrite <- app_assoc. eapply IHp; [exact E1|]. eapply IH; eassumption.
    - unfold and_then, finally, except, then_ in E.
      destruct (means body w) as [[vs1 c1] w3] eqn:E1.
      destruct (match c1 with CRaise x => if catches x then means (handler x) else at_once (CRaise x) | CEnd v => at_once (CEnd v) | CReturn v => at_once (CReturn v) | CBreak v => at_once (CBreak v) | CContinue v => at_once (CContinue v) end w3) as [[vs3 c3] w4] eqn:E2.
      destruct (means final w4) as [[us0 d] w5] eqn:E3. unfold at_once at 1 in E. fold (overrides d c3) in E.
      destruct (match overrides d c3 with CEnd v => means (next v) | CReturn v => at_once (CReturn v) | CRaise x => at_once (CRaise x) | CBreak v => at_once (CBreak v) | CContinue v => at_once (CContinue v) end w5) as [[us1 d1] w6] eqn:E4.
      injection E as <- <- <-. rewrite app_nil_r, <- !app_assoc.
      assert (F : goes (run final (fun c1 w => match overrides c1 c3 with CEnd v => run (next v) K w | CReturn v => K (CReturn v) w | CRaise x => K (CRaise x) w | CBreak v => K (CBreak v) w | CContinue v => K (CContinue v) w end) w4)
                    (us0 ++ us1 ++ us) e w2).
      { eapply IHf; [exact E3|]. destruct (overrides d c3) as [v|v|x|v|v]; [eapply IHn; eassumption| | | |]; injection E4 as <- <- <-; exact G. }
      eapply IHb; [exact E1|]. destruct c1 as [v|v|x|v|v].
      + injection E2 as <- <- <-. exact F.
      + injection E2 as <- <- <-. exact F.
      + destruct (catches x).
        * eapply IHh; [exact E2|]. exact F.
        * injection E2 as <- <- <-. exact F.
      + injection E2 as <- <- <-. exact F.
      + injection E2 as <- <- <-. exact F.
    - unfold and_then, with_, then_ in E. destruct (means body w) as [[vs1 c1] w3] eqn:E1.
      destruct c1 as [v|v|x|v|v]; unfold effect in E.
      + destruct (exit None w3) as [[b|e0] w4] eqn:E2.
        * unfold at_once in E at 1. destruct (means (next v) w4) as [[us0 d] w5] eqn:E3. injection E as <- <- <-.
          rewrite app_nil_r, <- app_assoc. eapply IHb; [exact E1|]. cbn. rewrite E2. eapply IHn; eassumption.
        * injection E as <- <- <-. rewrite !app_nil_r. eapply IHb; [exact E1|]. cbn. rewrite E2. exact G.
      + destruct (exit None w3) as [[b|e0] w4] eqn:E2; injection E as <- <- <-; rewrite !app_nil_r; (eapply IHb; [exact E1|]); cbn; rewrite E2; exact G.
      + destruct (exit (Some x) w3) as [[b|e0] w4] eqn:E2.
        * destruct b; unfold at_once in E at 1.
          -- destruct (means (next PyNone) w4) as [[us0 d] w5] eqn:E3. injection E as <- <- <-.
             rewrite app_nil_r, <- app_assoc. eapply IHb; [exact E1|]. cbn. rewrite E2. eapply IHn; eassumption.
          -- injection E as <- <- <-. rewrite !app_nil_r. eapply IHb; [exact E1|]. cbn. rewrite E2. exact G.
        * injection E as <- <- <-. rewrite !app_nil_r. eapply IHb; [exact E1|]. cbn. rewrite E2. exact G.
      + destruct (exit None w3) as [[b|e0] w4] eqn:E2; injection E as <- <- <-; rewrite !app_nil_r; (eapply IHb; [exact E1|]); cbn; rewrite E2; exact G.
      + destruct (exit None w3) as [[b|e0] w4] eqn:E2; injection E as <- <- <-; rewrite !app_nil_r; (eapply IHb; [exact E1|]); cbn; rewrite E2; exact G.
    - unfold and_then, then_ in E. destruct (for_ (fun v x => means (body v x)) xs v0 w) as [[vs1 c1] w3] eqn:E1.
      assert (F : goes (match c1 with CEnd v => run (next v) K w3 | CReturn v => K (CReturn v) w3 | CRaise x => K (CRaise x) w3 | CBreak v => K (CBreak v) w3 | CContinue v => K (CContinue v) w3 end)
                    (skipn (length vs1) vs ++ us) e w2 /\ vs = vs1 ++ skipn (length vs1) vs).
      { destruct (match c1 with CEnd v => means (next v) | CReturn v => at_once (CReturn v) | CRaise x => at_once (CRaise x) | CBreak v => at_once (CBreak v) | CContinue v => at_once (CContinue v) end w3) as [[us1 d1] w4] eqn:E2.
        injection E as <- <- <-. rewrite skipn_app, skipn_all, PeanoNat.Nat.sub_diag. cbn [app skipn]. split; [|reflexivity].
        destruct c1 as [v|v|x|v|v]; [eapply IHn; eassumption| | | |]; injection E2 as <- <- <-; exact G. }
      destruct F as [F Q]. rewrite Q, <- app_assoc. clear E Q G. revert F. generalize (skipn (length vs1) vs ++ us). clear vs us c. intros us F.
      revert v0 w vs1 c1 w3 E1 F. induction xs as [|x xs IH]; intros v0 w vs1 c1 w3 E1 F.
      + injection E1 as <- <- <-. exact F.
      + cbn [for_] in E1. unfold then_ in E1. destruct (means (body v0 x) w) as [[vs2 c2] w4] eqn:E2. destruct c2 as [v|v|y|v|v].
        * destruct (for_ (fun v x => means (body v x)) xs v w4) as [[vs3 c3] w5] eqn:E3. injection E1 as <- <- <-. rewrite <- app_assoc. eapply IHb; [exact E2|]. eapply IH; eassumption.
        * injection E1 as <- <- <-. rewrite app_nil_r. eapply IHb; [exact E2|]. exact F.
        * injection E1 as <- <- <-. rewrite app_nil_r. eapply IHb; [exact E2|]. exact F.
        * injection E1 as <- <- <-. rewrite app_nil_r. eapply IHb; [exact E2|]. exact F.
        * destruct (for_ (fun v x => means (body v x)) xs v w4) as [[vs3 c3] w5] eqn:E3. injection E1 as <- <- <-. rewrite <- app_assoc. eapply IHb; [exact E2|]. eapply IH; eassumption.
    - injection E as <- <- <-. exact G.
    - injection E as <- <- <-. exact G.
  Qed.

  Lemma generator_gives : forall (p : prog W V N) v w vs c w1, means p w = (vs, c, w1) ->
    body_gives susp_resume (generator awaiting p) v w vs (ends awaiting c) w1.
  Proof.
    intros p v w vs c w1 E. eapply goes_gives; [|reflexivity]. cbn.
    rewrite <- (app_nil_r vs). eapply run_goes; [exact E|]. unfold leave_body. destruct c as [x|x|[m|e]|x|x]; try constructor. destruct e; constructor.
  Qed.

End Facts.

(** ** asynchronous builders *)
Section Async.
  Context {W A Er : Type} (b : builder (pyopt A) (outcome A Er)).
  Notation V := (pyopt A).
  Notation Mo := (outcome A Er).
  Notation St := (susp W V Mo).
  Notation BW := (@BW W A St).
  Hypothesis bind_law : forall u (f : V -> M (@bworld W A St) Mo) s, b_bind b (b_return b u) f s = f u s.
  Hypothesis delay_law : forall (f : unit -> M (@bworld W A St) Mo), b_delay b f = f tt.
  Notation finish := (finish b (fun m => m)).
  Notation whole := (whole b (fun m => m)).

  Lemma abinder_on : forall (on : V -> W -> node V Mo St * W) u (w : W), abinder b susp_resume u (BW w (GBody (Susp on)) false) =
    match on u w with
    | (NReturn v, w1) => (Raise StopIterationExn, BW w1 GDone true)
    | (NThrow e, w1) => (Raise (match e with StopIterationExn => RuntimeError | _ => e end), BW w1 GDone true)
    | (NFail m, w1) => (Ret (b_return_from b m), BW w1 GDone true)
    | (NYield v s, w1) => (Ret (b_return b v), BW w1 (GBody s) false)
    | (NFromSeq v vs s, w1) => (Ret (b_return b v), BW w1 (GSeq vs s) false)
    | (NFromList v vs s, w1) => (Ret (b_return b v), BW w1 (GList vs s) false)
    end.
  Proof.
    intros on u w. unfold abinder, bind, asend. cbn [bw bw_gen bw_done send]. unfold run_body. cbn [susp_resume].
    destruct (on u w) as [[v|e|m|v s|v vs s|v vs s] w1]; rewrite ?delay_law; reflexivity.
  Qed.

  Lemma aloop_goes : forall (o : node V Mo St * W) vs e (w1 : W), goes o vs e w1 -> (forall x, e <> EReturn (PyVal x)) ->
    forall (on : V -> W -> node V Mo St * W) u (w : W) result, on u w = o ->
    exists n, forall fuel, n <= fuel -> exists s1, aloop b susp_resume fuel (b_return b u) result (BW w (GBody (Susp on)) false) = (finish result vs e, s1) /\ bw s1 = w1.
  Proof.
    induction 1 as [x w0|e w0|m w0|u0 on0 w0 vs e w1 G IH]; intros NV on u w result E.
    - exists 1. intros [|fuel] L; [lia|]. cbn [aloop bw_done]. rewrite bind_law, abinder_on, E.
      destruct x as [|x]; [|exfalso; exact (NV x eq_refl)]. eexists. split; reflexivity.
    - exists 1. intros [|fuel] L; [lia|]. cbn [aloop bw_done]. rewrite bind_law, abinder_on, E. eexists. split; [destruct e; reflexivity|reflexivity].
    - exists 2. intros [|[|fuel]] L; try lia. cbn [aloop bw_done]. rewrite bind_law, abinder_on, E. eexists. split; reflexivity.
    - destruct (IH NV on0 u0 w0 (b_combine b result (b_return b u0)) eq_refl) as [n Hn]. exists (S n). intros [|fuel] L; [lia|].
      destruct (Hn fuel ltac:(lia)) as (s1 & E1 & W1). cbn [aloop bw_done]. rewrite bind_law, abinder_on, E. exists s1. split; auto.
  Qed.

  Lemma acall_goes : forall (o : node V Mo St * W) vs e (w1 : W), goes o vs e w1 -> (forall x, e <> EReturn (PyVal x)) ->
    forall (on : V -> W -> node V Mo St * W) (w : W), on PyNone w = o -> settles (fun fuel => acall_gen b susp_resume fuel (Susp on) w) (whole vs e, w1).
  Proof.
    intros o vs e w1 G NV on w E. unfold settles, acall_gen. destruct G as [x w0|e w0|m w0|u0 on0 w0 vs e w1 G].
    - exists 0. intros fuel _. rewrite abinder_on, E. destruct x as [|x]; [|exfalso; exact (NV x eq_refl)]. reflexivity.
    - exists 0. intros fuel _. rewrite abinder_on, E. destruct e; reflexivity.
    - exists 1. intros [|fuel] L; [lia|]. rewrite abinder_on, E. reflexivity.
    - destruct (aloop_goes _ _ _ _ G NV on0 u0 w0 (b_return b u0) eq_refl) as [n Hn]. exists n. intros fuel L.
      destruct (Hn fuel L) as (s1 & E1 & <-). rewrite abinder_on, E, E1. cbn [BuilderFacts.whole]. destruct (finish _ _ _); reflexivity.
  Qed.
End Async.

Section Calls.
  Context {W A Er : Type}.
  Notation V := (pyopt A).
  Notation N := (outcome A Er).
  Notation some := (fun v : V => UOpt (Some v) : N).
  Notation ok := (fun v : V => URes (Ok v) : N).

  Lemma generator_goes : forall awaiting (p : prog W V N) w vs c w1, means awaiting p w = (vs, c, w1) ->
    goes (run awaiting p (leave_body awaiting) w) vs (ends awaiting c) w1.
  Proof.
    intros awaiting p w vs c w1 H. rewrite <- (app_nil_r vs). eapply run_goes; [exact H|].
    unfold leave_body. destruct c as [x|x|[m|e]|x|x]; try constructor. destruct e; constructor.
  Qed.

  Lemma ends_async : forall (c : completion V N) x, ends true c <> EReturn (PyVal x).
  Proof. intros [v|v|[m|[]]|v|v] x; discriminate. Qed.

  Lemma option_call : forall (p : prog W V N) w vs c w1, means false p w = (vs, c, w1) ->
    settles (fun fuel => call_gen mixed_option_builder susp_resume fuel (generator false p) w) (expression_value (UOpt None) some vs (ends false c), w1).
  Proof.
    intros p w vs c w1 H.
    assert (X : custom_value (@mixed_option_builder A Er) vs (ends false c) = expression_value (UOpt None) (fun v => UOpt (Some v)) vs (ends false c)) by (apply (mixed_value mixed_option_builder (fun v => UOpt (Some v))); reflexivity). rewrite <- X.
    apply custom_complete; [intros ? ? ? ?; reflexivity|intros ? ?; reflexivity|]. apply generator_gives, H.
  Qed.
  Lemma result_call : forall (p : prog W V N) w vs c w1, means false p w = (vs, c, w1) ->
    settles (fun fuel => call_gen mixed_result_builder susp_resume fuel (generator false p) w) (expression_value (URes (Ok PyNone)) ok vs (ends false c), w1).
  Proof.
    intros p w vs c w1 H.
    assert (X : custom_value (@mixed_result_builder A Er) vs (ends false c) = expression_value (URes (Ok PyNone)) (fun v => URes (Ok v)) vs (ends false c)) by (apply (mixed_value mixed_result_builder (fun v => URes (Ok v))); reflexivity). rewrite <- X.
    apply custom_complete; [intros ? ? ? ?; reflexivity|intros ? ?; reflexivity|]. apply generator_gives, H.
  Qed.
  Lemma whole_value : forall (b : builder V N) (pure : V -> N), (forall v, b_return b v = pure v) -> (forall v y, b_combine b (pure v) y = y) ->
    (forall m, b_return_from b m = m) -> (forall m, b_run b m = m) ->
    forall vs e, whole b (fun m => m) vs e = expression_value (b_zero b) pure vs e.
  Proof.
    intros b pure R C F N vs e. rewrite <- (mixed_value b pure R C F N). apply custom_whole.
  Qed.
  Lemma async_option_call : forall (p : prog W V N) w vs c w1, means true p w = (vs, c, w1) ->
    settles (fun fuel => acall_gen mixed_async_option_builder susp_resume fuel (generator true p) w) (expression_value (UOpt None) some vs (ends true c), w1).
  Proof.
    intros p w vs c w1 H.
    assert (X : whole (@mixed_async_option_builder A Er) (fun m => m) vs (ends true c) = expression_value (UOpt None) (fun v => UOpt (Some v)) vs (ends true c)) by (apply (whole_value mixed_async_option_builder (fun v => UOpt (Some v))); reflexivity). rewrite <- X.
    eapply (acall_goes mixed_async_option_builder); auto.
    - apply generator_goes. exact H.
    - apply ends_async.
  Qed.
  Lemma async_result_call : forall (p : prog W V N) w vs c w1, means true p w = (vs, c, w1) ->
    settles (fun fuel => acall_gen mixed_async_result_builder susp_resume fuel (generator true p) w) (expression_value (URes (Ok PyNone)) ok vs (ends true c), w1).
  Proof.
    intros p w vs c w1 H.
    assert (X : whole (@mixed_async_result_builder A Er) (fun m => m) vs (ends true c) = expression_value (URes (Ok PyNone)) (fun v => URes (Ok v)) vs (ends true c)) by (apply (whole_value mixed_async_result_builder (fun v => URes (Ok v))); reflexivity). rewrite <- X.
    eapply (acall_goes mixed_async_result_builder); auto.
    - apply generator_goes. exact H.
    - apply ends_async.
  Qed.
End Calls.

(** ** a counter beside the world *)
Section Counter.
  Context {W A Er : Type} (awaiting : bool).
  Notation V := (pyopt A).
  Notation N := (outcome A Er).
  Notation means := (means awaiting).
  Definition add_count (n : nat) (r : list V * completion V N * W) : list V * completion V N * (W * nat) :=
    let '(vs, c, w) := r in (vs, c, (w, n)).

  Definition same_beside (m1 : @meaning (W * nat) A Er) (m : @meaning W A Er) : Prop := forall w n, m1 (w, n) = add_count n (m w).

  Lemma sb_once : forall c, same_beside (at_once c) (at_once c).
  Proof. intros c w n. reflexivity. Qed.
  Lemma sb_then : forall m1 m f1 f, same_beside m1 m -> (forall c, same_beside (f1 c) (f c)) -> same_beside (then_ m1 f1) (then_ m f).
  Proof.
    intros m1 m f1 f H HF w n. unfold then_. rewrite H. destruct (m w) as [[vs c] w1]. cbn [add_count]. rewrite HF.
    destruct (f c w1) as [[us d] w2]. reflexivity.
  Qed.
  Lemma sb_effect : forall X (m : M W X) f1 f, (forall x, same_beside (f1 x) (f x)) -> same_beside (effect (beside m) f1) (effect m f).
  Proof. intros X m f1 f HF w n. unfold effect, beside. cbn [fst snd]. destruct (m w) as [[x|e] w1]; [apply HF|reflexivity]. Qed.
  Lemma sb_yields : forall v m1 m, same_beside m1 m -> same_beside (yields v m1) (yields v m).
  Proof. intros v m1 m H w n. unfold yields. rewrite H. destruct (m w) as [[vs c] w1]. reflexivity. Qed.

  Lemma means_counted : forall p : prog W V N, same_beside (HandlersSpec.means awaiting (counted p)) (means p).
  Proof.
    induction p as [v|v|x|m k IH|v k IH|m k IH|helper IHp k IH|body IHb catches handler IHh final IHf next IHn|body IHb exit next IHn|xs v0 body IHb next IHn|v|v]; cbn [counted HandlersSpec.means]; try apply sb_once.
    - apply sb_effect. exact IH.
    - apply sb_yields, IH.
    - apply sb_effect. intros m0. destruct (inside m0) as [v|]; [|apply sb_once].
      assert (Q : forall b : bool, same_beside (if b then HandlersSpec.means awaiting (counted (k v)) else yields v (HandlersSpec.means awaiting (counted (k v))))
                    (if b then means (k v) else yields v (means (k v)))); [|exact (Q awaiting)].
      intros []; [apply IH|apply sb_yields, IH].
    - unfold delegate. apply sb_then; [exact IHp|]. intros [v|v|[m|[]]|v|v]; try apply sb_once; apply IH.
    - unfold and_then, finally, except. apply sb_then.
      + apply sb_then.
        * apply sb_then; [exact IHb|]. intros [v|v|x|v|v]; try apply sb_once. destruct (catches x); [apply IHh|apply sb_once].
        * intros c. apply sb_then; [exact IHf|]. intros d. apply sb_once.
      + intros [v|v|x|v|v]; try apply sb_once. apply IHn.
    - unfold and_then, with_. apply sb_then.
      + apply sb_then; [exact IHb|]. intros [v|v|x|v|v]; apply sb_effect; intros; apply sb_once.
      + intros [v|v|x|v|v]; try apply sb_once. apply IHn.
    - unfold and_then. apply sb_then; [|intros [v|v|x|v|v]; try apply sb_once; apply IHn].
      clear IHn. revert v0. induction xs as [|x xs IH]; intros v0; [apply sb_once|]. cbn [for_]. apply sb_then; [apply IHb|].
      intros [v|v|y|v|v]; try apply sb_once; apply IH.
  Qed.

  (** a [finally] block and a [with] that count *)
  Lemma means_finally : forall (p : prog W V N) h v0 w n,
    HandlersSpec.means awaiting (PTry (counted p) (fun _ => false) h (PDo (tick v0) PEnd) PEnd) (w, n) = add_count (S n) (means p w).
  Proof.
    intros p h v0 w n. cbn [HandlersSpec.means]. unfold and_then, finally, except, then_. rewrite means_counted.
    destruct (means p w) as [[vs c] w1]. destruct c as [v|v|x|v|v]; cbn; rewrite !app_nil_r; reflexivity.
  Qed.
  Lemma means_with : forall (p : prog W V N) w n,
    HandlersSpec.means awaiting (PWith (counted p) (fun _ => tick false) PEnd) (w, n) = add_count (S n) (means p w).
  Proof.
    intros p w n. cbn [HandlersSpec.means]. unfold and_then, with_, then_. rewrite means_counted.
    destruct (means p w) as [[vs c] w1]. destruct c as [v|v|x|v|v]; cbn; rewrite !app_nil_r; reflexivity.
  Qed.
End Counter.

Lemma settles_same : forall X (m : nat -> X) x y, settles m x -> settles m y -> x = y.
Proof. intros X m x y [n H] [k G]. rewrite <- (H (n + k)) by lia. rewrite <- (G (n + k)) by lia. reflexivity. Qed.

(** What counts in a [finally] block or a [with] counts once, for each of the builders. *)
Section Once.
  Context {A Er Mo : Type} (awaiting : bool).
  Notation V := (pyopt A).
  Notation N := (outcome A Er).
  Variable call : forall W, susp W V N -> W -> nat -> res Mo * W.
  Variable value : list V -> completion V N -> res Mo.
  Hypothesis call_means : forall W (p : prog W V N) w vs c w1, means awaiting p w = (vs, c, w1) ->
    settles (call W (generator awaiting p) w) (value vs c, w1).

  Lemma counts_once : forall W (p : prog W V N) h v0 w n r w1, settles (call W (generator awaiting p) w) (r, w1) ->
    settles (call _ (generator awaiting (PTry (counted p) (fun _ => false) h (PDo (tick v0) PEnd) PEnd)) (w, n)) (r, (w1, S n)) /\
    settles (call _ (generator awaiting (PWith (counted p) (fun _ => tick false) PEnd)) (w, n)) (r, (w1, S n)).
  Proof.
    intros W p h v0 w n r w1 H. destruct (means awaiting p w) as [[vs c] w2] eqn:Q.
    assert (X := settles_same _ _ _ _ H (call_means _ _ _ _ _ _ Q)). injection X as -> ->.
    split; apply call_means; [rewrite means_finally|rewrite means_with]; rewrite Q; reflexivity.
  Qed.
  (** Except clauses that name other exceptions only. *)
  Lemma other_handler : forall W (p : prog W V N) catches h v0 next w vs m w1, means awaiting p w = (vs, CRaise (RFail m), w1) ->
    catches (RFail m) = false ->
    settles (call W (generator awaiting (PTry p catches h (PEnd v0) next)) w) (value vs (CRaise (RFail m)), w1).
  Proof.
    intros W p catches h v0 next w vs m w1 Q C. apply call_means. cbn [HandlersSpec.means]. unfold and_then, finally, except, then_.
    rewrite Q, C. cbn. rewrite !app_nil_r. reflexivity.
  Qed.
  (** Three ways to lose a short circuit. *)
  Lemma swallowed : forall W (p : prog W V N) h v v0 next exit w vs m w1, means awaiting p w = (vs, CRaise (RFail m), w1) ->
    settles (call W (generator awaiting (PTry p (fun _ => true) (fun _ => PReturn v) (PEnd v0) next)) w) (value vs (CReturn v), w1) /\
    settles (call W (generator awaiting (PTry p (fun _ => false) h (PReturn v) next)) w) (value vs (CReturn v), w1) /\
    ((forall u, exit (Some (RFail m)) u = (Ret true, u)) ->
     settles (call W (generator awaiting (PWith p exit (fun _ => PReturn v))) w) (value vs (CReturn v), w1)).
  Proof.
    intros W p h v v0 next exit w vs m w1 Q. split; [|split; [|intros X]]; apply call_means; cbn [HandlersSpec.means]; unfold and_then, finally, except, with_, then_;
      rewrite Q; cbn; unfold effect; try rewrite X; cbn; rewrite ?app_nil_r; reflexivity.
  Qed.
End Once.
