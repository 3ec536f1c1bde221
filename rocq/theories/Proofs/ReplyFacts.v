(** Replies. *)
From Coq Require Import List Bool Arith Lia.
From Verif.Model Require Import Base Thread Aiotools Reply.
From Verif.Spec Require Import LogSpec AiotoolsSpec.
From Verif.Proofs Require Import ThreadFacts.
Import ListNotations.

Lemma ridle : forall p, is_ridle p = true -> p = R_Idle.
Proof. destruct p; auto; discriminate. Qed.
Definition replied (s : rstate) (v : reply_value) : Prop := exists t, In (ReplyCalled t v) (r_log s).
(** Values come from replies. *)
Record vinv (s : rstate) : Prop := {
  v_result : forall x, r_result s = Some x -> replied s (Some x);
  v_none : r_result s = None -> forall t, match r_thr s t with K_Result false | K_Cont _ | K_Arg _ => replied s None | _ => True end;
  v_fut : forall v, r_fut s = Done v -> replied s v;
  v_done : forall t, match r_thr s t with K_Done _ v | R_Set v => replied s v | _ => True end;
  v_failed : forall e, r_fut s <> Failed e;
  v_cancelled : r_fut s = Cancelled -> In GaveUp (r_log s)
}.
Lemma vinv_init : vinv rinit.
Proof. constructor; cbn; auto; discriminate. Qed.
Lemma vinv_say : forall s e, vinv s -> vinv (rsay e s).
Proof.
  intros s e [V1 V2 V3 V4 V5 V6]. assert (R : forall v, replied s v -> replied (rsay e s) v) by (intros v [t H]; exists t; right; exact H).
  constructor; cbn; auto.
  - intros H t. specialize (V2 H t). destruct (r_thr s t); auto. destruct w; auto.
  - intros t. specialize (V4 t). destruct (r_thr s t); auto.
Qed.
Lemma vinv_goto : forall s t p, vinv s ->
  (r_result s = None -> match p with K_Result false | K_Cont _ | K_Arg _ => replied s None | _ => True end) -> match p with K_Done _ v | R_Set v => replied s v | _ => True end -> vinv (rgoto t p s).
Proof. intros s t p [V1 V2 V3 V4 V5 V6] H1 H2. constructor; cbn; auto.
  - intros H u. destruct (Nat.eqb u t); [exact (H1 H)|exact (V2 H u)].
  - intros u. destruct (Nat.eqb u t); [exact H2|exact (V4 u)].
Qed.
Lemma vinv_returned : forall s t w, vinv s -> vinv (returned t w s).
Proof. intros s t w V. apply vinv_say, vinv_goto; cbn; auto. Qed.
Lemma vinv_step : forall c s s1, vinv s -> rstep c s = Some s1 -> vinv s1.
Proof.
  intros c s s1 V E. destruct c as [t v|t| |t]; cbn in E.
  - destruct (is_ridle (r_thr s t)); [|discriminate]. injection E as <-. destruct (vinv_say s (ReplyCalled t v) V) as [V1 V2 V3 V4 V5 V6]. constructor; cbn; auto.
    + intros H u. specialize (V2 H u). cbn in V2. destruct (Nat.eqb u t); auto.
    + intros u. specialize (V4 u). cbn in V4. destruct (Nat.eqb u t); auto. exists t. left. reflexivity.
  - destruct (is_ridle (r_thr s t) && negb (r_called s)); [|discriminate]. injection E as <-. apply (vinv_goto (rset_called s)); auto. destruct V. constructor; auto.
  - destruct (existsb _ (r_log s)); [|discriminate]. injection E as <-. destruct (vinv_say s GaveUp V) as [V1 V2 V3 V4 V5 V6]. constructor; cbn; auto.
    + intros v H. apply V3. cbn. destruct (r_fut s); cbn in H; congruence.
    + intros e H. apply (V5 e). cbn. destruct (r_fut s); cbn in H; congruence.
  - unfold rrun in E. pose proof (v_done _ V t) as Vt. pose proof (fun H => v_none _ V H t) as Vn. destruct (r_thr s t) as [|v| |w|w|w|w v] eqn:T; try discriminate E; injection E as <-.
    + destruct V as [V1 V2 V3 V4 V5 V6]. constructor; cbn; auto.
      * intros x ->. exact Vt.
      * intros -> u. destruct (Nat.eqb u t); [exact Vt|]. destruct (r_thr s u); try destruct w; auto; exact Vt.
      * intros u. destruct (Nat.eqb u t); [exact Logic.I|apply V4].
    + apply (vinv_goto (rset_cont s)); auto. destruct V. constructor; auto.
    + destruct (r_result s) eqn:R; [apply vinv_goto; auto; congruence|apply vinv_returned, V].
    + destruct (r_cont s); [apply vinv_goto; auto|apply vinv_returned, V].
    + apply vinv_goto; auto. cbn. destruct (r_result s) eqn:R; [apply (v_result _ V), R|apply Vn; reflexivity].
    + apply vinv_returned. destruct V as [V1 V2 V3 V4 V5 V6]. constructor; cbn; auto; unfold k_done.
      * intros x H. destruct (r_fut s) eqn:F; cbn in H; try congruence; [injection H as <-; exact Vt|apply V3; congruence].
      * intros e H. apply (V5 e). destruct (r_fut s); cbn in H; congruence.
      * intros H. apply V6. destruct (r_fut s); cbn in H; congruence.
Qed.

(** The caller. *)
Definition caller (p : rpc) : bool := match p with W_Set | K_Result true | K_Cont true | K_Arg true | K_Done true _ => true | _ => false end.
Record winv (s : rstate) : Prop := {
  w_called : forall t, caller (r_thr s t) = true \/ In (Waiting t) (r_log s) -> r_called s = true;
  w_unique : forall t u, caller (r_thr s t) = true -> caller (r_thr s u) = true -> t = u;
  w_over : forall t u, caller (r_thr s t) = true -> ~ In (Waiting u) (r_log s);
  w_cont : forall t, (caller (r_thr s t) = true /\ r_thr s t <> W_Set) \/ In (Waiting t) (r_log s) -> r_cont s = true
}.
Lemma winv_init : winv rinit.
Proof. constructor; cbn; auto; try discriminate; intros t [H|[]]; try discriminate. destruct H. discriminate. Qed.
Lemma winv_thr : forall s s1 t p, winv s -> r_thr s1 = (fun u => if Nat.eqb u t then p else r_thr s u) ->
  (forall u, In (Waiting u) (r_log s1) -> In (Waiting u) (r_log s)) -> r_called s1 = r_called s -> (r_cont s = true -> r_cont s1 = true) ->
  (caller p = true -> caller (r_thr s t) = true) -> (caller p = true -> p <> W_Set -> r_cont s1 = true) -> winv s1.
Proof.
  intros s s1 t p [W1 W2 W3 W4] Ht Hl Hc Ho H1 H2.
  assert (C : forall u, caller (r_thr s1 u) = true -> caller (r_thr s u) = true). { intros u. rewrite Ht. destruct (Nat.eqb_spec u t) as [->|]; auto. }
  constructor.
  - intros u H. rewrite Hc. apply (W1 u). destruct H; auto.
  - intros u v Hu Hv. auto.
  - intros u v Hu Hv. eapply W3; eauto.
  - intros u [[A B]|H]; [|eauto]. pose proof (C u A) as A'. rewrite Ht in A, B. clear C. destruct (Nat.eqb_spec u t) as [X|X]; [auto|]. apply Ho. apply (W4 u). auto.
Qed.
Lemma winv_returned : forall s t w v, winv s -> (caller (r_thr s t) = w) -> (w = true -> r_thr s t <> W_Set) -> r_called v = r_called s -> r_cont v = r_cont s -> r_thr v = r_thr s -> r_log v = r_log s -> winv (returned t w v).
Proof.
  intros s t w v W Cw Nw Hc Ho Ht Hl. destruct w.
  - pose proof W as [W1 W2 W3 W4]. assert (N : forall u, caller (if Nat.eqb u t then R_Idle else r_thr v u) = false).
    { intros u. destruct (Nat.eqb_spec u t) as [->|]; [reflexivity|]. rewrite Ht. destruct (caller (r_thr s u)) eqn:X; [|reflexivity]. destruct n. eapply W2; eauto. }
    constructor; cbn; rewrite ?Hc, ?Ho, ?Hl; try (intros u x; rewrite N; discriminate).
    + intros u [H|[H|H]]; [rewrite N in H; discriminate|apply (W1 t); auto|eauto].
    + intros u [[H _]|[H|H]]; [rewrite N in H; discriminate|apply (W4 t); auto|eauto].
  - eapply (winv_thr s _ t R_Idle); cbn; rewrite ?Ht, ?Hc, ?Ho, ?Hl; auto; try discriminate. intros u [H|H]; [discriminate|exact H].
Qed.
Lemma winv_step : forall c s s1, winv s -> rstep c s = Some s1 -> winv s1.
Proof.
  intros c s s1 W E. destruct c as [t v|t| |t]; cbn in E.
  - destruct (is_ridle (r_thr s t)); [|discriminate]. injection E as <-. eapply (winv_thr s _ t); [exact W|reflexivity| |reflexivity|auto|discriminate|discriminate]. intros u [H|H]; [discriminate|exact H].
  - destruct (is_ridle (r_thr s t)) eqn:X; [|discriminate]. destruct (r_called s) eqn:C; [discriminate|]. injection E as <-. destruct W as [W1 W2 W3 W4].
    assert (N : forall u, caller (r_thr s u) = false) by (intros u; destruct (caller (r_thr s u)) eqn:Y; [|reflexivity]; rewrite (W1 u) in C by auto; discriminate).
    assert (Nw : forall u, ~ In (Waiting u) (r_log s)) by (intros u H; rewrite (W1 u) in C by auto; discriminate).
    constructor; cbn; auto.
    + intros u v. destruct (Nat.eqb_spec u t), (Nat.eqb_spec v t); try congruence; rewrite N; discriminate.
    + intros u [[H1 H2]|H]; [|destruct (Nw _ H)]. destruct (Nat.eqb_spec u t); [congruence|]. rewrite N in H1. discriminate.
  - destruct (existsb _ (r_log s)); [|discriminate]. injection E as <-. destruct W as [W1 W2 W3 W4]. constructor; cbn; auto.
    + intros t [H|[H|H]]; [eauto|discriminate|eauto].
    + intros t u H [H1|H1]; [discriminate|eapply W3; eauto].
    + intros t [H|[H|H]]; [eauto|discriminate|eauto].
  - unfold rrun in E. pose proof (w_cont _ W t) as Wc. destruct (r_thr s t) as [|v| |w|w|w|w v] eqn:T; try discriminate E; injection E as <-.
    + eapply (winv_thr s _ t); [exact W|reflexivity|auto|reflexivity|auto|discriminate|discriminate].
    + eapply (winv_thr s _ t); [exact W|reflexivity|auto|reflexivity|reflexivity|rewrite T; auto|reflexivity].
    + destruct (r_result s); [|eapply winv_returned; try reflexivity; [exact W|rewrite T; destruct w; reflexivity|rewrite T; discriminate]].
      eapply (winv_thr s _ t); [exact W|reflexivity|auto|reflexivity|auto|rewrite T; destruct w; auto|]. intros H _. apply Wc. left. split; [destruct w; auto; discriminate|discriminate].
    + destruct (r_cont s) eqn:C; [|eapply winv_returned; try reflexivity; [exact W|rewrite T; destruct w; reflexivity|rewrite T; discriminate]].
      eapply (winv_thr s _ t); [exact W|reflexivity|auto|reflexivity|auto|rewrite T; destruct w; auto|]. intros H _. exact C.
    + eapply (winv_thr s _ t); [exact W|reflexivity|auto|reflexivity|auto|rewrite T; destruct w; auto|]. intros H _. apply Wc. left. split; [destruct w; auto; discriminate|discriminate].
    + eapply (winv_returned s); try reflexivity; [exact W|rewrite T; destruct w; reflexivity|rewrite T; discriminate].
Qed.

(** No reply is lost. *)
Definition cinv (s : rstate) : Prop := ~ replied s None -> (exists t, In (ReplyReturned t) (r_log s)) ->
  r_fut s <> Pending \/ (r_result s <> None /\ (r_cont s = false \/ exists t, caller (r_thr s t) = true)).
Lemma cinv_thr : forall s s1 t p, cinv s -> r_thr s1 = (fun u => if Nat.eqb u t then p else r_thr s u) -> (forall u v, In (ReplyCalled u v) (r_log s) -> In (ReplyCalled u v) (r_log s1)) ->
  (forall u, In (ReplyReturned u) (r_log s1) -> In (ReplyReturned u) (r_log s)) -> (r_fut s <> Pending -> r_fut s1 <> Pending) -> r_cont s1 = r_cont s ->
  (~ replied s1 None -> r_result s <> None -> r_result s1 <> None) -> (caller (r_thr s t) = true -> caller p = true) -> cinv s1.
Proof.
  intros s s1 t p C Ht Hl Hr Hf Hc Hs Hp A [u B]. assert (A' : ~ replied s None) by (intros [v H]; apply A; exists v; auto).
  destruct (C A') as [H|[H1 H2]]; [eauto|auto|]. right. split; [auto|]. rewrite Hc. destruct H2 as [H2|[v H2]]; [auto|]. right. exists v. rewrite Ht. destruct (Nat.eqb_spec v t) as [->|]; auto.
Qed.
Lemma cinv_step : forall c s s1, vinv s -> winv s -> cinv s -> rstep c s = Some s1 -> cinv s1.
Proof.
  intros c s s1 V W C E. destruct c as [t v|t| |t]; cbn in E.
  - destruct (is_ridle (r_thr s t)) eqn:X; [|discriminate]. apply ridle in X. injection E as <-. eapply (cinv_thr s _ t); [exact C|reflexivity|cbn; auto| |auto|reflexivity|auto|rewrite X; discriminate]. intros u [H|H]; [discriminate|exact H].
  - destruct (is_ridle (r_thr s t)) eqn:X; [|discriminate]. apply ridle in X. destruct (r_called s); [discriminate|]. injection E as <-. eapply (cinv_thr s _ t); [exact C|reflexivity|auto|auto|auto|reflexivity|auto|rewrite X; discriminate].
  - destruct (existsb _ (r_log s)); [|discriminate]. injection E as <-. intros _ _. left. cbn. destruct (r_fut s); discriminate.
  - unfold rrun in E. pose proof (w_cont _ W t) as Wc. pose proof (v_done _ V t) as Vd. pose proof (fun H => v_none _ V H t) as Vn. destruct (r_thr s t) as [|v| |w|w|w|w v] eqn:T; try discriminate E; injection E as <-.
    + eapply (cinv_thr s _ t); [exact C|reflexivity|auto|auto|auto|reflexivity| |rewrite T; discriminate]. intros A _ H. cbn in H. subst v. apply A. exact Vd.
    + intros A [u B]. destruct (C A) as [H|[H1 H2]]; [eauto|auto|]. right. split; [exact H1|]. right. exists t. cbn. rewrite Nat.eqb_refl. reflexivity.
    + destruct (r_result s) eqn:R.
      * eapply (cinv_thr s _ t); [exact C|reflexivity|auto|auto|auto|reflexivity|auto|rewrite T; destruct w; auto].
      * destruct w.
        -- intros A [u B]. assert (A' : ~ replied s None) by (intros [v H]; apply A; exists v; right; exact H). destruct B as [B|B]; [discriminate|]. destruct (C A') as [H|[H1 H2]]; [eauto|auto|congruence].
        -- intros A _. destruct A. destruct (Vn eq_refl) as [v H]. exists v. right. exact H.
    + destruct (r_cont s) eqn:Co; [eapply (cinv_thr s _ t); [exact C|reflexivity|auto|auto|auto|reflexivity|auto|rewrite T; destruct w; auto]|].
      destruct w; [exfalso; assert (X : false = true) by (apply Wc; left; split; [reflexivity|discriminate]); discriminate|].
      intros A _. right. split; [|left; exact Co]. intros H. destruct A. destruct (Vn H) as [v Hv]. exists v. right. exact Hv.
    + eapply (cinv_thr s _ t); [exact C|reflexivity|auto|auto|auto|reflexivity|auto|rewrite T; destruct w; auto].
    + intros _ _. left. cbn. unfold k_done. destruct (r_fut s); discriminate.
Qed.
Lemma reply_inv : forall cs s, exec rstep cs rinit = Some s -> vinv s /\ winv s /\ cinv s.
Proof.
  apply (exec_ind rstep (fun _ s => vinv s /\ winv s /\ cinv s) rinit).
  - split; [apply vinv_init|]. split; [apply winv_init|]. intros _ [t []].
  - intros _ c s s1 (A & B & C) E. split; [eapply vinv_step; eassumption|]. split; [eapply winv_step; eassumption|eapply cinv_step; eassumption].
Qed.
Lemma completes_pf : forall cs s t u, exec rstep cs rinit = Some s -> (forall v, ~ In (ReplyCalled v None) (r_log s)) -> In (Waiting t) (r_log s) -> In (ReplyReturned u) (r_log s) ->
  (exists v w, sees (r_fut s) (OValue (Some v)) /\ In (ReplyCalled w (Some v)) (r_log s)) \/ In GaveUp (r_log s).
Proof.
  intros cs s t u E N Hw Hr. destruct (reply_inv cs s E) as (V & W & C). assert (A : ~ replied s None) by (intros [v H]; exact (N v H)).
  assert (F : r_fut s <> Pending). { destruct (C A) as [H|[_ [H|[x H]]]]; [eauto|exact H| |]; exfalso; [rewrite (w_cont _ W t) in H by auto; discriminate|exact (w_over _ W x t H Hw)]. }
  destruct (r_fut s) as [|v|e|] eqn:Fu; [congruence| |destruct (v_failed _ V e Fu)|right; apply (v_cancelled _ V), Fu].
  left. destruct (v_fut _ V v Fu) as [x Hx]. destruct v as [v|]; [|destruct (A (ex_intro _ x Hx))]. exists v, x. split; [constructor|exact Hx].
Qed.
Lemma value_pf : forall cs s v, exec rstep cs rinit = Some s -> sees (r_fut s) (OValue v) -> exists t, In (ReplyCalled t v) (r_log s).
Proof. intros cs s v E H. destruct (reply_inv cs s E) as (V & _). apply (v_fut _ V). inversion H; reflexivity. Qed.
Lemma settled_pf : forall cs s s1 o, sees (r_fut s) o -> exec rstep cs s = Some s1 -> r_fut s1 = r_fut s.
Proof.
  intros cs s s1 o H. assert (D : is_done (r_fut s) = true) by (destruct H; reflexivity). clear H. revert s1. 
  assert (G : forall c a b, r_fut a = r_fut s -> rstep c a = Some b -> r_fut b = r_fut s).
  { intros c a b F E. destruct c as [t v|t| |t]; cbn in E.
    - destruct (is_ridle (r_thr a t)); [|discriminate]. injection E as <-. exact F.
    - destruct (is_ridle (r_thr a t) && negb (r_called a)); [|discriminate]. injection E as <-. exact F.
    - destruct (existsb _ (r_log a)); [|discriminate]. injection E as <-. cbn. rewrite F. destruct (r_fut s); auto; discriminate.
    - unfold rrun in E. destruct (r_thr a t) as [|v| |w|w|w|w v]; try discriminate E; injection E as <-; try exact F.
      + destruct (r_result a); exact F.
      + destruct (r_cont a); exact F.
      + cbn. rewrite F. unfold k_done. rewrite D. reflexivity. }
  intros s1. apply (exec_ind rstep (fun _ x => r_fut x = r_fut s) s); [reflexivity|]. intros _ c a b. apply G.
Qed.
(** Only None was replied: nothing was ever delivered. *)
Lemma none_pf : forall cs s o, exec rstep cs rinit = Some s -> (forall t v, In (ReplyCalled t v) (r_log s) -> v = None) -> sees (r_fut s) o -> In GaveUp (r_log s).
Proof.
  intros cs s o E N H.
  assert (G : (forall t v, In (ReplyCalled t v) (r_log s) -> v = None) -> (forall v, r_fut s <> Done v) /\ r_result s = None /\ forall t, match r_thr s t with K_Cont _ | K_Arg _ | K_Done _ _ => False | R_Set v => v = None | _ => True end).
  { clear H N. revert E. apply (exec_ind rstep (fun _ s => (forall t v, In (ReplyCalled t v) (r_log s) -> v = None) -> (forall v, r_fut s <> Done v) /\ r_result s = None /\ forall t, match r_thr s t with K_Cont _ | K_Arg _ | K_Done _ _ => False | R_Set v => v = None | _ => True end) rinit).
    - intros _. cbn. repeat split; auto; discriminate.
    - clear. intros _ c s s1 IH E N. destruct c as [t v|t| |t]; cbn in E.
      + destruct (is_ridle (r_thr s t)); [|discriminate]. injection E as <-. destruct IH as (A & B & C); [intros u x H; eapply N; right; exact H|]. cbn. split; [exact A|]. split; [exact B|]. intros u. destruct (Nat.eqb u t); [eapply (N t); left; reflexivity|apply C].
      + destruct (is_ridle (r_thr s t) && negb (r_called s)); [|discriminate]. injection E as <-. destruct IH as (A & B & C); [exact N|]. cbn. split; [exact A|]. split; [exact B|]. intros u. destruct (Nat.eqb u t); [exact Logic.I|apply C].
      + destruct (existsb _ (r_log s)); [|discriminate]. injection E as <-. destruct IH as (A & B & C); [intros u x H; eapply N; right; exact H|]. cbn. split; [|auto]. intros v H. apply (A v). destruct (r_fut s); cbn in H; congruence.
      + unfold rrun in E. assert (N' : forall u x, In (ReplyCalled u x) (r_log s) -> x = None).
        { destruct (r_thr s t) as [|v| |w|w|w|w v]; try discriminate E; injection E as <-; try exact N.
          - destruct (r_result s); [exact N|intros u x H; eapply N; right; exact H].
          - destruct (r_cont s); [exact N|intros u x H; eapply N; right; exact H].
          - intros u x H; eapply N; right; exact H. }
        destruct (IH N') as (A & B & C). pose proof (C t) as Ct. destruct (r_thr s t) as [|v| |w|w|w|w v] eqn:T; try discriminate E; try contradiction; injection E as <-.
        * cbn. split; [exact A|]. split; [exact Ct|]. intros u. destruct (Nat.eqb u t); [exact Logic.I|apply C].
        * cbn. split; [exact A|]. split; [exact B|]. intros u. destruct (Nat.eqb u t); [exact Logic.I|apply C].
        * rewrite B. cbn. split; [exact A|]. split; [exact B|]. intros u. destruct (Nat.eqb u t); [exact Logic.I|apply C]. }
  destruct (reply_inv cs s E) as (V & _). destruct (G N) as [G1 _]. inversion H as [v X|e X|X]; [destruct (G1 v); congruence|destruct (v_failed _ V e); congruence|apply (v_cancelled _ V); congruence].
Qed.
