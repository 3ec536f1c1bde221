(** Mailboxes on the loop's thread: what is settled, and who will look at the queue. *)
From Coq Require Import List Bool Arith Lia.
From Verif.Model Require Import Base Thread Aiotools Mailbox.
From Verif.Spec Require Import MailboxSpec.
From Verif.Proofs Require Import ThreadFacts MailboxFacts.
Import ListNotations.

Definition delivered (cons : list nat) (p : pc) : nat :=
  match p with P_Read _ | P_Write _ _ | P_Call _ _ => length cons - 1 | _ => length cons end.
Definition hold (p : pc) (cancel : option nat) (f : nat) : Prop :=
  match p with
  | V_Cont g | V_Cancel g => f = g
  | P_CWrite c => c = Some f
  | P_CCall c => c = Some f \/ cancel = Some f
  | _ => cancel = Some f
  end.
Record ginv (cons : list nat) (s : state) : Prop := {
  g_settled : forall i f, nth_error (accepted (s_log s)) i = Some f -> i < delivered cons (s_thr s 0) -> s_fut s f <> Pending;
  g_failed : forall f e, s_fut s f <> Failed e;
  g_hold : forall f, In f (accepted (s_log s)) -> s_fut s f = Pending -> hold (s_thr s 0) (s_cancel s) f
}.
Lemma ginv_init : ginv [] init.
Proof. constructor; cbn; auto; try discriminate; try lia; try contradiction. Qed.
(** Steps that change no future and accept nothing. *)
Lemma ginv_same : forall cons s cons1 s1, ginv cons s -> s_fut s1 = s_fut s -> accepted (s_log s1) = accepted (s_log s) ->
  delivered cons1 (s_thr s1 0) <= delivered cons (s_thr s 0) ->
  (forall f, In f (accepted (s_log s)) -> s_fut s f = Pending -> hold (s_thr s 0) (s_cancel s) f -> hold (s_thr s1 0) (s_cancel s1) f) -> ginv cons1 s1.
Proof.
  intros cons s cons1 s1 [G1 G2 G3] Hf Ha Hd Hh. constructor; rewrite ?Hf, ?Ha; auto.
  intros i f A B. eapply G1; [exact A|lia].
Qed.
Lemma ginv_step : forall c s s1 cons, on_loop c -> inv cons s -> finv cons s -> ginv cons s -> step c s = Some s1 -> ginv (cons ++ eats c s) s1.
Proof.
  intros c s s1 cons L I F G E.
  destruct c as [t m|t m| | |f|f|t|t]; cbn [step] in E; cbn [eats]; try rewrite app_nil_r.
  - destruct (is_idle (s_thr s t)) eqn:X; [|discriminate]. apply idle in X. injection E as <-. apply (ginv_same cons s); auto; destruct t; cbn; rewrite ?X; auto.
  - cbn in L. subst t. destruct (is_idle (s_thr s 0)) eqn:X; [|discriminate]. apply idle in X. injection E as <-. apply (ginv_same cons s); auto; cbn; rewrite ?X; auto.
  - destruct (is_idle (s_thr s 0)) eqn:X; [|discriminate]. apply idle in X. injection E as <-. apply (ginv_same cons s); auto; cbn; rewrite ?X; auto.
  - destruct (s_ready s) eqn:R; [discriminate|]. destruct (is_idle (s_thr s 0)) eqn:X; [|discriminate]. apply idle in X. injection E as <-. apply (ginv_same cons s); auto; cbn; rewrite ?X; auto.
  - destruct (awaited f s) eqn:W; [|discriminate]. destruct (s_fut s f); try discriminate; injection E as <-; apply (ginv_same cons s); auto.
  - destruct (awaited f s) eqn:W; [|discriminate]. injection E as <-. destruct G as [G1 G2 G3]. constructor; cbn.
    + intros i g A B. destruct (Nat.eqb_spec g f) as [->|]; [destruct (s_fut s f); discriminate|eauto].
    + intros g e. destruct (Nat.eqb_spec g f) as [->|]; [|auto]. specialize (G2 f e). destruct (s_fut s f); cbn; congruence.
    + intros g A. destruct (Nat.eqb_spec g f) as [->|]; [destruct (s_fut s f); discriminate|auto].
  - destruct (is_idle (s_thr s t)); [|discriminate]. injection E as <-. apply (ginv_same cons s); auto.
  - unfold run in E. destruct t as [|t].
    + assert (P0 := i_phase _ _ I). assert (N0 := i_new _ _ I). destruct (s_thr s 0) eqn:T; rewrite ?app_nil_r; try discriminate E; try (injection E as <-);
        try (apply (ginv_same cons s); auto; cbn; rewrite ?T; cbn; auto; fail).
      * destruct (N0 _ eq_refl) as [N1 N2]. cbn in P0. destruct (s_cont s) as [c|] eqn:C; injection E as <-.
        -- apply (ginv_same cons s); auto; cbn; rewrite ?T; cbn; auto.
        -- cbn in P0. destruct G as [G1 G2 G3]. rewrite T in *. cbn in *. constructor; cbn; auto.
           ++ intros i g A B. apply nth_snoc in A. destruct A as [A|[-> ->]]; [eauto|lia].
           ++ intros g A Pd. apply in_app_iff in A. destruct A as [A|[A|[]]]; [|auto]. exfalso. apply In_nth_error in A. destruct A as [i A].
              apply (G1 i g A); [|exact Pd]. rewrite <- P0. apply nth_error_Some. congruence.
      * apply (ginv_same cons s); auto; cbn; rewrite ?T; cbn; destruct (s_flag s); auto.
      * destruct c as [f|].
        -- destruct G as [G1 G2 G3]. rewrite T in *. cbn in *. constructor; cbn.
           ++ intros i g A B. destruct (Nat.eqb_spec g f) as [->|]; [destruct (s_fut s f); discriminate|eauto].
           ++ intros g e. destruct (Nat.eqb_spec g f) as [->|]; [|auto]. specialize (G2 f e). destruct (s_fut s f); cbn; congruence.
           ++ intros g A. destruct (Nat.eqb_spec g f) as [->|]; [destruct (s_fut s f); discriminate|]. intros B. destruct (G3 g A B); congruence.
        -- apply (ginv_same cons s); auto; cbn; rewrite ?T; cbn; auto. intros g _ _ [H|H]; [discriminate|exact H].
      * apply (ginv_same cons s); auto; cbn; rewrite ?T; cbn; destruct (s_cont s); auto.
      * rewrite (i_lock _ _ I), T in E. cbn in E. injection E as <-. apply (ginv_same cons s); auto; cbn; rewrite ?T; cbn; auto.
      * apply (ginv_same cons s); auto; cbn; rewrite ?T; cbn; destruct (s_queue s); auto.
      * destruct (s_queue s) as [|m q] eqn:Q; [discriminate|]. injection E as <-. apply (ginv_same cons s); auto; cbn; rewrite ?T; cbn; auto. rewrite app_length. cbn. lia.
      * destruct P0 as (l & P1 & P2 & P3 & P4). destruct c as [f|]; [|congruence]. destruct P4 as (a & P4 & P5).
        destruct G as [G1 G2 G3]. rewrite T in *. cbn in *. subst cons. rewrite app_length in *. cbn in *. constructor; cbn.
        -- intros i g A B. rewrite app_length in B. cbn in B. destruct (Nat.eqb_spec g f) as [->|]; [destruct (s_fut s f); discriminate|]. apply (G1 i g A).
           rewrite P4 in A. apply nth_snoc in A. destruct A as [A|[_ ->]]; [|congruence]. assert (i < length a) by (apply nth_error_Some; congruence). lia.
        -- intros g e. destruct (Nat.eqb_spec g f) as [->|]; [|auto]. specialize (G2 f e). destruct (s_fut s f); cbn; congruence.
        -- intros g A. destruct (Nat.eqb_spec g f) as [->|]; [destruct (s_fut s f); discriminate|auto].
      * rewrite (i_lock _ _ I), T in E. cbn in E. injection E as <-. apply (ginv_same cons s); auto; cbn; rewrite ?T; cbn; auto.
    + pose proof (i_other _ _ I t) as [X|X]; rewrite X in *; [discriminate|]. injection E as <-. rewrite app_nil_r. apply (ginv_same cons s); auto.
Qed.

(** How receives end. *)
Definition log_end (s : state) (f : nat) : Prop := (exists m, In (Received f m) (s_log s)) \/ In (Abandoned f) (s_log s) \/ In (ReceiveCancelled f) (s_log s).
Record oinv (s : state) : Prop := {
  o_old : forall f, s_over s f = true -> f < s_nfut s /\ s_thr s 0 <> V_Check f;
  o_over : forall f, s_over s f = true -> In f (accepted (s_log s)) -> log_end s f;
  o_end : forall f, log_end s f -> s_over s f = true /\ In f (accepted (s_log s));
  o_flag : s_flag s = true <-> exists t, In (CancelRequested t) (s_log s);
  o_cancelled : forall f, s_fut s f = Cancelled -> s_flag s = true \/ In (Abandoned f) (s_log s);
  o_told : forall f, In (ReceiveCancelled f) (s_log s) -> s_flag s = true;
  o_pc : match s_thr s 0 with P_CRead | P_CWrite _ | P_CCall _ => s_flag s = true | _ => True end
}.
Lemma oinv_init : oinv init.
Proof.
  constructor; cbn; auto; try discriminate; try tauto.
  - intros f [(m & [])|[[]|[]]].
  - split; [discriminate|intros [t []]].
Qed.
(** Steps that say nothing and end no receive. *)
Lemma oinv_same : forall s s1, oinv s -> s_log s1 = s_log s -> s_over s1 = s_over s -> s_nfut s1 = s_nfut s -> s_flag s1 = s_flag s -> s_fut s1 = s_fut s ->
  (forall f, s_thr s1 0 = V_Check f -> s_thr s 0 = V_Check f) -> match s_thr s1 0 with P_CRead | P_CWrite _ | P_CCall _ => s_flag s = true | _ => True end -> oinv s1.
Proof.
  intros s s1 [O1 O2 O3 O4 O5 O6 O7] Hl Ho Hn Hf Hu Ht Hp. constructor; unfold log_end in *; rewrite ?Hl, ?Ho, ?Hn, ?Hf, ?Hu; auto.
  intros f H. destruct (O1 f H). auto.
Qed.
(** Steps that say something and end no receive. *)
Lemma oinv_say : forall s e, oinv s ->
  match e with Posted _ _ | ReceiveRaised _ => True | _ => False end -> oinv (say e s).
Proof.
  intros s e [O1 O2 O3 O4 O5 O6 O7] He. assert (A : accepted (e :: s_log s) = accepted (s_log s)) by (destruct e; try contradiction; reflexivity).
  assert (B : forall f, log_end (say e s) f <-> log_end s f).
  { intros f. unfold log_end. cbn. destruct e; try contradiction; split; intros [(m0 & H)|[H|H]]; repeat (destruct H as [H|H]; try discriminate); eauto 6. }
  constructor; cbn [say s_over s_nfut s_thr s_flag s_fut s_log]; rewrite ?A; auto.
  - intros f H1 H2. apply B. auto.
  - intros f H1. apply O3. apply B. exact H1.
  - rewrite O4. split; intros [t H]; exists t; [right; exact H|]. destruct H as [H|H]; [subst; contradiction|exact H].
  - intros f H. destruct (O5 f H); cbn; auto.
  - intros f [H|H]; [subst; contradiction|eauto].
Qed.
Lemma oinv_step : forall c s s1 cons, on_loop c -> inv cons s -> finv cons s -> oinv s -> step c s = Some s1 -> oinv s1.
Proof.
  intros c s s1 cons L I F O E.
  destruct c as [t m|t m| | |f|f|t|t]; cbn [step] in E.
  - destruct (is_idle (s_thr s t)) eqn:X; [|discriminate]. apply idle in X. injection E as <-. apply oinv_say; [|exact Logic.I].
    apply (oinv_same s); auto; destruct t; cbn; try discriminate; auto. apply (o_pc _ O).
  - cbn in L. subst t. destruct (is_idle (s_thr s 0)) eqn:X; [|discriminate]. apply idle in X. injection E as <-. apply oinv_say; [|exact Logic.I].
    apply (oinv_same s); auto; cbn; auto; discriminate.
  - destruct (is_idle (s_thr s 0)) eqn:X; [|discriminate]. apply idle in X. injection E as <-. destruct O as [O1 O2 O3 O4 O5 O6 O7]. constructor; cbn; auto.
    intros f H. destruct (O1 f H). split; [lia|]. intros Y. injection Y as Y. lia.
  - destruct (s_ready s) eqn:R; [discriminate|]. destruct (is_idle (s_thr s 0)) eqn:X; [|discriminate]. apply idle in X. injection E as <-.
    apply (oinv_same s); auto; cbn; auto; discriminate.
  - destruct (awaited f s) eqn:W; [|discriminate]. pose proof (awaited_accepted _ _ _ F W) as Ac. apply awaited_inv in W. destruct W as (W1 & W2 & W3).
    destruct (s_fut s f) as [|m|e|] eqn:Ff; try discriminate; injection E as <-; destruct O as [O1 O2 O3 O4 O5 O6 O7].
    + constructor; unfold log_end in *; cbn; auto.
      * intros g. destruct (Nat.eqb_spec g f) as [->|]; [rewrite W3; split; [exact W1|discriminate]|auto].
      * intros g. destruct (Nat.eqb_spec g f) as [->|]; [left; eauto|]. intros H1 H2. destruct (O2 g H1 H2) as [(m0 & H)|[H|H]]; eauto 6.
      * intros g H. destruct (Nat.eqb_spec g f) as [->|]; [auto|]. apply O3. destruct H as [(m0 & [H|H])|[[H|H]|[H|H]]]; try discriminate; eauto. congruence.
      * rewrite O4. split; intros [t H]; exists t; [auto|]. destruct H; [discriminate|assumption].
      * intros g H. destruct (O5 g H); auto.
      * intros g [H|H]; [discriminate|eauto].
    + assert (Fl : s_flag s = true). { destruct (O5 f Ff) as [H|H]; [exact H|]. assert (X : log_end s f) by (right; left; exact H). apply O3 in X. destruct X. congruence. }
      constructor; unfold log_end in *; cbn; auto.
      * intros g. destruct (Nat.eqb_spec g f) as [->|]; [rewrite W3; split; [exact W1|discriminate]|auto].
      * intros g. destruct (Nat.eqb_spec g f) as [->|]; [auto|]. intros H1 H2. destruct (O2 g H1 H2) as [(m0 & H)|[H|H]]; eauto 6.
      * intros g H. destruct (Nat.eqb_spec g f) as [->|]; [auto|]. apply O3. destruct H as [(m0 & [H|H])|[[H|H]|[H|H]]]; try discriminate; eauto. congruence.
      * rewrite O4. split; intros [t H]; exists t; [auto|]. destruct H; [discriminate|assumption].
  - destruct (awaited f s) eqn:W; [|discriminate]. pose proof (awaited_accepted _ _ _ F W) as Ac. apply awaited_inv in W. destruct W as (W1 & W2 & W3). injection E as <-. destruct O as [O1 O2 O3 O4 O5 O6 O7].
    constructor; unfold log_end in *; cbn; auto.
    + intros g. destruct (Nat.eqb_spec g f) as [->|]; [rewrite W3; split; [exact W1|discriminate]|auto].
    + intros g. destruct (Nat.eqb_spec g f) as [->|]; [auto|]. intros H1 H2. destruct (O2 g H1 H2) as [(m0 & H)|[H|H]]; eauto 6.
    + intros g H. destruct (Nat.eqb_spec g f) as [->|]; [auto|]. apply O3. destruct H as [(m0 & [H|H])|[[H|H]|[H|H]]]; try discriminate; eauto. congruence.
    + rewrite O4. split; intros [t H]; exists t; [auto|]. destruct H; [discriminate|assumption].
    + intros g. destruct (Nat.eqb_spec g f) as [->|]; [auto|]. intros H. destruct (O5 g H); auto.
    + intros g [H|H]; [discriminate|eauto].
  - destruct (is_idle (s_thr s t)); [|discriminate]. injection E as <-. destruct O as [O1 O2 O3 O4 O5 O6 O7]. constructor; unfold log_end in *; cbn; auto.
    + intros f H1 H2. destruct (O2 f H1 H2) as [(m0 & H)|[H|H]]; eauto 6.
    + intros f H. apply O3. destruct H as [(m0 & [H|H])|[[H|H]|[H|H]]]; try discriminate; eauto.
    + split; eauto.
    + destruct (s_thr s 0); auto.
  - unfold run in E. destruct t as [|t].
    + assert (N0 := i_new _ _ I). assert (OP := o_pc _ O). destruct (s_thr s 0) eqn:T; try discriminate E; try (injection E as <-);
        try (apply (oinv_same s); auto; cbn; try discriminate; auto; fail).
      * destruct (N0 _ eq_refl) as [N1 N2]. destruct (s_cont s) as [c|] eqn:C; injection E as <-.
        -- apply oinv_say; [|exact Logic.I]. destruct O as [O1 O2 O3 O4 O5 O6 O7]. constructor; cbn; auto.
           ++ intros g. destruct (Nat.eqb_spec g f) as [->|]; [split; [exact N1|discriminate]|]. intros H. destruct (O1 g H). split; [assumption|discriminate].
           ++ intros g. destruct (Nat.eqb_spec g f) as [->|]; [contradiction|exact (O2 g)].
           ++ intros g H. apply O3 in H. destruct H. split; [destruct (Nat.eqb g f); auto|assumption].
        -- destruct O as [O1 O2 O3 O4 O5 O6 O7]. rewrite T in *. constructor; unfold log_end in *; cbn; auto.
           ++ intros g H. destruct (O1 g H). split; [assumption|discriminate].
           ++ intros g H1 H2. apply in_app_iff in H2. destruct (O1 g H1) as [_ X]. destruct H2 as [H2|[<-|[]]]; [|congruence]. destruct (O2 g H1 H2) as [(m0 & H)|[H|H]]; eauto 6.
           ++ intros g H. rewrite in_app_iff. destruct (O3 g); [|auto]. destruct H as [(m0 & [H|H])|[[H|H]|[H|H]]]; try discriminate; eauto.
           ++ rewrite O4. split; intros [t H]; exists t; [auto|]. destruct H; [discriminate|assumption].
           ++ intros g H. destruct (O5 g H); auto.
           ++ intros g [H|H]; [discriminate|eauto].
      * apply (oinv_same s); auto; cbn; destruct (s_flag s); auto; discriminate.
      * destruct c as [f|]; [|apply (oinv_same s); auto; cbn; auto; discriminate]. destruct O as [O1 O2 O3 O4 O5 O6 O7]. rewrite T in *. constructor; cbn; auto.
        intros g H. destruct (O1 g H). split; [assumption|discriminate].
      * apply (oinv_same s); auto; cbn; destruct (s_cont s); auto; discriminate.
      * rewrite (i_lock _ _ I), T in E. cbn in E. injection E as <-. apply (oinv_same s); auto; cbn; auto; discriminate.
      * apply (oinv_same s); auto; cbn; destruct (s_queue s); auto; discriminate.
      * destruct (s_queue s) as [|m q] eqn:Q; [discriminate|]. injection E as <-. apply (oinv_same s); auto; cbn; auto; discriminate.
      * destruct c as [f|]; [|apply (oinv_same s); auto; cbn; auto; discriminate]. destruct O as [O1 O2 O3 O4 O5 O6 O7]. rewrite T in *. constructor; cbn; auto.
        -- intros g H. destruct (O1 g H). split; [assumption|discriminate].
        -- intros g. destruct (Nat.eqb_spec g f) as [->|]; [|auto]. intros H. apply O5. destruct (s_fut s f); cbn in H; congruence.
      * rewrite (i_lock _ _ I), T in E. cbn in E. injection E as <-. apply (oinv_same s); auto; cbn; auto; discriminate.
    + pose proof (i_other _ _ I t) as [X|X]; rewrite X in *; [discriminate|]. injection E as <-. apply (oinv_same s); auto; cbn. apply (o_pc _ O).
Qed.

(** Who will look at the queue. *)
Definition looks (p : pc) : bool :=
  match p with V_Cont _ | V_Cancel _ | P_Flag | P_Check | P_Acquire | P_Empty | P_Get | P_Read _ | P_Write _ _ => true | _ => false end.
Definition woken (s : state) : Prop := 0 < s_ready s \/ (exists t, s_thr s t = A_Soon) \/ looks (s_thr s 0) = true.
Definition winv (s : state) : Prop := s_flag s = false -> s_cont s <> None -> s_queue s <> [] -> woken s.
Lemma winv_step : forall c s s1 cons, on_loop c -> inv cons s -> winv s -> step c s = Some s1 -> winv s1.
Proof.
  intros c s s1 cons L I O E. unfold winv, woken in *.
  destruct c as [t m|t m| | |f|f|t|t]; cbn [step] in E.
  - destruct (is_idle (s_thr s t)) eqn:X; [|discriminate]. injection E as <-. cbn. intros _ _ _. right. left. exists t. rewrite Nat.eqb_refl. reflexivity.
  - cbn in L. subst t. destruct (is_idle (s_thr s 0)) eqn:X; [|discriminate]. injection E as <-. cbn. auto.
  - destruct (is_idle (s_thr s 0)) eqn:X; [|discriminate]. apply idle in X. injection E as <-. cbn. intros A B C. destruct (O A B C) as [H|[(t & H)|H]]; auto.
    + right. left. exists t. destruct t; cbn; [congruence|exact H].
    + rewrite X in H. discriminate.
  - destruct (s_ready s) eqn:R; [discriminate|]. destruct (is_idle (s_thr s 0)) eqn:X; [|discriminate]. injection E as <-. cbn. auto.
  - destruct (awaited f s) eqn:W; [|discriminate]. destruct (s_fut s f); try discriminate; injection E as <-; exact O.
  - destruct (awaited f s) eqn:W; [|discriminate]. injection E as <-. exact O.
  - destruct (is_idle (s_thr s t)); [|discriminate]. injection E as <-. cbn. discriminate.
  - unfold run in E. destruct t as [|t].
    + assert (P0 := i_phase _ _ I). assert (OT : forall t, s_thr s t = A_Soon -> s_thr s 0 <> A_Soon -> exists u, s_thr s (S u) = A_Soon) by (intros [|u] H1 H2; [congruence|eauto]).
      assert (G : forall p, (forall t, s_thr s t = A_Soon -> s_thr s 0 <> A_Soon -> exists u, (if Nat.eqb u 0 then p else s_thr s u) = A_Soon)).
      { intros p t H1 H2. destruct (OT t H1 H2) as [u H]. exists (S u). exact H. }
      destruct (s_thr s 0) eqn:T; try discriminate E; try (injection E as <-); cbn in *;
        try (intros A B C; auto; fail);
        try (intros A B C; destruct (O A B C) as [H|[(t & H)|H]]; [auto|right; left; eapply G; [exact H|discriminate]|discriminate]; fail).
      * intros A B C. left. lia.
      * destruct (s_cont s) as [c|] eqn:Co; injection E as <-; cbn; rewrite ?Co; [|auto]. intros A B C. destruct (O A B C) as [H|[(t & H)|H]]; [auto|right; left; eapply G; [exact H|discriminate]|discriminate].
      * intros A B C. rewrite A in *. auto.
      * unfold call_cancel in *. destruct c; cbn; intros A B C; destruct (O A B C) as [H|[(t & H)|H]]; auto; try discriminate; right; left; (eapply G; [exact H|discriminate]).
      * intros A B C. destruct (s_cont s); [auto|congruence].
      * rewrite (i_lock _ _ I), T in E. cbn in E. injection E as <-. cbn. auto.
      * intros A B C. destruct (s_queue s); [congruence|auto].
      * destruct (s_queue s) as [|m q] eqn:Q; [discriminate|]. injection E as <-. cbn. auto.
      * destruct P0 as (l & P1 & P2 & P3 & P4). unfold call_done. destruct c; cbn; rewrite P3; congruence.
      * rewrite (i_lock _ _ I), T in E. cbn in E. injection E as <-. cbn. intros A B C; destruct (O A B C) as [H|[(t & H)|H]]; [auto|right; left; eapply G; [exact H|discriminate]|discriminate].
    + pose proof (i_other _ _ I t) as [X|X]; rewrite X in *; [discriminate|]. injection E as <-. cbn. intros A B C. left. lia.
Qed.
