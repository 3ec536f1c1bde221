(** Mailboxes, all schedules: consequences. *)
From Coq Require Import List Bool Arith Lia Sorting.Sorted.
From Verif.Model Require Import Base Thread Aiotools Mailbox.
From Verif.Spec Require Import MailboxSpec.
From Verif.Proofs Require Import ThreadFacts MailboxFacts MailboxFacts2 MailboxFacts3 MailboxFacts4 MailboxFacts5.
Import ListNotations.

Lemma threads_pf : forall cs s, exec step cs init = Some s -> exists cons pos, linv cons s /\ dinv cons pos s.
Proof.
  intros cs s. apply (exec_ind step (fun _ s => exists cons pos, linv cons s /\ dinv cons pos s) init).
  - exists [], (fun _ => 0). split; [apply linv_init|apply dinv_init].
  - intros ds c x y (cons & pos & L & D) E. exists (cons ++ eats c x), (deliver c x cons pos). split; [eapply linv_step|eapply dinv_step]; eassumption.
Qed.

(** Receives are accepted in the order of their numbers. *)
Definition sinv (s : state) : Prop := StronglySorted lt (accepted (s_log s)) /\ (forall g, In g (accepted (s_log s)) -> g < s_nfut s) /\
  (forall t f, s_thr s t = V_Check f -> f < s_nfut s /\ forall g, In g (accepted (s_log s)) -> g < f).
Lemma sorted_snoc : forall l x, StronglySorted lt l -> (forall g, In g l -> g < x) -> StronglySorted lt (l ++ [x]).
Proof.
  induction l as [|a l IH]; intros x H1 H2; cbn; [repeat constructor|]. inversion H1; subst. constructor; [apply IH; auto; intros; apply H2; right; assumption|].
  apply Forall_app. split; [assumption|]. constructor; [|constructor]. apply H2. left. reflexivity.
Qed.
Lemma sorted_nth : forall l i j x y, StronglySorted lt l -> nth_error l i = Some x -> nth_error l j = Some y -> i < j -> x < y.
Proof.
  induction l as [|a l IH]; intros i j x y H Hi Hj L; [destruct i; discriminate|]. inversion H; subst. destruct j as [|j]; [lia|]. cbn in Hj. destruct i as [|i].
  - cbn in Hi. injection Hi as <-. eapply Forall_forall; [eassumption|]. eapply nth_error_In; eassumption.
  - cbn in Hi. eapply IH; eauto. lia.
Qed.
Lemma sinv_thr : forall s s1 t p, sinv s -> s_thr s1 = (fun u => if Nat.eqb u t then p else s_thr s u) -> accepted (s_log s1) = accepted (s_log s) -> s_nfut s1 = s_nfut s ->
  (forall f, p <> V_Check f) -> sinv s1.
Proof.
  intros s s1 t p (S1 & S2 & S3) Ht Ha Hn Hp. unfold sinv. rewrite Ha, Hn. split; [exact S1|]. split; [exact S2|]. intros u f. rewrite Ht. destruct (Nat.eqb u t); [intros H; destruct (Hp f H)|apply S3].
Qed.
Lemma sinv_rest : forall s s1, sinv s -> s_thr s1 = s_thr s -> accepted (s_log s1) = accepted (s_log s) -> s_nfut s1 = s_nfut s -> sinv s1.
Proof. intros s s1 S Ht Ha Hn. unfold sinv. rewrite Ha, Hn, Ht. exact S. Qed.
Lemma sinv_step : forall c s s1 cons, linv cons s -> sinv s -> step c s = Some s1 -> sinv s1.
Proof.
  intros c s s1 cons I O E. destruct c as [t m|t m| | |f|f|t|t]; cbn [step] in E.
  - destruct (is_idle (s_thr s t)) eqn:X; [|discriminate]. injection E as <-. eapply sinv_thr; [exact O|reflexivity|reflexivity|reflexivity|discriminate].
  - destruct (is_idle (s_thr s t)) eqn:X; [|discriminate]. injection E as <-. eapply sinv_thr; [exact O|reflexivity|reflexivity|reflexivity|discriminate].
  - destruct (is_idle (s_thr s 0)) eqn:X; [|discriminate]. injection E as <-. destruct O as (S1 & S2 & S3). unfold sinv. cbn. split; [exact S1|]. split; [intros g H; specialize (S2 g H); lia|].
    intros u f. destruct (Nat.eqb_spec u 0) as [->|]; [intros H; injection H as <-; split; [lia|exact S2]|]. intros H. destruct (S3 u f H). split; [lia|assumption].
  - destruct (s_ready s) eqn:R; [discriminate|]. destruct (is_idle (s_thr s 0)) eqn:X; [|discriminate]. injection E as <-. eapply sinv_thr; [exact O|reflexivity|reflexivity|reflexivity|discriminate].
  - destruct (awaited f s) eqn:Aw; [|discriminate]. destruct (s_fut s f); try discriminate; injection E as <-; (eapply sinv_rest; [exact O|reflexivity|reflexivity|reflexivity]).
  - destruct (awaited f s) eqn:Aw; [|discriminate]. injection E as <-. eapply sinv_rest; [exact O|reflexivity|reflexivity|reflexivity].
  - destruct (is_idle (s_thr s t)) eqn:X; [|discriminate]. injection E as <-. eapply sinv_rest; [exact O|reflexivity|reflexivity|reflexivity].
  - unfold run in E. destruct (s_thr s t) eqn:T; try discriminate E; try (injection E as <-; eapply sinv_thr; [exact O|reflexivity|reflexivity|reflexivity|discriminate]; fail).
    + destruct (s_cont s); injection E as <-; [eapply sinv_thr; [exact O|reflexivity|reflexivity|reflexivity|discriminate]|].
      assert (t = 0) by (apply (l_v _ _ I); rewrite T; reflexivity). subst t. destruct O as (S1 & S2 & S3). destruct (S3 0 f T) as [S4 S5]. unfold sinv. cbn. split; [apply sorted_snoc; assumption|]. split.
      * intros g H. apply in_app_iff in H. destruct H as [H|[<-|[]]]; auto.
      * intros u g. destruct (Nat.eqb_spec u 0) as [->|]; [discriminate|]. intros H. assert (u = 0) by (apply (l_v _ _ I); rewrite H; reflexivity). contradiction.
    + injection E as <-. eapply sinv_thr; [exact O|reflexivity|reflexivity|reflexivity|]. destruct (s_flag s); discriminate.
    + destruct c; injection E as <-; (eapply sinv_thr; [exact O|reflexivity|reflexivity|reflexivity|discriminate]).
    + injection E as <-. eapply sinv_thr; [exact O|reflexivity|reflexivity|reflexivity|]. destruct (s_cont s); discriminate.
    + destruct (acquire t (s_lock s)); [|discriminate]. injection E as <-. eapply sinv_thr; [exact O|reflexivity|reflexivity|reflexivity|discriminate].
    + injection E as <-. eapply sinv_thr; [exact O|reflexivity|reflexivity|reflexivity|]. destruct (s_queue s); discriminate.
    + destruct (s_queue s); [discriminate|]. injection E as <-. eapply sinv_thr; [exact O|reflexivity|reflexivity|reflexivity|discriminate].
    + destruct c; injection E as <-; (eapply sinv_thr; [exact O|reflexivity|reflexivity|reflexivity|discriminate]).
    + destruct (release t (s_lock s)); [|discriminate]. injection E as <-. eapply sinv_thr; [exact O|reflexivity|reflexivity|reflexivity|discriminate].
Qed.
Lemma accepted_sorted : forall cs s, exec step cs init = Some s -> StronglySorted lt (accepted (s_log s)).
Proof.
  intros cs s E. assert (H : exists cons, linv cons s /\ sinv s); [|destruct H as (cons & _ & H & _); exact H]. revert E.
  apply (exec_ind step (fun _ s => exists cons, linv cons s /\ sinv s) init).
  - exists []. split; [apply linv_init|]. split; [constructor|]. split; [intros g []|discriminate].
  - intros ds c x y (cons & L & D) E. exists (cons ++ eats c x). split; [eapply linv_step|eapply sinv_step]; eassumption.
Qed.
Lemma positions_pf : forall cs s, exec step cs init = Some s -> exists pos,
  (forall f m, In (Received f m) (s_log s) -> nth_error (posted (s_log s)) (pos f) = Some m) /\
  (forall i j f g m n, nth_error (accepted (s_log s)) i = Some f -> nth_error (accepted (s_log s)) j = Some g -> i < j ->
     In (Received f m) (s_log s) -> In (Received g n) (s_log s) -> pos f < pos g).
Proof.
  intros cs s E. destruct (threads_pf cs s E) as (cons & pos & L & D). exists pos. split.
  - intros f m H. rewrite (l_queue _ _ L). apply nth_app_old. apply (d_pos _ _ _ D). apply (d_received _ _ _ D). exact H.
  - intros i j f g m n Hi Hj Lt Hf Hg. apply (d_mono _ _ _ D); [exists m; apply (d_received _ _ _ D); exact Hf|exists n; apply (d_received _ _ _ D); exact Hg|].
    eapply sorted_nth; [eapply accepted_sorted; exact E|exact Hi|exact Hj|exact Lt].
Qed.

(** A receive ends at most once. *)
Lemma ends_once_pf : forall cs s f, exec step cs init = Some s -> count (is_end f) (s_log s) <= 1.
Proof.
  intros cs s f E. assert (H : count (is_end f) (s_log s) <= if s_over s f then 1 else 0); [|destruct (s_over s f); lia]. revert E.
  apply (exec_ind step (fun _ s => count (is_end f) (s_log s) <= if s_over s f then 1 else 0) init); [cbn; lia|]. clear. intros _ c s s1 H E.
  destruct c as [t m|t m| | |g|g|t|t]; cbn [step] in E.
  - destruct (is_idle (s_thr s t)) eqn:X; [|discriminate]. injection E as <-. cbn [say s_log s_over]. rewrite count_cons. exact H.
  - destruct (is_idle (s_thr s t)) eqn:X; [|discriminate]. injection E as <-. cbn [say s_log s_over]. rewrite count_cons. exact H.
  - destruct (is_idle (s_thr s 0)) eqn:X; [|discriminate]. injection E as <-. exact H.
  - destruct (s_ready s) eqn:R; [discriminate|]. destruct (is_idle (s_thr s 0)) eqn:X; [|discriminate]. injection E as <-. exact H.
  - destruct (awaited g s) eqn:Aw; [|discriminate]. apply awaited_inv in Aw. destruct Aw as (_ & Ov & _). destruct (s_fut s g); try discriminate; injection E as <-; cbn [say s_log s_over finish]; rewrite count_cons; cbn [is_end];
      (destruct (Nat.eq_dec f g) as [->|N]; [rewrite Nat.eqb_refl; rewrite Ov in H; cbv iota in *; lia|neq g f; neq f g; exact H]).
  - destruct (awaited g s) eqn:Aw; [|discriminate]. apply awaited_inv in Aw. destruct Aw as (_ & Ov & _). injection E as <-. cbn [say s_log s_over finish settle]; rewrite count_cons; cbn [is_end]. destruct (Nat.eq_dec f g) as [->|N]; [rewrite Nat.eqb_refl; rewrite Ov in H; cbv iota in *; lia|neq g f; neq f g; exact H].
  - destruct (is_idle (s_thr s t)) eqn:X; [|discriminate]. injection E as <-. cbn [say s_log s_over]. rewrite count_cons. exact H.
  - unfold run in E. destruct (s_thr s t) eqn:T; try discriminate E; try (injection E as <-; exact H).
    + destruct (s_cont s); injection E as <-; cbn [say s_log s_over finish goto]; rewrite count_cons; cbn [is_end Nat.add]; [|exact H]. destruct (Nat.eqb f f0); [destruct (s_over s f); lia|exact H].
    + destruct c; injection E as <-; exact H.
    + destruct (acquire t (s_lock s)); [|discriminate]. injection E as <-. exact H.
    + destruct (s_queue s); [discriminate|]. injection E as <-. exact H.
    + destruct c; injection E as <-; exact H.
    + destruct (release t (s_lock s)); [|discriminate]. injection E as <-. exact H.
Qed.
Lemma two_ends : forall log f e1 e2, count (is_end f) log <= 1 -> In e1 log -> In e2 log -> is_end f e1 = true -> is_end f e2 = true -> e1 = e2.
Proof.
  induction log as [|e log IH]; intros f e1 e2 C H1 H2 E1 E2; [destruct H1|]. rewrite count_cons in C.
  assert (Z : forall x, In x log -> is_end f x = true -> 1 <= count (is_end f) log).
  { intros x Hx Ex. unfold count. assert (Y : In x (filter (is_end f) log)) by (apply filter_In; auto). destruct (filter (is_end f) log); [destruct Y|cbn; lia]. }
  destruct H1 as [->|H1], H2 as [->|H2]; auto.
  - rewrite E1 in C. specialize (Z _ H2 E2). lia.
  - rewrite E2 in C. specialize (Z _ H1 E1). lia.
  - eapply IH; eauto. lia.
Qed.

(** A thread in a call can go on, or waits for the lock and the owner can go on. *)
Lemma progress_pf : forall cs s t, exec step cs init = Some s -> s_thr s t <> Idle ->
  step (CRun t) s <> None \/ (s_thr s t = P_Acquire /\ exists u n, s_lock s = Some (u, n) /\ u <> t /\ step (CRun u) s <> None).
Proof.
  intros cs s t E H. destruct (threads_pf cs s E) as (cons & pos & L & _).
  assert (Own : forall u, locking (s_thr s u) = true -> step (CRun u) s <> None).
  { intros u Hu. pose proof (l_lock _ _ L u Hu) as K. pose proof (l_get _ _ L u) as G. cbn. unfold run. destruct (s_thr s u) eqn:T; try discriminate.
    - destruct (s_queue s); [destruct (G eq_refl eq_refl)|discriminate].
    - rewrite K. cbn. rewrite Nat.eqb_refl. discriminate. }
  destruct (locking (s_thr s t)) eqn:X; [left; auto|]. cbn. unfold run. destruct (s_thr s t) eqn:T; try discriminate X; try (left; discriminate); try congruence.
  - left. destruct (s_cont s); discriminate.
  - destruct (s_lock s) as [[u n]|] eqn:K; [|left; discriminate]. destruct (Nat.eq_dec u t) as [->|N].
    + left. cbn. rewrite Nat.eqb_refl. discriminate.
    + right. split; [reflexivity|]. exists u, n. split; [reflexivity|]. split; [exact N|]. specialize (Own u (l_own _ _ L _ _ K)). cbn in Own. unfold run in Own. rewrite K in Own. exact Own.
Qed.

(** What is lost with an abandoned receive. *)
Lemma abandoned_pf : forall cs s i f m, Forall on_loop cs -> exec step cs init = Some s -> nth_error (accepted (s_log s)) i = Some f -> In (Abandoned f) (s_log s) ->
  nth_error (posted (s_log s)) i = Some m -> NoDup (posted (s_log s)) -> forall g, ~ In (Received g m) (s_log s).
Proof.
  intros cs s i f m L E Hf Ha Hm N g R. pose proof (received_accepted_pf cs s g m L E R) as Ac. apply In_nth_error in Ac. destruct Ac as [j Hj].
  pose proof (position_pf cs s g m j L E R Hj) as Pj. assert (i = j) by (eapply nodup_nth; eauto). subst j. assert (f = g) by congruence. subst g.
  assert (X : Abandoned f = Received f m); [|discriminate X]. eapply (two_ends _ f); [eapply ends_once_pf; exact E|exact Ha|exact R|apply Nat.eqb_refl|apply Nat.eqb_refl].
Qed.
