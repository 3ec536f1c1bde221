(** Mailboxes, all schedules of all threads. *)
From Coq Require Import List Bool Arith Lia.
From Verif.Model Require Import Base Thread Aiotools Mailbox.
From Verif.Spec Require Import MailboxSpec.
From Verif.Proofs Require Import ThreadFacts MailboxFacts MailboxFacts2 MailboxFacts3 MailboxFacts4.
Import ListNotations.

Definition holds (p : pc) : bool := match p with P_Read _ | P_Write _ _ | P_Call _ _ => true | _ => false end.
Definition receiving (p : pc) : option nat := match p with V_Check f | V_Cont f => Some f | _ => None end.
Definition is_v (p : pc) : bool := match p with V_Check _ | V_Cont _ | V_Cancel _ => true | _ => false end.
(** Locks and queue. *)
Record linv (cons : list nat) (s : state) : Prop := {
  l_queue : posted (s_log s) = cons ++ s_queue s;
  l_lock : forall t, locking (s_thr s t) = true -> s_lock s = Some (t, 1);
  l_own : forall o n, s_lock s = Some (o, n) -> locking (s_thr s o) = true;
  l_get : forall t, s_thr s t = P_Get -> s_queue s <> [];
  l_v : forall t, is_v (s_thr s t) = true -> t = 0;
  l_last : forall t m, match s_thr s t with P_Read m1 | P_Write m1 _ | P_Call m1 _ => m1 = m | _ => False end -> exists k, cons = k ++ [m]
}.
Lemma linv_init : linv [] init.
Proof. constructor; cbn; auto; try discriminate. intros t m []. Qed.
Lemma locking_holds : forall p, holds p = true -> locking p = true.
Proof. destruct p; auto; discriminate. Qed.
(** Steps of thread [t] that leave lock and queue. *)
Lemma linv_thr : forall cons s s1 t p, linv cons s -> s_thr s1 = (fun u => if Nat.eqb u t then p else s_thr s u) ->
  s_queue s1 = s_queue s -> s_lock s1 = s_lock s -> posted (s_log s1) = posted (s_log s) ->
  locking p = locking (s_thr s t) -> (p = P_Get -> s_queue s <> []) -> (is_v p = true -> t = 0) ->
  (forall m, match p with P_Read m1 | P_Write m1 _ | P_Call m1 _ => m1 = m | _ => False end -> exists k, cons = k ++ [m]) -> linv cons s1.
Proof.
  intros cons s s1 t p [L1 L2 L3 L4 L5 L6] Ht Hq Hl Hp H1 H2 H3 H4. constructor; rewrite ?Ht, ?Hq, ?Hl, ?Hp; auto; intros u; destruct (Nat.eqb_spec u t) as [->|]; auto.
  - rewrite H1. apply L2.
  - rewrite H1. apply L3.
  - apply L3.
  - apply L4.
  - apply L6.
Qed.
Lemma linv_idle : forall cons s s1, linv cons s -> s_thr s1 = s_thr s -> s_queue s1 = s_queue s -> s_lock s1 = s_lock s -> posted (s_log s1) = posted (s_log s) -> linv cons s1.
Proof. intros cons s s1 [L1 L2 L3 L4 L5 L6] Ht Hq Hl Hp. constructor; rewrite ?Ht, ?Hq, ?Hl, ?Hp; auto. Qed.

Lemma linv_step : forall c s s1 cons, linv cons s -> step c s = Some s1 -> linv (cons ++ eats c s) s1.
Proof.
  intros c s s1 cons I E.
  assert (Post : forall t m p, s_thr s t = Idle -> p = A_Soon \/ p = P_Flag -> linv cons (say (Posted t m) (goto t p (set_queue (s_queue s ++ [m]) s)))).
  { intros t m p T Hp. destruct I as [L1 L2 L3 L4 L5 L6]. constructor; cbn; auto.
    - rewrite L1, app_assoc. reflexivity.
    - intros u. destruct (Nat.eqb_spec u t) as [->|]; [destruct Hp; subst; discriminate|auto].
    - intros u. destruct (Nat.eqb_spec u t) as [->|]; [|apply L3]. intros n H. apply L3 in H. rewrite T in H. discriminate.
    - intros u _. destruct (s_queue s); discriminate.
    - intros u. destruct (Nat.eqb_spec u t) as [->|]; [destruct Hp; subst; discriminate|auto].
    - intros u k. destruct (Nat.eqb_spec u t) as [->|]; [destruct Hp; subst; intros []|apply L6]. }
  destruct c as [t m|t m| | |f|f|t|t]; cbn [step] in E; cbn [eats]; rewrite ?app_nil_r.
  - destruct (is_idle (s_thr s t)) eqn:X; [|discriminate]. apply idle in X. injection E as <-. auto.
  - destruct (is_idle (s_thr s t)) eqn:X; [|discriminate]. apply idle in X. injection E as <-. auto.
  - destruct (is_idle (s_thr s 0)) eqn:X; [|discriminate]. apply idle in X. injection E as <-. eapply (linv_thr cons s _ 0 (V_Check (s_nfut s))); cbn; auto; try discriminate; [rewrite X; reflexivity|intros m []].
  - destruct (s_ready s) eqn:R; [discriminate|]. destruct (is_idle (s_thr s 0)) eqn:X; [|discriminate]. apply idle in X. injection E as <-. eapply (linv_thr cons s _ 0 P_Flag); cbn; auto; try discriminate; [rewrite X; reflexivity|intros m []].
  - destruct (awaited f s) eqn:Aw; [|discriminate]. destruct (s_fut s f); try discriminate; injection E as <-; apply (linv_idle cons s); auto.
  - destruct (awaited f s) eqn:Aw; [|discriminate]. injection E as <-. apply (linv_idle cons s); auto.
  - destruct (is_idle (s_thr s t)) eqn:X; [|discriminate]. injection E as <-. apply (linv_idle cons s); auto.
  - unfold run in E. assert (V := l_v _ _ I t). assert (LL := l_last _ _ I t). assert (LK := l_lock _ _ I t).
    destruct (s_thr s t) eqn:T; rewrite ?app_nil_r; try discriminate E;
      try (injection E as <-; eapply (linv_thr cons s _ t); [exact I|reflexivity|reflexivity|reflexivity|reflexivity|rewrite T; reflexivity|discriminate|auto; discriminate|intros m0 []; fail]; fail);
      try (injection E as <-; eapply (linv_thr cons s _ t); [exact I|reflexivity|reflexivity|reflexivity|reflexivity|rewrite T; reflexivity|discriminate|auto; discriminate|exact LL]; fail).
    + destruct (s_cont s); injection E as <-; (eapply (linv_thr cons s _ t); [exact I|reflexivity|reflexivity|reflexivity|reflexivity|rewrite T; reflexivity|discriminate|auto; discriminate|intros m0 []]).
    + injection E as <-. eapply (linv_thr cons s _ t); [exact I|reflexivity|reflexivity|reflexivity|reflexivity|..]; rewrite ?T; destruct (s_flag s); try reflexivity; try discriminate; intros m0 [].
    + destruct c; injection E as <-; (eapply (linv_thr cons s _ t); [exact I|reflexivity|reflexivity|reflexivity|reflexivity|rewrite T; reflexivity|discriminate|discriminate|intros m0 []]).
    + injection E as <-. eapply (linv_thr cons s _ t); [exact I|reflexivity|reflexivity|reflexivity|reflexivity|..]; rewrite ?T; destruct (s_cont s); try reflexivity; try discriminate; intros m0 [].
    + destruct (acquire t (s_lock s)) as [l|] eqn:A; [|discriminate]. injection E as <-. apply acquire_inv in A. destruct I as [L1 L2 L3 L4 L5 L6].
      assert (l = Some (t, 1) /\ s_lock s = None) as [-> Fr]. { destruct A as [[A ->]|(n & A & _)]; [auto|]. apply L3 in A. rewrite T in A. discriminate. }
      assert (NL : forall u, locking (s_thr s u) = false). { intros u. destruct (locking (s_thr s u)) eqn:X; [|reflexivity]. apply L2 in X. congruence. }
      constructor; cbn; auto; try (intros u; destruct (Nat.eqb_spec u t) as [->|]; try apply L4; auto; try discriminate; fail).
      * intros u. destruct (Nat.eqb_spec u t) as [->|]; [auto|]. rewrite NL. discriminate.
      * intros o n H. injection H as <- _. rewrite Nat.eqb_refl. reflexivity.
      * intros u m0. destruct (Nat.eqb_spec u t) as [->|]; [intros []|apply L6].
    + injection E as <-. eapply (linv_thr cons s _ t); [exact I|reflexivity|reflexivity|reflexivity|reflexivity|..]; rewrite ?T; destruct (s_queue s); try reflexivity; try discriminate; intros m0 [].
    + destruct (s_queue s) as [|m q] eqn:Q; [discriminate|]. injection E as <-. specialize (LK eq_refl). destruct I as [L1 L2 L3 L4 L5 L6].
      assert (NL : forall u, u <> t -> locking (s_thr s u) = false). { intros u Hu. destruct (locking (s_thr s u)) eqn:X; [|reflexivity]. apply L2 in X. congruence. }
      constructor; cbn; auto; try (intros u; destruct (Nat.eqb_spec u t) as [->|]; try apply L4; auto; try discriminate; fail).
      * rewrite L1, Q, <- app_assoc. reflexivity.
      * intros u n H. destruct (Nat.eqb_spec u t) as [->|]; [auto|eapply L3; exact H].
      * intros u. destruct (Nat.eqb_spec u t) as [->|]; [discriminate|]. intros X. specialize (NL u n). rewrite X in NL. discriminate.
      * intros u m0. destruct (Nat.eqb_spec u t) as [->|]; [intros ->; eauto|]. specialize (NL u n). destruct (s_thr s u); try discriminate NL; intros [].
    + destruct c; injection E as <-; (eapply (linv_thr cons s _ t); [exact I|reflexivity|reflexivity|reflexivity|reflexivity|rewrite T; reflexivity|discriminate|discriminate|intros m0 []]).
    + specialize (LK eq_refl). rewrite LK in E. destruct (release t (Some (t, 1))) as [l|] eqn:A; [|discriminate]. apply release_inv in A; [|reflexivity]. subst l. injection E as <-.
      destruct I as [L1 L2 L3 L4 L5 L6]. constructor; cbn; auto; try discriminate; try (intros u; destruct (Nat.eqb_spec u t) as [->|]; try apply L4; auto; try discriminate; fail).
      * intros u. destruct (Nat.eqb_spec u t) as [->|]; [discriminate|]. intros H. apply L2 in H. congruence.
      * intros u m0. destruct (Nat.eqb_spec u t) as [->|]; [intros []|apply L6].
Qed.

(** Positions of the delivered messages. *)
Definition is_result (s : state) (f : nat) : Prop := exists m, s_fut s f = Done m.
Record dinv (cons : list nat) (pos : nat -> nat) (s : state) : Prop := {
  d_pos : forall f m, s_fut s f = Done m -> nth_error cons (pos f) = Some m;
  d_new : forall f t, is_result s f -> holds (s_thr s t) = true -> S (pos f) < length cons;
  d_mono : forall f g, is_result s f -> is_result s g -> f < g -> pos f < pos g;
  (** results < continuation being called < self.continuation < receive being made *)
  d_call : forall f t m c, is_result s f -> s_thr s t = P_Call m (Some c) -> f < c;
  d_cont : forall f c, is_result s f -> s_cont s = Some c -> f < c;
  d_v : forall f g t, is_result s f -> receiving (s_thr s t) = Some g -> f < g;
  d_nfut : forall f, is_result s f -> f < s_nfut s;
  d_callcont : forall t m c d, s_thr s t = P_Call m (Some c) -> s_cont s = Some d -> c < d;
  d_callv : forall t m c u g, s_thr s t = P_Call m (Some c) -> receiving (s_thr s u) = Some g -> c < g;
  d_callnfut : forall t m c, s_thr s t = P_Call m (Some c) -> c < s_nfut s;
  d_contv : forall c u g, s_cont s = Some c -> receiving (s_thr s u) = Some g -> c < g;
  d_contnfut : forall c, s_cont s = Some c -> c < s_nfut s;
  d_vnfut : forall u g, receiving (s_thr s u) = Some g -> g < s_nfut s;
  d_vcont : forall t f, s_thr s t = V_Cont f -> s_cont s = None;
  d_write : forall t m c, s_thr s t = P_Write m (Some c) -> s_cont s = Some c;
  d_received : forall f m, In (Received f m) (s_log s) -> s_fut s f = Done m
}.
Lemma dinv_init : dinv [] (fun _ => 0) init.
Proof. constructor; cbn; try discriminate; unfold is_result; cbn; intros; repeat match goal with H : exists _, _ |- _ => destruct H end; try discriminate; contradiction. Qed.
Lemma dinv_thr : forall cons pos s s1 t p, dinv cons pos s -> s_thr s1 = (fun u => if Nat.eqb u t then p else s_thr s u) ->
  (forall f m, s_fut s1 f = Done m <-> s_fut s f = Done m) -> s_nfut s1 = s_nfut s -> s_cont s1 = s_cont s ->
  (forall f m, In (Received f m) (s_log s1) -> In (Received f m) (s_log s)) ->
  (holds p = true -> holds (s_thr s t) = true) -> (forall g, receiving p = Some g -> receiving (s_thr s t) = Some g) ->
  match p with V_Cont _ => s_cont s = None | P_Write _ (Some c) => s_cont s = Some c | P_Call _ (Some _) => False | _ => True end -> dinv cons pos s1.
Proof.
  intros cons pos s s1 t p [D1 D2 D3 D4 D5 D6 D7 D8 D9 D10 D11 D12 D13 D14 D15 D16] Ht Hf Hn Hc Hr H1 H2 H3.
  assert (R : forall f, is_result s1 f -> is_result s f) by (intros f [m H]; exists m; apply Hf, H).
  assert (C : forall u m c, s_thr s1 u = P_Call m (Some c) -> s_thr s u = P_Call m (Some c)).
  { intros u m c. rewrite Ht. destruct (Nat.eqb_spec u t) as [->|]; [|auto]. intros ->. destruct H3. }
  assert (V : forall u g, receiving (s_thr s1 u) = Some g -> receiving (s_thr s u) = Some g). { intros u g. rewrite Ht. destruct (Nat.eqb_spec u t) as [->|]; auto. }
  constructor; rewrite ?Hn, ?Hc; try (intros; eauto 4; fail).
  - intros f m H. apply D1, Hf, H.
  - intros f u Hx. rewrite Ht. destruct (Nat.eqb_spec u t) as [->|]; intros; eapply D2; eauto.
  - intros u f. rewrite Ht. destruct (Nat.eqb_spec u t) as [->|]; [|apply D14]. intros ->. exact H3.
  - intros u m c. rewrite Ht. destruct (Nat.eqb_spec u t) as [->|]; [|apply D15]. intros ->. exact H3.
  - intros f m H. apply Hf. auto.
Qed.
Lemma done_cancel : forall (f : future nat) m, cancel_future f = Done m <-> f = Done m.
Proof. intros [| | |] m; cbn; split; congruence. Qed.
Lemma settle_cancel : forall s f g m, (if Nat.eqb g f then cancel_future (s_fut s f) else s_fut s g) = Done m <-> s_fut s g = Done m.
Proof. intros s f g m. destruct (Nat.eqb_spec g f) as [->|]; [apply done_cancel|tauto]. Qed.
Lemma settle_kcancel : forall s f g m, (if Nat.eqb g f then snd (k_cancel (s_fut s f)) else s_fut s g) = Done m <-> s_fut s g = Done m.
Proof. intros s f g m. destruct (Nat.eqb_spec g f) as [->|]; [|tauto]. unfold k_cancel. destruct (s_fut s f); cbn; split; congruence. Qed.
Lemma goto_same : forall s t, s_thr s = s_thr s -> forall u, s_thr s u = (if Nat.eqb u t then s_thr s t else s_thr s u).
Proof. intros s t _ u. destruct (Nat.eqb_spec u t) as [->|]; reflexivity. Qed.
Lemma dinv_rest : forall cons pos s s1, dinv cons pos s -> s_thr s1 = s_thr s -> (forall f m, s_fut s1 f = Done m <-> s_fut s f = Done m) -> s_nfut s1 = s_nfut s -> s_cont s1 = s_cont s ->
  (forall f m, In (Received f m) (s_log s1) -> s_fut s f = Done m) -> dinv cons pos s1.
Proof.
  intros cons pos s s1 [D1 D2 D3 D4 D5 D6 D7 D8 D9 D10 D11 D12 D13 D14 D15 D16] Ht Hf Hn Hc Hr.
  assert (R : forall f, is_result s1 f -> is_result s f) by (intros f [m H]; exists m; apply Hf, H).
  constructor; rewrite ?Hn, ?Hc, ?Ht; try (intros; eauto 4; fail).
  - intros f m H. apply D1, Hf, H.
  - intros f m H. apply Hf. auto.
Qed.
Definition deliver (c : choice) (s : state) (cons : list nat) (pos : nat -> nat) : nat -> nat :=
  match c with
  | CRun t => match s_thr s t with P_Call m (Some f) => match s_fut s f with Pending => (fun g => if Nat.eqb g f then length cons - 1 else pos g) | _ => pos end | _ => pos end
  | _ => pos
  end.
Lemma dinv_step : forall c s s1 cons pos, linv cons s -> dinv cons pos s -> step c s = Some s1 -> dinv (cons ++ eats c s) (deliver c s cons pos) s1.
Proof.
  intros c s s1 cons pos I D E. destruct c as [t m|t m| | |f|f|t|t]; cbn [step] in E; cbn [eats deliver]; rewrite ?app_nil_r.
  - destruct (is_idle (s_thr s t)) eqn:X; [|discriminate]. injection E as <-. eapply (dinv_thr cons pos s _ t A_Soon); cbn; try reflexivity; auto; try discriminate. intros f m0 [H|H]; [discriminate|exact H].
  - destruct (is_idle (s_thr s t)) eqn:X; [|discriminate]. injection E as <-. eapply (dinv_thr cons pos s _ t P_Flag); cbn; try reflexivity; auto; try discriminate. intros f m0 [H|H]; [discriminate|exact H].
  - destruct (is_idle (s_thr s 0)) eqn:X; [|discriminate]. apply idle in X. injection E as <-. destruct D as [D1 D2 D3 D4 D5 D6 D7 D8 D9 D10 D11 D12 D13 D14 D15 D16].
    assert (R : forall f, is_result (goto 0 (V_Check (s_nfut s)) (set_nfut (S (s_nfut s)) s)) f -> is_result s f) by (intros f H; exact H).
    constructor; cbn; auto.
    + intros f [|u] H Y; cbn in *; [discriminate|]. eapply D2; eauto.
    + intros f [|u] m c H Y; cbn in *; [discriminate|]. eapply D4; eauto.
    + intros f g [|u] H Y; cbn in *; [injection Y as <-; auto|]. eapply D6; eauto.
    + intros f H. specialize (D7 f (R f H)). lia.
    + intros [|u] m c d H Y; cbn in *; [discriminate|eapply D8; eauto].
    + intros [|u] m c [|v] g H Y; cbn in *; try discriminate; [injection Y as <-; eapply D10; eauto|eapply D9; eauto].
    + intros [|u] m c H; cbn in *; [discriminate|]. specialize (D10 _ _ _ H). lia.
    + intros c [|u] g H Y; cbn in *; [injection Y as <-; auto|eapply D11; eauto].
    + intros c H. specialize (D12 c H). lia.
    + intros [|u] g H; cbn in *; [injection H as <-; lia|]. specialize (D13 _ _ H). lia.
    + intros [|u] g H; cbn in *; [discriminate|]. eapply D14; eauto.
    + intros [|u] m c H; cbn in *; [discriminate|]. eapply D15; eauto.
  - destruct (s_ready s) eqn:R; [discriminate|]. destruct (is_idle (s_thr s 0)) eqn:X; [|discriminate]. injection E as <-. eapply (dinv_thr cons pos s _ 0 P_Flag); cbn; try reflexivity; auto; discriminate.
  - destruct (awaited f s) eqn:Aw; [|discriminate]. pose proof (d_received _ _ _ D) as Re. destruct (s_fut s f) as [|m|e|] eqn:Ff; try discriminate; injection E as <-; apply (dinv_rest cons pos s); cbn; auto; try tauto; intros g m0 [H|H]; auto; congruence.
  - destruct (awaited f s) eqn:Aw; [|discriminate]. pose proof (d_received _ _ _ D) as Re. injection E as <-. apply (dinv_rest cons pos s); cbn; auto; [intros g m; apply settle_cancel|]. intros g m [H|H]; [discriminate|auto].
  - destruct (is_idle (s_thr s t)) eqn:X; [|discriminate]. pose proof (d_received _ _ _ D) as Re. injection E as <-. apply (dinv_rest cons pos s); cbn; auto; try tauto. intros g m [H|H]; [discriminate|auto].
  - unfold run in E. assert (LL := l_last _ _ I t). assert (LK := l_lock _ _ I t). destruct (s_thr s t) eqn:T; rewrite ?app_nil_r; try discriminate E;
      try (injection E as <-; eapply (dinv_thr cons pos s _ t); [exact D|reflexivity|tauto|reflexivity|reflexivity|auto|rewrite T; auto; discriminate|rewrite T; auto; discriminate|exact Logic.I]; fail).
    + destruct (s_cont s) as [c|] eqn:C; injection E as <-.
      * eapply (dinv_thr cons pos s _ t); [exact D|reflexivity|tauto|reflexivity|reflexivity| |discriminate|discriminate|exact Logic.I]. intros g m0 [H|H]; [discriminate|exact H].
      * eapply (dinv_thr cons pos s _ t); [exact D|reflexivity|tauto|reflexivity|reflexivity| |discriminate|rewrite T; auto|exact C]. intros g m0 [H|H]; [discriminate|exact H].
    + injection E as <-. assert (T0 : t = 0) by (apply (l_v _ _ I); rewrite T; reflexivity). subst t.
      assert (Only : forall u, u <> 0 -> receiving (s_thr s u) = None). { intros u Hu. assert (Vu := l_v _ _ I u). destruct (s_thr s u); auto; exfalso; apply Hu; apply Vu; reflexivity. }
      destruct D as [D1 D2 D3 D4 D5 D6 D7 D8 D9 D10 D11 D12 D13 D14 D15 D16].
      assert (N : s_cont s = None) by (eapply D14; exact T). assert (Rf : receiving (s_thr s 0) = Some f) by (rewrite T; reflexivity).
      assert (R : forall g, is_result (goto 0 (V_Cancel f) (set_cont (Some f) s)) g -> is_result s g) by (intros g H; exact H).
      constructor; cbn; auto.
      * intros g [|u] H Y; cbn in *; [discriminate|]. eapply D2; eauto.
      * intros g [|u] m c H Y; cbn in *; [discriminate|eapply D4; eauto].
      * intros g c H Y. injection Y as <-. eapply D6; eauto.
      * intros g h [|u] H Y; cbn in *; [discriminate|]. eapply D6; eauto.
      * intros [|u] m c d H Y; cbn in *; [discriminate|]. injection Y as <-. eapply D9; eauto.
      * intros [|u] m c [|v] g H Y; cbn in *; try discriminate. eapply D9; eauto.
      * intros [|u] m c H; cbn in *; [discriminate|eauto].
      * intros c [|u] g H Y; cbn in *; [discriminate|]. rewrite Only in Y by discriminate. discriminate.
      * intros c H. injection H as <-. eauto.
      * intros [|u] g H; cbn in *; [discriminate|eauto].
      * intros [|u] g H; cbn in *; [discriminate|]. specialize (Only (S u)). rewrite H in Only. discriminate Only. discriminate.
      * intros [|u] m c H; cbn in *; [discriminate|]. apply D15 in H. congruence.
    + injection E as <-. eapply (dinv_thr cons pos s _ t); [exact D|reflexivity|tauto|reflexivity|reflexivity|auto|..]; destruct (s_flag s); try discriminate; exact Logic.I.
    + destruct c as [f|]; injection E as <-; [|eapply (dinv_thr cons pos s _ t); [exact D|reflexivity|tauto|reflexivity|reflexivity|auto|discriminate|discriminate|exact Logic.I]].
      eapply (dinv_thr cons pos s _ t); [exact D|reflexivity|intros g m; apply settle_kcancel|reflexivity|reflexivity|auto|discriminate|discriminate|exact Logic.I].
    + injection E as <-. eapply (dinv_thr cons pos s _ t); [exact D|reflexivity|tauto|reflexivity|reflexivity|auto|..]; destruct (s_cont s); try discriminate; exact Logic.I.
    + destruct (acquire t (s_lock s)) as [l|] eqn:A; [|discriminate]. injection E as <-. eapply (dinv_thr cons pos s _ t); [exact D|reflexivity|tauto|reflexivity|reflexivity|auto|discriminate|discriminate|exact Logic.I].
    + injection E as <-. eapply (dinv_thr cons pos s _ t); [exact D|reflexivity|tauto|reflexivity|reflexivity|auto|..]; destruct (s_queue s); try discriminate; exact Logic.I.
    + destruct (s_queue s) as [|m q] eqn:Q; [discriminate|]. injection E as <-. specialize (LK eq_refl).
      assert (NL : forall u, u <> t -> locking (s_thr s u) = false). { intros u Hu. destruct (locking (s_thr s u)) eqn:X; [|reflexivity]. apply (l_lock _ _ I) in X. congruence. }
      assert (D' : dinv cons pos (goto t P_Release (set_queue q s))) by (eapply (dinv_thr cons pos s _ t); [exact D|reflexivity|tauto|reflexivity|reflexivity|auto|discriminate|discriminate|exact Logic.I]).
      destruct D' as [D1 D2 D3 D4 D5 D6 D7 D8 D9 D10 D11 D12 D13 D14 D15 D16]. cbn in *.
      assert (Z : forall u m0 c, (if Nat.eqb u t then P_Read m else s_thr s u) = P_Call m0 (Some c) -> False). { intros u m0 c. destruct (Nat.eqb_spec u t) as [->|]; [discriminate|]. intros H. specialize (NL u n). rewrite H in NL. discriminate. }
      assert (Zr : forall u, receiving (if Nat.eqb u t then P_Read m else s_thr s u) = receiving (if Nat.eqb u t then P_Release else s_thr s u)) by (intros u; destruct (Nat.eqb u t); reflexivity).
      constructor; cbn; auto; try (intros; exfalso; eapply Z; eassumption); try (intros *; rewrite Zr; eauto; fail).
      * intros f m0 H. apply nth_app_old, D1, H.
      * intros f u Rf _. destruct Rf as [m0 H]. specialize (D1 f m0 H). assert (pos f < length cons) by (apply nth_error_Some; congruence). rewrite app_length. cbn. lia.
      * intros u f. specialize (D14 u f). destruct (Nat.eqb u t); [discriminate|exact D14].
      * intros u m0 c. specialize (D15 u m0 c). destruct (Nat.eqb u t); [discriminate|exact D15].
    + injection E as <-. eapply (dinv_thr cons pos s _ t); [exact D|reflexivity|tauto|reflexivity|reflexivity|auto|rewrite T; auto|discriminate|destruct (s_cont s); auto].
    + injection E as <-. specialize (LK eq_refl).
      assert (NL : forall u, u <> t -> locking (s_thr s u) = false). { intros u Hu. destruct (locking (s_thr s u)) eqn:X; [|reflexivity]. apply (l_lock _ _ I) in X. congruence. }
      destruct D as [D1 D2 D3 D4 D5 D6 D7 D8 D9 D10 D11 D12 D13 D14 D15 D16].
      assert (Cc : forall d, c = Some d -> s_cont s = Some d) by (intros d ->; eapply D15; exact T).
      assert (Z : forall u m0 d, (if Nat.eqb u t then P_Call m c else s_thr s u) = P_Call m0 (Some d) -> s_cont s = Some d).
      { intros u m0 d. destruct (Nat.eqb_spec u t) as [->|]; [intros H; injection H as _ ->; auto|]. intros H. specialize (NL u n). rewrite H in NL. discriminate. }
      assert (Zr : forall u g, receiving (if Nat.eqb u t then P_Call m c else s_thr s u) = Some g -> receiving (s_thr s u) = Some g) by (intros u g; destruct (Nat.eqb u t); [discriminate|auto]).
      constructor; cbn; auto; try discriminate; try (intros; eauto 4; fail).
      * intros f u Rf. destruct (Nat.eqb_spec u t) as [->|]; intros; eapply D2; eauto. rewrite T. reflexivity.
      * intros u m0 d. destruct (Nat.eqb_spec u t) as [->|]; [discriminate|]. intros H. specialize (NL u n). rewrite H in NL. discriminate.
    + specialize (LK eq_refl). destruct (LL m eq_refl) as [k K].
      assert (NL : forall u, u <> t -> locking (s_thr s u) = false). { intros u Hu. destruct (locking (s_thr s u)) eqn:X; [|reflexivity]. apply (l_lock _ _ I) in X. congruence. }
      assert (Same : (match c with Some f => s_fut s f <> Pending | None => True end) -> dinv cons pos s1).
      { intros Hc. destruct c as [f|]; injection E as <-; [|eapply (dinv_thr cons pos s _ t); [exact D|reflexivity|tauto|reflexivity|reflexivity|auto|discriminate|discriminate|exact Logic.I]].
        eapply (dinv_thr cons pos s _ t); [exact D|reflexivity| |reflexivity|reflexivity|auto|discriminate|discriminate|exact Logic.I].
        intros g v. cbn. destruct (Nat.eqb_spec g f) as [->|]; [|tauto]. unfold k_done. destruct (s_fut s f); cbn; tauto. }
      destruct c as [f|]; [|apply Same; exact Logic.I]. destruct (s_fut s f) as [|v|e|] eqn:Ff; try (apply Same; congruence). clear Same. injection E as <-. unfold call_done. rewrite Ff. cbn [k_done is_done set_result snd].
      destruct D as [D1 D2 D3 D4 D5 D6 D7 D8 D9 D10 D11 D12 D13 D14 D15 D16].
      assert (Hl : holds (s_thr s t) = true) by (rewrite T; reflexivity).
      assert (R : forall g, is_result (goto t P_Release (settle f (Done m) s)) g -> g = f \/ is_result s g). { intros g [v H]. cbn in H. destruct (Nat.eqb_spec g f); [auto|]. right. exists v. exact H. }
      assert (Nf : forall g, is_result s g -> g <> f) by (intros g [v H] ->; congruence).
      assert (Z : forall u m0 d, (if Nat.eqb u t then P_Release else s_thr s u) = P_Call m0 (Some d) -> False).
      { intros u m0 d. destruct (Nat.eqb_spec u t) as [->|]; [discriminate|]. intros H. specialize (NL u n). rewrite H in NL. discriminate. }
      assert (Zr : forall u g, receiving (if Nat.eqb u t then P_Release else s_thr s u) = Some g -> receiving (s_thr s u) = Some g) by (intros u g; destruct (Nat.eqb u t); [discriminate|auto]).
      assert (Zh : forall u, holds (if Nat.eqb u t then P_Release else s_thr s u) = false). { intros u. destruct (Nat.eqb_spec u t) as [->|]; [reflexivity|]. specialize (NL u n). destruct (s_thr s u); auto; discriminate. }
      constructor; cbn; auto; try (intros; exfalso; eapply Z; eassumption).
      * intros g v. destruct (Nat.eqb_spec g f) as [->|]; [|apply D1]. intros H. injection H as <-. rewrite K, app_length, Nat.add_sub. apply nth_last.
      * intros g u _. rewrite Zh. discriminate.
      * intros g h Rg Rh Lt. apply R in Rg. apply R in Rh. destruct (Nat.eqb_spec g f) as [->|], (Nat.eqb_spec h f) as [->|]; try lia.
        -- destruct Rh as [Rh|Rh]; [congruence|]. specialize (D4 _ _ _ _ Rh T). lia.
        -- destruct Rg as [Rg|Rg]; [congruence|]. specialize (D2 _ _ Rg Hl). lia.
        -- destruct Rg as [Rg|Rg]; [congruence|]. destruct Rh as [Rh|Rh]; [congruence|]. auto.
      * intros g c Rg Hc. apply R in Rg. destruct Rg as [->|Rg]; eauto.
      * intros g h u Rg Hc. apply R in Rg. destruct Rg as [->|Rg]; eauto.
      * intros g Rg. apply R in Rg. destruct Rg as [->|Rg]; eauto.
      * intros c u g Hc H. eauto.
      * intros u g H. eauto.
      * intros u g. specialize (D14 u g). destruct (Nat.eqb u t); [discriminate|exact D14].
      * intros u m0 c. specialize (D15 u m0 c). destruct (Nat.eqb u t); [discriminate|exact D15].
      * intros g v H. destruct (Nat.eqb_spec g f) as [->|]; [|auto]. apply D16 in H. congruence.
    + destruct (release t (s_lock s)) as [l|] eqn:A; [|discriminate]. injection E as <-. eapply (dinv_thr cons pos s _ t); [exact D|reflexivity|tauto|reflexivity|reflexivity|auto|discriminate|discriminate|exact Logic.I].
Qed.
