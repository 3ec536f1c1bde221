(** Mailboxes on the loop's thread: cancellation. *)
From Coq Require Import List Bool Arith Lia.
From Verif.Model Require Import Base Thread Aiotools Mailbox.
From Verif.Spec Require Import MailboxSpec.
From Verif.Proofs Require Import ThreadFacts MailboxFacts MailboxFacts2 MailboxFacts3.
Import ListNotations.

Definition late (p : pc) : bool := match p with P_Check | P_Acquire | P_Empty | P_Get => true | _ => false end.
Definition inflight (s : state) : nat :=
  match s_thr s 0 with
  | P_Check => match s_cont s with Some _ => 1 | None => 0 end
  | P_Acquire | P_Empty | P_Get => 1
  | _ => 0
  end.
Lemma cstep : forall c s s1 cons, on_loop c -> inv cons s -> step c s = Some s1 -> s_flag s = true ->
  s_flag s1 = true /\ length (cons ++ eats c s) + inflight s1 <= length cons + inflight s /\ (late (s_thr s 0) = false -> late (s_thr s1 0) = false /\ eats c s = []).
Proof.
  intros c s s1 cons L I E Fl. unfold inflight. destruct c as [t m|t m| | |f|f|t|t]; cbn [step] in E; cbn [eats]; rewrite ?app_nil_r.
  - destruct (is_idle (s_thr s t)) eqn:X; [|discriminate]. injection E as <-. cbn. split; [exact Fl|]. destruct t; cbn; split; auto; lia.
  - cbn in L. subst t. destruct (is_idle (s_thr s 0)) eqn:X; [|discriminate]. injection E as <-. cbn. split; [exact Fl|]. split; [lia|auto].
  - destruct (is_idle (s_thr s 0)) eqn:X; [|discriminate]. injection E as <-. cbn. split; [exact Fl|]. split; [lia|auto].
  - destruct (s_ready s) eqn:R; [discriminate|]. destruct (is_idle (s_thr s 0)) eqn:X; [|discriminate]. injection E as <-. cbn. split; [exact Fl|]. split; [lia|auto].
  - destruct (awaited f s) eqn:Aw; [|discriminate]. destruct (s_fut s f); try discriminate; injection E as <-; cbn; (split; [exact Fl|]); auto.
  - destruct (awaited f s) eqn:Aw; [|discriminate]. injection E as <-. cbn. split; [exact Fl|]. auto.
  - destruct (is_idle (s_thr s t)); [|discriminate]. injection E as <-. cbn. auto.
  - unfold run in E. destruct t as [|t].
    + assert (P0 := i_phase _ _ I). assert (IL := i_lock _ _ I). destruct (s_thr s 0) eqn:T; rewrite ?app_nil_r; cbn in IL; try discriminate E; try (injection E as <-; cbn; split; [exact Fl|]; split; [lia|auto; discriminate]; fail).
      * destruct (s_cont s); injection E as <-; cbn; (split; [exact Fl|]); split; auto; lia.
      * injection E as <-. cbn. rewrite Fl. cbn. split; [reflexivity|]. split; [lia|auto].
      * destruct c; injection E as <-; cbn; (split; [exact Fl|]); split; auto; lia.
      * injection E as <-; cbn. destruct (s_cont s); cbn; (split; [exact Fl|]); split; auto; discriminate.
      * rewrite IL in E. injection E as <-. cbn. split; [exact Fl|]. split; [lia|discriminate].
      * injection E as <-; cbn. destruct (s_queue s); cbn; (split; [exact Fl|]); split; try lia; discriminate.
      * destruct (s_queue s); [discriminate|]. injection E as <-. cbn. rewrite app_length. cbn. split; [exact Fl|]. split; [lia|discriminate].
      * destruct c; injection E as <-; cbn; (split; [exact Fl|]); split; auto; lia.
      * rewrite IL in E. injection E as <-. cbn. split; [exact Fl|]. split; [lia|auto].
    + pose proof (i_other _ _ I t) as [X|X]; rewrite X in *; [discriminate|]. injection E as <-. rewrite app_nil_r. cbn. auto.
Qed.
(** What one step adds to the log. *)
Lemma one_event : forall c s s1, step c s = Some s1 -> s_log s1 = s_log s \/ exists e, s_log s1 = e :: s_log s.
Proof.
  intros c s s1 E. destruct c as [t m|t m| | |f|f|t|t]; cbn [step] in E.
  - destruct (is_idle (s_thr s t)) eqn:X; [|discriminate]. injection E as <-. cbn. eauto.
  - destruct (is_idle (s_thr s t)) eqn:X; [|discriminate]. injection E as <-. cbn. eauto.
  - destruct (is_idle (s_thr s 0)) eqn:X; [|discriminate]. injection E as <-. cbn. eauto.
  - destruct (s_ready s) eqn:R; [discriminate|]. destruct (is_idle (s_thr s 0)) eqn:X; [|discriminate]. injection E as <-. cbn. auto.
  - destruct (awaited f s) eqn:Aw; [|discriminate]. destruct (s_fut s f); try discriminate; injection E as <-; cbn; eauto.
  - destruct (awaited f s) eqn:Aw; [|discriminate]. injection E as <-. cbn. eauto.
  - destruct (is_idle (s_thr s t)); [|discriminate]. injection E as <-. cbn. eauto.
  - unfold run in E. destruct (s_thr s t); try discriminate E; try (injection E as <-; auto; fail).
    + destruct (s_cont s); injection E as <-; cbn; eauto.
    + destruct c; injection E as <-; auto.
    + destruct (acquire t (s_lock s)); [|discriminate]. injection E as <-. auto.
    + destruct (s_queue s); [discriminate|]. injection E as <-. auto.
    + destruct c; injection E as <-; auto.
    + destruct (release t (s_lock s)); [|discriminate]. injection E as <-. auto.
Qed.
Lemma cancel_event : forall c s s1 t, step c s = Some s1 -> s_log s1 = CancelRequested t :: s_log s -> s_thr s t = Idle /\ s1 = say (CancelRequested t) (set_flag true s).
Proof.
  assert (NE : forall A (e : A) l, l = e :: l -> False) by (intros A e l H; apply (f_equal (@length A)) in H; cbn in H; lia).
  intros c s s1 u E H. destruct c as [t m|t m| | |f|f|t|t]; cbn [step] in E.
  - destruct (is_idle (s_thr s t)) eqn:X; [|discriminate]. injection E as <-. discriminate H.
  - destruct (is_idle (s_thr s t)) eqn:X; [|discriminate]. injection E as <-. discriminate H.
  - destruct (is_idle (s_thr s 0)) eqn:X; [|discriminate]. injection E as <-. destruct (NE _ _ _ H).
  - destruct (s_ready s) eqn:R; [discriminate|]. destruct (is_idle (s_thr s 0)) eqn:X; [|discriminate]. injection E as <-. destruct (NE _ _ _ H).
  - destruct (awaited f s) eqn:Aw; [|discriminate]. destruct (s_fut s f); try discriminate; injection E as <-; discriminate H.
  - destruct (awaited f s) eqn:Aw; [|discriminate]. injection E as <-. discriminate H.
  - destruct (is_idle (s_thr s t)) eqn:X; [|discriminate]. injection E as <-. injection H as ->. apply idle in X. auto.
  - exfalso. unfold run in E. destruct (s_thr s t); try discriminate E; try (injection E as <-; destruct (NE _ _ _ H); fail).
    + destruct (s_cont s); injection E as <-; discriminate H.
    + destruct c; injection E as <-; destruct (NE _ _ _ H).
    + destruct (acquire t (s_lock s)); [|discriminate]. injection E as <-. destruct (NE _ _ _ H).
    + destruct (s_queue s); [discriminate|]. injection E as <-. destruct (NE _ _ _ H).
    + destruct c; injection E as <-; destruct (NE _ _ _ H).
    + destruct (release t (s_lock s)); [|discriminate]. injection E as <-. destruct (NE _ _ _ H).
Qed.
Definition cinv (cons : list nat) (s : state) : Prop := forall l1 t l2, s_log s = l1 ++ CancelRequested t :: l2 ->
  s_flag s = true /\ length cons + inflight s <= length (accepted l2) /\ length cons + inflight s <= S (length (posted l2)) /\
  (t = 0 -> late (s_thr s 0) = false /\ length cons <= length (posted l2)).
Lemma rel_len : forall acc cons cont, rel acc cons cont -> length acc = length cons + match cont with Some _ => 1 | None => 0 end.
Proof. intros acc cons [c|] H; cbn in H; [destruct H as (l & -> & H); rewrite app_length; cbn|]; lia. Qed.
Lemma inv_len : forall cons s, inv cons s -> length cons + inflight s <= length (accepted (s_log s)) /\ length cons + inflight s <= S (length (posted (s_log s))).
Proof.
  intros cons s I. assert (Q := i_queue _ _ I). assert (P := i_phase _ _ I). rewrite Q, app_length. unfold inflight.
  split; [|destruct (s_thr s 0); try destruct (s_cont s); lia].
  assert (C : forall c, rel (accepted (s_log s)) cons c -> length (accepted (s_log s)) >= length cons) by (intros c H; apply rel_len in H; destruct c; lia).
  destruct (s_thr s 0); cbn in P; try (specialize (C _ P); lia);
    try (destruct P as [P1 P2]; apply rel_len in P2; destruct (s_cont s); try congruence; lia);
    try (destruct P as (k & -> & P1 & P2); apply rel_len in P2; destruct (s_cont s); try congruence; rewrite app_length; cbn; lia);
    try (destruct P as (k & -> & P1 & P2 & P3); apply rel_len in P3; destruct c; try congruence; rewrite app_length; cbn; lia).
  - destruct P as [_ P]. specialize (C (Some f) P). lia.
  - apply rel_len in P. destruct (s_cont s); lia.
Qed.
Lemma cinv_step : forall c s s1 cons, on_loop c -> all cons s -> cinv cons s -> step c s = Some s1 -> cinv (cons ++ eats c s) s1.
Proof.
  intros c s s1 cons L A C E l1 t l2 H. assert (D := cstep c s s1 cons L (a_inv _ _ A) E).
  assert (Old : forall l, s_log s = l ++ CancelRequested t :: l2 -> s_flag s1 = true /\ length (cons ++ eats c s) + inflight s1 <= length (accepted l2) /\ length (cons ++ eats c s) + inflight s1 <= S (length (posted l2)) /\
    (t = 0 -> late (s_thr s1 0) = false /\ length (cons ++ eats c s) <= length (posted l2))).
  { intros l Hl. destruct (C l t l2 Hl) as (C1 & C2 & C3 & C4). destruct (D C1) as (D1 & D2 & D3). split; [exact D1|]. split; [lia|]. split; [lia|]. intros ->. destruct (C4 eq_refl) as [C5 C6]. destruct (D3 C5) as [D4 D5].
    split; [exact D4|]. rewrite D5, app_nil_r. exact C6. }
  destruct (one_event _ _ _ E) as [X|[e X]]; [rewrite X in H; eauto|]. rewrite X in H. destruct l1 as [|e1 l1]; injection H as H1 H2; [|eauto].
  subst e l2. destruct (cancel_event _ _ _ _ E X) as [T ->]. assert (Z : eats c s = []).
  { assert (NE : forall (a b : event) (l : list event), l = a :: l -> False) by (intros a b l Y; apply (f_equal (@length event)) in Y; cbn in Y; lia).
    destruct c; auto. cbn in E |- *. unfold run in E. destruct (s_thr s t0); auto. destruct (s_queue s); auto. exfalso. apply (f_equal (option_map s_log)) in E. cbn in E. injection E as E. eapply NE; [exact (CancelRequested t)|exact E]. }
  rewrite Z, app_nil_r. destruct (inv_len _ _ (a_inv _ _ A)) as [L1 L2]. unfold inflight in *. cbn. split; [reflexivity|]. split; [exact L1|]. split; [exact L2|].
  intros ->. rewrite T. split; [reflexivity|]. rewrite (i_queue _ _ (a_inv _ _ A)), app_length. lia.
Qed.
Lemma loop_cinv : forall cs s, Forall on_loop cs -> exec step cs init = Some s -> exists cons, all cons s /\ cinv cons s.
Proof. intros cs s. apply loop_ind; [intros [|e l] t l2 H; discriminate|apply cinv_step]. Qed.

Lemma accepted_prefix : forall l1 l2, prefix (accepted l2) (accepted (l1 ++ l2)).
Proof.
  induction l1 as [|e l1 IH]; intros l2; [exists []; rewrite app_nil_r; reflexivity|]. destruct (IH l2) as [k K]. cbn. destruct e; try (exists k; exact K). exists (k ++ [f]). rewrite K, app_assoc. reflexivity.
Qed.
Lemma posted_prefix : forall l1 l2, prefix (posted l2) (posted (l1 ++ l2)).
Proof.
  induction l1 as [|e l1 IH]; intros l2; [exists []; rewrite app_nil_r; reflexivity|]. destruct (IH l2) as [k K]. cbn. destruct e; try (exists k; exact K). exists (k ++ [m]). rewrite K, app_assoc. reflexivity.
Qed.
Lemma prefix_nth : forall A (a b : list A) i x, prefix a b -> nth_error b i = Some x -> i < length a -> nth_error a i = Some x.
Proof. intros A a b i x [k ->] H L. rewrite nth_error_app1 in H by exact L. exact H. Qed.

(** A receive called after the cancellation gives no message. *)
Lemma late_receive_pf : forall cs s l1 t l2 f m, Forall on_loop cs -> exec step cs init = Some s -> s_log s = l1 ++ CancelRequested t :: l2 ->
  In (Received f m) (s_log s) -> exists i, nth_error (accepted l2) i = Some f /\ nth_error (posted (s_log s)) i = Some m /\ i <= length (posted l2) /\ (t = 0 -> nth_error (posted l2) i = Some m).
Proof.
  intros cs s l1 t l2 f m L E H R. destruct (loop_cinv cs s L E) as (cons & A & C). destruct (C l1 t l2 H) as (C1 & C2 & C3 & C4).
  destruct (f_received _ _ (a_finv _ _ A) f m R) as (i & I1 & I2). assert (Li : i < length cons) by (apply nth_error_Some; congruence). exists i.
  assert (Pi : nth_error (posted (s_log s)) i = Some m) by (rewrite (i_queue _ _ (a_inv _ _ A)); apply nth_app_old, I2).
  replace (l1 ++ CancelRequested t :: l2) with ((l1 ++ [CancelRequested t]) ++ l2) in H by (rewrite <- app_assoc; reflexivity).
  split; [eapply prefix_nth; [|exact I1|lia]; rewrite H; apply accepted_prefix|]. split; [exact Pi|]. split; [lia|].
  intros ->. destruct (C4 eq_refl) as [_ C5]. eapply prefix_nth; [|exact Pi|lia]. rewrite H. apply posted_prefix.
Qed.

(** After a post that follows the cancellation, every receive ends. *)
Definition woken2 (s : state) : Prop := s_cancel s = None \/ 0 < s_ready s \/ (exists t, s_thr s t = A_Soon) \/
  match s_thr s 0 with V_Cont _ | V_Cancel _ | P_Flag | P_CRead | P_CWrite _ => True | _ => False end.
Lemma before_more : forall (log : list event) e e1 e2, before (e :: log) e1 e2 -> before log e1 e2 \/ (e = e2 /\ In e1 log).
Proof. intros log e e1 e2 (l2 & l1 & H & I). destruct l2 as [|x l2]; injection H as H1 H2; [subst; auto|]. left. exists l2, l1. auto. Qed.
Lemma woken2_step : forall c s s1 cons, on_loop c -> inv cons s -> s_flag s = true -> woken2 s -> step c s = Some s1 -> woken2 s1.
Proof.
  intros c s s1 cons L I Fl O E. unfold woken2 in *.
  destruct c as [t m|t m| | |f|f|t|t]; cbn [step] in E.
  - destruct (is_idle (s_thr s t)) eqn:X; [|discriminate]. injection E as <-. cbn. right. right. left. exists t. rewrite Nat.eqb_refl. reflexivity.
  - cbn in L. subst t. destruct (is_idle (s_thr s 0)) eqn:X; [|discriminate]. injection E as <-. cbn. auto.
  - destruct (is_idle (s_thr s 0)) eqn:X; [|discriminate]. apply idle in X. injection E as <-. cbn. destruct O as [O|[O|[(t & O)|O]]]; auto.
    + right. right. left. exists t. destruct t; cbn; [congruence|exact O].
    + rewrite X in O. destruct O.
  - destruct (s_ready s) eqn:R; [discriminate|]. destruct (is_idle (s_thr s 0)) eqn:X; [|discriminate]. injection E as <-. cbn. auto.
  - destruct (awaited f s) eqn:W; [|discriminate]. destruct (s_fut s f); try discriminate; injection E as <-; exact O.
  - destruct (awaited f s) eqn:W; [|discriminate]. injection E as <-. exact O.
  - destruct (is_idle (s_thr s t)); [|discriminate]. injection E as <-. exact O.
  - unfold run in E. destruct t as [|t].
    + assert (OT : forall t, s_thr s t = A_Soon -> s_thr s 0 <> A_Soon -> exists u, s_thr s (S u) = A_Soon) by (intros [|u] H1 H2; [congruence|eauto]).
      assert (G : forall p, (forall t, s_thr s t = A_Soon -> s_thr s 0 <> A_Soon -> exists u, (if Nat.eqb u 0 then p else s_thr s u) = A_Soon)).
      { intros p t H1 H2. destruct (OT t H1 H2) as [u H]. exists (S u). exact H. }
      assert (IL := i_lock _ _ I). destruct (s_thr s 0) eqn:T; try discriminate E; try (injection E as <-); cbn in *;
        try (auto 6; fail);
        try (destruct O as [O|[O|[(t & O)|O]]]; [auto|auto|right; right; left; eapply G; [exact O|discriminate]|destruct O]; fail).
      * right. left. lia.
      * destruct (s_cont s) as [c|] eqn:Co; injection E as <-; cbn; [|auto 6]. destruct O as [O|[O|[(t & O)|O]]]; [auto|auto|right; right; left; eapply G; [exact O|discriminate]|destruct O].
      * rewrite Fl. auto 6.
      * unfold call_cancel in *. destruct c; cbn; (destruct O as [O|[O|[(t & O)|O]]]; [auto|auto|right; right; left; eapply G; [exact O|discriminate]|destruct O]).
      * rewrite IL in E. cbn in E. injection E as <-. cbn. destruct O as [O|[O|[(t & O)|O]]]; [auto|auto|right; right; left; eapply G; [exact O|discriminate]|destruct O].
      * destruct (s_queue s) as [|m q] eqn:Q; [discriminate|]. injection E as <-. cbn. destruct O as [O|[O|[(t & O)|O]]]; [auto|auto|right; right; left; eapply G; [exact O|discriminate]|destruct O].
      * unfold call_done in *. destruct c; cbn; (destruct O as [O|[O|[(t & O)|O]]]; [auto|auto|right; right; left; eapply G; [exact O|discriminate]|destruct O]).
      * rewrite IL in E. cbn in E. injection E as <-. cbn. destruct O as [O|[O|[(t & O)|O]]]; [auto|auto|right; right; left; eapply G; [exact O|discriminate]|destruct O].
    + pose proof (i_other _ _ I t) as [X|X]; rewrite X in *; [discriminate|]. injection E as <-. cbn. right. left. lia.
Qed.
Lemma post_event : forall c s s1 t m, on_loop c -> step c s = Some s1 -> s_log s1 = Posted t m :: s_log s -> woken2 s1.
Proof.
  assert (NE : forall A (e : A) l, l = e :: l -> False) by (intros A e l H; apply (f_equal (@length A)) in H; cbn in H; lia).
  intros c s s1 u v L E H. destruct c as [t m|t m| | |f|f|t|t]; cbn [step] in E.
  - destruct (is_idle (s_thr s t)) eqn:X; [|discriminate]. injection E as <-. right. right. left. exists t. cbn. rewrite Nat.eqb_refl. reflexivity.
  - cbn in L. subst t. destruct (is_idle (s_thr s 0)) eqn:X; [|discriminate]. injection E as <-. unfold woken2. cbn. auto 6.
  - destruct (is_idle (s_thr s 0)) eqn:X; [|discriminate]. injection E as <-. destruct (NE _ _ _ H).
  - destruct (s_ready s) eqn:R; [discriminate|]. destruct (is_idle (s_thr s 0)) eqn:X; [|discriminate]. injection E as <-. destruct (NE _ _ _ H).
  - destruct (awaited f s) eqn:Aw; [|discriminate]. destruct (s_fut s f); try discriminate; injection E as <-; discriminate H.
  - destruct (awaited f s) eqn:Aw; [|discriminate]. injection E as <-. discriminate H.
  - destruct (is_idle (s_thr s t)) eqn:X; [|discriminate]. injection E as <-. discriminate H.
  - exfalso. unfold run in E. destruct (s_thr s t); try discriminate E; try (injection E as <-; destruct (NE _ _ _ H); fail).
    + destruct (s_cont s); injection E as <-; discriminate H.
    + destruct c; injection E as <-; destruct (NE _ _ _ H).
    + destruct (acquire t (s_lock s)); [|discriminate]. injection E as <-. destruct (NE _ _ _ H).
    + destruct (s_queue s); [discriminate|]. injection E as <-. destruct (NE _ _ _ H).
    + destruct c; injection E as <-; destruct (NE _ _ _ H).
    + destruct (release t (s_lock s)); [|discriminate]. injection E as <-. destruct (NE _ _ _ H).
Qed.
Lemma cancelled_quiet_pf : forall cs s f, Forall on_loop cs -> exec step cs init = Some s -> posted_after (s_log s) -> quiet s -> In f (accepted (s_log s)) ->
  (exists m, In (Received f m) (s_log s)) \/ In (Abandoned f) (s_log s) \/ In (ReceiveCancelled f) (s_log s).
Proof.
  intros cs s f L E PA Q Ac. destruct (loop_ind (fun _ s => posted_after (s_log s) -> woken2 s)) with (cs := cs) (s := s) as (cons & A & P); auto.
  - intros (t & u & m & l2 & l1 & H & _). destruct l2; discriminate.
  - clear. intros c s s1 cons L A P E (t & u & m & B).
    assert (Fl : posted_after (s_log s) -> s_flag s = true). { intros (t1 & u1 & m1 & l2 & l1 & H & X). apply (o_flag _ (a_oinv _ _ A)). exists t1. rewrite H, in_app_iff. cbn. auto. }
    assert (K : posted_after (s_log s) -> woken2 s1) by (intros H; eapply woken2_step; eauto; apply (a_inv _ _ A)).
    destruct (one_event _ _ _ E) as [X|[e X]]; rewrite X in B.
    + apply K. exists t, u, m. exact B.
    + apply before_more in B. destruct B as [B|[-> B]]; [apply K; exists t, u, m; exact B|]. eapply post_event; eassumption.
  - destruct (quiet_inv _ _ A Q) as (T & R & S). specialize (P PA).
    assert (C : s_cancel s = None). { destruct P as [P|[P|[(t & P)|P]]]; [exact P|lia|rewrite T in P; discriminate|rewrite T in P; destruct P]. }
    destruct (s_over s f) eqn:Ov; [apply (o_over _ (a_oinv _ _ A)); assumption|]. exfalso.
    assert (Pe : s_fut s f = Pending) by (apply S; [apply (i_old _ _ (a_inv _ _ A)), Ac|exact Ov]).
    pose proof (g_hold _ _ (a_ginv _ _ A) f Ac Pe) as H. rewrite T in H. cbn in H. congruence.
Qed.
