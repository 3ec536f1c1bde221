(** Agents whose token is cancelled. *)
From Coq Require Import List Bool Arith Lia.
From Verif.Model Require Import Base Thread Aiotools Mailbox Agent.
From Verif.Spec Require Import MailboxSpec AgentSpec.
From Verif.Proofs Require Import ThreadFacts MailboxFacts MailboxFacts2 MailboxFacts3 MailboxFacts4 MailboxFacts5 MailboxFacts6 MailboxFacts7 AgentFacts.
Import ListNotations.

(** *** Logs of one body *)
Fixpoint receivers (log : list event) : list nat := match log with [] => [] | Received f _ :: l => receivers l ++ [f] | _ :: l => receivers l end.
Lemma receivers_in : forall l f m, In (Received f m) l -> In f (receivers l).
Proof. induction l as [|e l IH]; intros f m H; [destruct H|]. destruct H as [->|H]; cbn; [apply in_app_iff; cbn; auto|]. specialize (IH f m H). destruct e; try assumption. apply in_app_iff. auto. Qed.
Lemma receivers_len : forall l, length (receivers l) = length (received l).
Proof. induction l as [|e l IH]; [reflexivity|]. destruct e; cbn; rewrite ?app_length; cbn; lia. Qed.
Lemma receivers_app : forall l k, length (received k) <= length (received (l ++ k)).
Proof. induction l as [|e l IH]; intros k; cbn; [lia|]. specialize (IH k). destruct e; rewrite ?app_length; cbn; lia. Qed.
Lemma nodup_app_l : forall A (l k : list A), NoDup (l ++ k) -> NoDup l.
Proof. induction l as [|a l IH]; intros k H; [constructor|]. inversion H; subst. constructor; [intros X; apply H2, in_app_iff; auto|eauto]. Qed.
Lemma one_body_len : forall l, one_body l -> NoDup (accepted l) -> length (accepted l) <= S (length (received l)).
Proof.
  induction l as [|e l IH]; intros B N; [cbn; lia|]. destruct e; cbn in *; rewrite ?app_length; cbn; try (specialize (IH B N); lia).
  destruct B as [B1 B2]. apply nodup_app_l in N. rewrite <- receivers_len. enough (length (accepted l) <= length (receivers l)) by lia.
  apply NoDup_incl_length; [exact N|]. intros g G. destruct (B1 g G) as [m M]. eapply receivers_in, M.
Qed.
Lemma one_body_tail : forall l k, one_body (l ++ k) -> one_body k.
Proof. induction l as [|e l IH]; intros k H; [exact H|]. apply IH. destruct e; cbn in H; try exact H. apply (proj2 H). Qed.
Lemma loop_pcinv : forall cs s, Forall on_loop cs -> exec step cs init = Some s -> exists cons, all cons s /\ (pinv cons s /\ cinv cons s).
Proof.
  intros cs s. apply (loop_ind (fun cons s => pinv cons s /\ cinv cons s)).
  - split; [intros _; split; [exists []; reflexivity|]; exists []; cbn; auto; split; [intros g []|auto]|intros [|e l] t l2 H; discriminate].
  - intros c x y cons L A [P C] E. split; [eapply pinv_step|eapply cinv_step]; eassumption.
Qed.
(** One body gets at most one more message. *)
Lemma late_messages_pf : forall cs s l1 t l2, Forall on_loop cs -> exec step cs init = Some s -> one_body (s_log s) -> s_log s = l1 ++ CancelRequested t :: l2 ->
  length (received (s_log s)) <= S (length (received l2)).
Proof.
  intros cs s l1 t l2 L E B H. destruct (loop_pcinv cs s L E) as (cons & A & P & C). destruct (P B) as [(k & P1) _]. destruct (C l1 t l2 H) as (_ & C2 & _).
  assert (length (received (s_log s)) <= length cons) by (rewrite P1, app_length; lia).
  assert (N : NoDup (accepted (s_log s))) by apply (i_dup _ _ (a_inv _ _ A)).
  replace (l1 ++ CancelRequested t :: l2) with ((l1 ++ [CancelRequested t]) ++ l2) in H by (rewrite <- app_assoc; reflexivity).
  assert (N2 : NoDup (accepted l2)). { destruct (accepted_prefix (l1 ++ [CancelRequested t]) l2) as [j J]. rewrite H, J in N. eapply nodup_app_l, N. }
  rewrite H in B. apply one_body_tail in B. pose proof (one_body_len l2 B N2). lia.
Qed.

Lemma prefix_of : forall A (a b c d : list A), a ++ b = c ++ d -> length a <= length c -> prefix a c.
Proof.
  induction a as [|x a IH]; intros b c d H L; [exists c; reflexivity|]. destruct c as [|y c]; cbn in L; [lia|]. injection H as -> H. destruct (IH b c d H) as [r R]; [lia|]. exists r. rewrite R. reflexivity.
Qed.
(** *** All threads *)
Lemma run_more_all : forall c s s1, (exists cs, exec step cs init = Some s) -> step c s = Some s1 -> exists cs, exec step cs init = Some s1.
Proof.
  intros c s s1 (cs & E) S. exists (cs ++ [c]).
  assert (X : forall ds x, exec step ds x = Some s -> exec step (ds ++ [c]) x = Some s1).
  { induction ds as [|d ds IH]; intros x H; cbn in *; [injection H as ->; rewrite S; reflexivity|]. destruct (step d x); [auto|discriminate]. }
  now apply X.
Qed.
Lemma flag_step : forall c s s1, step c s = Some s1 -> (s_flag s = true -> s_flag s1 = true) /\ s_nfut s <= s_nfut s1.
Proof.
  intros c s s1 E. destruct c as [t m|t m| | |f|f|t|t]; cbn [step] in E.
  - destruct (is_idle (s_thr s t)); [|discriminate]. injection E as <-. auto.
  - destruct (is_idle (s_thr s t)); [|discriminate]. injection E as <-. auto.
  - destruct (is_idle (s_thr s 0)); [|discriminate]. injection E as <-. cbn. split; [auto|lia].
  - destruct (s_ready s); [discriminate|]. destruct (is_idle (s_thr s 0)); [|discriminate]. injection E as <-. auto.
  - destruct (awaited f s); [|discriminate]. destruct (s_fut s f); try discriminate; injection E as <-; auto.
  - destruct (awaited f s); [|discriminate]. injection E as <-. auto.
  - destruct (is_idle (s_thr s t)); [|discriminate]. injection E as <-. cbn. auto.
  - unfold run in E. destruct (s_thr s t); try discriminate E; try (injection E as <-; auto; fail).
    + destruct (s_cont s); injection E as <-; auto.
    + destruct c; injection E as <-; auto.
    + destruct (acquire t (s_lock s)); [|discriminate]. injection E as <-. auto.
    + destruct (s_queue s); [discriminate|]. injection E as <-. auto.
    + destruct c; injection E as <-; auto.
    + destruct (release t (s_lock s)); [|discriminate]. injection E as <-. auto.
Qed.
Lemma flag_pf : forall cs s t, exec step cs init = Some s -> In (CancelRequested t) (s_log s) -> s_flag s = true.
Proof.
  intros cs s t. apply (exec_ind step (fun _ s => In (CancelRequested t) (s_log s) -> s_flag s = true) init); [intros []|].
  intros ds c x y IH E H. destruct (flag_step _ _ _ E) as [F _]. destruct (one_event _ _ _ E) as [X|[e X]]; rewrite X in H; [auto|].
  destruct H as [->|H]; [|auto]. destruct (cancel_event _ _ _ _ E X) as [_ ->]. reflexivity.
Qed.
(** The loop is idle when nothing goes on, whatever threads there are. *)
Lemma idle_quiet : forall cons s, linv cons s -> (forall t, step (CRun t) s = None) -> forall t, s_thr s t = Idle.
Proof.
  intros cons s I Q t. pose proof (Q t) as R. cbn in R. unfold run in R. pose proof (l_get _ _ I t) as G. pose proof (l_lock _ _ I t) as K.
  destruct (s_thr s t) eqn:T; try reflexivity; try discriminate R.
  - destruct (s_cont s); discriminate.
  - exfalso. destruct (s_lock s) as [[o n]|] eqn:LK; [|cbn in R; discriminate]. pose proof (l_own _ _ I o n LK) as W. pose proof (l_lock _ _ I o W) as W1. rewrite LK in W1. injection W1 as ->.
    pose proof (Q o) as R1. cbn in R1. unfold run in R1. pose proof (l_get _ _ I o) as G1. destruct (s_thr s o) eqn:TO; try discriminate W; try discriminate R1.
    + destruct (s_queue s); [destruct (G1 eq_refl eq_refl)|discriminate].
    + rewrite LK in R1. unfold release in R1. rewrite Nat.eqb_refl in R1. discriminate.
  - destruct (s_queue s); [destruct (G eq_refl eq_refl)|discriminate].
  - rewrite (K eq_refl) in R. unfold release in R. rewrite Nat.eqb_refl in R. discriminate.
Qed.
Section Agent.
  Context {B O : Type} (next : B -> act B O) (b0 : B).
  Definition gen a := (exists cs, exec step cs init = Some (a_box (B := B) (O := O) a)) /\ forall f k, a_body a = Waits f k -> f < s_nfut (a_box a).
  Lemma gen_step : forall c a a1, gen a -> astep next c a = Some a1 -> gen a1.
  Proof.
    intros c a a1 [G1 G2] E. destruct c as [c| | |]; cbn [astep] in E.
    - assert (S : exists s, step c (a_box a) = Some s /\ a1 = Agent s (a_body a) (a_trace a)).
      { destruct (step c (a_box a)) as [s|] eqn:S; [exists s; split; [reflexivity|]|]; destruct c; try discriminate E; rewrite ?S in E; cbn in E; congruence. }
      destruct S as (s & S & ->). split; cbn; [eapply run_more_all; eassumption|]. intros f k W. specialize (G2 f k W). destruct (flag_step _ _ _ S). lia.
    - assert (X : forall b, a_body a = Starts b \/ a_body a = Ready b -> gen a1).
      { intros b SB. assert (E1 : (if is_idle (s_thr (a_box a) 0) then match next b with
              | Receive k => option_map (fun s => Agent s (Waits (s_nfut (a_box a)) k) (a_trace a)) (step CReceive (a_box a))
              | Do o b => Some (Agent (a_box a) (Ready b) (Did o :: a_trace a))
              | Returns | Raises => Some (Agent (a_box a) Over (a_trace a)) end else None) = Some a1) by (destruct SB as [SB|SB]; rewrite SB in E; exact E).
        destruct (is_idle _); [|discriminate]. destruct (next b) as [k|o b1| |].
        - destruct (step CReceive (a_box a)) as [s|] eqn:S; [|discriminate]. injection E1 as <-. split; cbn; [eapply run_more_all; eassumption|].
          intros f k1 W. injection W as <- _. cbn in S. destruct (is_idle _); [|discriminate]. injection S as <-. cbn. lia.
        - injection E1 as <-. split; cbn; [exact G1|discriminate].
        - injection E1 as <-. split; cbn; [exact G1|discriminate].
        - injection E1 as <-. split; cbn; [exact G1|discriminate]. }
      destruct (a_body a) eqn:SB; try discriminate E; eauto.
    - destruct (a_body a) as [b|b|f k|] eqn:SB; try discriminate. destruct (s_over (a_box a) f).
      + destruct (is_idle _); [|discriminate]. injection E as <-. split; cbn; [exact G1|discriminate].
      + destruct (step (CResume f) (a_box a)) as [s|] eqn:S; [|discriminate]. injection E as <-. destruct (s_fut (a_box a) f); (split; cbn; [eapply run_more_all; eassumption|discriminate]).
    - destruct (s_flag (a_box a)); [|discriminate]. destruct (a_body a) as [b|b|f k|] eqn:SB; try discriminate.
      + injection E as <-. split; cbn; [exact G1|discriminate].
      + destruct (step (CAbandon f) (a_box a)) as [s|] eqn:S; [|discriminate]. injection E as <-. split; cbn; [eapply run_more_all; eassumption|discriminate].
  Qed.
  Lemma gen_pf : forall cs a, exec (astep next) cs (start b0) = Some a -> gen a.
  Proof.
    apply (exec_ind (astep next) (fun _ a => gen a)); [split; cbn; [exists []; reflexivity|discriminate]|]. intros. eapply gen_step; eassumption.
  Qed.
  Lemma agent_stops_pf : forall cs a t, exec (astep next) cs (start b0) = Some a -> In (CancelRequested t) (s_log (a_box a)) -> agent_quiet next a -> astep next Kill a = None -> a_body a = Over.
  Proof.
    intros cs a t E C Q K. destruct (gen_pf cs a E) as [[ds X] G]. pose proof (flag_pf ds _ t X C) as F. destruct (threads_pf ds _ X) as (cons & pos & LI & _).
    assert (T : s_thr (a_box a) 0 = Idle).
    { eapply idle_quiet; [exact LI|]. intros u. specialize (Q (Box (CRun u)) Logic.I). cbn [astep] in Q. destruct (step (CRun u) (a_box a)); [discriminate|reflexivity]. }
    cbn [astep] in K. rewrite F in K. destruct (a_body a) as [b|b|f k|] eqn:SB; [discriminate| | |reflexivity].
    - specialize (Q Go Logic.I). cbn [astep] in Q. rewrite SB, T in Q. cbn [is_idle] in Q. destruct (next b); try discriminate. cbn in Q. rewrite T in Q. discriminate.
    - destruct (s_over (a_box a) f) eqn:OV.
      + specialize (Q Resume Logic.I). cbn [astep] in Q. rewrite SB, OV, T in Q. discriminate.
      + cbn [step] in K. unfold awaited in K. rewrite OV, T in K. specialize (G f k eq_refl). apply Nat.ltb_lt in G. rewrite G in K. discriminate.
  Qed.
  Lemma agent_late_pf : forall cs a l1 t l2, Forall agent_on_loop cs -> exec (astep next) cs (start b0) = Some a -> s_log (a_box a) = l1 ++ CancelRequested t :: l2 ->
    length (messages (rev (a_trace a))) <= S (length (received l2)).
  Proof.
    intros cs a l1 t l2 L E H. destruct (loop_pf next b0 cs a L E) as [[T1 _] I]. destruct (ai_run _ _ _ I) as (ds & F & X). rewrite T1. eapply late_messages_pf; try eassumption. apply I.
  Qed.
  (** Cancelled on the loop's thread. *)
  Lemma agent_loop_pf : forall cs a l1 l2, Forall agent_on_loop cs -> exec (astep next) cs (start b0) = Some a -> s_log (a_box a) = l1 ++ CancelRequested 0 :: l2 ->
    prefix (messages (rev (a_trace a))) (posted l2).
  Proof.
    intros cs a l1 l2 L E H. destruct (loop_pf next b0 cs a L E) as [[T1 _] I]. destruct (ai_run _ _ _ I) as (ds & F & X). rewrite T1.
    destruct (loop_pcinv ds _ F X) as (cons & A & P & C). destruct (P (ai_one _ _ _ I)) as [(k & P1) _]. destruct (C l1 0 l2 H) as (_ & _ & _ & C4). destruct (C4 eq_refl) as [_ C5].
    replace (l1 ++ CancelRequested 0 :: l2) with ((l1 ++ [CancelRequested 0]) ++ l2) in H by (rewrite <- app_assoc; reflexivity).
    destruct (posted_prefix (l1 ++ [CancelRequested 0]) l2) as [j J]. rewrite <- H in J. rewrite (i_queue _ _ (a_inv _ _ A)) in J.
    apply prefix_of in J; [|exact C5]. destruct J as [r J]. exists (k ++ r). rewrite J, P1, app_assoc. reflexivity.
  Qed.
End Agent.
