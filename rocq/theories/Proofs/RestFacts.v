(** Mailboxes and agents come to rest. *)
From Coq Require Import List Bool Arith Lia Wf_nat.
From Verif.Model Require Import Base Thread Aiotools Mailbox Agent.
From Verif.Spec Require Import MailboxSpec AgentSpec RestSpec.
From Verif.Proofs Require Import ThreadFacts MailboxFacts6 AgentFacts AgentFacts2 NetworkFacts.
Import ListNotations.

(** Sums over the first [n] numbers. *)
Fixpoint total (f : nat -> nat) (n : nat) : nat := match n with 0 => 0 | S n => f n + total f n end.
Lemma total_ext : forall f g n, (forall i, i < n -> f i = g i) -> total f n = total g n.
Proof. intros f g n. induction n as [|n IH]; intros H; cbn; [reflexivity|]. rewrite (H n) by lia. rewrite IH; [reflexivity|]. intros i Hi. apply H. lia. Qed.
Lemma total_upd : forall f g n t, t < n -> (forall i, i <> t -> f i = g i) -> total f n + g t = total g n + f t.
Proof.
  intros f g n t. induction n as [|n IH]; intros L H; [lia|]. cbn. destruct (Nat.eq_dec t n) as [->|D].
  - rewrite (total_ext f g n); [lia|]. intros i Hi. apply H. lia.
  - rewrite (H n) by lia. specialize (IH ltac:(lia) H). lia.
Qed.
Lemma total_le : forall f g n, (forall i, i < n -> f i <= g i) -> total f n <= total g n.
Proof. intros f g n. induction n as [|n IH]; intros H; cbn; [lia|]. pose proof (H n ltac:(lia)). assert (total f n <= total g n) by (apply IH; intros; apply H; lia). lia. Qed.
Lemma total_zero : forall n, total (fun _ => 0) n = 0.
Proof. induction n; cbn; auto. Qed.

(** What is left to do in a call. *)
Definition left (p : pc) : nat :=
  match p with
  | Idle => 0 | A_Soon => 11
  | V_Check _ => 12 | V_Cont _ => 11 | V_Cancel _ => 10
  | P_Flag => 9 | P_CRead => 3 | P_CWrite _ => 2 | P_CCall _ => 1
  | P_Check => 8 | P_Acquire => 7 | P_Empty => 6 | P_Get => 5 | P_Read _ => 4 | P_Write _ _ => 3 | P_Call _ _ => 2 | P_Release => 1
  end.
Definition waiting (s : state) (f : nat) : nat := if s_over s f then 0 else 1.
(** Threads from [n] on are idle. *)
Definition within (n : nat) (s : state) : Prop := 0 < n /\ forall t, n <= t -> s_thr s t = Idle.
Definition work (n : nat) (s : state) : nat := total (fun t => left (s_thr s t)) n + 10 * s_ready s + total (waiting s) (s_nfut s).

Lemma goto_left : forall n t p s, t < n -> total (fun u => left (s_thr (goto t p s) u)) n + left (s_thr s t) = total (fun u => left (s_thr s u)) n + left p.
Proof.
  intros n t p s L. pose proof (total_upd (fun u => left (s_thr (goto t p s) u)) (fun u => left (s_thr s u)) n t L) as H. cbn in H. rewrite Nat.eqb_refl in H. apply H.
  intros i D. apply Nat.eqb_neq in D. now rewrite D.
Qed.
(** One more than [left] of the target, for each kind of step. *)
Lemma work_goto : forall n t p s s1, t < n -> s_thr s1 = s_thr (goto t p s) -> s_ready s1 = s_ready s -> s_nfut s1 = s_nfut s -> (forall f, s_over s f = true -> s_over s1 f = true) ->
  left p < left (s_thr s t) -> work n s1 < work n s.
Proof.
  intros n t p s s1 L E1 E2 E3 E4 H. unfold work. rewrite E1, E2, E3. pose proof (goto_left n t p s L) as G.
  assert (total (waiting s1) (s_nfut s) <= total (waiting s) (s_nfut s)).
  { apply total_le. intros f _. unfold waiting. specialize (E4 f). destruct (s_over s f); [rewrite E4 by reflexivity; lia|]. destruct (s_over s1 f); lia. }
  lia.
Qed.
Lemma run_within : forall n t s s1, within n s -> run t s = Some s1 -> t < n.
Proof. intros n t s s1 [_ W] E. destruct (le_lt_dec n t) as [H|H]; [|exact H]. unfold run in E. rewrite (W t H) in E. discriminate. Qed.
Lemma run_goto : forall t s s1, run t s = Some s1 ->
  s_nfut s1 = s_nfut s /\ (forall f, s_over s f = true -> s_over s1 f = true) /\ exists p, s_thr s1 = s_thr (goto t p s) /\
  ((s_ready s1 = s_ready s /\ left p < left (s_thr s t)) \/ (s_thr s t = A_Soon /\ p = Idle /\ s_ready s1 = S (s_ready s))).
Proof.
  intros t s s1 E. unfold run in E. destruct (s_thr s t) as [| |f|f|f| | |c|c| | | | |m|m c|m c|] eqn:T; try discriminate E.
  - injection E as <-. repeat split; auto. exists Idle. split; [reflexivity|]. right. auto.
  - destruct (s_cont s); injection E as <-; (split; [reflexivity|split; [|eexists; split; [reflexivity|left; split; [reflexivity|cbn; lia]]]]); intros g H; cbn; auto. destruct (Nat.eqb g f); auto.
  - injection E as <-. repeat split; auto. eexists; split; [reflexivity|left; split; [reflexivity|cbn; lia]].
  - injection E as <-. repeat split; auto. eexists; split; [reflexivity|left; split; [reflexivity|cbn; lia]].
  - injection E as <-. repeat split; auto. eexists; split; [reflexivity|left; split; [reflexivity|destruct (s_flag s); cbn; lia]].
  - injection E as <-. repeat split; auto. eexists; split; [reflexivity|left; split; [reflexivity|cbn; lia]].
  - injection E as <-. repeat split; auto. eexists; split; [reflexivity|left; split; [reflexivity|cbn; lia]].
  - injection E as <-. destruct c; (repeat split; auto; eexists; split; [reflexivity|left; split; [reflexivity|cbn; lia]]).
  - injection E as <-. repeat split; auto. eexists; split; [reflexivity|left; split; [reflexivity|destruct (s_cont s); cbn; lia]].
  - destruct (acquire _ _); [|discriminate]. injection E as <-. repeat split; auto. eexists; split; [reflexivity|left; split; [reflexivity|cbn; lia]].
  - injection E as <-. repeat split; auto. eexists; split; [reflexivity|left; split; [reflexivity|destruct (s_queue s); cbn; lia]].
  - destruct (s_queue s); [discriminate|]. injection E as <-. repeat split; auto. eexists; split; [reflexivity|left; split; [reflexivity|cbn; lia]].
  - injection E as <-. repeat split; auto. eexists; split; [reflexivity|left; split; [reflexivity|cbn; lia]].
  - injection E as <-. repeat split; auto. eexists; split; [reflexivity|left; split; [reflexivity|cbn; lia]].
  - injection E as <-. destruct c; (repeat split; auto; eexists; split; [reflexivity|left; split; [reflexivity|cbn; lia]]).
  - destruct (release _ _); [|discriminate]. injection E as <-. repeat split; auto. eexists; split; [reflexivity|left; split; [reflexivity|cbn; lia]].
Qed.
Lemma goto_within : forall n t p s s1, within n s -> t < n -> s_thr s1 = s_thr (goto t p s) -> within n s1.
Proof.
  intros n t p s s1 [N W] L E. split; [exact N|]. intros u H. rewrite E. cbn. destruct (Nat.eqb_spec u t); [lia|apply W; exact H].
Qed.
(** A step that goes on leaves less to do. *)
Lemma work_step : forall n c s s1, within n s -> goes_on c -> step c s = Some s1 -> within n s1 /\ work n s1 < work n s.
Proof.
  intros n c s s1 W G E. destruct c as [t m|t m| | |f|f|t|t]; try contradiction; cbn [step] in E.
  - destruct (s_ready s) as [|k] eqn:R; [discriminate|]. destruct (is_idle (s_thr s 0)) eqn:I; [|discriminate]. injection E as <-.
    destruct (s_thr s 0) eqn:T; try discriminate I. destruct W as [N W]. split; [apply (goto_within n 0 P_Flag s); [split; assumption|exact N|reflexivity]|].
    unfold work. cbn [s_ready s_nfut goto set_ready]. rewrite R. pose proof (goto_left n 0 P_Flag s N) as H. rewrite T in H. cbn [left] in H.
    change (total (fun t => left (s_thr (goto 0 P_Flag (set_ready k s)) t)) n) with (total (fun t => left (s_thr (goto 0 P_Flag s) t)) n).
    change (total (waiting (goto 0 P_Flag (set_ready k s))) (s_nfut s)) with (total (waiting s) (s_nfut s)). lia.
  - unfold awaited in E. destruct (Nat.ltb f (s_nfut s)) eqn:L; [|discriminate]. destruct (s_over s f) eqn:V; [discriminate|]. apply Nat.ltb_lt in L. cbn [negb andb] in E.
    assert (Q : s_thr s1 = s_thr s /\ s_ready s1 = s_ready s /\ s_nfut s1 = s_nfut s /\ s_over s1 = fun g => if Nat.eqb g f then true else s_over s g).
    { destruct (is_idle _); [|discriminate]. destruct (s_fut s f); try discriminate; injection E as <-; repeat split. }
    destruct Q as (Q1 & Q2 & Q3 & Q4). split; [destruct W as [N W]; split; [exact N|]; intros t H; rewrite Q1; apply W; exact H|].
    unfold work. rewrite Q1, Q2, Q3.
    assert (H : total (waiting s1) (s_nfut s) + waiting s f = total (waiting s) (s_nfut s) + waiting s1 f).
    { apply total_upd; [exact L|]. intros i D. unfold waiting. rewrite Q4. apply Nat.eqb_neq in D. now rewrite D. }
    assert (waiting s f = 1) by (unfold waiting; now rewrite V). assert (waiting s1 f = 0) by (unfold waiting; now rewrite Q4, Nat.eqb_refl). lia.
  - pose proof (run_within n t s s1 W E) as L. destruct (run_goto t s s1 E) as (Q3 & Q4 & p & Q1 & [[Q2 H]|(T & -> & Q2)]).
    + split; [eapply goto_within; eassumption|eapply work_goto; eassumption].
    + split; [eapply goto_within; eassumption|]. unfold work. rewrite Q1, Q2, Q3. pose proof (goto_left n t Idle s L) as H. rewrite T in H. cbn [left] in H.
      assert (total (waiting s1) (s_nfut s) <= total (waiting s) (s_nfut s)).
      { apply total_le. intros f _. unfold waiting. specialize (Q4 f). destruct (s_over s f); [rewrite Q4 by reflexivity; lia|]. destruct (s_over s1 f); lia. }
      lia.
Qed.
(** A call from outside adds at most 13. *)
Lemma work_call : forall n c s s1, within n s -> ~ goes_on c -> (match c with CPost t _ | CAsk t _ => t < n | _ => True end) -> step c s = Some s1 ->
  within n s1 /\ work n s1 <= work n s + (if called c then 13 else 0).
Proof.
  intros n c s s1 W G B E. destruct c as [t m|t m| | |f|f|t|t]; try (elim G; exact Logic.I); cbn [step] in E; cbn [called].
  - destruct (is_idle (s_thr s t)) eqn:I; [|discriminate]. injection E as <-. destruct (s_thr s t) eqn:T; try discriminate I.
    split; [apply (goto_within n t A_Soon s); auto; reflexivity|]. unfold work. pose proof (goto_left n t A_Soon s B) as H. rewrite T in H. cbn [left] in H.
    change (total (fun u => left (s_thr (goto t A_Soon s) u)) n + 10 * s_ready s + total (waiting s) (s_nfut s) <= total (fun u => left (s_thr s u)) n + 10 * s_ready s + total (waiting s) (s_nfut s) + 13). lia.
  - destruct (is_idle (s_thr s t)) eqn:I; [|discriminate]. injection E as <-. destruct (s_thr s t) eqn:T; try discriminate I.
    split; [apply (goto_within n t P_Flag s); auto; reflexivity|]. unfold work. pose proof (goto_left n t P_Flag s B) as H. rewrite T in H. cbn [left] in H.
    change (total (fun u => left (s_thr (goto t P_Flag s) u)) n + 10 * s_ready s + total (waiting s) (s_nfut s) <= total (fun u => left (s_thr s u)) n + 10 * s_ready s + total (waiting s) (s_nfut s) + 13). lia.
  - destruct (is_idle (s_thr s 0)) eqn:I; [|discriminate]. injection E as <-. destruct (s_thr s 0) eqn:T; try discriminate I. destruct W as [N W].
    split; [apply (goto_within n 0 (V_Check (s_nfut s)) s); [split; assumption|exact N|reflexivity]|]. unfold work. pose proof (goto_left n 0 (V_Check (s_nfut s)) s N) as H. rewrite T in H. cbn [left] in H.
    change (total (fun u => left (s_thr (goto 0 (V_Check (s_nfut s)) s) u)) n + 10 * s_ready s + total (waiting s) (S (s_nfut s)) <= total (fun u => left (s_thr s u)) n + 10 * s_ready s + total (waiting s) (s_nfut s) + 13).
    cbn [total]. assert (waiting s (s_nfut s) <= 1) by (unfold waiting; destruct (s_over s (s_nfut s)); lia). lia.
  - destruct (awaited f s); [|discriminate]. injection E as <-. split; [exact W|]. unfold work.
    change (total (fun u => left (s_thr s u)) n + 10 * s_ready s + total (waiting (finish f s)) (s_nfut s) <= total (fun u => left (s_thr s u)) n + 10 * s_ready s + total (waiting s) (s_nfut s) + 0).
    assert (total (waiting (finish f s)) (s_nfut s) <= total (waiting s) (s_nfut s)). { apply total_le. intros i _. unfold waiting. cbn. destruct (Nat.eqb i f); [lia|]. destruct (s_over s i); lia. } lia.
  - destruct (is_idle (s_thr s t)); [|discriminate]. injection E as <-. split; [exact W|]. rewrite Nat.add_0_r. apply le_n.
Qed.
Lemma within_more : forall n k s, within n s -> n <= k -> within k s.
Proof. intros n k s [N W] H. split; [lia|]. intros t L. apply W. lia. Qed.
Definition bound (c : choice) : nat := match c with CPost t _ | CAsk t _ => S t | _ => 1 end.
Lemma bounded_pf : forall cs s n, Forall (fun c => bound c <= n) cs -> 0 < n -> exec step cs init = Some s ->
  within n s /\ count goes cs + work n s <= 13 * count called cs.
Proof.
  intros cs s n F N E. revert F. apply (exec_ind step (fun cs s => Forall (fun c => bound c <= n) cs -> within n s /\ count goes cs + work n s <= 13 * count called cs) init) with (cs := cs) (s := s); [| |exact E].
  - intros _. split; [split; [exact N|reflexivity]|]. unfold work. cbn. clear. induction n; cbn; auto.
  - intros ds c x y IH S F. apply Forall_app in F. destruct F as [F1 F2]. inversion F2 as [|? ? FB _]; subst. destruct (IH F1) as [W H].
    unfold count in *. rewrite !filter_app, !app_length. cbn [filter]. assert (GO : goes c = true /\ goes_on c \/ goes c = false /\ ~ goes_on c) by (destruct c; cbn; auto). destruct GO as [[-> G]|[-> G]].
    + destruct (work_step n c x y W G S) as [W1 H1]. split; [exact W1|]. assert (called c = false) as -> by (destruct c; try contradiction; reflexivity). cbn. lia.
    + destruct (work_call n c x y W G) as [W1 H1]; [destruct c; cbn in FB; auto; lia|exact S|]. split; [exact W1|]. destruct (called c); cbn in *; lia.
Qed.
Lemma schedule_bound : forall cs, exists n, 0 < n /\ Forall (fun c => bound c <= n) cs.
Proof.
  induction cs as [|c cs (n & N & F)]; [exists 1; split; [lia|constructor]|]. exists (n + bound c). split; [lia|]. constructor; [lia|]. eapply Forall_impl; [|exact F]. cbn. intros; lia.
Qed.
(** Looking for a step that goes on. *)
Lemma search_thread : forall s n, (exists t s1, t < n /\ run t s = Some s1) \/ forall t, t < n -> run t s = None.
Proof.
  intros s n. induction n as [|n [(t & s1 & L & E)|H]]; [right; lia|left; exists t, s1; split; [lia|exact E]|].
  destruct (run n s) as [s1|] eqn:E; [left; exists n, s1; split; [lia|exact E]|]. right. intros t L. destruct (Nat.eq_dec t n) as [->|D]; [exact E|apply H; lia].
Qed.
Lemma search_future : forall s n, (exists f s1, step (CResume f) s = Some s1) \/ forall f, f < n -> step (CResume f) s = None.
Proof.
  intros s n. induction n as [|n [(f & s1 & E)|H]]; [right; lia|left; eauto|].
  destruct (step (CResume n) s) as [s1|] eqn:E; [left; eauto|]. right. intros f L. destruct (Nat.eq_dec f n) as [->|D]; [exact E|apply H; lia].
Qed.
Lemma search : forall n s, within n s -> (exists c s1, goes_on c /\ step c s = Some s1) \/ quiet s.
Proof.
  intros n s W. destruct (search_thread s n) as [(t & s1 & _ & E)|H1]; [left; exists (CRun t), s1; split; [exact Logic.I|exact E]|].
  destruct (step CTurn s) as [s1|] eqn:H2; [left; exists CTurn, s1; split; [exact Logic.I|exact H2]|].
  destruct (search_future s (s_nfut s)) as [(f & s1 & E)|H3]; [left; exists (CResume f), s1; split; [exact Logic.I|exact E]|].
  right. intros c G. destruct c as [t m|t m| | |f|f|t|t]; try contradiction.
  - exact H2.
  - destruct (le_lt_dec (s_nfut s) f) as [L|L]; [|apply H3; exact L]. cbn [step]. unfold awaited. apply Nat.ltb_ge in L. now rewrite L.
  - destruct (le_lt_dec n t) as [L|L]; [|apply H1; exact L]. cbn [step]. unfold run. destruct W as [_ W]. now rewrite (W t L).
Qed.
Lemma rests_pf : forall n s, within n s -> exists ds s1, Forall goes_on ds /\ exec step ds s = Some s1 /\ quiet s1.
Proof.
  intros n s. induction (well_founded_ltof _ (work n) s) as [s _ IH]. intros W. destruct (search n s W) as [(c & s1 & G & E)|Q].
  - destruct (work_step n c s s1 W G E) as [W1 L]. destruct (IH s1 L W1) as (ds & s2 & F & X & Q). exists (c :: ds), s2. split; [constructor; assumption|]. split; [cbn [exec]; now rewrite E|exact Q].
  - exists [], s. split; [constructor|]. split; [reflexivity|exact Q].
Qed.

(** Futures that were not made yet are not known anywhere. *)
Definition refs (p : pc) : option nat :=
  match p with V_Check f | V_Cont f | V_Cancel f => Some f | P_CWrite c | P_CCall c | P_Write _ c | P_Call _ c => c | _ => None end.
Definition old (s : state) (c : option nat) : Prop := match c with Some f => f < s_nfut s | None => True end.
Record fresh (s : state) : Prop := {
  fr_fut : forall f, s_nfut s <= f -> s_fut s f = Pending;
  fr_cont : old s (s_cont s); fr_cancel : old s (s_cancel s); fr_thr : forall t, old s (refs (s_thr s t)) }.
Lemma fresh_init : fresh init.
Proof. constructor; intros; exact Logic.I || reflexivity. Qed.
Lemma fresh_goto : forall t p s s1, fresh s -> s_nfut s1 = s_nfut s -> (forall f, s_nfut s <= f -> s_fut s1 f = s_fut s f) -> old s (s_cont s1) -> old s (s_cancel s1) ->
  s_thr s1 = s_thr (goto t p s) -> old s (refs p) -> fresh s1.
Proof.
  intros t p s s1 F N H1 H2 H3 T R. unfold old in *. constructor; unfold old; rewrite ?N; auto.
  - intros f L. rewrite H1 by exact L. apply (fr_fut _ F). exact L.
  - intros u. rewrite T. cbn. destruct (Nat.eqb u t); [exact R|]. apply (fr_thr _ F).
Qed.
Lemma fresh_step : forall c s s1, fresh s -> step c s = Some s1 -> fresh s1.
Proof.
  intros c s s1 F E. destruct c as [t m|t m| | |f|f|t|t]; cbn [step] in E.
  - destruct (is_idle _); [|discriminate]. injection E as <-. apply (fresh_goto t A_Soon s); auto; try apply F; exact Logic.I || reflexivity.
  - destruct (is_idle _); [|discriminate]. injection E as <-. apply (fresh_goto t P_Flag s); auto; try apply F; exact Logic.I || reflexivity.
  - destruct (is_idle _); [|discriminate]. injection E as <-. destruct F as [F1 F2 F3 F4]. unfold old in *. constructor; cbn.
    + intros f L. apply F1. lia.
    + revert F2. destruct (s_cont s); [cbn; lia|auto].
    + revert F3. destruct (s_cancel s); [cbn; lia|auto].
    + intros u. destruct (Nat.eqb u 0); cbn; [lia|]. specialize (F4 u). revert F4. destruct (refs (s_thr s u)); [cbn; lia|auto].
  - destruct (s_ready s); [discriminate|]. destruct (is_idle _); [|discriminate]. injection E as <-. apply (fresh_goto 0 P_Flag s); auto; try apply F; exact Logic.I || reflexivity.
  - destruct (awaited f s); [|discriminate]. destruct (s_fut s f); try discriminate; injection E as <-; constructor; cbn; apply F.
  - destruct (awaited f s) eqn:A; [|discriminate]. injection E as <-. unfold awaited in A. apply andb_prop in A. destruct A as [A _]. apply andb_prop in A. destruct A as [A _]. apply Nat.ltb_lt in A.
    constructor; cbn; try apply F. intros g L. destruct (Nat.eqb_spec g f); [lia|]. apply F. exact L.
  - destruct (is_idle _); [|discriminate]. injection E as <-. constructor; cbn; apply F.
  - pose proof (fr_thr _ F t) as R. pose proof (fr_cont _ F) as FC. pose proof (fr_cancel _ F) as FX.
    assert (SD : forall c m, old s c -> forall f, s_nfut s <= f -> s_fut (call_done c m s) f = s_fut s f).
    { intros [g|] m H f L; [|reflexivity]. cbn in *. destruct (Nat.eqb_spec f g); [lia|reflexivity]. }
    assert (SX : forall c, old s c -> forall f, s_nfut s <= f -> s_fut (call_cancel c s) f = s_fut s f).
    { intros [g|] H f L; [|reflexivity]. cbn in *. destruct (Nat.eqb_spec f g); [lia|reflexivity]. }
    unfold run in E. destruct (s_thr s t) as [| |f|f|f| | |c|c| | | | |m|m c|m c|] eqn:T; try discriminate E; cbn [refs] in R.
    + injection E as <-. apply (fresh_goto t Idle s); auto; exact Logic.I || reflexivity.
    + destruct (s_cont s) eqn:C; injection E as <-.
      * apply (fresh_goto t Idle s); auto; try (cbn; rewrite C; exact FC); exact Logic.I || reflexivity.
      * apply (fresh_goto t (V_Cont f) s); auto; try (cbn; rewrite C; exact FC); reflexivity.
    + injection E as <-. apply (fresh_goto t (V_Cancel f) s); auto; reflexivity.
    + injection E as <-. apply (fresh_goto t P_Flag s); auto; exact Logic.I || reflexivity.
    + injection E as <-. apply (fresh_goto t (if s_flag s then P_CRead else P_Check) s); auto; destruct (s_flag s); exact Logic.I || reflexivity.
    + injection E as <-. apply (fresh_goto t (P_CWrite (s_cancel s)) s); auto; reflexivity.
    + injection E as <-. apply (fresh_goto t (P_CCall c) s); auto; exact Logic.I || reflexivity.
    + injection E as <-. apply (fresh_goto t Idle s); auto; try exact Logic.I; try (destruct c; reflexivity); try (destruct c; assumption). intros f L. apply (SX c R f L).
    + injection E as <-. apply (fresh_goto t (match s_cont s with None => Idle | Some _ => P_Acquire end) s); auto; try reflexivity; destruct (s_cont s); exact Logic.I || assumption.
    + destruct (acquire _ _); [|discriminate]. injection E as <-. apply (fresh_goto t P_Empty s); auto; exact Logic.I || reflexivity.
    + injection E as <-. apply (fresh_goto t (match s_queue s with [] => P_Release | _ => P_Get end) s); auto; destruct (s_queue s); exact Logic.I || reflexivity.
    + destruct (s_queue s) as [|m q]; [discriminate|]. injection E as <-. apply (fresh_goto t (P_Read m) s); auto; exact Logic.I || reflexivity.
    + injection E as <-. apply (fresh_goto t (P_Write m (s_cont s)) s); auto; reflexivity.
    + injection E as <-. apply (fresh_goto t (P_Call m c) s); auto; exact Logic.I || reflexivity.
    + injection E as <-. apply (fresh_goto t P_Release s); auto; try exact Logic.I; try (destruct c; reflexivity); try (destruct c; assumption). intros f L. apply (SD c m R f L).
    + destruct (release _ _); [|discriminate]. injection E as <-. apply (fresh_goto t Idle s); auto; exact Logic.I || reflexivity.
Qed.

(** Messages that have not been received: in the queue, in the hands of a thread, or in a
    future that nobody has looked at. *)
Definition carries (p : pc) : nat := match p with P_Read _ | P_Write _ _ | P_Call _ _ => 1 | _ => 0 end.
Definition holds (s : state) (f : nat) : nat := if s_over s f then 0 else match s_fut s f with Done _ => 1 | _ => 0 end.
Definition unread (n : nat) (s : state) : nat := length (s_queue s) + total (fun t => carries (s_thr s t)) n + total (holds s) (s_nfut s).
Lemma goto_carries : forall n t p s, t < n -> total (fun u => carries (s_thr (goto t p s) u)) n + carries (s_thr s t) = total (fun u => carries (s_thr s u)) n + carries p.
Proof.
  intros n t p s L. pose proof (total_upd (fun u => carries (s_thr (goto t p s) u)) (fun u => carries (s_thr s u)) n t L) as H. cbn in H. rewrite Nat.eqb_refl in H. apply H.
  intros i D. apply Nat.eqb_neq in D. now rewrite D.
Qed.
Lemma unread_goto : forall n t p s s1, t < n -> s_thr s1 = s_thr (goto t p s) -> s_nfut s1 = s_nfut s ->
  length (s_queue s1) + carries p + total (holds s1) (s_nfut s) <= length (s_queue s) + carries (s_thr s t) + total (holds s) (s_nfut s) -> unread n s1 <= unread n s.
Proof. intros n t p s s1 L E1 E2 H. unfold unread. rewrite E1, E2. pose proof (goto_carries n t p s L). lia. Qed.
Lemma holds_same : forall s s1 n, s_over s1 = s_over s -> s_fut s1 = s_fut s -> total (holds s1) n = total (holds s) n.
Proof. intros s s1 n E1 E2. apply total_ext. intros i _. unfold holds. now rewrite E1, E2. Qed.
Lemma unread_run : forall n t s s1, within n s -> run t s = Some s1 -> unread n s1 <= unread n s.
Proof.
  intros n t s s1 W E. pose proof (run_within n t s s1 W E) as L. unfold run in E.
  destruct (s_thr s t) as [| |f|f|f| | |c|c| | | | |m|m c|m c|] eqn:T; try discriminate E.
  - injection E as <-. apply (unread_goto n t Idle s); auto. rewrite T. cbn. apply Nat.add_le_mono_l. apply Nat.eq_le_incl. apply holds_same; reflexivity.
  - destruct (s_cont s) eqn:C; injection E as <-.
    + apply (unread_goto n t Idle s); auto. rewrite T. cbn. apply Nat.add_le_mono_l. apply total_le. intros i _. unfold holds. cbn. destruct (Nat.eqb i f); lia.
    + apply (unread_goto n t (V_Cont f) s); auto. rewrite T. apply le_n.
  - injection E as <-. apply (unread_goto n t (V_Cancel f) s); auto. rewrite T. apply le_n.
  - injection E as <-. apply (unread_goto n t P_Flag s); auto. rewrite T. apply le_n.
  - injection E as <-. apply (unread_goto n t (if s_flag s then P_CRead else P_Check) s); auto. rewrite T. destruct (s_flag s); apply le_n.
  - injection E as <-. apply (unread_goto n t (P_CWrite (s_cancel s)) s); auto. rewrite T. apply le_n.
  - injection E as <-. apply (unread_goto n t (P_CCall c) s); auto. rewrite T. apply le_n.
  - injection E as <-. apply (unread_goto n t Idle s); [exact L|destruct c; reflexivity|destruct c; reflexivity|]. rewrite T. destruct c as [f|]; [|apply le_n]. cbn. apply Nat.add_le_mono_l.
    apply total_le. intros i _. unfold holds. cbn. destruct (Nat.eqb_spec i f) as [->|D]; [|lia]. unfold k_cancel. destruct (s_fut s f); cbn; destruct (s_over s f); lia.
  - injection E as <-. apply (unread_goto n t (match s_cont s with None => Idle | Some _ => P_Acquire end) s); auto. rewrite T. destruct (s_cont s); apply le_n.
  - destruct (acquire _ _); [|discriminate]. injection E as <-. apply (unread_goto n t P_Empty s); auto. rewrite T. apply le_n.
  - injection E as <-. apply (unread_goto n t (match s_queue s with [] => P_Release | _ => P_Get end) s); auto. rewrite T. destruct (s_queue s) eqn:Q; cbn; rewrite Q; apply le_n.
  - destruct (s_queue s) as [|m q] eqn:Q; [discriminate|]. injection E as <-. apply (unread_goto n t (P_Read m) s); auto. rewrite T, Q. cbn. rewrite (holds_same s) by reflexivity. lia.
  - injection E as <-. apply (unread_goto n t (P_Write m (s_cont s)) s); auto. rewrite T. apply le_n.
  - injection E as <-. apply (unread_goto n t (P_Call m c) s); auto. rewrite T. apply le_n.
  - injection E as <-. apply (unread_goto n t P_Release s); [exact L|destruct c; reflexivity|destruct c; reflexivity|]. rewrite T. destruct c as [f|]; [|change (length (s_queue s) + 0 + total (holds s) (s_nfut s) <= length (s_queue s) + 1 + total (holds s) (s_nfut s)); lia]. cbn [carries s_queue goto call_done settle].
    assert (H : total (holds (goto t P_Release (settle f (snd (k_done m (s_fut s f))) s))) (s_nfut s) <= 1 + total (holds s) (s_nfut s)).
    { destruct (le_lt_dec (s_nfut s) f) as [G|G].
      - apply Nat.le_trans with (total (holds s) (s_nfut s)); [|lia]. apply total_le. intros i Hi. unfold holds. cbn. destruct (Nat.eqb_spec i f); [lia|apply le_n].
      - pose proof (total_upd (holds (goto t P_Release (settle f (snd (k_done m (s_fut s f))) s))) (holds s) (s_nfut s) f G) as H.
        assert (holds (goto t P_Release (settle f (snd (k_done m (s_fut s f))) s)) f <= 1 + holds s f).
        { unfold holds. cbn. rewrite Nat.eqb_refl. destruct (s_over s f); [lia|]. unfold k_done. destruct (s_fut s f); cbn; lia. }
        assert (forall i, i <> f -> holds (goto t P_Release (settle f (snd (k_done m (s_fut s f))) s)) i = holds s i).
        { intros i D. unfold holds. cbn. apply Nat.eqb_neq in D. now rewrite D. }
        specialize (H H1). lia. }
    change (length (s_queue s) + 0 + total (holds (goto t P_Release (settle f (snd (k_done m (s_fut s f))) s))) (s_nfut s) <= length (s_queue s) + 1 + total (holds s) (s_nfut s)). lia.
  - destruct (release _ _); [|discriminate]. injection E as <-. apply (unread_goto n t Idle s); auto. rewrite T. apply le_n.
Qed.
Lemma unread_turn : forall n s s1, within n s -> step CTurn s = Some s1 -> unread n s1 <= unread n s.
Proof.
  intros n s s1 [N W] E. cbn [step] in E. destruct (s_ready s); [discriminate|]. destruct (is_idle (s_thr s 0)) eqn:I; [|discriminate]. injection E as <-.
  apply (unread_goto n 0 P_Flag s); auto. cbn. apply Nat.add_le_mono_r. lia.
Qed.
Lemma unread_resume : forall n s s1 f, step (CResume f) s = Some s1 ->
  unread n s1 + (match s_fut s f with Done _ => 1 | _ => 0 end) <= unread n s.
Proof.
  intros n s s1 f E. cbn [step] in E. destruct (awaited f s) eqn:A; [|discriminate]. unfold awaited in A. apply andb_prop in A. destruct A as [A _]. apply andb_prop in A. destruct A as [A V].
  apply Nat.ltb_lt in A. apply negb_true_iff in V.
  assert (Q : s_queue s1 = s_queue s /\ s_thr s1 = s_thr s /\ s_nfut s1 = s_nfut s /\ s_fut s1 = s_fut s /\ s_over s1 = fun g => if Nat.eqb g f then true else s_over s g).
  { destruct (s_fut s f); try discriminate; injection E as <-; repeat split. }
  destruct Q as (Q1 & Q2 & Q3 & Q4 & Q5). unfold unread. rewrite Q1, Q2, Q3.
  assert (H : total (holds s1) (s_nfut s) + holds s f = total (holds s) (s_nfut s) + holds s1 f).
  { apply total_upd; [exact A|]. intros i D. unfold holds. rewrite Q5, Q4. apply Nat.eqb_neq in D. now rewrite D. }
  unfold holds in H at 2 4. rewrite Q5, V, Nat.eqb_refl in H. lia.
Qed.
Lemma unread_receive : forall n s s1, within n s -> fresh s -> step CReceive s = Some s1 -> unread n s1 <= unread n s.
Proof.
  intros n s s1 [N W] F E. cbn [step] in E. destruct (is_idle (s_thr s 0)) eqn:I; [|discriminate]. injection E as <-.
  unfold unread. pose proof (goto_carries n 0 (V_Check (s_nfut s)) s N) as H. cbn [carries] in H.
  change (length (s_queue s) + total (fun u => carries (s_thr (goto 0 (V_Check (s_nfut s)) s) u)) n + total (holds s) (S (s_nfut s)) <=
          length (s_queue s) + total (fun t => carries (s_thr s t)) n + total (holds s) (s_nfut s)).
  cbn [total]. assert (holds s (s_nfut s) = 0). { unfold holds. rewrite (fr_fut _ F _ (le_n _)). now destruct (s_over s (s_nfut s)). } lia.
Qed.

Section Agent.
  Context {B O : Type} (next : B -> act B O).
  Definition stands (a : agent B O) : nat := match a_body a with Starts _ | Ready _ => 2 | Waits _ _ => 1 | Over => 0 end.
  Definition ahead (n : nat) (a : agent B O) : nat := 2 * unread n (a_box a) + stands a.
  Definition tidy (n : nat) (a : agent B O) : Prop := within n (a_box a) /\ fresh (a_box a).
  Definition body_state (a : agent B O) : option B := match a_body a with Starts b | Ready b => Some b | _ => None end.

  (** Each step gets on: with the messages, or with the body, or with a call. *)
  Lemma gets_on : forall n c a a1, tidy n a -> agent_goes_on c -> astep next c a = Some a1 -> tidy n a1 /\
    (ahead n a1 < ahead n a \/
     (ahead n a1 <= ahead n a /\ ((exists b o b1, body_state a = Some b /\ next b = Do o b1 /\ body_state a1 = Some b1) \/
                                  (a_body a1 = a_body a /\ work n (a_box a1) < work n (a_box a))))).
  Proof.
    intros n c a a1 [W F] G E. destruct c as [c| | |]; try contradiction; cbn [astep] in E.
    - assert (S : exists s, step c (a_box a) = Some s /\ a1 = Agent s (a_body a) (a_trace a) /\ match c with CResume _ => False | _ => True end).
      { destruct (step c (a_box a)) as [s|] eqn:S; [exists s; split; [reflexivity|]|]; destruct c; try discriminate E; rewrite ?S in E; cbn in E; try discriminate E; injection E as <-; auto. }
      destruct S as (s & S & -> & NR). destruct (work_step n c _ s W G S) as [W1 L]. split; [split; [exact W1|eapply fresh_step; eassumption]|]. right.
      assert (U : unread n s <= unread n (a_box a)) by (destruct c; try contradiction; [eapply unread_turn|eapply unread_run]; eassumption).
      unfold ahead, stands. cbn. split; [lia|right; auto].
    - assert (Y : forall b, body_state a = Some b -> (if is_idle (s_thr (a_box a) 0) then match next b with
              | Receive k => option_map (fun s => Agent s (Waits (s_nfut (a_box a)) k) (a_trace a)) (step CReceive (a_box a))
              | Do o b => Some (Agent (a_box a) (Ready b) (Did o :: a_trace a))
              | Returns | Raises => Some (Agent (a_box a) Over (a_trace a)) end else None) = Some a1).
      { intros b H. unfold body_state in H. destruct (a_body a); try discriminate H; injection H as ->; exact E. }
      assert (Z : exists b, body_state a = Some b /\ stands a = 2) by (unfold body_state, stands; destruct (a_body a); try discriminate E; eauto).
      destruct Z as (b & Z & ST). specialize (Y b Z). clear E. destruct (is_idle _); [|discriminate]. destruct (next b) as [k|o b1| |] eqn:N.
      + destruct (step CReceive (a_box a)) as [s|] eqn:S; [|discriminate]. injection Y as <-. pose proof (unread_receive n _ s W F S) as U.
        assert (W1 : within n s). { destruct (work_call n CReceive (a_box a) s W (fun x => x) Logic.I S) as [X _]. exact X. }
        split; [split; [exact W1|eapply fresh_step; eassumption]|]. left. unfold ahead. rewrite ST. cbn. lia.
      + injection Y as <-. split; [split; assumption|]. right. unfold ahead. rewrite ST. cbn. split; [apply le_n|]. left. exists b, o, b1. auto.
      + injection Y as <-. split; [split; assumption|]. left. unfold ahead. rewrite ST. cbn. lia.
      + injection Y as <-. split; [split; assumption|]. left. unfold ahead. rewrite ST. cbn. lia.
    - destruct (a_body a) as [b|b|f k|] eqn:SB; try discriminate. assert (ST : stands a = 1) by (unfold stands; now rewrite SB). destruct (s_over (a_box a) f).
      + destruct (is_idle _); [|discriminate]. injection E as <-. split; [split; assumption|]. left. unfold ahead. rewrite ST. cbn. lia.
      + destruct (step (CResume f) (a_box a)) as [s|] eqn:S; [|discriminate]. injection E as <-. destruct (work_step n (CResume f) _ s W Logic.I S) as [W1 _].
        pose proof (unread_resume n _ s f S) as U. pose proof (fresh_step _ _ _ F S) as F1.
        destruct (s_fut (a_box a) f) as [|m|e|]; (split; [split; cbn; assumption|]); left; unfold ahead; rewrite ST; cbn in *; lia.
  Qed.
  Lemma agent_rests_pf : prompt next -> forall n a, tidy n a -> comes_to_rest (astep next) agent_goes_on a.
  Proof.
    intros PR n. assert (G : forall p a, ahead n a <= p -> tidy n a -> comes_to_rest (astep next) agent_goes_on a).
    { intros p. induction (lt_wf p) as [p _ IHp].
      assert (X : forall (ob : option B), Acc (fun x y => exists b o b1, y = Some b /\ next b = Do o b1 /\ x = Some b1) ob).
      { assert (X1 : forall b, Acc (fun x y => exists b o b1, y = Some b /\ next b = Do o b1 /\ x = Some b1) (Some b)).
        { intros b. induction (PR b) as [b _ IH]. constructor. intros y (b1 & o & b2 & E1 & E2 & ->). injection E1 as <-. apply IH. eauto. }
        intros [b|]; [apply X1|]. constructor. intros y (b1 & o & b2 & E1 & _). discriminate. }
      intros a. assert (Y : forall ob, body_state a = ob -> ahead n a <= p -> tidy n a -> comes_to_rest (astep next) agent_goes_on a); [|intros; eapply Y; eauto].
      intros ob. revert a. induction (X ob) as [ob _ IHb].
      intros a. induction (well_founded_ltof _ (fun a => work n (a_box a)) a) as [a _ IHw]. intros EB LE T. constructor. intros a1 (c & GO & E).
      destruct (gets_on n c a a1 T GO E) as [T1 [L|[L [(b & o & b1 & E1 & E2 & E3)|[E1 E2]]]]].
      - apply (IHp (ahead n a1)); [lia|apply le_n|exact T1].
      - apply (IHb (Some b1)); [|exact E3|lia|exact T1]. exists b, o, b1. rewrite <- EB, E1. auto.
      - apply IHw; [exact E2| |lia|exact T1]. rewrite <- EB. unfold body_state. now rewrite E1. }
    intros a T. exact (G _ a (le_n _) T).
  Qed.
  Lemma tidy_pf : forall b0 cs a, exec (astep next) cs (start b0) = Some a -> exists n, tidy n a.
  Proof.
    intros b0 cs a E. destruct (gen_pf next b0 cs a E) as [[ds X] _]. destruct (schedule_bound ds) as (n & N & F). exists n. split; [exact (proj1 (bounded_pf ds _ n F N X))|].
    revert X. apply (exec_ind step (fun _ s => fresh s)); [apply fresh_init|]. intros. eapply fresh_step; eassumption.
  Qed.
  Lemma agent_search : forall n a, within n (a_box a) -> (exists c a1, agent_goes_on c /\ astep next c a = Some a1) \/ agent_quiet next a.
  Proof.
    intros n a W. destruct (astep next Go a) as [a1|] eqn:G; [left; exists Go, a1; split; [exact Logic.I|exact G]|].
    destruct (astep next Resume a) as [a1|] eqn:R; [left; exists Resume, a1; split; [exact Logic.I|exact R]|].
    destruct (step CTurn (a_box a)) as [s|] eqn:T; [left; exists (Box CTurn); eexists; split; [exact Logic.I|cbn [astep]; rewrite T; reflexivity]|].
    destruct (search_thread (a_box a) n) as [(t & s & _ & E)|H]; [left; exists (Box (CRun t)); eexists; split; [exact Logic.I|cbn [astep step]; rewrite E; reflexivity]|].
    right. intros c GO. destruct c as [c| | |]; try contradiction; try assumption. destruct c as [t m|t m| | |f|f|t|t]; try contradiction; cbn [astep].
    - rewrite T. reflexivity.
    - reflexivity.
    - cbn [step]. destruct (le_lt_dec n t) as [L|L]; [|rewrite (H t L); reflexivity]. unfold run. destruct W as [_ W]. now rewrite (W t L).
  Qed.
  Lemma agent_end_pf : prompt next -> forall n a, tidy n a -> exists ds a1, Forall agent_goes_on ds /\ exec (astep next) ds a = Some a1 /\ agent_quiet next a1.
  Proof.
    intros PR n a T. pose proof (agent_rests_pf PR n a T) as A. induction A as [a _ IH]. destruct (agent_search n a (proj1 T)) as [(c & a1 & G & E)|Q].
    - destruct (gets_on n c a a1 T G E) as [T1 _]. destruct (IH a1 (ex_intro _ c (conj G E)) T1) as (ds & a2 & F & X & Q). exists (c :: ds), a2. split; [constructor; assumption|].
      split; [cbn [exec]; now rewrite E|exact Q].
    - exists [], a. split; [constructor|]. split; [reflexivity|exact Q].
  Qed.
End Agent.
