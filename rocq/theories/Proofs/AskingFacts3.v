(** Agents that ask one another: all executions, and rest. *)
From Coq Require Import List Bool Arith Lia Cantor.
From Verif.Model Require Import Base Thread Aiotools Mailbox Agent Reply Request Asking.
From Verif.Spec Require Import MailboxSpec AgentSpec AiotoolsSpec AskingSpec.
From Verif.Proofs Require Import ThreadFacts MailboxFacts MailboxFacts2 MailboxFacts3 MailboxFacts6 MailboxFacts7 AgentFacts NetworkFacts ReplyFacts RequestFacts RestFacts3 RestFacts4 AskingFacts AskingFacts2.
Import ListNotations.

Section Asking.
  Context {B O : Type} (next : nat -> B -> act B (deed O)) (give : nat -> B -> reply_value -> B) (b0 : nat -> option B) (last : nat)
    (good : nat -> nat -> reply_value -> Prop) (owing : nat -> B -> option (nat * nat) -> Prop) (OB : obliging next give b0 last good owing).
  Implicit Types w : web B O.
  Notation winv := (winv give last good owing).
  Notation winv_ex := (winv_ex give last good owing).
  Notation accounts := (accounts give last good owing).
  Notation stands := (stands give last good owing).

  Lemma alone_inv : forall i c w w1, alone next i c w = Some w1 -> exists a1, astep (next i) c (w_agents w i) = Some a1 /\ w1 = set_agent i a1 w.
  Proof. intros i c w w1 E. unfold alone in E. destruct (astep (next i) c (w_agents w i)) as [a1|]; [|discriminate]. injection E as <-. eauto. Qed.
  Lemma ask_inv : forall j p waits w w1, ask next j p waits w = Some w1 -> exists a1, astep (next j) (Box (CAsk 0 (letter p (w_count w)))) (w_agents w j) = Some a1 /\ w1 = new_request j p a1 waits w.
  Proof. intros j p waits w w1 E. unfold ask in E. destruct (astep _ _ _) as [a1|]; [|discriminate]. injection E as <-. eauto. Qed.
  Lemma request_inv : forall r c w w1, request r c w = Some w1 -> exists q, rstep c (w_reqs w r) = Some q /\ w1 = set_req r q w.
  Proof. intros r c w w1 E. unfold request in E. destruct (rstep c (w_reqs w r)) as [q|]; [|discriminate]. injection E as <-. eauto. Qed.
  (** A step of the mailbox only. *)
  Lemma winv_box : forall w i c a1, winv w -> astep (next i) (Box c) (w_agents w i) = Some a1 -> (forall t, c <> CCancelToken t) -> (forall t m, c <> CAsk t m) ->
    (forall t m, c = CPost t m -> exists p, m = letter p 0) -> winv (set_agent i a1 w).
  Proof.
    intros w i c a1 I E N1 N2 N3. destruct (astep_box _ _ _ _ _ _ E) as (s & S & -> & _). eapply winv_agent; [exact I|exact E| |discriminate|intros t H; injection H; apply N1| |intros L; cbn; apply (wi_none _ _ _ _ _ _ I), L|discriminate|].
    - cbn. destruct c; try exact Logic.I. destruct (N2 t m eq_refl).
    - intros m H. cbn in H. destruct c as [t x|t x| | | | | |]; try destruct H; [subst; apply (N3 t m eq_refl)|contradiction|destruct (N2 t x eq_refl)|contradiction].
    - intros Li _ _ _ (o & A1 & A2 & A3) _. exists o. split; [unfold AskingFacts2.stands in *; cbn; unfold update; rewrite Nat.eqb_refl; exact A1|]. split; [exact A2|].
      intros p r H. cbn in H. unfold update in H. rewrite Nat.eqb_refl in H. exact (A3 p r H).
  Qed.
  Lemma winv_wstep : forall c w w1, winv w -> wstep next give c w = Some w1 -> winv w1.
  Proof.
    intros c w w1 I E. destruct c as [i c|i t p|i p|i|i|r|r|i]; cbn [wstep] in E.
    - assert (X : alone next i (Box c) w = Some w1) by (destruct c; try discriminate; exact E).
      destruct (alone_inv _ _ _ _ X) as (a1 & S & ->). eapply winv_box; [exact I|exact S|intros t H|intros t m H|intros t m H]; subst; discriminate.
    - destruct (alone_inv _ _ _ _ E) as (a1 & S & ->). eapply winv_box; [exact I|exact S| | |]; try discriminate. intros u m H. injection H as _ <-. eauto.
    - destruct (ask_inv _ _ _ _ _ E) as (a1 & S & ->). eapply winv_ask; [exact I|exact S|intros j Lj; apply (wi_none _ _ _ _ _ _ I), Lj|auto|lia].
    - destruct (w_wait w i) eqn:W; [discriminate|]. destruct (alone next i Go w) as [w2|] eqn:A; [|discriminate]. destruct (alone_inv _ _ _ _ A) as (a1 & S & ->). clear A.
      assert (Li : i <= last).
      { destruct (le_lt_dec i last) as [H|H]; [exact H|]. cbn [astep] in S. rewrite (proj1 (wi_none _ _ _ _ _ _ I i H)) in S. discriminate. }
      assert (SB : exists b, a_body (w_agents w i) = Starts b \/ a_body (w_agents w i) = Ready b) by (cbn [astep] in S; destruct (a_body (w_agents w i)) as [b|b|f k|]; try discriminate; eauto).
      destruct SB as (b & SB). assert (DO : deed_of next i (w_agents w i) = match next i b with Do o _ => Some o | _ => None end) by (unfold deed_of; destruct SB as [SB|SB]; rewrite SB; reflexivity).
      assert (ID : is_idle (s_thr (a_box (w_agents w i)) 0) = true) by (cbn [astep] in S; destruct SB as [SB|SB]; rewrite SB in S; destruct (is_idle _); try discriminate; reflexivity).
      assert (S' : match next i b with
              | Receive k => Some (Agent (goto 0 (V_Check (s_nfut (a_box (w_agents w i)))) (set_nfut (Datatypes.S (s_nfut (a_box (w_agents w i)))) (a_box (w_agents w i)))) (Waits (s_nfut (a_box (w_agents w i))) k) (a_trace (w_agents w i)))
              | Do o b => Some (Agent (a_box (w_agents w i)) (Ready b) (Did o :: a_trace (w_agents w i)))
              | Returns | Raises => Some (Agent (a_box (w_agents w i)) Over (a_trace (w_agents w i)))
              end = Some a1).
      { cbn [astep step] in S. destruct SB as [SB|SB]; rewrite SB, ID in S; destruct (next i b); exact S. }
      assert (Ni : i <> Datatypes.S last) by lia.
      assert (OWE : forall o, stands w i o -> owing i b o) by (intros o H; unfold AskingFacts2.stands in H; rewrite W in H; destruct SB as [SB|SB]; rewrite SB in H; exact H).
      assert (ON : next i b <> Returns /\ next i b <> Raises).
      { destruct (wi_owing _ _ _ _ _ _ I i Li Ni) as (o & A1 & _). exact (ob_on _ _ _ _ _ _ OB i b o (OWE o A1)). }
      assert (GO : forall ex, (i <> ex -> accounts w i -> accounts (set_agent i a1 w) i) -> winv_ex ex (set_agent i a1 w)).
      { intros ex AC. eapply winv_agent with (c := Go); [exact I|exact S|exact Logic.I|discriminate|discriminate|intros m []|lia| |].
        - intros _ b2 _ SB2. assert (b2 = b) by (destruct SB, SB2; congruence). subst. exact ON.
        - intros _ _ _ _ A X. exact (AC X A). }
      rewrite DO in E. destruct (next i b) as [k|[j p|r v|x] b1| |] eqn:N; try (destruct ON; congruence).
      + injection E as <-. injection S' as <-. apply GO. intros _ (o & A1 & A2 & A3). destruct (ob_receive _ _ _ _ _ _ OB _ _ _ _ (OWE o A1) N) as [-> R].
        exists None. split; [unfold AskingFacts2.stands; cbn; unfold update; rewrite Nat.eqb_refl, W; cbn; auto|]. split; [discriminate|]. intros p r H. cbn in H. unfold update in H. rewrite Nat.eqb_refl in H. exact (A3 p r H).
      + pose proof (GO i (fun X => False_ind _ (X eq_refl))) as I1. destruct (ask_inv _ _ _ _ _ E) as (a2 & S2 & ->). injection S' as <-.
        destruct (wi_owing _ _ _ _ _ _ I i Li Ni) as (o & A1 & A2 & A3). destruct (ob_ask _ _ _ _ _ _ OB _ _ _ _ _ _ (OWE o A1) N) as [[J1 J2] J3]. assert (D : Nat.eqb i j = false) by (apply Nat.eqb_neq; lia).
        pose proof (wi_count _ _ _ _ _ _ I) as CO.
        eapply winv_ask; [exact I1|exact S2| | |].
        * intros h Lh. unfold update. replace (Nat.eqb h i) with false by (symmetry; apply Nat.eqb_neq; lia). apply (wi_none _ _ _ _ _ _ I), Lh.
        * intros h _ Xh. unfold update. apply Nat.eqb_neq in Xh. rewrite Xh. reflexivity.
        * intros _. exists o. split; [|split].
          -- unfold AskingFacts2.stands. cbn. unfold update. rewrite D, !Nat.eqb_refl. cbn. split; [lia|]. split; [lia|exact J3].
          -- intros q r H. eapply known_more; [exact (A2 q r H)|cbn; lia|]. intros h Hh. cbn. unfold update. replace (Nat.eqb h (w_count w)) with false by (symmetry; apply Nat.eqb_neq; lia). auto.
          -- intros q r H. cbn in H. unfold update in H. rewrite D, Nat.eqb_refl in H. destruct H as [H|H]; [discriminate|]. exact (A3 q r H).
      + destruct (request_inv _ _ _ _ E) as (q & Q & ->). injection S' as <-. cbn in Q. eapply winv_answer; eassumption.
      + injection E as <-. injection S' as <-. apply GO. intros _ (o & A1 & A2 & A3). exists o. split; [unfold AskingFacts2.stands; cbn; unfold update; rewrite Nat.eqb_refl, W; cbn; exact (ob_else _ _ _ _ _ _ OB _ _ _ _ _ (OWE o A1) N)|].
        split; [exact A2|]. intros p r H. cbn in H. unfold update in H. rewrite Nat.eqb_refl in H. destruct H as [H|H]; [discriminate|exact (A3 p r H)].
    - destruct (alone_inv _ _ _ _ E) as (a1 & S & ->).
      assert (Li : i <= last).
      { destruct (le_lt_dec i last) as [H|H]; [exact H|]. cbn [astep] in S. rewrite (proj1 (wi_none _ _ _ _ _ _ I i H)) in S. discriminate. }
      eapply winv_agent with (c := Resume); [exact I|exact S|exact Logic.I|discriminate|discriminate|intros m []|lia|discriminate|].
      intros _ SH C K (o & A1 & A2 & A3) _. pose proof (shadow_not_over _ _ _ SH C) as NO. cbn [astep] in S. destruct (a_body (w_agents w i)) as [b|b|f k|] eqn:SB; try discriminate.
      unfold AskingFacts2.stands in A1. rewrite SB in A1. destruct (w_wait w i) eqn:W; [destruct A1|]. destruct A1 as [-> A1].
      destruct (s_over (a_box (w_agents w i)) f); [destruct (is_idle _); [|discriminate]; injection S as <-; destruct (NO eq_refl)|].
      destruct (step (CResume f) (a_box (w_agents w i))) as [s|]; [|discriminate]. injection S as <-. destruct (s_fut (a_box (w_agents w i)) f) as [|m| |]; try (destruct (NO eq_refl)).
      destruct (letter_all m) as (p & r & ->). exists (Some (p, r)). split; [unfold AskingFacts2.stands; cbn; unfold update; rewrite Nat.eqb_refl, W; cbn; apply A1|]. split.
      + intros q x H. injection H as <- <-. apply K. eapply shadow_got; [exact SH|]. left. reflexivity.
      + intros q x H R. cbn in H. unfold update in H. rewrite Nat.eqb_refl in H. destruct H as [H|H]; [|destruct (A3 q x H R) as [A|A]; [left; exact A|discriminate]].
        right. injection H as H. apply letter_inj in H. destruct H as [-> ->]. reflexivity.
    - destruct (Nat.ltb 0 r && Nat.ltb r (w_count w) && is_idle _); [|discriminate]. destruct (request_inv _ _ _ _ E) as (q & Q & ->). eapply winv_request; [exact I|exact Q|reflexivity|exact Logic.I].
    - destruct (request_inv _ _ _ _ E) as (q & Q & ->). eapply winv_request; [exact I|exact Q|reflexivity|exact Logic.I].
    - destruct (w_wait w i) as [r|] eqn:W; [|discriminate]. destruct (a_body (w_agents w i)) as [b|b|f k|] eqn:SB; try discriminate. destruct (r_fut (w_reqs w r)) as [|v| |] eqn:F; try discriminate. injection E as <-.
      assert (Li : i <= last). { destruct (le_lt_dec i last) as [H|H]; [exact H|]. rewrite (proj2 (wi_none _ _ _ _ _ _ I i H)) in W. discriminate. }
      assert (Ni : i <> Datatypes.S last) by lia.
      destruct (wi_owing _ _ _ _ _ _ I i Li Ni) as (o & A1 & A2 & A3). unfold AskingFacts2.stands in A1. rewrite SB, W in A1. destruct A1 as (R1 & R2 & R3).
      destruct (wi_reqs _ _ _ _ _ _ I r) as (ds & X). destruct (value_pf ds _ v X) as [t V]; [rewrite F; constructor|]. destruct (wi_good _ _ _ _ _ _ I r t v) as (_ & G & _); [lia|exact V|].
      constructor; cbn; try apply I.
      + intros j Lj. unfold update. destruct (Nat.eqb_spec j i) as [->|]; [|apply (wi_shadow _ _ _ _ _ _ I), Lj]. apply shadow_ready; [apply (wi_shadow _ _ _ _ _ _ I), Li|eauto].
      + intros j Lj. unfold update. replace (Nat.eqb j i) with false by (symmetry; apply Nat.eqb_neq; lia). apply (wi_none _ _ _ _ _ _ I), Lj.
      + intros j. unfold update. destruct (Nat.eqb_spec j i) as [->|]; apply (wi_calm _ _ _ _ _ _ I).
      + intros j q x. unfold update. destruct (Nat.eqb_spec j i) as [->|]; apply (wi_posted _ _ _ _ _ _ I).
      + intros x Hx. pose proof (wi_asked _ _ _ _ _ _ I x Hx) as Y. unfold update. destruct (Nat.eqb_spec (w_to w x) i) as [D|]; [rewrite D in Y|]; exact Y.
      + intros j Lj Nj. destruct (Nat.eq_dec j i) as [->|D].
        * exists o. split; [unfold AskingFacts2.stands; cbn; unfold update; rewrite !Nat.eqb_refl; cbn; exact (R3 v G)|]. split; [exact A2|]. intros q x H. cbn in H. unfold update in H. rewrite Nat.eqb_refl in H. exact (A3 q x H).
        * destruct (wi_owing _ _ _ _ _ _ I j Lj Nj) as (o1 & G1 & G2 & G3). apply Nat.eqb_neq in D. exists o1. split; [unfold AskingFacts2.stands in *; cbn; unfold update; rewrite D; exact G1|]. split; [exact G2|].
          intros q x H. cbn in H. unfold update in H. rewrite D in H. exact (G3 q x H).
  Qed.
  Lemma winv_pf : forall cs w, exec (wstep next give) cs (web_start b0) = Some w -> winv w.
  Proof. apply (exec_ind (wstep next give) (fun _ w => winv w)); [apply (winv_start next); exact OB|]. intros _ c w w1 I E. eapply winv_wstep; eassumption. Qed.

  (** At rest. *)
  Lemma box_idle : forall w i, winv w -> web_quiet next give w -> i <= last -> s_thr (a_box (w_agents w i)) 0 = Idle.
  Proof.
    intros w i I Q Li. destruct (wi_shadow _ _ _ _ _ _ I i Li) as (s & sh & H1 & _ & _ & _ & IA). destruct (ai_run _ _ _ IA) as (ds & _ & X). rewrite H1 in X. pose proof (locked_pf ds _ X) as LK.
    assert (NR : forall t, step (CRun t) (a_box (w_agents w i)) = None).
    { intros t. specialize (Q (WBox i (CRun t)) Logic.I). cbn [wstep] in Q. unfold alone in Q. cbn [astep] in Q. destruct (step (CRun t) (a_box (w_agents w i))); [discriminate|reflexivity]. }
    destruct (is_idle (s_thr (a_box (w_agents w i)) 0)) eqn:ID; [apply idle, ID|]. exfalso. destruct (not_stuck _ 0 LK) as [[s1 S]|(_ & u & s1 & _ & _ & S)]; [intros Y; rewrite Y in ID; discriminate| |]; rewrite NR in S; discriminate.
  Qed.
  Lemma request_rest : forall w r, winv w -> web_quiet next give w -> 0 < r < w_count w -> w_to w r <= last -> answered w r ->
    exists v, r_fut (w_reqs w r) = Done (Some v) /\ good (w_to w r) (w_what w r) (Some v).
  Proof.
    intros w r I Q Hr Lr [x A]. pose proof (box_idle w _ I Q Lr) as ID.
    assert (T0 : r_thr (w_reqs w r) 0 = R_Idle).
    { specialize (Q (WRequest r) Logic.I). cbn [wstep] in Q. unfold request in Q. cbn [rstep] in Q. unfold rrun in Q. destruct (r_thr (w_reqs w r) 0); try discriminate; reflexivity. }
    assert (TI : forall t, r_thr (w_reqs w r) t = R_Idle) by (intros t; destruct (Nat.eq_dec t 0) as [->|D]; [exact T0|apply (wi_thread _ _ _ _ _ _ I), D]).
    assert (CA : r_called (w_reqs w r) = true).
    { specialize (Q (WCall r) Logic.I). cbn [wstep] in Q. rewrite ID in Q. destruct Hr as [Hr1 Hr2]. apply Nat.ltb_lt in Hr1. apply Nat.ltb_lt in Hr2. rewrite Hr1, Hr2 in Q. cbn in Q. unfold request in Q. cbn [rstep] in Q.
      rewrite T0 in Q. cbn in Q. destruct (r_called (w_reqs w r)); [reflexivity|discriminate]. }
    destruct (wi_reqs _ _ _ _ _ _ I r) as (ds & X). pose proof (binv_pf ds _ X) as BI. destruct (b_called _ BI CA) as (t & [T|T]); [rewrite TI in T; discriminate|].
    destruct (b_reply _ BI 0 x A) as [R|R]; [|rewrite TI in R; discriminate].
    assert (NN : forall u, ~ In (ReplyCalled u None) (r_log (w_reqs w r))). { intros u H. destruct (wi_good _ _ _ _ _ _ I r u None) as (N & _); [lia|exact H|congruence]. }
    destruct (completes_pf ds _ t 0 X NN T R) as [(v & u & S & RV)|G]; [|destruct (wi_gave _ _ _ _ _ _ I r G)].
    exists v. split; [destruct (r_fut (w_reqs w r)); inversion S; reflexivity|]. apply (wi_good _ _ _ _ _ _ I r u (Some v)); [lia|exact RV].
  Qed.
  Lemma asked_rest : forall w r j, winv w -> 0 < r < w_count w -> w_to w r = j -> j <= last -> (exists f k, a_body (w_agents w j) = Waits f k) ->
    messages (rev (a_trace (w_agents w j))) = posted (s_log (a_box (w_agents w j))) -> answered w r.
  Proof.
    intros w r j I Hr T Lj (f & k & SB) M. pose proof (wi_asked _ _ _ _ _ _ I r Hr) as P. rewrite T, <- M in P. apply in_messages in P. apply in_rev in P.
    assert (Nj : j <> S last) by lia. destruct (wi_owing _ _ _ _ _ _ I j Lj Nj) as (o & A1 & _ & A3). destruct (A3 _ _ P) as [A|A]; [lia|exact A|]. exfalso.
    unfold AskingFacts2.stands in A1. rewrite SB in A1. destruct (w_wait w j); [destruct A1|]. destruct A1 as [A1 _]. congruence.
  Qed.
  Lemma agents_rest : forall w, winv w -> web_quiet next give w -> forall i, i <= last ->
    (exists f k, a_body (w_agents w i) = Waits f k) /\ w_wait w i = None /\ messages (rev (a_trace (w_agents w i))) = posted (s_log (a_box (w_agents w i))).
  Proof.
    intros w I Q. assert (G : forall d i, last - i = d -> i <= last -> (exists f k, a_body (w_agents w i) = Waits f k) /\ w_wait w i = None /\ messages (rev (a_trace (w_agents w i))) = posted (s_log (a_box (w_agents w i)))).
    { induction d as [d IH] using lt_wf_ind. intros i D Li.
      assert (WI : w_wait w i = None).
      { destruct (w_wait w i) as [r|] eqn:W; [|reflexivity]. exfalso. assert (Ni : i <> S last) by lia. destruct (wi_owing _ _ _ _ _ _ I i Li Ni) as (o & A1 & _). unfold AskingFacts2.stands in A1. rewrite W in A1.
        destruct (a_body (w_agents w i)) as [b|b|f k|] eqn:SB; try destruct A1. destruct H0 as [H0 _].
        destruct (IH (last - w_to w r) ltac:(lia) (w_to w r) eq_refl ltac:(lia)) as (B1 & _ & B3).
        pose proof (asked_rest w r _ I H eq_refl ltac:(lia) B1 B3) as AN. destruct (request_rest w r I Q H ltac:(lia) AN) as (v & F & _).
        specialize (Q (WAnswered i) Logic.I). cbn [wstep] in Q. rewrite W, SB, F in Q. discriminate. }
      pose proof (box_idle w i I Q Li) as ID.
      assert (NB : forall b, a_body (w_agents w i) = Starts b \/ a_body (w_agents w i) = Ready b -> False).
      { intros b SB. assert (Ni : i <> S last) by lia. destruct (wi_owing _ _ _ _ _ _ I i Li Ni) as (o & A1 & _).
        assert (OW : owing i b o) by (unfold AskingFacts2.stands in A1; rewrite WI in A1; destruct SB as [SB|SB]; rewrite SB in A1; exact A1).
        assert (GO : exists a1, astep (next i) Go (w_agents w i) = Some a1 /\ a_box a1 = (match next i b with Receive _ => a_box a1 | _ => a_box (w_agents w i) end)).
        { cbn [astep step]. destruct SB as [SB|SB]; rewrite SB, ID; cbn [is_idle]; destruct (next i b); cbn [option_map]; rewrite ?ID; eexists; (split; [reflexivity|reflexivity]). }
        destruct GO as (a1 & GO & BX). pose proof (Q (WGo i) Logic.I) as QG. cbn [wstep] in QG. rewrite WI in QG. unfold alone in QG. rewrite GO in QG. cbn [option_map] in QG.
        assert (DO : deed_of next i (w_agents w i) = match next i b with Do o _ => Some o | _ => None end) by (unfold deed_of; destruct SB as [SB|SB]; rewrite SB; reflexivity).
        rewrite DO in QG. destruct (next i b) as [k|[j p|r v|x] b1| |] eqn:N; try discriminate.
        - destruct (ob_ask _ _ _ _ _ _ OB _ _ _ _ _ _ OW N) as [J _]. unfold ask in QG. cbn [w_agents w_count] in QG. assert (AJ : update i a1 (w_agents w) j = w_agents w j) by (unfold update; replace (Nat.eqb j i) with false by (symmetry; apply Nat.eqb_neq; lia); reflexivity). rewrite AJ in QG.
          cbn [astep step] in QG. rewrite (box_idle w j I Q) in QG by lia. discriminate.
        - unfold request in QG. cbn [w_reqs rstep] in QG. pose proof (Q (WRequest r) Logic.I) as QR. cbn [wstep] in QR. unfold request in QR. cbn [rstep] in QR. unfold rrun in QR. destruct (r_thr (w_reqs w r) 0); discriminate. }
      destruct (shadow_rest (next i) (w_agents w i) (wi_shadow _ _ _ _ _ _ I i Li)) as [R1 R2].
      - intros c GC. destruct c as [c| | |]; try contradiction.
        + specialize (Q (WBox i c) GC). cbn [wstep] in Q. unfold alone in Q. destruct c; try contradiction; destruct (astep _ _ _); try discriminate; reflexivity.
        + specialize (Q (WResume i) Logic.I). cbn [wstep] in Q. unfold alone in Q. destruct (astep _ _ _); [discriminate|reflexivity].
      - apply (wi_calm _ _ _ _ _ _ I).
      - intros b. split; intros SB; apply (NB b); auto.
      - auto. }
    intros i Li. exact (G (last - i) i eq_refl Li).
  Qed.
End Asking.
