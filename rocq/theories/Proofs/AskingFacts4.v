(** Agents that ask one another: what is kept, and deadlock. *)
From Coq Require Import List Bool Arith Lia Cantor.
From Verif.Model Require Import Base Thread Aiotools Mailbox Agent Reply Request Asking.
From Verif.Spec Require Import MailboxSpec AgentSpec AiotoolsSpec AskingSpec.
From Verif.Proofs Require Import ThreadFacts NetworkFacts ReplyFacts RequestFacts AskingFacts AskingFacts2 AskingFacts3.
Import ListNotations.

Section Asking.
  Context {B O : Type} (next : nat -> B -> act B (deed O)) (give : nat -> B -> reply_value -> B).
  Implicit Types w : web B O.
  (** What a step does. *)
  Inductive change w : web B O -> Prop :=
  | ch_agent : forall i c a1, astep (next i) c (w_agents w i) = Some a1 -> (c = Go -> w_wait w i = None) -> (c = Go -> forall r v, deed_of next i (w_agents w i) <> Some (Answer r v)) -> change w (set_agent i a1 w)
  | ch_request : forall r c q, rstep c (w_reqs w r) = Some q -> (forall t v, c <> QReply t v) -> change w (set_req r q w)
  | ch_answer : forall i r v q a1, astep (next i) Go (w_agents w i) = Some a1 -> w_wait w i = None -> deed_of next i (w_agents w i) = Some (Answer r v) -> rstep (QReply 0 v) (w_reqs w r) = Some q -> change w (set_req r q (set_agent i a1 w))
  | ch_ask : forall j p a1, astep (next j) (Box (CAsk 0 (letter p (w_count w)))) (w_agents w j) = Some a1 -> change w (new_request j p a1 (w_wait w) w)
  | ch_body_ask : forall i a1 j p a2, astep (next i) Go (w_agents w i) = Some a1 -> w_wait w i = None ->
      astep (next j) (Box (CAsk 0 (letter p (w_count w)))) (update i a1 (w_agents w) j) = Some a2 -> change w (new_request j p a2 (update i (Some (w_count w)) (w_wait w)) (set_agent i a1 w))
  | ch_answered : forall i r b v, w_wait w i = Some r -> a_body (w_agents w i) = Ready b -> r_fut (w_reqs w r) = Done v ->
      change w (Web (update i (Agent (a_box (w_agents w i)) (Ready (give i b v)) (a_trace (w_agents w i))) (w_agents w)) (w_reqs w) (update i None (w_wait w)) (w_to w) (w_what w) (w_count w)).
  Lemma wstep_change : forall c w w1, wstep next give c w = Some w1 -> change w w1.
  Proof.
    intros c w w1 E. destruct c as [i c|i t p|i p|i|i|r|r|i]; cbn [wstep] in E.
    - assert (X : alone next i (Box c) w = Some w1) by (destruct c; try discriminate; exact E). destruct (alone_inv _ _ _ _ _ X) as (a1 & S & ->). eapply ch_agent; [exact S|discriminate|discriminate].
    - destruct (alone_inv _ _ _ _ _ E) as (a1 & S & ->). eapply ch_agent; [exact S|discriminate|discriminate].
    - destruct (ask_inv _ _ _ _ _ _ E) as (a1 & S & ->). eapply ch_ask, S.
    - destruct (w_wait w i) eqn:W; [discriminate|]. destruct (alone next i Go w) as [w2|] eqn:A; [|discriminate]. destruct (alone_inv _ _ _ _ _ A) as (a1 & S & ->). clear A.
      destruct (deed_of next i (w_agents w i)) as [[j p|r v|x]|] eqn:D.
      + destruct (ask_inv _ _ _ _ _ _ E) as (a2 & S2 & ->). eapply ch_body_ask; eassumption.
      + destruct (request_inv _ _ _ _ E) as (q & Q & ->). eapply ch_answer; eassumption.
      + injection E as <-. eapply ch_agent; [exact S|auto|]. intros _ r v H. congruence.
      + injection E as <-. eapply ch_agent; [exact S|auto|]. intros _ r v H. congruence.
    - destruct (alone_inv _ _ _ _ _ E) as (a1 & S & ->). eapply ch_agent; [exact S|discriminate|discriminate].
    - destruct (Nat.ltb 0 r && Nat.ltb r (w_count w) && is_idle _); [|discriminate]. destruct (request_inv _ _ _ _ E) as (q & Q & ->). eapply ch_request; [exact Q|discriminate].
    - destruct (request_inv _ _ _ _ E) as (q & Q & ->). eapply ch_request; [exact Q|discriminate].
    - destruct (w_wait w i) as [r|] eqn:W; [|discriminate]. destruct (a_body (w_agents w i)) as [b|b|f k|] eqn:SB; try discriminate. destruct (r_fut (w_reqs w r)) as [|v| |] eqn:F; try discriminate. injection E as <-.
      eapply ch_answered; eassumption.
  Qed.
  (** Requests stay what they are. *)
  Lemma kept_step : forall c w w1, wstep next give c w = Some w1 -> w_count w <= w_count w1 /\ forall r, r < w_count w -> w_to w1 r = w_to w r /\ w_what w1 r = w_what w r.
  Proof.
    intros c w w1 E. destruct (wstep_change c w w1 E); cbn; (split; [lia|]); auto; intros x Hx; unfold update; (replace (Nat.eqb x (w_count w)) with false by (symmetry; apply Nat.eqb_neq; lia)); auto.
  Qed.
  Lemma kept_pf : forall cs w w1, exec (wstep next give) cs w = Some w1 -> w_count w <= w_count w1 /\ forall r, r < w_count w -> w_to w1 r = w_to w r /\ w_what w1 r = w_what w r.
  Proof.
    induction cs as [|c cs IH]; intros w w1 E; cbn in E; [injection E as <-; auto|]. destruct (wstep next give c w) as [w2|] eqn:S; [|discriminate].
    destruct (kept_step c w w2 S) as [K1 K2]. destruct (IH w2 w1 E) as [K3 K4]. split; [lia|]. intros r Hr. destruct (K2 r Hr) as [<- <-]. apply K4. lia.
  Qed.

  (** Every request is an execution of Model/Reply.v. *)
  Definition replies w : Prop := forall r, exists ds, exec rstep ds rinit = Some (w_reqs w r).
  Lemma replies_set : forall w r c q, replies w -> rstep c (w_reqs w r) = Some q -> forall s, exists ds, exec rstep ds rinit = Some (update r q (w_reqs w) s).
  Proof. intros w r c q H E s. unfold update. destruct (Nat.eqb_spec s r) as [->|]; [|apply H]. destruct (H r) as [ds X]. exists (ds ++ [c]). eapply NetworkFacts.exec_snoc; eassumption. Qed.
  Lemma replies_step : forall c w w1, replies w -> wstep next give c w = Some w1 -> replies w1.
  Proof. intros c w w1 H E. destruct (wstep_change c w w1 E); try exact H; intros s; cbn; eapply replies_set; eassumption. Qed.
  Lemma replies_pf : forall b0 cs w, exec (wstep next give) cs (web_start b0) = Some w -> replies w.
  Proof. intros b0. apply (exec_ind (wstep next give) (fun _ w => replies w)); [intros r; exists []; reflexivity|]. intros _ c w w1 H E. eapply replies_step; eassumption. Qed.

  (** Agents that wait for one another. *)
  Lemma held_up_step : forall D R w w1 c, replies w -> held_up D R w -> (forall k r, ~ D k -> R r -> never_answers next k r) -> wstep next give c w = Some w1 ->
    held_up D R w1 /\ forall i, D i -> w_wait w1 i = w_wait w i /\ a_body (w_agents w1 i) = a_body (w_agents w i) /\ a_trace (w_agents w1 i) = a_trace (w_agents w i).
  Proof.
    intros D R w w1 c RP [H U] NA E.
    assert (AG : forall i c a1, D i -> astep (next i) c (w_agents w i) = Some a1 -> (c = Go -> w_wait w i = None) -> a_body a1 = a_body (w_agents w i) /\ a_trace a1 = a_trace (w_agents w i)).
    { intros i d a1 Di S N. destruct (H i Di) as (r & b & W & _ & SB). destruct d as [d| | |].
      - destruct (astep_box _ _ _ _ _ _ S) as (s & _ & -> & _). auto.
      - specialize (N eq_refl). congruence.
      - cbn [astep] in S. rewrite SB in S. discriminate.
      - cbn [astep] in S. rewrite SB in S. destruct (s_flag _); discriminate. }
    assert (FIN : forall w1, (forall i, D i -> w_wait w1 i = w_wait w i /\ a_body (w_agents w1 i) = a_body (w_agents w i) /\ a_trace (w_agents w1 i) = a_trace (w_agents w i)) ->
                    (forall r, R r -> unanswered (w_reqs w1 r)) ->
                    held_up D R w1 /\ forall i, D i -> w_wait w1 i = w_wait w i /\ a_body (w_agents w1 i) = a_body (w_agents w i) /\ a_trace (w_agents w1 i) = a_trace (w_agents w i)).
    { intros x K V. split; [|exact K]. split; [|exact V]. intros i Di. destruct (H i Di) as (r & b & W & Rr & SB). destruct (K i Di) as (-> & -> & _). eauto. }
    destruct (wstep_change c w w1 E) as [i d a1 S W N|r d q S N|i r v q a1 S W DO Q|j p a1 S|i a1 j p a2 S W S2|i r b v W SB F]; apply FIN; try exact U; cbn [set_agent set_req new_request w_agents w_wait w_reqs].
    - intros h Dh. unfold update. destruct (Nat.eqb_spec h i) as [->|]; [split; [reflexivity|eapply AG; eassumption]|auto].
    - auto.
    - intros s Rs. unfold update. destruct (Nat.eqb_spec s r) as [->|]; [|exact (U s Rs)]. intros t v Hl. apply (rlog_step _ _ _ t v S) in Hl. destruct Hl as [Hl|Hl]; [exact (U r Rs t v Hl)|exact (N t v Hl)].
    - intros h Dh. unfold update. destruct (Nat.eqb_spec h i) as [->|]; [|auto]. destruct (H i Dh) as (x & b & W1 & _). congruence.
    - assert (Ni : ~ D i) by (intros Di; destruct (H i Di) as (x & b & W1 & _); congruence).
      intros s Rs. unfold update. destruct (Nat.eqb_spec s r) as [->|]; [|exact (U s Rs)]. exfalso. unfold deed_of in DO.
      destruct (a_body (w_agents w i)) as [b|b|f k|]; try discriminate; destruct (next i b) as [k|o b1| |] eqn:Nx; try discriminate; injection DO as ->; exact (NA i r Ni Rs b v b1 Nx).
    - intros h Dh. unfold update. destruct (Nat.eqb_spec h j) as [->|]; [split; [reflexivity|eapply AG; [exact Dh|exact S|discriminate]]|auto].
    - assert (Ni : ~ D i) by (intros Di; destruct (H i Di) as (x & b & W1 & _); congruence).
      intros h Dh. assert (X : h <> i) by (intros ->; exact (Ni Dh)). assert (U1 : update i a1 (w_agents w) h = w_agents w h) by (unfold update; apply Nat.eqb_neq in X; now rewrite X).
      split; [unfold update; apply Nat.eqb_neq in X; now rewrite X|]. destruct (Nat.eq_dec h j) as [->|Nj].
      + rewrite U1 in S2. assert (U2 : update j a2 (update i a1 (w_agents w)) j = a2) by (unfold update; now rewrite Nat.eqb_refl). rewrite U2. eapply AG; [exact Dh|exact S2|discriminate].
      + assert (U2 : update j a2 (update i a1 (w_agents w)) h = w_agents w h) by (rewrite <- U1; unfold update at 1; apply Nat.eqb_neq in Nj; now rewrite Nj). rewrite U2. auto.
    - intros h Dh. assert (X : h <> i).
      { intros ->. destruct (H i Dh) as (x & b1 & W1 & Rx & _). assert (x = r) by congruence. subst. destruct (RP r) as [ds X]. destruct (value_pf ds _ v X) as [t V]; [rewrite F; constructor|]. exact (U r Rx t v V). }
      unfold update. apply Nat.eqb_neq in X. rewrite X. auto.
  Qed.
  Lemma held_up_pf : forall D R cs w w1, replies w -> held_up D R w -> (forall k r, ~ D k -> R r -> never_answers next k r) -> exec (wstep next give) cs w = Some w1 ->
    replies w1 /\ held_up D R w1 /\ forall i, D i -> w_wait w1 i = w_wait w i /\ a_body (w_agents w1 i) = a_body (w_agents w i) /\ a_trace (w_agents w1 i) = a_trace (w_agents w i).
  Proof.
    intros D R cs. induction cs as [|c cs IH]; intros w w1 RP H NA E; cbn in E; [injection E as <-; auto|]. destruct (wstep next give c w) as [w2|] eqn:S; [|discriminate].
    destruct (held_up_step D R w w2 c RP H NA S) as [H1 X1]. destruct (IH w2 w1 (replies_step _ _ _ RP S) H1 NA E) as (P2 & H2 & X2). split; [exact P2|]. split; [exact H2|].
    intros i Di. destruct (X1 i Di) as (<- & <- & <-). exact (X2 i Di).
  Qed.
  Lemma unanswered_pending : forall w r v, replies w -> unanswered (w_reqs w r) -> ~ sees (r_fut (w_reqs w r)) (OValue v).
  Proof. intros w r v RP U S. destruct (RP r) as [ds X]. destruct (value_pf ds _ v X S) as [t V]. exact (U t v V). Qed.
End Asking.

(** Agents that pass a part of the work on oblige. *)
Definition passing_good (last : nat) part whole (i p : nat) (v : reply_value) : Prop := v = Some (worked part whole (last - i) i p).
Definition passing_owing (last : nat) part whole (i : nat) (b : passing) (o : option (nat * nat)) : Prop :=
  match b with
  | Free => o = None /\ i <= last
  | Passes p r => o = Some (p, r) /\ i < last
  | Passed _ _ => False
  | Knows r v => exists p, o = Some (p, r) /\ i <= last /\ v = worked part whole (last - i) i p
  end.
Lemma passers_oblige : forall last part whole, obliging (passer last part whole) (told whole) (passers last) last (passing_good last part whole) (passing_owing last part whole).
Proof.
  intros last part whole. constructor.
  - intros i b H. unfold passers in H. destruct (Nat.leb_spec i last) as [L|L]; [|discriminate]. injection H as <-. cbn. auto.
  - intros i L. unfold passers. apply Nat.leb_le in L. now rewrite L.
  - intros i b o k W N. destruct b as [|p r|p r|r v]; try discriminate. destruct W as [-> L]. split; [reflexivity|]. injection N as <-. intros p r. rewrite letter_of_letter.
    destruct (Nat.ltb_spec i last) as [H|H]; cbn; [auto|]. exists p. replace (last - i) with 0 by lia. auto.
  - intros i b o r v b1 W N. destruct b as [|p r1|p r1|r1 v1]; try discriminate. injection N as -> <- <-. destruct W as (p & -> & L & ->). exists p. split; [reflexivity|]. split; [discriminate|]. split; [reflexivity|]. cbn. auto.
  - intros i b o j p b1 W N. destruct b as [|q r1|q r1|r1 v1]; try discriminate. injection N as <- <- <-. destruct W as [-> L]. split; [lia|]. intros v ->. cbn. exists q. split; [reflexivity|]. split; [lia|].
    replace (last - i) with (S (last - S i)) by lia. reflexivity.
  - intros i b o x b1 W N. destruct b; try discriminate.
  - intros i b o W. destruct b; cbn in *; try contradiction; split; discriminate.
Qed.
