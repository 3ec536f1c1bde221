(** Agents that ask one another: invariants. *)
From Coq Require Import List Bool Arith Lia Cantor.
From Verif.Model Require Import Base Thread Aiotools Mailbox Agent Reply Request Asking.
From Verif.Spec Require Import MailboxSpec AgentSpec AskingSpec.
From Verif.Proofs Require Import ThreadFacts MailboxFacts MailboxFacts2 MailboxFacts3 MailboxFacts6 MailboxFacts7 AgentFacts NetworkFacts ReplyFacts RequestFacts RestFacts3 AskingFacts.
Import ListNotations.

Lemma letter_inj : forall p r p1 r1, letter p r = letter p1 r1 -> p = p1 /\ r = r1.
Proof. intros p r p1 r1 H. unfold letter in H. apply Cantor.to_nat_inj in H. split; congruence. Qed.
Lemma letter_all : forall m, exists p r, m = letter p r.
Proof. intros m. exists (fst (Cantor.of_nat m)), (snd (Cantor.of_nat m)). unfold letter. rewrite <- surjective_pairing. symmetry. apply Cantor.cancel_to_of. Qed.
Lemma letter_of_letter : forall p r, letter_of (letter p r) = (p, r).
Proof. intros p r. apply Cantor.cancel_of_to. Qed.

Definition calm (s : state) : Prop := forall t, ~ In (CancelRequested t) (s_log s).
Lemma shadow_not_over : forall B O (a : agent B O), shadowed a -> calm (a_box a) -> a_body a <> Over.
Proof.
  intros B O a (s & sh & H1 & _ & H3 & T & I) C E. rewrite E in H3. destruct (a_body sh) eqn:SB; try contradiction.
  destruct (ai_over _ _ _ I SB) as [(p & _ & F)|F]; [exact (not_finished _ _ F)|]. destruct (ai_run _ _ _ I) as (ds & L & X). destruct (loop_all ds _ L X) as (cons & A).
  apply (o_flag _ (a_oinv _ _ A)) in F. destruct F as [t F]. rewrite H1 in F. exact (C t F).
Qed.
Lemma step_calm : forall c s s1, step c s = Some s1 -> (forall t, c <> CCancelToken t) -> calm s -> calm s1.
Proof.
  intros c s s1 E N C t H. apply (C t). destruct c as [u m|u m| | |f|f|u|u]; cbn [step] in E.
  - destruct (is_idle _); [|discriminate]. injection E as <-. destruct H as [H|H]; [discriminate|exact H].
  - destruct (is_idle _); [|discriminate]. injection E as <-. destruct H as [H|H]; [discriminate|exact H].
  - destruct (is_idle _); [|discriminate]. injection E as <-. exact H.
  - destruct (s_ready s); [discriminate|]. destruct (is_idle _); [|discriminate]. injection E as <-. exact H.
  - destruct (awaited f s); [|discriminate]. destruct (s_fut s f); try discriminate; injection E as <-; destruct H as [H|H]; try discriminate; exact H.
  - destruct (awaited f s); [|discriminate]. injection E as <-. destruct H as [H|H]; [discriminate|exact H].
  - destruct (N u eq_refl).
  - unfold run in E. destruct (s_thr s u); try discriminate E; try (injection E as <-; exact H).
    + destruct (s_cont s); injection E as <-; (destruct H as [H|H]; [discriminate|exact H]).
    + injection E as <-. destruct c; exact H.
    + destruct (acquire _ _); [|discriminate]. injection E as <-. exact H.
    + destruct (s_queue s); [discriminate|]. injection E as <-. exact H.
    + injection E as <-. destruct c; exact H.
    + destruct (release _ _); [|discriminate]. injection E as <-. exact H.
Qed.
Lemma astep_box : forall B O (next : B -> act B O) c a a1, astep next (Box c) a = Some a1 ->
  exists s, step c (a_box a) = Some s /\ a1 = Agent s (a_body a) (a_trace a) /\ match c with CReceive | CResume _ | CAbandon _ => False | _ => True end.
Proof.
  intros B O next c a a1 E. cbn [astep] in E. destruct (step c (a_box a)) as [x|] eqn:X; destruct c; try discriminate E; rewrite ?X in E; cbn in E; try discriminate E; injection E as <-; eauto.
Qed.
(** The mailbox of an agent makes at most one step. *)
Lemma astep_calm : forall B O (next : B -> act B O) c a a1, astep next c a = Some a1 -> (forall t, c <> Box (CCancelToken t)) -> calm (a_box a) -> calm (a_box a1).
Proof.
  intros B O next c a a1 E N C. destruct c as [c| | |].
  - destruct (astep_box _ _ _ _ _ _ E) as (s & S & -> & _). cbn. eapply step_calm; [exact S| |exact C]. intros t H. exact (N t (f_equal Box H)).
  - cbn [astep] in E. destruct (a_body a) as [b|b|f k|]; try discriminate; (destruct (is_idle (s_thr (a_box a) 0)) eqn:X; [|discriminate]); destruct (next b) as [k|o1 b1| |]; cbn in E; rewrite ?X in E; injection E as <-; exact C.
  - cbn [astep] in E. destruct (a_body a) as [b|b|f k|]; try discriminate. destruct (s_over (a_box a) f).
    + destruct (is_idle _); [|discriminate]. injection E as <-. exact C.
    + destruct (step (CResume f) (a_box a)) as [s|] eqn:S; [|discriminate]. assert (C1 : calm s) by (eapply step_calm; [exact S|discriminate|exact C]). injection E as <-. destruct (s_fut (a_box a) f); exact C1.
  - cbn [astep] in E. destruct (s_flag (a_box a)); [|discriminate]. destruct (a_body a) as [b|b|f k|]; try discriminate; [injection E as <-; exact C|].
    destruct (step (CAbandon f) (a_box a)) as [s|] eqn:S; [|discriminate]. injection E as <-. eapply step_calm; [exact S|discriminate|exact C].
Qed.
Lemma astep_posted : forall B O (next : B -> act B O) c a a1, astep next c a = Some a1 -> posted (s_log (a_box a1)) = posted (s_log (a_box a)) ++ posts c.
Proof.
  intros B O next c a a1 E. destruct c as [c| | |].
  - destruct (astep_box _ _ _ _ _ _ E) as (s & S & -> & _). cbn. rewrite (step_posted _ _ _ S). destruct c; reflexivity.
  - cbn [posts]. rewrite app_nil_r. cbn [astep] in E. destruct (a_body a) as [b|b|f k|]; try discriminate; (destruct (is_idle (s_thr (a_box a) 0)) eqn:X; [|discriminate]); destruct (next b) as [k|o1 b1| |]; cbn in E; rewrite ?X in E; injection E as <-; reflexivity.
  - cbn [posts]. rewrite app_nil_r. cbn [astep] in E. destruct (a_body a) as [b|b|f k|]; try discriminate. destruct (s_over (a_box a) f).
    + destruct (is_idle _); [|discriminate]. injection E as <-. reflexivity.
    + destruct (step (CResume f) (a_box a)) as [s|] eqn:S; [|discriminate]. pose proof (step_posted _ _ _ S) as P. rewrite app_nil_r in P. injection E as <-. destruct (s_fut (a_box a) f); exact P.
  - cbn [posts]. rewrite app_nil_r. cbn [astep] in E. destruct (s_flag (a_box a)); [|discriminate]. destruct (a_body a) as [b|b|f k|]; try discriminate; [injection E as <-; reflexivity|].
    destruct (step (CAbandon f) (a_box a)) as [s|] eqn:S; [|discriminate]. injection E as <-. pose proof (step_posted _ _ _ S) as P. rewrite app_nil_r in P. exact P.
Qed.
(** Requests on the loop's thread that nobody gives up. *)
Definition on_zero (c : rchoice) : Prop := match c with QReply t _ | QWait t | QRun t => t = 0 | QGiveUp => False end.
Lemma rthr_zero : forall c s s1 t, rstep c s = Some s1 -> on_zero c -> t <> 0 -> r_thr s1 t = r_thr s t.
Proof.
  intros c s s1 t E Z N. assert (X : Nat.eqb t 0 = false) by (apply Nat.eqb_neq; exact N). destruct c as [u v|u| |u]; cbn in Z; subst; try contradiction; cbn [rstep] in E.
  - destruct (is_ridle (r_thr s 0)); [|discriminate]. injection E as <-. cbn. now rewrite X.
  - destruct (is_ridle (r_thr s 0) && negb (r_called s)); [|discriminate]. injection E as <-. cbn. now rewrite X.
  - unfold rrun in E. destruct (r_thr s 0) as [|x| |w|w|w|w x]; try discriminate E; injection E as <-; cbn; rewrite ?X; try reflexivity.
    + destruct (r_result s); cbn; now rewrite X.
    + destruct (r_cont s); cbn; now rewrite X.
Qed.

Section Asking.
  Context {B O : Type} (next : nat -> B -> act B (deed O)) (give : nat -> B -> reply_value -> B) (b0 : nat -> option B) (last : nat)
    (good : nat -> nat -> reply_value -> Prop) (owing : nat -> B -> option (nat * nat) -> Prop) (OB : obliging next give b0 last good owing).
  Implicit Types w : web B O.

  Definition stands w i (o : option (nat * nat)) : Prop :=
    match a_body (w_agents w i), w_wait w i with
    | Starts b, None | Ready b, None => owing i b o
    | Ready b, Some r => 0 < r < w_count w /\ i < w_to w r <= last /\ forall v, good (w_to w r) (w_what w r) v -> owing i (give i b v) o
    | Waits f k, None => o = None /\ forall p r, owing i (k (letter p r)) (Some (p, r))
    | _, _ => False
    end.
  Definition known w i p r : Prop := r = 0 \/ (r < w_count w /\ w_to w r = i /\ w_what w r = p).
  Definition answered w r : Prop := exists v, In (ReplyCalled 0 v) (r_log (w_reqs w r)).
  Definition accounts w i : Prop := exists o, stands w i o /\ (forall p r, o = Some (p, r) -> known w i p r) /\
    forall p r, In (Got (letter p r)) (a_trace (w_agents w i)) -> r <> 0 -> answered w r \/ o = Some (p, r).
  (** All agents but [ex]. *)
  Record winv_ex (ex : nat) w : Prop := {
    wi_count : 0 < w_count w;
    wi_shadow : forall i, i <= last -> shadowed (w_agents w i);
    wi_none : forall i, last < i -> a_body (w_agents w i) = Over /\ w_wait w i = None;
    wi_calm : forall i, calm (a_box (w_agents w i));
    wi_reqs : forall r, exists ds, exec rstep ds rinit = Some (w_reqs w r);
    wi_thread : forall r t, t <> 0 -> r_thr (w_reqs w r) t = R_Idle;
    wi_gave : forall r, ~ In GaveUp (r_log (w_reqs w r));
    wi_posted : forall i p r, In (letter p r) (posted (s_log (a_box (w_agents w i)))) -> known w i p r;
    wi_asked : forall r, 0 < r < w_count w -> In (letter (w_what w r) r) (posted (s_log (a_box (w_agents w (w_to w r)))));
    wi_owing : forall i, i <= last -> i <> ex -> accounts w i;
    wi_good : forall r t v, r <> 0 -> In (ReplyCalled t v) (r_log (w_reqs w r)) -> v <> None /\ good (w_to w r) (w_what w r) v /\ r < w_count w }.
  Definition winv : web B O -> Prop := winv_ex (S last).
  Lemma winv_start : winv (web_start b0).
  Proof.
    assert (S : forall i, i <= last -> exists b, b0 i = Some b /\ owing i b None).
    { intros i L. destruct (b0 i) as [b|] eqn:E; [|destruct (ob_agents _ _ _ _ _ _ OB i L E)]. exists b. split; [reflexivity|exact (proj2 (ob_start _ _ _ _ _ _ OB i b E))]. }
    assert (X : forall i, s_log (a_box (w_agents (web_start (O := O) b0) i)) = [] /\ a_trace (w_agents (web_start (O := O) b0) i) = []) by (intros i; cbn; destruct (b0 i); split; reflexivity).
    constructor.
    - cbn. lia.
    - intros i L. destruct (S i L) as (b & E & _). cbn. rewrite E. apply shadow_start.
    - intros i L. cbn. destruct (b0 i) as [b|] eqn:E; [|auto]. destruct (ob_start _ _ _ _ _ _ OB i b E). lia.
    - intros i t H. rewrite (proj1 (X i)) in H. exact H.
    - intros r. exists []. reflexivity.
    - intros r t _. reflexivity.
    - intros r H. exact H.
    - intros i p r H. rewrite (proj1 (X i)) in H. destruct H.
    - cbn. lia.
    - intros i L _. destruct (S i L) as (b & E & Ow). exists None. unfold stands. split; [cbn; rewrite E; exact Ow|]. split; [discriminate|]. intros p r H. rewrite (proj2 (X i)) in H. destruct H.
    - intros r t v _ H. destruct H.
  Qed.

  Lemma known_more : forall w w1 i p r, known w i p r -> w_count w <= w_count w1 -> (forall r, r < w_count w -> w_to w1 r = w_to w r /\ w_what w1 r = w_what w r) -> known w1 i p r.
  Proof. intros w w1 i p r [H|(H1 & H2 & H3)] L S; [left; exact H|right]. destruct (S r H1) as [-> ->]. repeat split; auto. lia. Qed.

  (** One agent changes. *)
  Definition set_agent (i : nat) (a : agent B (deed O)) w : web B O := Web (update i a (w_agents w)) (w_reqs w) (w_wait w) (w_to w) (w_what w) (w_count w).
  Lemma winv_agent : forall ex w i c a1, winv w -> astep (next i) c (w_agents w i) = Some a1 -> agent_on_loop c -> c <> Kill -> (forall t, c <> Box (CCancelToken t)) ->
    (forall m, In m (posts c) -> exists p, m = letter p 0) ->
    (last < i -> a_body a1 = Over) ->
    (i <= last -> forall b, c = Go -> a_body (w_agents w i) = Starts b \/ a_body (w_agents w i) = Ready b -> next i b <> Returns /\ next i b <> Raises) ->
    (i <= last -> shadowed a1 -> calm (a_box a1) -> (forall p r, In (letter p r) (posted (s_log (a_box a1))) -> known w i p r) -> accounts w i -> i <> ex -> accounts (set_agent i a1 w) i) ->
    winv_ex ex (set_agent i a1 w).
  Proof.
    intros ex w i c a1 I E L NK NC PO OV NF AC. pose proof (astep_calm _ _ _ _ _ _ E NC (wi_calm _ _ I i)) as C1.
    assert (S1 : i <= last -> shadowed a1) by (intros Li; eapply shadow_step; [apply (wi_shadow _ _ I), Li|exact L|exact NK|apply NF, Li|exact E]).
    pose proof (astep_posted _ _ _ _ _ _ E) as P1.
    assert (K1 : forall p r, In (letter p r) (posted (s_log (a_box a1))) -> known w i p r).
    { intros p r H. rewrite P1 in H. apply in_app_or in H. destruct H as [H|H]; [exact (wi_posted _ _ I i p r H)|]. destruct (PO _ H) as (q & Q). apply letter_inj in Q. left. apply Q. }
    constructor.
    - apply I.
    - intros j Lj. cbn. unfold update. destruct (Nat.eqb_spec j i) as [->|]; [exact (S1 Lj)|apply (wi_shadow _ _ I), Lj].
    - intros j Lj. cbn. unfold update. destruct (Nat.eqb_spec j i) as [->|]; [split; [exact (OV Lj)|apply (wi_none _ _ I), Lj]|apply (wi_none _ _ I), Lj].
    - intros j. cbn. unfold update. destruct (Nat.eqb_spec j i) as [->|]; [exact C1|apply (wi_calm _ _ I)].
    - apply I.
    - apply I.
    - apply I.
    - intros j p r. cbn. unfold update. destruct (Nat.eqb_spec j i) as [->|]; [exact (K1 p r)|apply (wi_posted _ _ I)].
    - intros r Hr. cbn. unfold update. destruct (Nat.eqb_spec (w_to w r) i) as [<-|]; [rewrite P1; apply in_or_app; left|]; apply (wi_asked _ _ I), Hr.
    - intros j Lj Xj. assert (Nj : j <> S last) by lia. destruct (Nat.eq_dec j i) as [->|D]; [exact (AC Lj (S1 Lj) C1 K1 (wi_owing _ _ I i Lj Nj) Xj)|].
      destruct (wi_owing _ _ I j Lj Nj) as (o & H1 & H2 & H3). exists o. unfold stands, accounts, set_agent, update in *. cbn in *. apply Nat.eqb_neq in D. rewrite D. auto.
    - apply I.
  Qed.
  (** One request changes. *)
  Definition set_req (r : nat) (q : rstate) w : web B O := Web (w_agents w) (update r q (w_reqs w)) (w_wait w) (w_to w) (w_what w) (w_count w).
  Lemma winv_request : forall w r c q, winv w -> rstep c (w_reqs w r) = Some q -> on_zero c -> (match c with QReply _ _ => False | _ => True end) -> winv (set_req r q w).
  Proof.
    intros w r c q I E Z N.
    assert (LOG : forall t v, In (ReplyCalled t v) (r_log q) <-> In (ReplyCalled t v) (r_log (w_reqs w r))).
    { intros t v. rewrite (rlog_step _ _ _ t v E). split; [intros [H|H]; [exact H|subst c; destruct N]|auto]. }
    assert (LU : forall s t v, In (ReplyCalled t v) (r_log (update r q (w_reqs w) s)) <-> In (ReplyCalled t v) (r_log (w_reqs w s))).
    { intros s t v. unfold update. destruct (Nat.eqb_spec s r) as [->|]; [apply LOG|tauto]. }
    constructor; try apply I.
    - intros s. cbn. unfold update. destruct (Nat.eqb_spec s r) as [->|]; [|apply I]. destruct (wi_reqs _ _ I r) as (ds & X). exists (ds ++ [c]). eapply NetworkFacts.exec_snoc; eassumption.
    - intros s t T. cbn. unfold update. destruct (Nat.eqb_spec s r) as [->|]; [rewrite (rthr_zero _ _ _ _ E Z T)|]; apply (wi_thread _ _ I); exact T.
    - intros s. cbn. unfold update. destruct (Nat.eqb_spec s r) as [->|]; [|apply I]. intros H. apply (wi_gave _ _ I r). eapply gave_up_kept; [exact E| |exact H]. intros ->. exact Z.
    - intros i L Ni. destruct (wi_owing _ _ I i L Ni) as (o & H1 & H2 & H3). exists o. split; [exact H1|]. split; [exact H2|]. intros p s Hg Hs. destruct (H3 p s Hg Hs) as [[v V]|V]; [left; exists v; apply LU, V|right; exact V].
    - intros s t v S H. apply LU in H. exact (wi_good _ _ I s t v S H).
  Qed.
  (** The answer of agent [i]. *)
  Lemma winv_answer : forall w i r v q b b1, winv w -> i <= last -> w_wait w i = None -> (a_body (w_agents w i) = Starts b \/ a_body (w_agents w i) = Ready b) -> next i b = Do (Answer r v) b1 ->
    is_idle (s_thr (a_box (w_agents w i)) 0) = true -> rstep (QReply 0 v) (w_reqs w r) = Some q ->
    winv (set_req r q (set_agent i (Agent (a_box (w_agents w i)) (Ready b1) (Did (Answer r v) :: a_trace (w_agents w i))) w)).
  Proof.
    intros w i r v q b b1 I Li W SB N ID E. set (a1 := Agent (a_box (w_agents w i)) (Ready b1) (Did (Answer r v) :: a_trace (w_agents w i))).
    assert (ST : astep (next i) Go (w_agents w i) = Some a1). { cbn [astep]. rewrite ID. destruct SB as [SB|SB]; rewrite SB, N; reflexivity. }
    assert (S1 : shadowed a1). { apply (shadow_step (next i) Go (w_agents w i)); [apply (wi_shadow _ _ I), Li|exact Logic.I|discriminate| |exact ST]. intros b2 _ SB2. assert (b2 = b) by (destruct SB, SB2; congruence). subst. rewrite N. split; discriminate. }
    assert (Ni : i <> S last) by lia. destruct (wi_owing _ _ I i Li Ni) as (o & H1 & H2 & H3). assert (H1b : owing i b o) by (unfold stands in H1; rewrite W in H1; destruct SB as [SB|SB]; rewrite SB in H1; exact H1).
    destruct (ob_answer _ _ _ _ _ _ OB _ _ _ _ _ _ H1b N) as (p & -> & NV & G & Ow). pose proof (H2 p r eq_refl) as KN.
    assert (LOG : forall t x, In (ReplyCalled t x) (r_log q) <-> In (ReplyCalled t x) (r_log (w_reqs w r)) \/ (t = 0 /\ x = v)).
    { intros t x. rewrite (rlog_step _ _ _ t x E). split; (intros [H|H]; [auto|right]); [injection H as -> ->; auto|destruct H as [-> ->]; reflexivity]. }
    assert (AN : forall s, s <> r -> (answered w s <-> exists x, In (ReplyCalled 0 x) (r_log (update r q (w_reqs w) s)))).
    { intros s D. unfold update. apply Nat.eqb_neq in D. rewrite D. reflexivity. }
    assert (AR : exists x, In (ReplyCalled 0 x) (r_log (update r q (w_reqs w) r))). { exists v. unfold update. rewrite Nat.eqb_refl. apply LOG. auto. }
    assert (AM : forall s, answered w s -> exists x, In (ReplyCalled 0 x) (r_log (update r q (w_reqs w) s))).
    { intros s H. destruct (Nat.eq_dec s r) as [->|D]; [exact AR|apply AN; auto]. }
    constructor; cbn.
    - apply I.
    - intros j Lj. unfold update. destruct (Nat.eqb_spec j i) as [->|]; [exact S1|apply (wi_shadow _ _ I), Lj].
    - intros j Lj. unfold update. destruct (Nat.eqb_spec j i) as [->|]; [lia|apply (wi_none _ _ I), Lj].
    - intros j. unfold update. destruct (Nat.eqb_spec j i) as [->|]; apply (wi_calm _ _ I).
    - intros s. unfold update. destruct (Nat.eqb_spec s r) as [->|]; [|apply I]. destruct (wi_reqs _ _ I r) as (ds & X). exists (ds ++ [QReply 0 v]). eapply NetworkFacts.exec_snoc; eassumption.
    - intros s t T. unfold update. destruct (Nat.eqb_spec s r) as [->|]; [rewrite (rthr_zero _ _ _ _ E eq_refl T)|]; apply (wi_thread _ _ I); exact T.
    - intros s. unfold update. destruct (Nat.eqb_spec s r) as [->|]; [|apply I]. intros H. apply (wi_gave _ _ I r). eapply gave_up_kept; [exact E|discriminate|exact H].
    - intros j p1 r1. unfold update. destruct (Nat.eqb_spec j i) as [->|]; apply (wi_posted _ _ I).
    - intros s Hs. pose proof (wi_asked _ _ I s Hs) as X. unfold update. destruct (Nat.eqb_spec (w_to w s) i) as [D|]; [rewrite D in X|]; exact X.
    - intros j Lj Nj. destruct (Nat.eq_dec j i) as [->|D].
      + exists None. split; [unfold stands; cbn; unfold update; rewrite Nat.eqb_refl, W; exact Ow|]. split; [discriminate|]. intros p1 r1 H R. left. cbn in H. unfold update in H. rewrite Nat.eqb_refl in H. destruct H as [H|H]; [discriminate|].
        destruct (H3 p1 r1 H R) as [A|A]; [exact (AM r1 A)|]. injection A as -> ->. exact AR.
      + destruct (wi_owing _ _ I j Lj Nj) as (o & G1 & G2 & G3). exists o. apply Nat.eqb_neq in D. split; [unfold stands in *; cbn; unfold update; rewrite D; exact G1|]. split; [exact G2|].
        intros p1 r1 H R. cbn in H. unfold update in H. rewrite D in H. destruct (G3 p1 r1 H R) as [A|A]; [left; exact (AM r1 A)|right; exact A].
    - intros s t x S H. unfold update in H. destruct (Nat.eqb_spec s r) as [->|]; [|exact (wi_good _ _ I s t x S H)]. apply LOG in H. destruct H as [H|[-> ->]]; [exact (wi_good _ _ I r t x S H)|].
      destruct KN as [KN|(K1 & K2 & K3)]; [congruence|]. rewrite K2, K3. auto.
  Qed.
  (** A new request to agent [j], made by other code ([from] = None) or by the body of agent [i]. *)
  Definition new_request (j p : nat) (a : agent B (deed O)) (waits : nat -> option nat) w : web B O :=
    Web (update j a (w_agents w)) (w_reqs w) waits (update (w_count w) j (w_to w)) (update (w_count w) p (w_what w)) (S (w_count w)).
  Lemma winv_ask : forall ex w j p a1 waits, winv_ex ex w -> astep (next j) (Box (CAsk 0 (letter p (w_count w)))) (w_agents w j) = Some a1 ->
    (forall i, last < i -> waits i = None) ->
    (forall i, i <= last -> i <> ex -> waits i = w_wait w i) -> (ex <= last -> accounts (new_request j p a1 waits w) ex) ->
    winv (new_request j p a1 waits w).
  Proof.
    intros ex w j p a1 waits I E WN WS WX. destruct (astep_box _ _ _ _ _ _ E) as (s & S & -> & _). pose proof (astep_posted _ _ _ _ _ _ E) as P1. cbn [posts] in P1.
    assert (C1 : calm s). { eapply step_calm; [exact S|discriminate|apply (wi_calm _ _ I)]. }
    assert (OLD : forall r, r < w_count w -> w_to (new_request j p (Agent s (a_body (w_agents w j)) (a_trace (w_agents w j))) waits w) r = w_to w r /\
              w_what (new_request j p (Agent s (a_body (w_agents w j)) (a_trace (w_agents w j))) waits w) r = w_what w r).
    { intros r Hr. cbn. unfold update. replace (Nat.eqb r (w_count w)) with false; [auto|]. symmetry. apply Nat.eqb_neq. lia. }
    assert (KM : forall i q r, known w i q r -> known (new_request j p (Agent s (a_body (w_agents w j)) (a_trace (w_agents w j))) waits w) i q r).
    { intros i q r H. eapply known_more; [exact H|cbn; lia|exact OLD]. }
    constructor.
    - cbn. lia.
    - intros i Li. cbn. unfold update. destruct (Nat.eqb_spec i j) as [->|]; [|apply (wi_shadow _ _ I), Li]. eapply shadow_step with (c := Box (CAsk 0 (letter p (w_count w)))); [apply (wi_shadow _ _ I), Li|reflexivity|discriminate|discriminate|exact E].
    - intros i Li. cbn. split; [|exact (WN i Li)]. unfold update. destruct (Nat.eqb_spec i j) as [->|]; cbn; apply (wi_none _ _ I), Li.
    - intros i. cbn. unfold update. destruct (Nat.eqb_spec i j) as [->|]; [exact C1|apply (wi_calm _ _ I)].
    - apply I.
    - apply I.
    - apply I.
    - intros i q r. cbn [new_request w_agents]. unfold update at 1. destruct (Nat.eqb_spec i j) as [->|].
      + intros H. cbn [a_box] in *. rewrite P1 in H. apply in_app_or in H. destruct H as [H|[H|[]]]; [apply KM, (wi_posted _ _ I), H|]. apply letter_inj in H. destruct H as [<- <-].
        right. cbn. unfold update. rewrite Nat.eqb_refl. auto.
      + intros H. apply KM, (wi_posted _ _ I), H.
    - intros r Hr. cbn in Hr. destruct (Nat.eq_dec r (w_count w)) as [->|D].
      + cbn. unfold update. rewrite !Nat.eqb_refl. cbn [a_box] in *. rewrite P1. apply in_or_app. right. left. reflexivity.
      + assert (Lr : r < w_count w) by lia. destruct (OLD r Lr) as [-> ->]. pose proof (wi_asked _ _ I r (conj (proj1 Hr) Lr)) as X. cbn. unfold update. destruct (Nat.eqb_spec (w_to w r) j) as [Y|]; [|exact X].
        cbn [a_box] in *. rewrite P1. apply in_or_app. left. rewrite Y in X. exact X.
    - intros i Li _. destruct (Nat.eq_dec i ex) as [->|Ni]; [exact (WX Li)|]. destruct (wi_owing _ _ I i Li Ni) as (o & G1 & G2 & G3). exists o.
      assert (BT : a_body (update j (Agent s (a_body (w_agents w j)) (a_trace (w_agents w j))) (w_agents w) i) = a_body (w_agents w i) /\
                   a_trace (update j (Agent s (a_body (w_agents w j)) (a_trace (w_agents w j))) (w_agents w) i) = a_trace (w_agents w i)).
      { unfold update. destruct (Nat.eqb_spec i j) as [->|]; auto. }
      destruct BT as [B1 B2]. split; [|split].
      + pose proof (WS i Li Ni) as X. unfold stands in *. cbn [new_request w_agents w_wait]. rewrite B1, X. destruct (a_body (w_agents w i)) as [b|b|f k|]; auto. destruct (w_wait w i) as [r|]; [|exact G1].
        destruct G1 as (A1 & A2 & A3). destruct (OLD r (proj2 A1)) as [Y1 Y2]. rewrite Y1, Y2. split; [cbn; lia|]. split; [exact A2|exact A3].
      + intros q r H. apply KM, G2, H.
      + intros q r H R. cbn [new_request w_agents] in H. rewrite B2 in H. exact (G3 q r H R).
    - intros r t v R H. destruct (wi_good _ _ I r t v R H) as (A1 & A2 & A3). destruct (OLD r A3) as [-> ->]. split; [exact A1|]. split; [exact A2|cbn; lia].
  Qed.
End Asking.
