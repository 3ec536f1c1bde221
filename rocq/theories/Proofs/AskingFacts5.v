(** Agents that ask one another come to rest. *)
From Coq Require Import List Bool Arith Lia Wf_nat.
From Verif.Model Require Import Base Thread Aiotools Mailbox Agent Reply Request Asking.
From Verif.Spec Require Import MailboxSpec AgentSpec AiotoolsSpec RestSpec AskingSpec.
From Verif.Proofs Require Import ThreadFacts AgentFacts AgentFacts2 NetworkFacts ReplyFacts RequestFacts RestFacts RestFacts5 AskingFacts AskingFacts2 AskingFacts3 AskingFacts4.
Import ListNotations.

Section Local.
  Context {B O : Type} (next : nat -> B -> act B (deed O)) (give : nat -> B -> reply_value -> B) (PR : prompt_asking next give) (i : nat).
  Definition local_state : Type := (agent B (deed O) * option nat)%type.
  (** What one agent may do, whatever the others do. *)
  Inductive lstep : local_state -> local_state -> Prop :=
  | l_box : forall c a a1 wt, goes_on c -> astep (next i) (Box c) a = Some a1 -> lstep (a1, wt) (a, wt)
  | l_resume : forall a a1 wt, astep (next i) Resume a = Some a1 -> lstep (a1, wt) (a, wt)
  | l_go : forall a a1, astep (next i) Go a = Some a1 -> (forall j p, deed_of next i a <> Some (Ask j p)) -> lstep (a1, None) (a, None)
  | l_ask : forall a a1 j p r, astep (next i) Go a = Some a1 -> deed_of next i a = Some (Ask j p) -> lstep (a1, Some r) (a, None)
  | l_answered : forall a b v r, a_body a = Ready b -> lstep (Agent (a_box a) (Ready (give i b v)) (a_trace a), None) (a, Some r).
  Definition key (x : local_state) : option (B * bool) :=
    match body_state (fst x) with Some b => Some (b, match snd x with Some _ => true | None => false end) | None => None end.
  Inductive krel : option (B * bool) -> option (B * bool) -> Prop :=
  | k_do : forall b o b1, next i b = Do o b1 -> (forall j p, o <> Ask j p) -> krel (Some (b1, false)) (Some (b, false))
  | k_ask : forall b j p b1, next i b = Do (Ask j p) b1 -> krel (Some (b1, true)) (Some (b, false))
  | k_give : forall b v, krel (Some (give i b v, false)) (Some (b, true)).
  Lemma krel_acc : forall k, Acc krel k.
  Proof.
    assert (F : forall b, Acc krel (Some (b, false))).
    { intros b. induction (PR i b) as [b _ IH]. constructor. intros y H. inversion H as [b1 o b2 N NA E1 E2|b1 j p b2 N E1 E2|]; subst.
      - apply IH. left. eauto.
      - constructor. intros z Z. inversion Z; subst. apply IH. right. eauto 8. }
    intros [[b []]|]; [|apply F|constructor; intros y H; inversion H]. constructor. intros z Z. inversion Z; subst. apply F.
  Qed.
  Lemma local_on : forall n x1 x, tidy n (fst x) -> lstep x1 x -> tidy n (fst x1) /\
    (ahead n (fst x1) < ahead n (fst x) \/ (ahead n (fst x1) <= ahead n (fst x) /\ (krel (key x1) (key x) \/ (key x1 = key x /\ work n (a_box (fst x1)) < work n (a_box (fst x)))))).
  Proof.
    intros n x1 x T L. inversion L as [c a a1 wt G S|a a1 wt S|a a1 S D|a a1 j p r S D|a b v r SB]; subst; cbn [fst] in *.
    - destruct (astep_box _ _ _ _ _ _ S) as (s & S1 & -> & NR). destruct T as [W F]. destruct (work_step n c _ s W G S1) as [W1 LT]. split; [split; [exact W1|eapply fresh_step; eassumption]|]. right.
      assert (U : unread n s <= unread n (a_box a)) by (destruct c; try contradiction; [eapply unread_turn|eapply unread_run]; eassumption).
      unfold ahead, RestFacts.stands. cbn. split; [lia|right; auto].
    - destruct (gets_on (next i) n Resume a a1 T Logic.I S) as [T1 [H|[H [(b & o & b1 & E1 & _)|[E1 E2]]]]]; (split; [exact T1|]); [left; exact H| |].
      + cbn [astep] in S. unfold body_state in E1. destruct (a_body a); discriminate.
      + right. split; [exact H|]. right. split; [|exact E2]. unfold key, body_state. cbn. now rewrite E1.
    - destruct (gets_on (next i) n Go a a1 T Logic.I S) as [T1 [H|[H [(b & o & b1 & E1 & E2 & E3)|[E1 E2]]]]]; (split; [exact T1|]); [left; exact H| |]; right; (split; [exact H|]).
      + left. unfold key. cbn. rewrite E1, E3. eapply k_do; [exact E2|]. intros j p ->. apply (D j p). unfold deed_of. unfold body_state in E1. destruct (a_body a); try discriminate; injection E1 as ->; now rewrite E2.
      + right. split; [|exact E2]. unfold key, body_state. cbn. now rewrite E1.
    - assert (X : exists b b1, body_state a = Some b /\ next i b = Do (Ask j p) b1 /\ a1 = Agent (a_box a) (Ready b1) (Did (Ask j p) :: a_trace a) /\ RestFacts.stands a = 2).
      { unfold deed_of in D. cbn [astep] in S. unfold body_state, RestFacts.stands. destruct (a_body a) as [b|b|f k|]; try discriminate; (destruct (is_idle _); [|discriminate]);
          destruct (next i b) as [k|o b1| |] eqn:N; try discriminate; injection D as ->; injection S as <-; eauto 8. }
      destruct X as (b & b1 & E1 & N & -> & ST). split; [exact T|]. right. unfold ahead. rewrite ST. cbn. split; [apply le_n|]. left. unfold key. cbn. rewrite E1. eapply k_ask, N.
    - split; [exact T|]. right. unfold ahead, RestFacts.stands. rewrite SB. cbn. split; [apply le_n|]. left. unfold key, body_state. cbn. rewrite SB. constructor.
  Qed.
  Lemma local_rests : forall n x, tidy n (fst x) -> Acc lstep x.
  Proof.
    intros n. assert (G : forall p x, ahead n (fst x) <= p -> tidy n (fst x) -> Acc lstep x).
    { intros p. induction (lt_wf p) as [p _ IHp].
      intros x. assert (Y : forall k, key x = k -> ahead n (fst x) <= p -> tidy n (fst x) -> Acc lstep x); [|intros; eapply Y; eauto].
      intros k. revert x. induction (krel_acc k) as [k _ IHk].
      intros x. induction (well_founded_ltof _ (fun x : local_state => work n (a_box (fst x))) x) as [x _ IHw]. intros EK LE T. constructor. intros x1 S.
      destruct (local_on n x1 x T S) as [T1 [L|[L [K|[K W]]]]].
      - apply (IHp (ahead n (fst x1))); [lia|apply le_n|exact T1].
      - apply (IHk (key x1)); [rewrite <- EK; exact K|reflexivity|lia|exact T1].
      - apply IHw; [exact W|congruence|lia|exact T1]. }
    intros x T. exact (G _ x (le_n _) T).
  Qed.
  Lemma lstep_over : forall x, ~ lstep x (Agent init Over [], None).
  Proof. intros x L. inversion L as [c a a1 wt G S|a a1 wt S|a a1 S D|a a1 j p r S D|a b v r SB]; subst; try discriminate. destruct c; try contradiction; discriminate. Qed.
End Local.

Section Web.
  Context {B O : Type} (next : nat -> B -> act B (deed O)) (give : nat -> B -> reply_value -> B) (b0 : nat -> option B) (last : nat)
    (good : nat -> nat -> reply_value -> Prop) (owing : nat -> B -> option (nat * nat) -> Prop) (OB : obliging next give b0 last good owing) (PR : prompt_asking next give).
  Implicit Types w : web B O.
  Notation winv := (winv give last good owing).
  Definition wreached w : Prop := exists cs, exec (wstep next give) cs (web_start b0) = Some w.
  Lemma wreached_step : forall c w w1, wreached w -> wstep next give c w = Some w1 -> wreached w1.
  Proof. intros c w w1 [cs E] S. exists (cs ++ [c]). eapply NetworkFacts.exec_snoc; eassumption. Qed.
  Lemma wreached_inv : forall w, wreached w -> winv w.
  Proof. intros w [cs E]. eapply winv_pf; eassumption. Qed.

  (** The mailboxes. *)
  Definition gens w : Prop := forall i, gen (w_agents w i).
  Lemma gens_pf : forall w, wreached w -> gens w.
  Proof.
    intros w [cs E]. revert E. apply (exec_ind (wstep next give) (fun _ w => gens w)).
    - intros i. cbn. destruct (b0 i); (split; cbn; [exists []; reflexivity|discriminate]).
    - intros _ c w0 w1 G S. destruct (wstep_change next give c w0 w1 S) as [i d a1 S1 _ _|r d q _ _|i r v q a1 S1 _ _ _|j p a1 S1|i a1 j p a2 S1 _ S2|i r b v _ _ _]; intros h; cbn [set_agent set_req new_request w_agents].
      + unfold update. destruct (Nat.eqb_spec h i) as [->|]; [eapply gen_step; [apply G|exact S1]|apply G].
      + apply G.
      + unfold update. destruct (Nat.eqb_spec h i) as [->|]; [eapply gen_step; [apply G|exact S1]|apply G].
      + unfold update. destruct (Nat.eqb_spec h j) as [->|]; [eapply gen_step; [apply G|exact S1]|apply G].
      + assert (G1 : forall k, gen (update i a1 (w_agents w0) k)) by (intros k; unfold update; destruct (Nat.eqb_spec k i) as [->|]; [eapply gen_step; [apply G|exact S1]|apply G]).
        destruct (Nat.eq_dec h j) as [->|D].
        * replace (update j a2 (update i a1 (w_agents w0)) j) with a2 by (unfold update; now rewrite Nat.eqb_refl). eapply gen_step; [apply G1|exact S2].
        * replace (update j a2 (update i a1 (w_agents w0)) h) with (update i a1 (w_agents w0) h) by (symmetry; unfold update at 1; apply Nat.eqb_neq in D; now rewrite D). apply G1.
      + unfold update. destruct (Nat.eqb_spec h i) as [->|]; [|apply G]. split; cbn; [exact (proj1 (G i))|discriminate].
  Qed.
  Lemma wreached_tidy : forall w i, wreached w -> exists k, tidy k (w_agents w i).
  Proof.
    intros w i R. destruct (gens_pf w R i) as [[es G] _]. destruct (schedule_bound es) as (k & N & F). exists k. split; [exact (proj1 (bounded_pf es _ k F N G))|].
    revert G. apply (exec_ind step (fun _ s => fresh s)); [apply fresh_init|]. intros. eapply fresh_step; eassumption.
  Qed.

  (** The requests. *)
  Definition rheld (n : nat) w : Prop := w_count w <= n /\ forall r, n <= r -> r_thr (w_reqs w r) 0 = R_Idle.
  Definition rload (q : rstate) : nat := rleft (r_thr q 0) + if r_called q then 0 else 7.
  Definition rwork (n : nat) w : nat := total (fun r => rload (w_reqs w r)) n.
  Lemma rheld_pf : forall w, wreached w -> exists n, rheld n w.
  Proof.
    intros w [cs E]. revert E. apply (exec_ind (wstep next give) (fun _ w => exists n, rheld n w)).
    - exists 1. split; [apply le_n|reflexivity].
    - intros _ c w0 w1 (n & L & H) S. assert (X : forall r q, exists n1, w_count w0 <= n1 /\ forall s, n1 <= s -> r_thr (update r q (w_reqs w0) s) 0 = R_Idle).
      { intros r q. exists (n + Datatypes.S r). split; [lia|]. intros s Hs. unfold update. destruct (Nat.eqb_spec s r) as [->|]; [lia|apply H; lia]. }
      destruct (wstep_change next give c w0 w1 S) as [i d a1 S1 _ _|r d q _ _|i r v q a1 S1 _ _ _|j p a1 S1|i a1 j p a2 S1 _ S2|i r b v _ _ _].
      + exists n. split; assumption.
      + destruct (X r q) as (n1 & Y). exists n1. exact Y.
      + destruct (X r q) as (n1 & Y). exists n1. exact Y.
      + exists (Datatypes.S n). split; cbn; [lia|]. intros s Hs. apply H. lia.
      + exists (Datatypes.S n). split; cbn; [lia|]. intros s Hs. apply H. lia.
      + exists n. split; assumption.
  Qed.
  Lemma rload_upd : forall n w r q, r < n -> rload q < rload (w_reqs w r) -> rwork n (set_req r q w) < rwork n w.
  Proof.
    intros n w r q L H. unfold rwork. cbn [set_req w_reqs].
    pose proof (total_upd (fun s => rload (update r q (w_reqs w) s)) (fun s => rload (w_reqs w s)) n r L) as X. cbn beta in X.
    replace (update r q (w_reqs w) r) with q in X by (unfold update; now rewrite Nat.eqb_refl).
    assert (Y := X ltac:(intros k D; apply Nat.eqb_neq in D; unfold update; now rewrite D)). lia.
  Qed.
  Lemma rrun_called : forall t q q1, rrun t q = Some q1 -> r_called q1 = r_called q.
  Proof.
    intros t q q1 E. unfold rrun in E. destruct (r_thr q t) as [|v| |x|x|x|x v]; try discriminate E; injection E as <-; try reflexivity; [destruct (r_result q); reflexivity|destruct (r_cont q); reflexivity].
  Qed.
  Lemma request_less : forall n w r c w1, rheld n w -> (c = QRun 0 \/ c = QWait 0 /\ r < w_count w) -> request r c w = Some w1 ->
    w_agents w1 = w_agents w /\ w_wait w1 = w_wait w /\ rheld n w1 /\ rwork n w1 < rwork n w.
  Proof.
    intros n w r c w1 [C H] D E. destruct (request_inv _ _ _ _ E) as (q & Q & ->). split; [reflexivity|]. split; [reflexivity|].
    assert (X : r < n /\ rload q < rload (w_reqs w r)).
    { unfold rload. destruct D as [->|[-> L]]; cbn [rstep] in Q.
      - destruct (rrun_inv _ _ _ Q) as (p & P1 & P2 & P3). rewrite (rrun_called _ _ _ Q), (P1 0). cbn. split; [|lia]. destruct (le_lt_dec n r) as [Y|Y]; [|exact Y]. destruct (P3 (H r Y)).
      - destruct (is_ridle (r_thr (w_reqs w r) 0)) eqn:I; [|discriminate]. destruct (r_called (w_reqs w r)) eqn:CL; [discriminate|]. injection Q as <-. split; [lia|]. cbn. lia. }
    destruct X as [L X]. split; [|apply rload_upd; assumption]. split; [exact C|]. intros s Hs. cbn. unfold update. destruct (Nat.eqb_spec s r); [lia|apply H; exact Hs].
  Qed.

  Definition of_agent (c : wchoice) : option nat := match c with WBox i _ | WGo i | WResume i | WAnswered i | WPost i _ _ | WAsk i _ => Some i | WCall _ | WRequest _ => None end.
  Lemma asks_forward : forall w i j p, winv w -> w_wait w i = None -> deed_of next i (w_agents w i) = Some (Ask j p) -> i < j <= last.
  Proof.
    intros w i j p I W D. destruct (le_lt_dec i last) as [L|L].
    - assert (N : i <> S last) by lia. destruct (wi_owing _ _ _ _ _ _ I i L N) as (o & ST & _). unfold AskingFacts2.stands in ST. rewrite W in ST. unfold deed_of in D.
      destruct (a_body (w_agents w i)) as [b|b|f k|]; try discriminate; destruct (next i b) as [k|x b1| |] eqn:NX; try discriminate; injection D as ->; exact (proj1 (ob_ask _ _ _ _ _ _ OB i b o j p b1 ST NX)).
    - unfold deed_of in D. rewrite (proj1 (wi_none _ _ _ _ _ _ I i L)) in D. discriminate.
  Qed.
  (** A step of agent [i] is one of [lstep]; it leaves the agents before it alone, and those that there are none of. *)
  Lemma agent_case : forall w c i w1, winv w -> web_goes_on c -> of_agent c = Some i -> wstep next give c w = Some w1 ->
    lstep next give i (w_agents w1 i, w_wait w1 i) (w_agents w i, w_wait w i) /\
    forall k, k <> i -> k < i \/ last < k -> w_agents w1 k = w_agents w k /\ w_wait w1 k = w_wait w k.
  Proof.
    intros w c i w1 I G OA E.
    assert (SAME : forall k (A : Type) (x : A) f, update k x f k = x) by (intros; unfold update; now rewrite Nat.eqb_refl).
    assert (OTHER : forall k h (A : Type) (x : A) f, h <> k -> update k x f h = f h) by (intros k h A x f D; unfold update; apply Nat.eqb_neq in D; now rewrite D).
    destruct c as [h c|h t p|h p|h|h|r|r|h]; try contradiction; try discriminate; injection OA as ->; cbn [wstep] in E.
    - assert (X : alone next i (Box c) w = Some w1) by (destruct c; try discriminate; exact E). destruct (alone_inv _ _ _ _ _ X) as (a1 & S & ->). cbn. rewrite SAME. split; [eapply l_box; eassumption|].
      intros k D _. rewrite OTHER by exact D. auto.
    - destruct (w_wait w i) eqn:W; [discriminate|]. destruct (alone next i Go w) as [w2|] eqn:A; [|discriminate]. destruct (alone_inv _ _ _ _ _ A) as (a1 & S & ->). clear A.
      destruct (deed_of next i (w_agents w i)) as [[j p|r v|x]|] eqn:D.
      + destruct (ask_inv _ _ _ _ _ _ E) as (a2 & S2 & ->). destruct (asks_forward w i j p I W D) as [L1 L2]. cbn. rewrite (OTHER j i), !SAME by lia. split; [eapply l_ask; eassumption|].
        intros k Dk Lk. rewrite (OTHER j k), !OTHER by lia. auto.
      + destruct (request_inv _ _ _ _ E) as (q & Q & ->). cbn. rewrite SAME, W. split; [apply l_go; [exact S|]; intros j p; congruence|]. intros k Dk _. rewrite OTHER by exact Dk. auto.
      + injection E as <-. cbn. rewrite SAME, W. split; [apply l_go; [exact S|]; intros j p; congruence|]. intros k Dk _. rewrite OTHER by exact Dk. auto.
      + injection E as <-. cbn. rewrite SAME, W. split; [apply l_go; [exact S|]; intros j p; congruence|]. intros k Dk _. rewrite OTHER by exact Dk. auto.
    - destruct (alone_inv _ _ _ _ _ E) as (a1 & S & ->). cbn. rewrite SAME. split; [eapply l_resume; eassumption|]. intros k D _. rewrite OTHER by exact D. auto.
    - destruct (w_wait w i) as [r|] eqn:W; [|discriminate]. destruct (a_body (w_agents w i)) as [b|b|f k|] eqn:SB; try discriminate. destruct (r_fut (w_reqs w r)) as [|v| |]; try discriminate. injection E as <-. cbn. rewrite !SAME.
      split; [apply l_answered; exact SB|]. intros k D _. rewrite !OTHER by exact D. auto.
  Qed.
  Lemma request_case : forall n w c w1, rheld n w -> web_goes_on c -> of_agent c = None -> wstep next give c w = Some w1 ->
    w_agents w1 = w_agents w /\ w_wait w1 = w_wait w /\ rheld n w1 /\ rwork n w1 < rwork n w.
  Proof.
    intros n w c w1 H G OA E. destruct c as [h c|h t p|h p|h|h|r|r|h]; try discriminate; cbn [wstep] in E.
    - destruct (Nat.ltb 0 r && Nat.ltb r (w_count w) && is_idle _) eqn:X; [|discriminate]. apply andb_prop in X. destruct X as [X _]. apply andb_prop in X. destruct X as [_ X]. apply Nat.ltb_lt in X.
      eapply request_less; [exact H| |exact E]. auto.
    - eapply request_less; [exact H| |exact E]. auto.
  Qed.

  Definition nobody (u : nat) w : Prop := last < u /\ forall i, u <= i -> w_agents w i = Agent init Over [].
  Lemma nobody_pf : forall w, wreached w -> exists u, nobody u w.
  Proof.
    intros w [cs E]. revert E. apply (exec_ind (wstep next give) (fun _ w => exists u, nobody u w)).
    - exists (S last). split; [lia|]. intros i L. cbn. destruct (b0 i) as [b|] eqn:X; [|reflexivity]. destruct (ob_start _ _ _ _ _ _ OB i b X). lia.
    - intros _ c w0 w1 (u & L & H) S. assert (X : forall i a, exists u1, last < u1 /\ forall k, u1 <= k -> update i a (w_agents w0) k = Agent init Over []).
      { intros i a. exists (u + Datatypes.S i). split; [lia|]. intros k Hk. unfold update. destruct (Nat.eqb_spec k i) as [->|]; [lia|apply H; lia]. }
      destruct (wstep_change next give c w0 w1 S) as [i d a1 S1 _ _|r d q _ _|i r v q a1 S1 _ _ _|j p a1 S1|i a1 j p a2 S1 _ S2|i r b v _ _ _]; try (apply X); [exists u; split; assumption|].
      exists (u + Datatypes.S i + Datatypes.S j). split; [lia|]. intros k Hk. cbn. unfold update. destruct (Nat.eqb_spec k j); [lia|]. destruct (Nat.eqb_spec k i); [lia|apply H; lia].
  Qed.
  Lemma nobody_here : forall u w c i w1, winv w -> nobody u w -> web_goes_on c -> of_agent c = Some i -> wstep next give c w = Some w1 -> i < u.
  Proof.
    intros u w c i w1 I [L H] G OA E. destruct (le_lt_dec u i) as [X|X]; [|exact X]. exfalso. destruct (agent_case w c i w1 I G OA E) as [S _].
    rewrite (H i X), (proj2 (wi_none _ _ _ _ _ _ I i ltac:(lia))) in S. exact (lstep_over _ _ _ _ S).
  Qed.
  Lemma nobody_step : forall u w c w1, wreached w -> nobody u w -> web_goes_on c -> wstep next give c w = Some w1 -> nobody u w1.
  Proof.
    intros u w c w1 R U G E. pose proof (wreached_inv w R) as I. destruct (of_agent c) as [i|] eqn:OA.
    - pose proof (nobody_here u w c i w1 I U G OA E) as L. destruct (agent_case w c i w1 I G OA E) as [_ K]. destruct U as [LU H]. split; [exact LU|]. intros k Hk. rewrite (proj1 (K k ltac:(lia) ltac:(lia))). apply H. exact Hk.
    - destruct (rheld_pf w R) as [n N]. destruct (request_case n w c w1 N G OA E) as (X & _). destruct U as [LU H]. split; [exact LU|]. intros k Hk. rewrite X. apply H. exact Hk.
  Qed.

  Definition wlater (k : nat) (w1 w : web B O) : Prop := exists c, web_goes_on c /\ wstep next give c w = Some w1 /\ match of_agent c with Some i => k <= i | None => True end.
  Lemma wlater_rests : forall d k u w, k + d = u -> wreached w -> nobody u w -> Acc (wlater k) w.
  Proof.
    induction d as [|d IH]; intros k u w D R U.
    - destruct (rheld_pf w R) as [n N]. revert N R U. induction (well_founded_ltof _ (rwork n) w) as [w _ IHw]. intros N R U. constructor. intros w1 (c & G & E & L).
      destruct (of_agent c) as [i|] eqn:OA; [pose proof (nobody_here u w c i w1 (wreached_inv w R) U G OA E); lia|].
      destruct (request_case n w c w1 N G OA E) as (_ & _ & N1 & LT). apply IHw; [exact LT|exact N1|eapply wreached_step; eassumption|eapply nobody_step; eassumption].
    - destruct (wreached_tidy w k R) as [m T]. pose proof (local_rests next give PR k m (w_agents w k, w_wait w k) T) as A. clear m T.
      remember (w_agents w k, w_wait w k) as x eqn:EA. revert w EA R U. induction A as [x _ IHa]. intros w EA R U.
      pose proof (IH (S k) u w ltac:(lia) R U) as AL. revert EA R U. induction AL as [w _ IHn]. intros EA R U. constructor. intros w1 (c & G & E & L).
      pose proof (wreached_step _ _ _ R E) as R1. pose proof (nobody_step _ _ _ _ R U G E) as U1. destruct (of_agent c) as [i|] eqn:OA.
      + destruct (agent_case w c i w1 (wreached_inv w R) G OA E) as [E1 E2]. destruct (Nat.eq_dec i k) as [->|Ne].
        * apply (IHa (w_agents w1 k, w_wait w1 k)); [rewrite EA; exact E1|reflexivity|exact R1|exact U1].
        * destruct (E2 k ltac:(lia) ltac:(lia)) as [E3 E4]. apply IHn; [|rewrite EA, E3, E4; reflexivity|exact R1|exact U1]. exists c. rewrite OA. split; [exact G|]. split; [exact E|lia].
      + destruct (rheld_pf w R) as [n N]. destruct (request_case n w c w1 N G OA E) as (E3 & E4 & _).
        apply IHn; [|rewrite EA, E3, E4; reflexivity|exact R1|exact U1]. exists c. rewrite OA. auto.
  Qed.
  Lemma web_rests_pf : forall w, wreached w -> comes_to_rest (wstep next give) web_goes_on w.
  Proof.
    intros w R. destruct (nobody_pf w R) as [u U]. pose proof (wlater_rests u 0 u w eq_refl R U) as A. clear R U. induction A as [w _ IH]. constructor. intros w1 (c & G & E).
    apply IH. exists c. split; [exact G|]. split; [exact E|]. destruct (of_agent c); [lia|exact Logic.I].
  Qed.
  (** Looking for a step. *)
  Lemma web_look_agent : forall w i, wreached w -> (exists c w1, web_goes_on c /\ wstep next give c w = Some w1) \/ forall c, web_goes_on c -> of_agent c = Some i -> wstep next give c w = None.
  Proof.
    intros w i R. destruct (wstep next give (WGo i) w) as [w1|] eqn:E1; [left; exists (WGo i), w1; split; [exact Logic.I|exact E1]|].
    destruct (wstep next give (WResume i) w) as [w1|] eqn:E2; [left; exists (WResume i), w1; split; [exact Logic.I|exact E2]|].
    destruct (wstep next give (WAnswered i) w) as [w1|] eqn:E3; [left; exists (WAnswered i), w1; split; [exact Logic.I|exact E3]|].
    destruct (wstep next give (WBox i CTurn) w) as [w1|] eqn:E4; [left; exists (WBox i CTurn), w1; split; [exact Logic.I|exact E4]|].
    destruct (wreached_tidy w i R) as (k & W & _). destruct (search_thread (a_box (w_agents w i)) k) as [(t & s & _ & E)|H].
    { left. exists (WBox i (CRun t)). eexists. split; [exact Logic.I|]. cbn [wstep]. unfold alone. cbn [astep step]. rewrite E. reflexivity. }
    right. intros c G OA. destruct c as [h c|h t p|h p|h|h|r|r|h]; try contradiction; try discriminate; injection OA as ->; try assumption.
    destruct c as [t m|t m| | |f|f|t|t]; try contradiction; try assumption; [reflexivity|]. cbn [wstep]. unfold alone. cbn [astep step].
    destruct (le_lt_dec k t) as [L|L]; [|rewrite (H t L); reflexivity]. unfold run. destruct W as [_ W]. now rewrite (W t L).
  Qed.
  Lemma web_look_agents : forall w u, wreached w -> (exists c w1, web_goes_on c /\ wstep next give c w = Some w1) \/ forall c i, web_goes_on c -> of_agent c = Some i -> i < u -> wstep next give c w = None.
  Proof.
    intros w u R. induction u as [|u [H|H]]; [right; lia|left; exact H|]. destruct (web_look_agent w u R) as [H1|H1]; [left; exact H1|].
    right. intros c i G OA L. destruct (Nat.eq_dec i u) as [->|D]; [apply H1; assumption|eapply H; [exact G|exact OA|lia]].
  Qed.
  Lemma web_look_requests : forall w n, (exists c w1, web_goes_on c /\ wstep next give c w = Some w1) \/ forall r, r < n -> wstep next give (WCall r) w = None /\ wstep next give (WRequest r) w = None.
  Proof.
    intros w n. induction n as [|n [H|H]]; [right; lia|left; exact H|].
    destruct (wstep next give (WCall n) w) as [w1|] eqn:E1; [left; exists (WCall n), w1; split; [exact Logic.I|exact E1]|].
    destruct (wstep next give (WRequest n) w) as [w1|] eqn:E2; [left; exists (WRequest n), w1; split; [exact Logic.I|exact E2]|].
    right. intros r L. destruct (Nat.eq_dec r n) as [->|D]; [auto|apply H; lia].
  Qed.
  Lemma web_look : forall w, wreached w -> (exists c w1, web_goes_on c /\ wstep next give c w = Some w1) \/ web_quiet next give w.
  Proof.
    intros w R. destruct (nobody_pf w R) as [u U]. destruct (rheld_pf w R) as (n & N1 & N2). destruct (web_look_agents w u R) as [H|H]; [left; exact H|]. destruct (web_look_requests w n) as [H1|H1]; [left; exact H1|].
    right. intros c G. destruct (of_agent c) as [i|] eqn:OA.
    - destruct (wstep next give c w) as [w1|] eqn:E; [|reflexivity]. pose proof (nobody_here u w c i w1 (wreached_inv w R) U G OA E) as L. rewrite (H c i G OA L) in E. discriminate.
    - destruct c as [h c|h t p|h p|h|h|r|r|h]; try discriminate; (destruct (le_lt_dec n r) as [L|L]; [|apply H1; exact L]).
      + cbn [wstep]. replace (Nat.ltb r (w_count w)) with false by (symmetry; apply Nat.ltb_ge; lia). now rewrite andb_false_r.
      + cbn [wstep]. unfold request. cbn [rstep]. unfold rrun. now rewrite (N2 r L).
  Qed.
  Lemma web_end_pf : forall w, wreached w -> exists ds w1, Forall web_goes_on ds /\ exec (wstep next give) ds w = Some w1 /\ web_quiet next give w1.
  Proof.
    intros w R. pose proof (web_rests_pf w R) as A. revert R. induction A as [w _ IH]. intros R. destruct (web_look w R) as [(c & w1 & G & E)|Q].
    - destruct (IH w1 (ex_intro _ c (conj G E)) (wreached_step _ _ _ R E)) as (ds & w2 & F & X & Q). exists (c :: ds), w2. split; [constructor; assumption|]. split; [cbn [exec]; rewrite E; exact X|exact Q].
    - exists [], w. split; [constructor|]. split; [reflexivity|exact Q].
  Qed.
End Web.
Lemma passers_prompt : forall last part whole, prompt_asking (passer last part whole) (told whole).
Proof.
  intros last part whole i. assert (N : forall b, (forall o b1, passer last part whole i b <> Do o b1) -> Acc (fun b1 b => (exists o, passer last part whole i b = Do o b1 /\ forall j p, o <> Ask j p) \/ (exists j p b2 v, passer last part whole i b = Do (Ask j p) b2 /\ b1 = told whole i b2 v)) b).
  { intros b H. constructor. intros y [(o & E & _)|(j & p & b2 & v & E & _)]; destruct (H _ _ E). }
  assert (F : forall r v, Acc (fun b1 b => (exists o, passer last part whole i b = Do o b1 /\ forall j p, o <> Ask j p) \/ (exists j p b2 v, passer last part whole i b = Do (Ask j p) b2 /\ b1 = told whole i b2 v)) (Knows r v)).
  { intros r v. constructor. intros y [(o & E & _)|(j & p & b2 & x & E & _)]; [|discriminate]. injection E as _ <-. apply N. intros; discriminate. }
  intros [|p r|p r|r v]; [apply N; intros; discriminate| |apply N; intros; discriminate|apply F].
  constructor. intros y [(o & E & X)|(j & q & b2 & x & E & ->)]; [injection E as <- <-; destruct (X _ _ eq_refl)|]. injection E as <- <- <-. cbn. destruct x as [x|]; [apply F|apply N; intros; discriminate].
Qed.
