(** Systems of requests come to rest. *)
From Coq Require Import List Bool Arith Lia Wf_nat.
From Verif.Model Require Import Base Thread Aiotools Mailbox Agent Reply Request.
From Verif.Spec Require Import MailboxSpec AgentSpec RequestSpec RestSpec.
From Verif.Proofs Require Import ThreadFacts AgentFacts AgentFacts2 RequestFacts RestFacts.
Import ListNotations.

Definition rleft (p : rpc) : nat :=
  match p with R_Idle => 0 | R_Set _ | W_Set => 6 | K_Result _ => 5 | K_Cont _ => 4 | K_Arg _ => 3 | K_Done _ _ => 2 end.
(** A step of a reply or of a caller makes one thread go to a place with less left. *)
Lemma rrun_inv : forall t r r1, rrun t r = Some r1 -> exists p, (forall u, r_thr r1 u = if Nat.eqb u t then p else r_thr r u) /\ rleft p < rleft (r_thr r t) /\ r_thr r t <> R_Idle.
Proof.
  intros t r r1 E. unfold rrun in E. destruct (r_thr r t) as [|v| |w|w|w|w v] eqn:T; try discriminate E.
  - injection E as <-. eexists. split; [intros u; reflexivity|]. cbn. split; [lia|discriminate].
  - injection E as <-. eexists. split; [intros u; reflexivity|]. cbn. split; [lia|discriminate].
  - destruct (r_result r); injection E as <-; (eexists; split; [intros u; reflexivity|]); cbn; (split; [lia|discriminate]).
  - destruct (r_cont r); injection E as <-; (eexists; split; [intros u; reflexivity|]); cbn; (split; [lia|discriminate]).
  - injection E as <-. eexists. split; [intros u; reflexivity|]. cbn. split; [lia|discriminate].
  - injection E as <-. eexists. split; [intros u; reflexivity|]. cbn. split; [lia|discriminate].
Qed.

Section Requests.
  Context {B : Type} (next : B -> act B (nat * reply_value)).
  (** No request from [n] on and no thread from [t] on has anything to do. *)
  Definition held (n t : nat) (y : system B) : Prop :=
    (forall i u, n <= i \/ t <= u -> r_thr (y_req y i) u = R_Idle) /\ (forall u i, y_asking y u = Some i -> u < t /\ i < n).
  Definition rwork (n t : nat) (y : system B) : nat :=
    total (fun i => total (fun u => rleft (r_thr (y_req y i) u)) t) n + total (fun u => match y_asking y u with Some _ => 7 | None => 0 end) t.
  Lemma held_more : forall n t n1 t1 y, held n t y -> n <= n1 -> t <= t1 -> held n1 t1 y.
  Proof.
    intros n t n1 t1 y [H1 H2] L1 L2. split.
    - intros i u H. apply H1. lia.
    - intros u i H. apply H2 in H. lia.
  Qed.
  Lemma held_upd : forall n t y y1 i u p r, held n t y -> i < n -> u < t -> y_req y1 = update i r (y_req y) -> (forall v, r_thr r v = if Nat.eqb v u then p else r_thr (y_req y i) v) ->
    (forall v k, y_asking y1 v = Some k -> v < t /\ k < n) -> held n t y1.
  Proof.
    intros n t y y1 i u p r [H1 _] L1 L2 E1 E2 H2. split; [|exact H2]. intros k v H. rewrite E1. unfold update. destruct (Nat.eqb_spec k i) as [->|D]; [|apply H1; exact H].
    rewrite E2. destruct (Nat.eqb_spec v u) as [->|D]; [lia|]. apply H1. exact H.
  Qed.
  Lemma req_upd : forall n t i u p r (f : nat -> rstate), i < n -> u < t -> (forall v, r_thr r v = if Nat.eqb v u then p else r_thr (f i) v) ->
    total (fun k => total (fun v => rleft (r_thr (update i r f k) v)) t) n + rleft (r_thr (f i) u) = total (fun k => total (fun v => rleft (r_thr (f k) v)) t) n + rleft p.
  Proof.
    intros n t i u p r f L1 L2 E.
    assert (X1 : total (fun k => total (fun v => rleft (r_thr (update i r f k) v)) t) n + total (fun v => rleft (r_thr (f i) v)) t =
      total (fun k => total (fun v => rleft (r_thr (f k) v)) t) n + total (fun v => rleft (r_thr r v)) t).
    { pose proof (total_upd (fun k => total (fun v => rleft (r_thr (update i r f k) v)) t) (fun k => total (fun v => rleft (r_thr (f k) v)) t) n i L1) as X. cbn beta in X.
      replace (total (fun v => rleft (r_thr (update i r f i) v)) t) with (total (fun v => rleft (r_thr r v)) t) in X by (unfold update; now rewrite Nat.eqb_refl).
      apply X. intros k D. apply Nat.eqb_neq in D. unfold update. now rewrite D. }
    pose proof (total_upd (fun v => rleft (r_thr r v)) (fun v => rleft (r_thr (f i) v)) t u L2) as Z. cbn beta in Z. rewrite (E u), Nat.eqb_refl in Z.
    assert (Z1 := Z ltac:(intros k D; apply Nat.eqb_neq in D; rewrite E; now rewrite D)). lia.
  Qed.
  Lemma ystep_agent : forall c y y1, ystep next (YAgent c) y = Some y1 -> astep next c (y_agent y) = Some (y_agent y1) /\ y_asking y1 = y_asking y /\
    (y_req y1 = y_req y \/ exists i v r, y_req y1 = update i r (y_req y) /\ forall u, r_thr r u = if Nat.eqb u 0 then R_Set v else r_thr (y_req y i) u).
  Proof.
    intros c y y1 E. cbn [ystep] in E.
    assert (X : match astep next c (y_agent y) with
            | None => None
            | Some a =>
                match replies next c (y_agent y) with
                | Some (n, v) => option_map (fun r => System a (update n r (y_req y)) (y_asking y) (y_asked y) (y_count y)) (rstep (QReply 0 v) (y_req y n))
                | None => Some (System a (y_req y) (y_asking y) (y_asked y) (y_count y))
                end
            end = Some y1) by (destruct c as [[]| | |]; try discriminate E; exact E). clear E.
    destruct (astep next c (y_agent y)) as [a|]; [|discriminate]. destruct (replies next c (y_agent y)) as [[i v]|].
    - destruct (rstep (QReply 0 v) (y_req y i)) as [r|] eqn:R; [|discriminate]. injection X as <-. split; [reflexivity|]. split; [reflexivity|]. right. exists i, v, r. split; [reflexivity|].
      cbn [rstep] in R. destruct (is_ridle _); [|discriminate]. injection R as <-. intros u. reflexivity.
    - injection X as <-. split; [reflexivity|]. split; [reflexivity|]. left. reflexivity.
  Qed.
  Lemma held_agent : forall n t c y y1, held n t y -> ystep next (YAgent c) y = Some y1 -> exists n1 t1, held n1 t1 y1.
  Proof.
    intros n t c y y1 H E. destruct (ystep_agent c y y1 E) as (_ & A & [R|(i & v & r & R & X)]).
    - exists n, t. destruct H as [H1 H2]. split; [intros k u; rewrite R; apply H1|intros u k; rewrite A; apply H2].
    - exists (max n (S i)), (max t 1). assert (H3 : held (max n (S i)) (max t 1) y) by (eapply held_more; [exact H|lia|lia]).
      apply (held_upd _ _ y y1 i 0 (R_Set v) r); auto; try lia. intros u k. rewrite A. apply H3.
  Qed.
  (** The steps of the requests. *)
  Lemma request_step : forall n t c y y1, held n t y -> match c with YGoOn _ | YRequest _ _ => True | _ => False end -> ystep next c y = Some y1 ->
    y_agent y1 = y_agent y /\ held n t y1 /\ rwork n t y1 < rwork n t y.
  Proof.
    intros n t c y y1 H G E. destruct c as [u|u|u|i u|i|c]; try contradiction; cbn [ystep] in E.
    - destruct (y_asking y u) as [i|] eqn:A; [|discriminate]. destruct (is_idle _); [|discriminate]. destruct (rstep (QWait u) (y_req y i)) as [r|] eqn:R; [|discriminate]. injection E as <-.
      cbn [rstep] in R. destruct (is_ridle (r_thr (y_req y i) u)) eqn:I; [|discriminate]. destruct (negb (r_called (y_req y i))); [|discriminate]. injection R as <-.
      destruct (proj2 H u i A) as [L1 L2]. split; [reflexivity|].
      assert (X : forall v, r_thr (rgoto u W_Set (rset_called (y_req y i))) v = if Nat.eqb v u then W_Set else r_thr (y_req y i) v) by reflexivity. split.
      + apply (held_upd n t y _ i u W_Set (rgoto u W_Set (rset_called (y_req y i)))); auto. intros v k. cbn. unfold update. destruct (Nat.eqb v u); [discriminate|]. apply H.
      + unfold rwork. cbn [y_req y_asking]. pose proof (req_upd n t i u W_Set _ (y_req y) L2 L1 X) as Z.
        pose proof (total_upd (fun v => match update u None (y_asking y) v with Some _ => 7 | None => 0 end) (fun v => match y_asking y v with Some _ => 7 | None => 0 end) t u L1) as K.
        cbn beta in K. replace (update u None (y_asking y) u) with (@None nat) in K by (unfold update; now rewrite Nat.eqb_refl). rewrite A in K. assert (K1 := K ltac:(intros k D; apply Nat.eqb_neq in D; unfold update; now rewrite D)).
        cbn [rleft] in Z. destruct (r_thr (y_req y i) u); try discriminate I. cbn [rleft] in Z. lia.
    - destruct (rstep (QRun u) (y_req y i)) as [r|] eqn:R; [|discriminate]. injection E as <-. cbn [rstep] in R. destruct (rrun_inv u (y_req y i) r R) as (p & X & LS & NI).
      assert (L : i < n /\ u < t). { destruct (le_lt_dec n i) as [L|L]; [destruct (NI (proj1 H i u (or_introl L)))|]. destruct (le_lt_dec t u) as [L1|L1]; [destruct (NI (proj1 H i u (or_intror L1)))|auto]. }
      split; [reflexivity|]. split.
      + apply (held_upd n t y _ i u p r); try apply L; auto. apply H.
      + unfold rwork. cbn [y_req y_asking]. pose proof (req_upd n t i u p r (y_req y) (proj1 L) (proj2 L) X) as Z. lia.
  Qed.
  Lemma held_pf : forall b0 cs y, exec (ystep next) cs (system_start b0) = Some y -> exists n t, held n t y.
  Proof.
    intros b0 cs y E. revert E. apply (exec_ind (ystep next) (fun _ y => exists n t, held n t y)).
    - exists 0, 0. split; [reflexivity|discriminate].
    - clear. intros cs c y y1 (n & t & H) E. destruct c as [u|u|u|i u|i|c].
      + cbn [ystep] in E. destruct (astep _ _ _); [|discriminate]. injection E as <-. exists n, t. exact H.
      + cbn [ystep] in E. destruct (y_asking y u); [discriminate|]. destruct (astep _ _ _); [|discriminate]. injection E as <-. exists (max n (S (y_count y))), (max t (S u)). split.
        * intros i v K. cbn. apply H. lia.
        * intros v i. cbn. unfold update. destruct (Nat.eqb_spec v u) as [->|D]; [intros K; injection K as <-; lia|]. intros K. apply (proj2 H) in K. lia.
      + exists n, t. eapply request_step; [exact H| |exact E]. exact Logic.I.
      + exists n, t. eapply request_step; [exact H| |exact E]. exact Logic.I.
      + cbn [ystep] in E. destruct (rstep QGiveUp (y_req y i)) as [r|] eqn:R; [|discriminate]. injection E as <-. exists n, t. cbn [rstep] in R. destruct (existsb _ _); [|discriminate]. injection R as <-.
        split; [|apply H]. intros k v K. cbn. unfold update. destruct (Nat.eqb_spec k i) as [->|D]; cbn; apply H; exact K.
      + eapply held_agent; eassumption.
  Qed.
  Hypothesis PR : prompt next.
  Lemma system_rests : forall a, comes_to_rest (astep next) agent_goes_on a -> forall n t y, y_agent y = a -> held n t y -> comes_to_rest (ystep next) system_goes_on y.
  Proof.
    intros a A. induction A as [a _ IH]. intros n t y. induction (well_founded_ltof _ (rwork n t) y) as [y _ IHy]. intros EA H. constructor. intros y1 (c & G & E).
    destruct c as [u|u|u|i u|i|c]; try contradiction.
    - destruct (request_step n t (YGoOn u) y y1 H Logic.I E) as (E1 & H1 & L). apply IHy; [exact L|congruence|exact H1].
    - destruct (request_step n t (YRequest i u) y y1 H Logic.I E) as (E1 & H1 & L). apply IHy; [exact L|congruence|exact H1].
    - destruct (held_agent n t c y y1 H E) as (n1 & t1 & H1). destruct (ystep_agent c y y1 E) as [A1 _]. apply (IH (y_agent y1)) with (n := n1) (t := t1); auto.
      exists c. split; [exact G|]. rewrite <- EA. exact A1.
  Qed.
  Lemma find_below : forall (P : nat -> Prop), (forall i, P i \/ ~ P i) -> forall n, (exists i, i < n /\ P i) \/ forall i, i < n -> ~ P i.
  Proof.
    intros P D n. induction n as [|n IH]; [right; intros; lia|]. destruct IH as [(i & L & H)|H]; [left; exists i; split; [lia|exact H]|].
    destruct (D n) as [Y|N]; [left; exists n; split; [lia|exact Y]|]. right. intros i L. destruct (Nat.eq_dec i n) as [->|X]; [exact N|apply H; lia].
  Qed.
  Lemma system_search : forall n t k y, held n t y -> within k (a_box (y_agent y)) -> (exists c y1, system_goes_on c /\ ystep next c y = Some y1) \/ system_quiet next y.
  Proof.
    intros n t k y H W.
    assert (D : forall c, (exists y1, ystep next c y = Some y1) \/ ~ exists y1, ystep next c y = Some y1). { intros c. destruct (ystep next c y) as [y1|]; [left; eauto|right; intros [y1 X]; discriminate]. }
    destruct (find_below (fun u => exists y1, ystep next (YGoOn u) y = Some y1) (fun u => D _) t) as [(u & _ & y1 & E)|N1]; [left; exists (YGoOn u), y1; split; [exact Logic.I|exact E]|].
    destruct (find_below (fun i => exists u, u < t /\ exists y1, ystep next (YRequest i u) y = Some y1)
      (fun i => match find_below _ (fun u => D (YRequest i u)) t with or_introl X => or_introl X | or_intror X => or_intror (fun Z => match Z with ex_intro _ u (conj L K) => X u L K end) end) n)
      as [(i & _ & u & _ & y1 & E)|N2]; [left; exists (YRequest i u), y1; split; [exact Logic.I|exact E]|].
    assert (R : forall i u, r_thr (y_req y i) u = R_Idle).
    { intros i u. destruct (le_lt_dec n i) as [L|L]; [apply H; auto|]. destruct (le_lt_dec t u) as [L1|L1]; [apply H; auto|].
      destruct (r_thr (y_req y i) u) as [|v| |w|w|w|w v] eqn:T; [reflexivity|exfalso; apply (N2 i L); exists u; split; [exact L1|]; cbn [ystep rstep]; unfold rrun; rewrite T; cbn; eauto ..]. }
    destruct (agent_search next k (y_agent y) W) as [(c & a1 & G & E)|Q].
    - left. exists (YAgent c).
      assert (X : exists z, ystep next (YAgent c) y = Some z).
      { cbn [ystep]. destruct (replies next c (y_agent y)) as [[i v]|] eqn:RE; destruct c as [[]| | |]; try contradiction; rewrite E; try discriminate RE; eauto; rewrite ?RE; cbn; rewrite ?(R i 0); cbn; eauto. }
      destruct X as [z X]. exists z. split; [exact G|exact X].
    - right. intros c G. destruct c as [u|u|u|i u|i|c]; try contradiction.
      + destruct (le_lt_dec t u) as [L|L].
        * cbn [ystep]. destruct (y_asking y u) as [i|] eqn:A; [|reflexivity]. destruct (proj2 H u i A). lia.
        * destruct (ystep next (YGoOn u) y) as [y1|] eqn:E; [|reflexivity]. destruct (N1 u L). eauto.
      + cbn [ystep rstep]. unfold rrun. now rewrite (R i u).
      + destruct (ystep next (YAgent c) y) as [y1|] eqn:E; [|reflexivity]. destruct (ystep_agent c y y1 E) as [A _].
        assert (Z : astep next c (y_agent y) = None) by (apply Q; destruct c as [c| | |]; auto). congruence.
  Qed.
  Lemma system_end_pf : forall b0 cs y, exec (ystep next) cs (system_start b0) = Some y ->
    comes_to_rest (ystep next) system_goes_on y /\ exists ds y1, Forall system_goes_on ds /\ exec (ystep next) ds y = Some y1 /\ system_quiet next y1.
  Proof.
    intros b0 cs y E.
    assert (ST : forall cs y, exec (ystep next) cs (system_start b0) = Some y -> exists n t k, held n t y /\ tidy k (y_agent y)).
    { intros ds z E1. destruct (held_pf b0 ds z E1) as (n & t & H). destruct (y_run _ _ _ (yinv_pf next b0 ds z E1)) as [es X]. destruct (tidy_pf next b0 es _ X) as [k T]. eauto. }
    assert (A : comes_to_rest (ystep next) system_goes_on y).
    { destruct (ST cs y E) as (n & t & k & H & T). exact (system_rests _ (agent_rests_pf next PR k _ T) n t y eq_refl H). }
    split; [exact A|]. revert cs E. induction A as [y _ IH]. intros cs E. destruct (ST cs y E) as (n & t & k & H & T).
    destruct (system_search n t k y H (proj1 T)) as [(c & y1 & G & S1)|Q].
    - destruct (IH y1 (ex_intro _ c (conj G S1)) (cs ++ [c])) as (ds & y2 & F & X & Q); [eapply exec_snoc; eassumption|].
      exists (c :: ds), y2. split; [constructor; assumption|]. split; [cbn [exec]; now rewrite S1|exact Q].
    - exists [], y. split; [constructor|]. split; [reflexivity|exact Q].
  Qed.
End Requests.
