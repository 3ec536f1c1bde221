(** Nets of agents come to rest. *)
From Coq Require Import List Bool Arith Lia Wf_nat.
From Verif.Model Require Import Base Thread Aiotools Mailbox Agent Network.
From Verif.Spec Require Import MailboxSpec AgentSpec NetworkSpec RestSpec.
From Verif.Proofs Require Import ThreadFacts MailboxFacts6 AgentFacts AgentFacts2 NetworkFacts RestFacts.
Import ListNotations.

Section Network.
  Context {B O : Type} (next : nat -> B -> act B (effect O)) (b0 : nat -> option B) (last : nat) (FW : forward next b0 last).
  Definition reached (n : net B O) : Prop := exists cs, exec (nstep next) cs (start_all b0) = Some n.
  Lemma reached_step : forall c n n1, reached n -> nstep next c n = Some n1 -> reached n1.
  Proof. intros c n n1 [cs E] S. exists (cs ++ [c]). eapply exec_snoc; eassumption. Qed.
  Lemma reached_tidy : forall n i, reached n -> exists k, tidy k (n_agents n i).
  Proof.
    intros n i [cs E]. destruct (ni_run _ _ _ _ (ninv_pf next b0 False cs n ltac:(contradiction) E) i) as (ds & _ & X).
    assert (G : gen (n_agents n i)).
    { revert X. apply (exec_ind (astep (next i)) (fun _ a => gen a)); [|intros; eapply gen_step; eassumption].
      unfold begun. destruct (b0 i); (split; cbn; [exists []; reflexivity|discriminate]). }
    destruct G as [[es G] _]. destruct (schedule_bound es) as (k & N & F). exists k. split; [exact (proj1 (bounded_pf es _ k F N G))|].
    revert G. apply (exec_ind step (fun _ s => fresh s)); [apply fresh_init|]. intros. eapply fresh_step; eassumption.
  Qed.
  Lemma nobody_acts : forall n i, reached n -> b0 i = None -> a_body (n_agents n i) = Over.
  Proof.
    intros n i [cs E] H. destruct (ni_run _ _ _ _ (ninv_pf next b0 False cs n ltac:(contradiction) E) i) as (ds & _ & X). unfold begun in X. rewrite H in X. revert X.
    apply (exec_ind (astep (next i)) (fun _ a => a_body a = Over)); [reflexivity|]. intros es c a a1 V S. destruct c as [c| | |]; cbn [astep] in S; rewrite ?V in S; try discriminate S.
    - destruct c; try discriminate S; (match type of S with option_map _ ?x = _ => destruct x; [|discriminate S] end); injection S as <-; reflexivity.
    - destruct (s_flag (a_box a)); discriminate.
  Qed.
  Lemma sending_forward : forall n i c j m, reached n -> sending next i c (n_agents n i) = Some (j, m) -> i < j <= last.
  Proof.
    intros n i c j m R H. pose proof (nobody_acts n i R) as NB. unfold sending in H. destruct c; try discriminate H. destruct (a_body (n_agents n i)) as [b|b|f k|]; try discriminate H;
      (destruct (next i b) as [k|[j1 m1|o] b1| |] eqn:N; try discriminate H; injection H as <- <-; eapply fw_sends; [exact FW| |exact N]; intros X; specialize (NB X); discriminate).
  Qed.
  (** A step of agent [i] is a step of that agent and leaves those before it alone. *)
  Lemma nstep_inv : forall i c n n1, reached n -> nstep next (i, c) n = Some n1 ->
    astep (next i) c (n_agents n i) = Some (n_agents n1 i) /\ (forall k, k < i -> n_agents n1 k = n_agents n k).
  Proof.
    intros i c n n1 R E. cbn [nstep] in E. destruct (astep (next i) c (n_agents n i)) as [a1|] eqn:A; [|discriminate].
    destruct (sending next i c (n_agents n i)) as [[j m]|] eqn:SD.
    - apply (sending_forward n i c j m R) in SD. destruct (step _ _); [|discriminate]. injection E as <-. cbn [n_agents]. rewrite place_other, place_same by lia. split; [reflexivity|].
      intros k L. rewrite !place_other by lia. reflexivity.
    - injection E as <-. cbn [n_agents]. rewrite place_same. split; [reflexivity|]. intros k L. rewrite place_other by lia. reflexivity.
  Qed.
  (** Steps of the agents from [k] on. *)
  Definition later (k : nat) (n1 n : net B O) : Prop := exists i c, k <= i /\ agent_goes_on c /\ nstep next (i, c) n = Some n1.
  (** Mailboxes from [k] on were never touched. *)
  Definition untouched (k : nat) (n : net B O) : Prop := last < k /\ forall i, k <= i -> n_agents n i = Agent init Over [].
  Lemma untouched_no : forall k n i c, untouched k n -> k <= i -> agent_goes_on c -> astep (next i) c (n_agents n i) = None.
  Proof.
    intros k n i c [_ U] L G. rewrite (U i L). destruct c as [c| | |]; try contradiction; try reflexivity. destruct c as [t m|t m| | |f|f|t|t]; try contradiction; reflexivity.
  Qed.
  Lemma untouched_step : forall k n i c n1, reached n -> untouched k n -> agent_goes_on c -> nstep next (i, c) n = Some n1 -> untouched k n1.
  Proof.
    intros k n i c n1 R U G E. assert (L : i < k). { destruct (le_lt_dec k i) as [H|H]; [|exact H]. apply (nstep_inv _ _ _ _ R) in E. rewrite (untouched_no k n i c U H G) in E. destruct E. discriminate. }
    destruct U as [LT U]. split; [exact LT|]. intros u Hu. cbn [nstep] in E. destruct (astep (next i) c (n_agents n i)) as [a1|]; [|discriminate].
    destruct (sending next i c (n_agents n i)) as [[j m]|] eqn:SD.
    - apply (sending_forward n i c j m R) in SD. destruct (step _ _); [|discriminate]. injection E as <-. cbn [n_agents]. rewrite !place_other by lia. apply U. exact Hu.
    - injection E as <-. cbn [n_agents]. rewrite place_other by lia. apply U. exact Hu.
  Qed.
  Lemma untouched_pf : forall cs n, exec (nstep next) cs (start_all b0) = Some n -> exists k, untouched k n.
  Proof.
    intros cs n E. assert (X : exists k, last < k /\ Forall (fun c => fst c < k) cs).
    { clear E. induction cs as [|[i c] cs (k & L & F)]; [exists (S last); split; [lia|constructor]|]. exists (k + S i). split; [lia|]. constructor; [cbn; lia|]. eapply Forall_impl; [|exact F]. cbn. intros; lia. }
    destruct X as (k & L & F). exists k. split; [exact L|]. revert F.
    apply (exec_ind (nstep next) (fun cs n => reached n /\ (Forall (fun c => fst c < k) cs -> forall i, k <= i -> n_agents n i = Agent init Over [])) (start_all b0)) with (cs := cs) (s := n); [| |exact E].
    - split; [exists []; reflexivity|]. intros _ i H. cbn. rewrite (fw_agents _ _ _ FW i) by lia. reflexivity.
    - intros ds [i c] x y [R IH] ST. split; [eapply reached_step; eassumption|]. intros F u Hu. apply Forall_app in F. destruct F as [F1 F2]. inversion F2 as [|? ? Li _]; subst. cbn in Li. cbn [nstep] in ST.
      destruct (astep (next i) c (n_agents x i)) as [a1|]; [|discriminate]. destruct (sending next i c (n_agents x i)) as [[j m]|] eqn:SD.
      + apply (sending_forward x i c j m R) in SD. destruct (step _ _); [|discriminate]. injection ST as <-. cbn [n_agents]. rewrite !place_other by lia. apply IH; assumption.
      + injection ST as <-. cbn [n_agents]. rewrite place_other by lia. apply IH; assumption.
  Qed.
  Lemma later_rests : forall d k u n, k + d = u -> reached n -> untouched u n -> Acc (later k) n.
  Proof.
    induction d as [|d IH]; intros k u n D R U.
    - constructor. intros n1 (i & c & L & G & E). apply (nstep_inv _ _ _ _ R) in E. destruct E as [E _]. rewrite (untouched_no u n i c U ltac:(lia) G) in E. discriminate.
    - destruct (reached_tidy n k R) as [w T]. pose proof (agent_rests_pf (next k) (fw_prompt _ _ _ FW k) w _ T) as A. clear w T.
      remember (n_agents n k) as a eqn:EA. revert n EA R U. induction A as [a _ IHa]. intros n EA R U.
      pose proof (IH (S k) u n ltac:(lia) R U) as AL. revert EA R U. induction AL as [n _ IHn]. intros EA R U. constructor. intros n1 (i & c & L & G & E).
      pose proof (reached_step _ _ _ R E) as R1. pose proof (untouched_step _ _ _ _ _ R U G E) as U1. destruct (nstep_inv _ _ _ _ R E) as [E1 E2].
      destruct (Nat.eq_dec i k) as [->|Ne].
      + apply (IHa (n_agents n1 k)); [|reflexivity|exact R1|exact U1]. exists c. split; [exact G|]. rewrite EA. exact E1.
      + apply IHn; [|rewrite EA; symmetry; apply E2; lia|exact R1|exact U1]. exists i, c. split; [lia|]. split; [exact G|exact E].
  Qed.
  Lemma acc_sub : forall A (R S : A -> A -> Prop) x, (forall a b, S a b -> R a b) -> Acc R x -> Acc S x.
  Proof. intros A R S x H AC. induction AC as [x _ IH]. constructor. intros y HS. apply IH. apply H. exact HS. Qed.
  Lemma net_rests_pf : forall cs n, exec (nstep next) cs (start_all b0) = Some n -> comes_to_rest (nstep next) net_goes_on n.
  Proof.
    intros cs n E. destruct (untouched_pf cs n E) as [u U]. eapply acc_sub; [|exact (later_rests u 0 u n eq_refl (ex_intro _ cs E) U)].
    intros x y ([i c] & G & S). exists i, c. split; [lia|]. split; [exact G|exact S].
  Qed.
  (** Looking for a step. *)
  Lemma agent_look : forall n i, reached n -> (exists c n1, agent_goes_on c /\ nstep next (i, c) n = Some n1) \/ forall c, agent_goes_on c -> nstep next (i, c) n = None.
  Proof.
    intros n i R. destruct (nstep next (i, Go) n) as [n1|] eqn:G; [left; exists Go, n1; split; [exact Logic.I|exact G]|].
    destruct (nstep next (i, Resume) n) as [n1|] eqn:RS; [left; exists Resume, n1; split; [exact Logic.I|exact RS]|].
    destruct (nstep next (i, Box CTurn) n) as [n1|] eqn:T; [left; exists (Box CTurn), n1; split; [exact Logic.I|exact T]|].
    destruct (reached_tidy n i R) as (k & W & _).
    destruct (search_thread (a_box (n_agents n i)) k) as [(t & s & _ & E)|H].
    { left. exists (Box (CRun t)). eexists. split; [exact Logic.I|]. cbn [nstep astep step]. rewrite E. reflexivity. }
    right. intros c GO. destruct c as [c| | |]; try contradiction; try assumption. destruct c as [t m|t m| | |f|f|t|t]; try contradiction; try assumption.
    - reflexivity.
    - cbn [nstep astep step]. destruct (le_lt_dec k t) as [L|L]; [|rewrite (H t L); reflexivity]. unfold run. destruct W as [_ W]. now rewrite (W t L).
  Qed.
  Lemma net_look : forall n k, reached n -> (exists i c n1, agent_goes_on c /\ nstep next (i, c) n = Some n1) \/ forall i c, i < k -> agent_goes_on c -> nstep next (i, c) n = None.
  Proof.
    intros n k R. induction k as [|k [H|H]]; [right; lia|left; exact H|]. destruct (agent_look n k R) as [(c & n1 & G & E)|H1]; [left; eauto|].
    right. intros i c L G. destruct (Nat.eq_dec i k) as [->|D]; [apply H1; exact G|apply H; [lia|exact G]].
  Qed.
  Lemma net_end_pf : forall cs n, exec (nstep next) cs (start_all b0) = Some n -> exists ds n1, Forall net_goes_on ds /\ exec (nstep next) ds n = Some n1 /\ all_quiet next n1.
  Proof.
    intros cs n E. pose proof (net_rests_pf cs n E) as A. destruct (untouched_pf cs n E) as [u U]. assert (R : reached n) by (exists cs; exact E). clear E cs. revert U R.
    induction A as [n _ IH]. intros U R. destruct (net_look n u R) as [(i & c & n1 & G & E)|Q].
    - destruct (IH n1 (ex_intro _ (i, c) (conj G E)) (untouched_step _ _ _ _ _ R U G E) (reached_step _ _ _ R E)) as (ds & n2 & F & X & Q).
      exists ((i, c) :: ds), n2. split; [constructor; assumption|]. split; [cbn [exec]; rewrite E; exact X|exact Q].
    - exists [], n. split; [constructor|]. split; [reflexivity|]. intros i c G. destruct (le_lt_dec u i) as [L|L]; [|exact (Q i c L G)].
      cbn [nstep]. rewrite (untouched_no u n i c U L G). reflexivity.
  Qed.
End Network.
