(** Agents that ask one another: each agent behaves as one of Model/Agent.v whose body is a script. *)
From Coq Require Import List Bool Arith Lia Cantor.
From Verif.Model Require Import Base Thread Aiotools Mailbox Agent Reply Request Asking.
From Verif.Spec Require Import MailboxSpec AgentSpec AskingSpec.
From Verif.Proofs Require Import ThreadFacts MailboxFacts MailboxFacts2 MailboxFacts3 MailboxFacts6 MailboxFacts7 AgentFacts NetworkFacts.
Import ListNotations.

Section Script.
  Context {B O : Type}.
  (** The body that does what the script says at each place, and receives elsewhere. *)
  Definition script_next (s : nat -> option O) (p : nat) : act nat O := match s p with Some o => Do o (S p) | None => Receive (fun _ => S p) end.
  Lemma script_ext : forall s s1 tr q p, sequential (script_next s) q tr p -> (forall x, x < p -> s1 x = s x) -> sequential (script_next s1) q tr p /\ q <= p.
  Proof.
    intros s s1 tr q p H. induction H as [b|b k m tr b1 N H IH|b o b0 tr b1 N H IH]; intros X; [split; [constructor|lia]| |].
    - destruct (IH X) as [S1 L]. unfold script_next in N. destruct (s b) eqn:E; [discriminate|]. injection N as <-. split; [|lia].
      eapply sq_got with (k := fun _ => S b); [|exact S1]. unfold script_next. rewrite X by lia. now rewrite E.
    - destruct (IH X) as [S1 L]. unfold script_next in N. destruct (s b) eqn:E; [|discriminate]. injection N as <- <-. split; [|lia].
      eapply sq_did; [|exact S1]. unfold script_next. rewrite X by lia. now rewrite E.
  Qed.
  Definition same_kind (x : status B) (y : status nat) : Prop :=
    match x, y with Starts _, Starts _ | Ready _, Ready _ | Over, Over => True | Waits f _, Waits g _ => f = g | _, _ => False end.
  Definition shadowed (a : agent B O) : Prop :=
    exists s sh, a_box sh = a_box a /\ a_trace sh = a_trace a /\ same_kind (a_body a) (a_body sh) /\ tinv (script_next s) 0 sh /\ ainv (script_next s) 0 sh.
  Lemma not_finished : forall s p, ~ finished (script_next s) p.
  Proof. intros s p [H|H]; unfold script_next in H; destruct (s p); discriminate. Qed.
  Lemma shadow_start : forall b, shadowed (start b).
  Proof. intros b. exists (fun _ => None), (start 0). refine (conj _ (conj _ (conj _ (conj _ _)))); [reflexivity|reflexivity|exact Logic.I|apply tinv_start|apply ainv_start]. Qed.
  (** A change of the script from the present place on. *)
  Lemma reshape : forall s s1 sh p, tinv (script_next s) 0 sh -> ainv (script_next s) 0 sh -> (a_body sh = Starts p \/ a_body sh = Ready p) ->
    (forall x, x < p -> s1 x = s x) -> tinv (script_next s1) 0 sh /\ ainv (script_next s1) 0 sh.
  Proof.
    intros s s1 sh p [T1 T2] I SB X. split.
    - constructor; [exact T1|]. destruct SB as [SB|SB]; rewrite SB in *; exact (proj1 (script_ext s s1 _ _ _ T2 X)).
    - constructor; try apply I. intros H. destruct SB; congruence.
  Qed.
  Lemma shadow_ready : forall a b, shadowed a -> (exists b1, a_body a = Ready b1) -> shadowed (Agent (a_box a) (Ready b) (a_trace a)).
  Proof.
    intros a b (s & sh & H1 & H2 & H3 & T & I) [b1 E]. exists s, sh. rewrite E in H3. cbn. refine (conj _ (conj _ (conj _ (conj _ _)))); auto.
  Qed.
  Lemma shadow_step : forall (next : B -> act B O) c a a1, shadowed a -> agent_on_loop c -> c <> Kill ->
    (forall b, c = Go -> a_body a = Starts b \/ a_body a = Ready b -> next b <> Returns /\ next b <> Raises) ->
    astep next c a = Some a1 -> shadowed a1.
  Proof.
    intros next c a a1 (s & sh & H1 & H2 & H3 & T & I) L K NF E.
    assert (G : forall s1 sh1, tinv (script_next s1) 0 sh -> ainv (script_next s1) 0 sh -> astep (script_next s1) c sh = Some sh1 ->
      a_box sh1 = a_box a1 -> a_trace sh1 = a_trace a1 -> same_kind (a_body a1) (a_body sh1) -> shadowed a1).
    { intros s1 sh1 T1 I1 S E1 E2 E3. exists s1, sh1. refine (conj E1 (conj E2 (conj E3 (conj _ _)))); [eapply tinv_step; eassumption|eapply ainv_step; eassumption]. }
    destruct c as [c| | |]; [| | |congruence].
    - assert (X : exists x, step c (a_box a) = Some x /\ a1 = Agent x (a_body a) (a_trace a) /\ match c with CReceive | CResume _ | CAbandon _ => False | _ => True end).
      { cbn [astep] in E. destruct (step c (a_box a)) as [x|] eqn:X; destruct c; try discriminate E; rewrite ?X in E; cbn in E; try discriminate E; injection E as <-; eauto. }
      destruct X as (x & X & -> & N). apply (G s (Agent x (a_body sh) (a_trace sh))); auto. cbn [astep]. rewrite H1, X. destruct c; try contradiction; reflexivity.
    - cbn [astep] in E.
      assert (X : forall b, a_body a = Starts b \/ a_body a = Ready b -> exists p, (a_body sh = Starts p \/ a_body sh = Ready p) /\
        is_idle (s_thr (a_box a) 0) = true /\ (match next b with
              | Receive k => option_map (fun s => Agent s (Waits (s_nfut (a_box a)) k) (a_trace a)) (step CReceive (a_box a))
              | Do o b => Some (Agent (a_box a) (Ready b) (Did o :: a_trace a))
              | Returns | Raises => Some (Agent (a_box a) Over (a_trace a))
              end) = Some a1).
      { intros b SB. assert (exists p, a_body sh = Starts p \/ a_body sh = Ready p) as (p & P).
        { destruct SB as [SB|SB]; rewrite SB in H3; destruct (a_body sh) as [p|p|f k|]; try contradiction; exists p; auto. }
        exists p. split; [exact P|]. destruct SB as [SB|SB]; rewrite SB in E; destruct (is_idle (s_thr (a_box a) 0)); try discriminate; auto. }
      assert (Y : exists b, a_body a = Starts b \/ a_body a = Ready b) by (destruct (a_body a) as [b|b|f k|]; try discriminate; exists b; auto).
      destruct Y as (b & SB). destruct (X b SB) as (p & SP & ID & E1). destruct (NF b eq_refl SB) as [NF1 NF2]. clear X E.
      assert (GO : forall s1, astep (script_next s1) Go sh = match script_next s1 p with
              | Receive k => option_map (fun s => Agent s (Waits (s_nfut (a_box sh)) k) (a_trace sh)) (step CReceive (a_box sh))
              | Do o b => Some (Agent (a_box sh) (Ready b) (Did o :: a_trace sh))
              | Returns | Raises => Some (Agent (a_box sh) Over (a_trace sh))
              end).
      { intros s1. cbn [astep]. rewrite H1, ID. destruct SP as [SP|SP]; rewrite SP; reflexivity. }
      destruct (next b) as [k|o b2| |]; try congruence.
      + pose (s1 := fun x => if Nat.ltb x p then s x else None).
        assert (S1 : forall x, x < p -> s1 x = s x) by (intros x Hx; unfold s1; apply Nat.ltb_lt in Hx; now rewrite Hx).
        destruct (reshape s s1 sh p T I SP S1) as [T1 I1]. cbn [step] in E1. rewrite ID in E1. injection E1 as <-.
        eapply (G s1); [exact T1|exact I1| | | |].
        * rewrite GO. unfold script_next, s1 at 1. rewrite Nat.ltb_irrefl. cbn [step]. rewrite H1, ID. reflexivity.
        * cbn. reflexivity.
        * exact H2.
        * cbn. reflexivity.
      + pose (s1 := fun x => if Nat.ltb x p then s x else Some o).
        assert (S1 : forall x, x < p -> s1 x = s x) by (intros x Hx; unfold s1; apply Nat.ltb_lt in Hx; now rewrite Hx).
        destruct (reshape s s1 sh p T I SP S1) as [T1 I1]. injection E1 as <-.
        eapply (G s1); [exact T1|exact I1| | | |].
        * rewrite GO. unfold script_next, s1 at 1. rewrite Nat.ltb_irrefl. reflexivity.
        * exact H1.
        * cbn. now rewrite H2.
        * exact Logic.I.
    - cbn [astep] in E. destruct (a_body a) as [b|b|f k|] eqn:SB; try discriminate. destruct (a_body sh) as [p|p|g k1|] eqn:SP; try contradiction. cbn in H3. subst g.
      destruct (s_over (a_box a) f) eqn:OV.
      + destruct (is_idle (s_thr (a_box a) 0)) eqn:ID; [|discriminate]. injection E as <-. eapply (G s); [exact T|exact I| | | |].
        * cbn [astep]. rewrite SP, H1, OV, ID. reflexivity.
        * cbn. reflexivity.
        * exact H2.
        * exact Logic.I.
      + destruct (step (CResume f) (a_box a)) as [x|] eqn:SX; [|discriminate]. injection E as <-. eapply (G s); [exact T|exact I| | | |].
        * cbn [astep]. rewrite SP, H1, OV, SX. reflexivity.
        * destruct (s_fut (a_box a) f); reflexivity.
        * destruct (s_fut (a_box a) f); cbn; now rewrite H2.
        * destruct (s_fut (a_box a) f); exact Logic.I.
  Qed.
  (** Messages that were got have been posted. *)
  Lemma in_messages : forall (tr : list (happening O)) m, In m (messages tr) <-> In (Got m) tr.
  Proof.
    induction tr as [|[x|x] tr IH]; intros m; cbn; [tauto| |]; rewrite IH.
    - split; (intros [H|H]; [left; congruence|right; exact H]).
    - split; [auto|]. intros [H|H]; [discriminate|exact H].
  Qed.
  Lemma shadow_got : forall a m, shadowed a -> In (Got m) (a_trace a) -> In m (posted (s_log (a_box a))).
  Proof.
    intros a m (s & sh & H1 & H2 & _ & T & I) H. destruct (agent_prefix_inv _ _ sh T I) as (_ & [l P] & _). rewrite <- H1, P. apply in_or_app. left.
    apply in_messages. rewrite H2. apply -> in_rev. exact H.
  Qed.
  (** At rest the body awaits receive and has got everything. *)
  Lemma shadow_rest : forall (next : B -> act B O) a, shadowed a -> (forall c, match c with Box c => goes_on c | Resume => True | _ => False end -> astep next c a = None) ->
    (forall t, ~ In (CancelRequested t) (s_log (a_box a))) -> (forall b, a_body a <> Starts b /\ a_body a <> Ready b) ->
    (exists f k, a_body a = Waits f k) /\ messages (rev (a_trace a)) = posted (s_log (a_box a)).
  Proof.
    intros next a (s & sh & H1 & H2 & H3 & T & I) Q NC NB.
    assert (AQ : agent_quiet (script_next s) sh).
    { intros c GC. destruct c as [c| | |]; [| | |contradiction].
      - pose proof (Q (Box c) GC) as X. cbn [astep] in *. rewrite H1. destruct (step c (a_box a)); destruct c; try reflexivity; discriminate.
      - cbn [astep]. destruct (a_body sh) as [p|p|f k|] eqn:SP; try reflexivity; destruct (a_body a) as [b|b|f k|] eqn:SB; try contradiction; destruct (NB b); congruence.
      - pose proof (Q Resume Logic.I) as X. cbn [astep] in *. rewrite H1. destruct (a_body sh) as [p|p|f k|]; try reflexivity; destruct (a_body a) as [b|b|g k1|]; try contradiction. cbn in H3. subst g.
        destruct (s_over (a_box a) f); [destruct (is_idle (s_thr (a_box a) 0)); [discriminate|reflexivity]|]. destruct (step (CResume f) (a_box a)); [discriminate|reflexivity]. }
    rewrite <- H1 in NC. destruct (agent_all_inv _ _ sh T I AQ NC) as (p & _ & [[_ F]|(f & k & W & _ & M)]); [destruct (not_finished _ _ F)|].
    rewrite W in H3. destruct (a_body a) as [b|b|g k1|]; try contradiction. split; [eauto|]. now rewrite <- H1, <- H2.
  Qed.
End Script.
