(** Steps that go on add nothing from outside. *)
From Coq Require Import List Bool Arith Lia.
From Verif.Model Require Import Base Thread Aiotools Mailbox Agent Network.
From Verif.Spec Require Import MailboxSpec AgentSpec NetworkSpec RestSpec.
From Verif.Proofs Require Import ThreadFacts AgentFacts AgentFacts2 NetworkFacts RestFacts RestFacts2.
Import ListNotations.

Lemma exec_app : forall C S (step : C -> S -> option S) cs ds s s1 s2, exec step cs s = Some s1 -> exec step ds s1 = Some s2 -> exec step (cs ++ ds) s = Some s2.
Proof. intros C S step cs. induction cs as [|c cs IH]; intros ds s s1 s2 E1 E2; cbn in *; [injection E1 as ->; exact E2|]. destruct (step c s); [|discriminate]. eapply IH; eassumption. Qed.
Lemma going_keeps : forall B O (next : B -> act B O) ds a a1, Forall agent_goes_on ds -> exec (astep next) ds a = Some a1 ->
  posted (s_log (a_box a1)) = posted (s_log (a_box a)) /\ forall t, In (CancelRequested t) (s_log (a_box a1)) -> In (CancelRequested t) (s_log (a_box a)).
Proof.
  assert (K : forall c s s1, step c s = Some s1 -> match c with CCancelToken _ => False | _ => True end -> forall t, In (CancelRequested t) (s_log s1) -> In (CancelRequested t) (s_log s)).
  { intros c s s1 E N u H. destruct c as [t m|t m| | |f|f|t|t]; try contradiction; cbn [step] in E.
    - destruct (is_idle _); [|discriminate]. injection E as <-. destruct H as [H|H]; [discriminate|exact H].
    - destruct (is_idle _); [|discriminate]. injection E as <-. destruct H as [H|H]; [discriminate|exact H].
    - destruct (is_idle _); [|discriminate]. injection E as <-. exact H.
    - destruct (s_ready s); [discriminate|]. destruct (is_idle _); [|discriminate]. injection E as <-. exact H.
    - destruct (awaited f s); [|discriminate]. destruct (s_fut s f); try discriminate; injection E as <-; (destruct H as [H|H]; [discriminate|exact H]).
    - destruct (awaited f s); [|discriminate]. injection E as <-. destruct H as [H|H]; [discriminate|exact H].
    - unfold run in E. destruct (s_thr s t); try discriminate E; try (injection E as <-; exact H).
      + destruct (s_cont s); injection E as <-; (destruct H as [H|H]; [discriminate|exact H]).
      + injection E as <-. destruct c; exact H.
      + destruct (acquire _ _); [|discriminate]. injection E as <-. exact H.
      + destruct (s_queue s); [discriminate|]. injection E as <-. exact H.
      + injection E as <-. destruct c; exact H.
      + destruct (release _ _); [|discriminate]. injection E as <-. exact H. }
  intros B O next ds. induction ds as [|c ds IH]; intros a a1 F E; cbn in E; [injection E as <-; auto|]. inversion F as [|? ? G F1]; subst.
  destruct (astep next c a) as [a2|] eqn:S; [|discriminate]. destruct (IH a2 a1 F1 E) as [P1 P2]. rewrite P1. clear IH E P1 F F1.
  assert (Q : posted (s_log (a_box a2)) = posted (s_log (a_box a)) /\ forall t, In (CancelRequested t) (s_log (a_box a2)) -> In (CancelRequested t) (s_log (a_box a))); [|destruct Q as [Q1 Q2]; split; [exact Q1|auto]].
  assert (X : a_box a2 = a_box a \/ exists d, step d (a_box a) = Some (a_box a2) /\ match d with CPost _ _ | CAsk _ _ | CCancelToken _ => False | _ => True end).
  { destruct c as [c| | |]; try contradiction; cbn [astep] in S.
    - destruct c as [t m|t m| | |f|f|t|t]; try contradiction; try discriminate S;
        [destruct (step CTurn (a_box a)) as [s|] eqn:T|destruct (step (CRun t) (a_box a)) as [s|] eqn:T]; try discriminate S; injection S as <-; right; eexists; (split; [exact T|exact Logic.I]).
    - assert (Y : exists b, (if is_idle (s_thr (a_box a) 0) then match next b with
              | Receive k => option_map (fun s => Agent s (Waits (s_nfut (a_box a)) k) (a_trace a)) (step CReceive (a_box a))
              | Do o b => Some (Agent (a_box a) (Ready b) (Did o :: a_trace a))
              | Returns | Raises => Some (Agent (a_box a) Over (a_trace a)) end else None) = Some a2) by (destruct (a_body a); try discriminate S; eauto).
      destruct Y as [b Y]. destruct (is_idle _); [|discriminate]. destruct (next b); [|injection Y as <-; left; reflexivity ..].
      destruct (step CReceive (a_box a)) as [s|] eqn:T; [|discriminate]. injection Y as <-. right. exists CReceive. split; [exact T|exact Logic.I].
    - destruct (a_body a) as [b|b|f k|]; try discriminate. destruct (s_over (a_box a) f).
      + destruct (is_idle _); [|discriminate]. injection S as <-. left. reflexivity.
      + destruct (step (CResume f) (a_box a)) as [s|] eqn:T; [|discriminate]. right. exists (CResume f). split; [|exact Logic.I]. destruct (s_fut (a_box a) f); injection S as <-; exact T. }
  destruct X as [->|(d & D & N)]; [auto|]. split; [rewrite (step_posted _ _ _ D); destruct d; try contradiction; now rewrite app_nil_r|].
  apply (K d); [exact D|]. destruct d; auto.
Qed.

Lemma filter_rev' : forall A (p : A -> bool) l, rev (filter p l) = filter p (rev l).
Proof. intros A p l. induction l as [|a l IH]; [reflexivity|]. cbn. rewrite filter_app. cbn. rewrite <- IH. destruct (p a); [reflexivity|]. now rewrite app_nil_r. Qed.
Lemma net_going_keeps : forall B O (next : nat -> B -> act B (effect O)) ds n n1, Forall net_goes_on ds -> exec (nstep next) ds n = Some n1 ->
  from_outside (n_mail n1) = from_outside (n_mail n) /\ (never_cancelled n -> never_cancelled n1).
Proof.
  intros B O next ds. induction ds as [|[i c] ds IH]; intros n n1 F E; [injection E as <-; auto|]. inversion F as [|? ? G F1]; subst.
  change (match nstep next (i, c) n with Some s => exec (nstep next) ds s | None => None end = Some n1) in E.
  destruct (nstep next (i, c) n) as [n2|] eqn:S; [|discriminate]. destruct (IH n2 n1 F1 E) as [P1 P2]. rewrite P1. clear IH E P1 F F1.
  cut (from_outside (n_mail n2) = from_outside (n_mail n) /\ (never_cancelled n -> never_cancelled n2)); [intros [Q1 Q2]; auto|].
  cbn [nstep] in S. destruct (astep (next i) c (n_agents n i)) as [a1|] eqn:A; [|discriminate].
  assert (K : forall t, In (CancelRequested t) (s_log (a_box a1)) -> In (CancelRequested t) (s_log (a_box (n_agents n i)))).
  { apply (going_keeps _ _ (next i) [c]); [constructor; [exact G|constructor]|]. cbn. now rewrite A. }
  assert (PL : never_cancelled n -> forall j t, ~ In (CancelRequested t) (s_log (a_box (place i a1 (n_agents n) j)))).
  { intros NC j t H. unfold place in H. destruct (Nat.eqb j i); [apply (NC i t), K, H|apply (NC j t), H]. }
  destruct (sending next i c (n_agents n i)) as [[j m]|].
  - destruct (step (CPost 0 m) _) as [s|] eqn:T; [|discriminate]. injection S as <-. split; [reflexivity|]. intros NC k t H. cbn [n_agents] in H. unfold place at 1 in H.
    destruct (Nat.eqb k j); [|exact (PL NC k t H)]. cbn [a_box] in H. apply (PL NC j t). cbn [step] in T. destruct (is_idle _); [|discriminate]. injection T as <-. destruct H as [H|H]; [discriminate|exact H].
  - injection S as <-. split; [|exact PL]. cbn [n_mail]. destruct c as [[t m|t m| | |g|g|t|t]| | |]; try reflexivity; contradiction.
Qed.

From Verif.Model Require Import Reply Request.
From Verif.Spec Require Import RequestSpec.
From Verif.Proofs Require Import RestFacts5.
Lemma gave_up_kept : forall c r r1, rstep c r = Some r1 -> c <> QGiveUp -> In GaveUp (r_log r1) -> In GaveUp (r_log r).
Proof.
  intros c r r1 E N H. destruct c as [t v|t| |t]; [| |congruence|]; cbn [rstep] in E.
  - destruct (is_ridle _); [|discriminate]. injection E as <-. destruct H as [H|H]; [discriminate|exact H].
  - destruct (is_ridle _ && _); [|discriminate]. injection E as <-. exact H.
  - assert (K : forall w s, In GaveUp (r_log (returned t w s)) -> In GaveUp (r_log s)). { intros w s [X|X]; [destruct w; discriminate X|exact X]. }
    unfold rrun in E. destruct (r_thr r t); try discriminate E.
    + injection E as <-. exact H.
    + injection E as <-. exact H.
    + destruct (r_result r); injection E as <-; [exact H|apply (K _ _ H)].
    + destruct (r_cont r); injection E as <-; [exact H|apply (K _ _ H)].
    + injection E as <-. exact H.
    + injection E as <-. apply (K _ _ H).
Qed.
Lemma system_going_keeps : forall B (next : B -> act B (nat * reply_value)) ds y y1, Forall system_goes_on ds -> exec (ystep next) ds y = Some y1 ->
  y_asked y1 = y_asked y /\ posted (s_log (a_box (y_agent y1))) = posted (s_log (a_box (y_agent y))) /\
  (forall t, In (CancelRequested t) (s_log (a_box (y_agent y1))) -> In (CancelRequested t) (s_log (a_box (y_agent y)))) /\
  (forall n, In GaveUp (r_log (y_req y1 n)) -> In GaveUp (r_log (y_req y n))).
Proof.
  intros B next ds. induction ds as [|c ds IH]; intros y y1 F E; [injection E as <-; auto|]. inversion F as [|? ? G F1]; subst. cbn [exec] in E.
  destruct (ystep next c y) as [y2|] eqn:S; [|discriminate]. destruct (IH y2 y1 F1 E) as (P1 & P2 & P3 & P4). rewrite P1, P2.
  cut (y_asked y2 = y_asked y /\ posted (s_log (a_box (y_agent y2))) = posted (s_log (a_box (y_agent y))) /\
    (forall t, In (CancelRequested t) (s_log (a_box (y_agent y2))) -> In (CancelRequested t) (s_log (a_box (y_agent y)))) /\
    (forall n, In GaveUp (r_log (y_req y2 n)) -> In GaveUp (r_log (y_req y n)))); [intros (Q1 & Q2 & Q3 & Q4); split; [exact Q1|split; [exact Q2|split; [intros t H; apply Q3, P3, H|intros n H; apply Q4, P4, H]]]|].
  clear IH E P1 P2 P3 P4 F F1 ds y1. destruct c as [t|t|t|n t|n|c]; try contradiction; cbn [ystep] in S.
  - destruct (y_asking y t) as [n|]; [|discriminate]. destruct (is_idle _); [|discriminate]. destruct (rstep (QWait t) (y_req y n)) as [r|] eqn:R; [|discriminate]. injection S as <-.
    cbn. split; [reflexivity|]. split; [reflexivity|]. split; [auto|]. intros k. unfold update. destruct (Nat.eqb_spec k n) as [->|D]; [|auto]. apply (gave_up_kept _ _ _ R). discriminate.
  - destruct (rstep (QRun t) (y_req y n)) as [r|] eqn:R; [|discriminate]. injection S as <-.
    cbn. split; [reflexivity|]. split; [reflexivity|]. split; [auto|]. intros k. unfold update. destruct (Nat.eqb_spec k n) as [->|D]; [|auto]. apply (gave_up_kept _ _ _ R). discriminate.
  - destruct (ystep_agent next c y y2 S) as (A & _ & _).
    destruct (going_keeps _ _ next [c] (y_agent y) (y_agent y2)) as [K1 K2]; [constructor; [exact G|constructor]|cbn; now rewrite A|].
    split; [|split; [exact K1|split; [exact K2|]]].
    + assert (X : y_asked y2 = y_asked y); [|exact X]. destruct (astep next c (y_agent y)); [|destruct c as [[]| | |]; discriminate S].
      destruct (replies next c (y_agent y)) as [[k v]|]; [destruct (rstep (QReply 0 v) (y_req y k))|]; destruct c as [[]| | |]; try discriminate S; injection S as <-; reflexivity.
    + intros k. destruct (astep next c (y_agent y)); [|destruct c as [[]| | |]; discriminate S].
      destruct (replies next c (y_agent y)) as [[i v]|]; [destruct (rstep (QReply 0 v) (y_req y i)) as [r|] eqn:R|]; destruct c as [[]| | |]; try discriminate S; injection S as <-; cbn; auto;
        unfold update; (destruct (Nat.eqb_spec k i) as [->|D]; [|auto]); apply (gave_up_kept _ _ _ R); discriminate.
Qed.
