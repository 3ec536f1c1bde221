(** C139: agents that ask one another. *)
From Coq Require Import List Bool Arith Lia.
From Verif.Model Require Import Base Thread Aiotools Mailbox Agent Reply Request Asking.
From Verif.Spec Require Import MailboxSpec AgentSpec AiotoolsSpec RestSpec AskingSpec.
From Verif.Proofs Require Import ThreadFacts ReplyFacts RestFacts3 AskingFacts AskingFacts2 AskingFacts3 AskingFacts4 AskingFacts5.
Import ListNotations.

(** Whatever the bodies are, as long as they oblige, and in whatever order things happen: when
    nothing goes on any more, every agent is back in receive, awaits no reply and has handled all
    its messages, and everyone who asked sees a good answer. *)
Theorem C139_rest : forall B O (next : nat -> B -> act B (deed O)) give b0 last good owing cs w,
  obliging next give b0 last good owing -> exec (wstep next give) cs (web_start b0) = Some w -> web_quiet next give w ->
  (forall i, i <= last -> (exists f k, a_body (w_agents w i) = Waits f k) /\ w_wait w i = None /\ messages (rev (a_trace (w_agents w i))) = posted (s_log (a_box (w_agents w i)))) /\
  (forall r, 0 < r < w_count w -> w_to w r <= last -> exists v, sees (r_fut (w_reqs w r)) (OValue (Some v)) /\ good (w_to w r) (w_what w r) (Some v)).
Proof.
  intros B O next give b0 last good owing cs w OB E Q. pose proof (winv_pf next give b0 last good owing OB cs w E) as I. pose proof (agents_rest next give b0 last good owing OB w I Q) as A. split; [exact A|].
  intros r Hr L. destruct (A _ L) as (W & _ & M). destruct (request_rest next give last good owing w r I Q Hr L) as (v & F & G); [eapply asked_rest; eauto|].
  exists v. rewrite F. split; [constructor|exact G].
Qed.
Print Assumptions C139_rest.

(** At any time: an answer that somebody sees is a good one. *)
Theorem C139_good : forall B O (next : nat -> B -> act B (deed O)) give b0 last good owing cs w r v,
  obliging next give b0 last good owing -> exec (wstep next give) cs (web_start b0) = Some w -> 0 < r -> sees (r_fut (w_reqs w r)) (OValue v) ->
  v <> None /\ good (w_to w r) (w_what w r) v.
Proof.
  intros B O next give b0 last good owing cs w r v OB E Hr S. pose proof (winv_pf next give b0 last good owing OB cs w E) as I.
  destruct (wi_reqs _ _ _ _ _ _ I r) as [ds X]. destruct (value_pf ds _ v X S) as [t V]. destruct (wi_good _ _ _ _ _ _ I r t v ltac:(lia) V) as (N & G & _). auto.
Qed.
Print Assumptions C139_good.

(** Agents that pass a part of the work on: whoever asks agent [i] for [p] gets what the plain
    function gives, whatever else the agents are asked before, meanwhile and afterwards. *)
Theorem C139_passing : forall last part whole cs w i p w1 ds w2,
  let next := passer last part whole in let give := told whole in
  exec (wstep next give) cs (web_start (passers last)) = Some w -> i <= last ->
  wstep next give (WAsk i p) w = Some w1 -> exec (wstep next give) ds w1 = Some w2 ->
  (forall v, sees (r_fut (w_reqs w2 (w_count w))) (OValue v) -> v = Some (worked part whole (last - i) i p)) /\
  (web_quiet next give w2 -> sees (r_fut (w_reqs w2 (w_count w))) (OValue (Some (worked part whole (last - i) i p)))).
Proof.
  intros last part whole cs w i p w1 ds w2 next give E L S E2. pose proof (passers_oblige last part whole) as OB.
  assert (X : exec (wstep next give) (cs ++ WAsk i p :: ds) (web_start (passers last)) = Some w2).
  { eapply RestFacts3.exec_app; [exact E|]. cbn [exec]. rewrite S. exact E2. }
  pose proof (winv_pf next give _ last _ _ OB cs w E) as I. pose proof (wi_count _ _ _ _ _ _ I) as C0.
  assert (W1 : w_count w1 = Datatypes.S (w_count w) /\ w_to w1 (w_count w) = i /\ w_what w1 (w_count w) = p).
  { cbn [wstep] in S. destruct (ask_inv _ _ _ _ _ _ S) as (a1 & _ & ->). cbn. unfold update. rewrite Nat.eqb_refl. auto. }
  destruct W1 as (W1 & W2 & W3). destruct (kept_pf next give ds w1 w2 E2) as [K1 K2]. destruct (K2 (w_count w)) as [K3 K4]; [lia|]. rewrite W2 in K3. rewrite W3 in K4.
  split.
  - intros v V. destruct (C139_good _ _ _ _ _ _ _ _ _ _ _ _ OB X C0 V) as [_ G]. rewrite K3, K4 in G. exact G.
  - intros Q. destruct (C139_rest _ _ _ _ _ _ _ _ _ _ OB X Q) as [_ A]. destruct (A (w_count w)) as (v & V & G); [lia|rewrite K3; exact L|]. rewrite K3, K4 in G. unfold passing_good in G. rewrite <- G. exact V.
Qed.
Print Assumptions C139_passing.

(** Agent 0 is asked for 1, asks agent 1 for 2, which answers 2; the answer is 1 + 2 * 2. *)
Definition one_more (i p : nat) : nat := p + 1.
Definition twice (i p v : nat) : nat := p + 2 * v.
Definition run_box (i k : nat) : list wchoice := repeat (WBox i (CRun 0)) k.
Definition asking_schedule : list wchoice :=
  run_box 0 2 ++ [WGo 0] ++ run_box 0 12 ++ [WResume 0; WGo 0] ++ run_box 1 2 ++ [WGo 1] ++ run_box 1 12 ++ [WResume 1; WGo 1; WGo 1] ++ run_box 1 8 ++
  [WCall 1; WRequest 1; WRequest 1; WRequest 2; WRequest 2; WRequest 2; WCall 2] ++ repeat (WRequest 2) 5 ++ [WAnswered 0; WGo 0; WGo 0] ++ run_box 0 8 ++ repeat (WRequest 1) 5.
Definition asking_start : web passing Empty_set := web_start (passers 1).
Definition asking_asked : web passing Empty_set := match wstep (passer 1 one_more twice) (told twice) (WAsk 0 1) asking_start with Some w => w | None => asking_start end.
Definition asking_end : web passing Empty_set := match exec (wstep (passer 1 one_more twice) (told twice)) asking_schedule asking_asked with Some w => w | None => asking_start end.
Example C139_case :
  wstep (passer 1 one_more twice) (told twice) (WAsk 0 1) asking_start = Some asking_asked /\
  exec (wstep (passer 1 one_more twice) (told twice)) asking_schedule asking_asked = Some asking_end /\
  web_quiet (passer 1 one_more twice) (told twice) asking_end /\
  r_fut (w_reqs asking_end 1) = Done (Some 5) /\ w_to asking_end 1 = 0 /\ r_fut (w_reqs asking_end 2) = Done (Some 2) /\ w_to asking_end 2 = 1 /\
  worked one_more twice 1 0 1 = 5.
Proof.
  split; [reflexivity|].
  split. { unfold asking_end. destruct (exec _ asking_schedule asking_asked) as [n|] eqn:E; [reflexivity|]. exfalso. vm_compute in E. discriminate. }
  split.
  { intros c G. destruct c as [i c|i t p|i p|i|i|r|r|i]; try contradiction.
    - destruct c as [t m|t m| | |f|f|t|t]; try contradiction; destruct i as [|[|i]]; try (vm_compute; reflexivity); destruct t as [|t]; vm_compute; reflexivity.
    - destruct i as [|[|i]]; vm_compute; reflexivity.
    - destruct i as [|[|i]]; vm_compute; reflexivity.
    - destruct r as [|[|[|r]]]; try (vm_compute; reflexivity).
    - destruct r as [|[|[|r]]]; vm_compute; reflexivity.
    - destruct i as [|[|i]]; vm_compute; reflexivity. }
  vm_compute. repeat split.
Qed.

(** Nothing goes on for ever: from any state, whatever is chosen, the agents come to rest, and then
    C139_rest applies. *)
Theorem C139_comes_to_rest : forall B O (next : nat -> B -> act B (deed O)) give b0 last good owing cs w,
  obliging next give b0 last good owing -> prompt_asking next give -> exec (wstep next give) cs (web_start b0) = Some w ->
  comes_to_rest (wstep next give) web_goes_on w /\
  exists ds w1, Forall web_goes_on ds /\ exec (wstep next give) ds w = Some w1 /\ web_quiet next give w1.
Proof.
  intros B O next give b0 last good owing cs w OB PR E. assert (R : wreached next give b0 w) by (exists cs; exact E).
  split; [eapply web_rests_pf; eassumption|eapply web_end_pf; eassumption].
Qed.
Print Assumptions C139_comes_to_rest.
Example C139_comes_to_rest_case : forall last part whole, obliging (passer last part whole) (told whole) (passers last) last (passing_good last part whole) (passing_owing last part whole) /\ prompt_asking (passer last part whole) (told whole).
Proof. intros last part whole. split; [apply passers_oblige|apply passers_prompt]. Qed.

(** Agents that await the answers of one another, which nobody else gives, do so for ever. *)
Theorem C139_deadlock : forall B O (next : nat -> B -> act B (deed O)) give b0 cs w ds w1 (D R : nat -> Prop),
  exec (wstep next give) cs (web_start b0) = Some w -> held_up D R w -> (forall k r, ~ D k -> R r -> never_answers next k r) ->
  exec (wstep next give) ds w = Some w1 ->
  (forall i, D i -> w_wait w1 i = w_wait w i /\ a_body (w_agents w1 i) = a_body (w_agents w i) /\ a_trace (w_agents w1 i) = a_trace (w_agents w i)) /\
  (forall r v, R r -> ~ sees (r_fut (w_reqs w1 r)) (OValue v)).
Proof.
  intros B O next give b0 cs w ds w1 D R E H NA X. destruct (held_up_pf next give D R ds w w1 (replies_pf next give b0 cs w E) H NA X) as (P & [_ U] & K).
  split; [exact K|]. intros r v Rr. apply unanswered_pending; auto.
Qed.
Print Assumptions C139_deadlock.

(** Two agents that ask each other: agent 0, asked from outside, asks agent 1, which asks agent 0.
    Neither the one outside nor the agents ever get an answer. *)
Definition circle_schedule : list wchoice :=
  [WAsk 0 1] ++ run_box 0 2 ++ [WGo 0] ++ run_box 0 12 ++ [WResume 0; WGo 0] ++ run_box 1 2 ++ [WGo 1] ++ run_box 1 12 ++ [WResume 1; WGo 1] ++ run_box 0 2 ++
  [WCall 1; WRequest 1; WRequest 1; WCall 2; WRequest 2; WRequest 2; WCall 3; WRequest 3; WRequest 3].
Definition circle_end : web passing Empty_set := match exec (wstep circular (told twice)) circle_schedule (web_start (passers 1)) with Some w => w | None => web_start (passers 1) end.
Theorem C139_circle : exists cs w,
  exec (wstep circular (told twice)) cs (web_start (passers 1)) = Some w /\
  (forall i r v, i <= 1 -> circular i (told twice i (Passed 0 r) (Some v)) = Do (Answer r (Some (twice i 0 v))) Free) /\
  w_count w = 4 /\ w_to w 1 = 0 /\ w_to w 2 = 1 /\ w_to w 3 = 0 /\ w_wait w 0 = Some 2 /\ w_wait w 1 = Some 3 /\
  forall ds w1, exec (wstep circular (told twice)) ds w = Some w1 ->
    (forall r v, 0 < r < 4 -> ~ sees (r_fut (w_reqs w1 r)) (OValue v)) /\
    (forall i, i <= 1 -> w_wait w1 i = w_wait w i /\ messages (rev (a_trace (w_agents w1 i))) = [letter 1 (Datatypes.S i)]).
Proof.
  exists circle_schedule, circle_end.
  assert (E : exec (wstep circular (told twice)) circle_schedule (web_start (passers 1)) = Some circle_end).
  { unfold circle_end. destruct (exec _ circle_schedule _) as [n|] eqn:E; [reflexivity|]. exfalso. vm_compute in E. discriminate. }
  split; [exact E|]. split; [intros i r v L; unfold circular; apply Nat.leb_le in L; rewrite L; reflexivity|]. do 6 (split; [vm_compute; reflexivity|]). intros ds w1 X.
  destruct (C139_deadlock _ _ circular (told twice) (passers 1) circle_schedule circle_end ds w1 (fun i => i <= 1) (fun r => 0 < r < 4)) as [K U]; [exact E| | |exact X|].
  - split.
    + intros i L. destruct i as [|[|i]]; [exists 2, (Passed 1 1)|exists 3, (Passed 1 2)|lia]; (split; [vm_compute; reflexivity|split; [lia|vm_compute; reflexivity]]).
    + intros r Hr t v In0. destruct r as [|[|[|[|r]]]]; try lia; vm_compute in In0; intuition discriminate.
  - intros k r Nk _ b v b1 H. unfold circular in H. destruct (Nat.leb_spec k 1); [lia|discriminate].
  - split; [intros r v Hr; exact (U r v Hr)|]. intros i L. destruct (K i L) as (K1 & _ & ->). split; [exact K1|]. destruct i as [|[|i]]; [vm_compute; reflexivity|vm_compute; reflexivity|lia].
Qed.
Print Assumptions C139_circle.
