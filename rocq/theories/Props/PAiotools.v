(** Properties of aiotools (C71, C78, C79). *)
From Coq Require Import List Bool Arith Lia.
From Verif.Model Require Import Base Aiotools.
From Verif.Spec Require Import AiotoolsSpec.
Import ListNotations.

(** ** C71 *)
Lemma calls_settled : forall A (ks : list (kcall A)) f, is_done f = true -> calls ks f = (repeat (Ret tt) (length ks), f).
Proof.
  intros A ks f D. induction ks as [|k ks IH]; [reflexivity|]. cbn. assert (E : call k f = (Ret tt, f)) by (destruct k; cbn; unfold k_done, k_error, k_cancel; rewrite ?D; auto; destruct f; auto; discriminate).
  rewrite E, IH. reflexivity.
Qed.
(** The first call decides what the awaiting code sees, and no call raises.  Missing: a
    first call [error(StopIteration())], see [C71_stop_iteration_refuted]. *)
Theorem C71_first_wins_partial : forall A (k : kcall A) ks later, asks_for k <> ORaises StopIterationExn ->
  exists f, from_continuations (k :: ks) (Ret tt) = Ret f /\ sees (snd (calls later f)) (asks_for k) /\
    Forall (fun r => r = Ret tt) (fst (calls (k :: ks) Pending)) /\ Forall (fun r => r = Ret tt) (fst (calls later f)).
Proof.
  intros A k ks later N. assert (X : exists f, call k Pending = (Ret tt, f) /\ is_done f = true /\ sees f (asks_for k)).
  { destruct k; cbn; try (eexists; split; [reflexivity|]; split; [reflexivity|constructor]).
    destruct e; try (eexists; split; [reflexivity|]; split; [reflexivity|constructor]). destruct (N eq_refl). }
  destruct X as (f & E & D & S). exists f. unfold from_continuations. cbn [calls]. rewrite E, !calls_settled by exact D. cbn.
  repeat split; auto; [constructor; [reflexivity|]|]; apply Forall_forall; intros r H; apply repeat_spec in H; exact H.
Qed.
Print Assumptions C71_first_wins_partial.
Example C71_first_wins_case :
  from_continuations [KCancel; KDone 1; KError ValueError] (Ret tt) = Ret (Cancelled (A := nat)) /\
  from_continuations [KError ValueError; KDone 1] (Ret tt) = Ret (Failed ValueError).
Proof. split; reflexivity. Qed.
(** No call yet: whoever awaits waits, and the first later call decides. *)
Theorem C71_later_partial : forall A (k : kcall A) later, asks_for k <> ORaises StopIterationExn ->
  from_continuations (A := A) [] (Ret tt) = Ret Pending /\ (forall o, ~ sees (Pending (A := A)) o) /\
  sees (snd (calls (k :: later) Pending)) (asks_for k).
Proof.
  intros A k later N. split; [reflexivity|]. split; [intros o H; inversion H|].
  destruct (C71_first_wins_partial A k later [] N) as (f & E & S & _). unfold from_continuations in E. injection E as <-. exact S.
Qed.
Print Assumptions C71_later_partial.
(** A settled future never changes. *)
Theorem C71_settled_partial : forall A (ks : list (kcall A)) f o, sees f o -> calls ks f = (repeat (Ret tt) (length ks), f).
Proof. intros A ks f o S. apply calls_settled. destruct S; reflexivity. Qed.
Print Assumptions C71_settled_partial.
(** False for [error(StopIteration())]: the call raises TypeError and the awaiting code is
    not told; a later call decides. *)
Theorem C71_stop_iteration_refuted :
  calls [KError StopIterationExn; KDone 1] Pending = ([Raise TypeError; Ret tt], Done 1).
Proof. reflexivity. Qed.
Print Assumptions C71_stop_iteration_refuted.
(** When the callback raises, so does from_continuations. *)
Theorem C71_callback_raises_partial : forall A (ks : list (kcall A)) e, from_continuations ks (Raise e) = Raise e.
Proof. reflexivity. Qed.
Print Assumptions C71_callback_raises_partial.

(** ** C78: tasks are kept while they run *)
Definition ended (s : tasks) (n : nat) : Prop := exists e, In (n, e) (t_ended s).
Record tinv (s : tasks) : Prop := {
  ti_run : forall n, In n (t_running s) <-> n < t_count s /\ ~ In (n, Returns) (t_ended s);
  ti_dup : NoDup (t_running s);
  ti_once : NoDup (map fst (t_ended s));
  ti_old : forall n e, In (n, e) (t_ended s) -> n < t_count s
}.
Lemma tinv_step : forall c s r s1, tinv s -> tstep c s = Some (r, s1) -> tinv s1.
Proof.
  intros c s r s1 [I1 I2 I3 I4] E. destruct c as [tok|n e|i]; cbn [tstep] in E.
  - assert (G : forall reg, tinv (Tasks (S (t_count s)) (t_ended s) (t_count s :: t_running s) (t_cancelled s) reg (t_asked s))).
    { intros reg. constructor; cbn; auto.
      - intros n. rewrite I1. split.
        + intros [<-|[A B]]; [|split; [lia|exact B]]. split; [lia|]. intros H. specialize (I4 _ _ H). lia.
        + intros [A B]. destruct (Nat.eq_dec n (t_count s)); [auto|]. right. split; [lia|exact B].
      - constructor; [|exact I2]. rewrite I1. lia.
      - intros n e H. specialize (I4 _ _ H). lia. }
    destruct tok as [| |i]; [| |destruct (existsb (Nat.eqb i) (t_cancelled s))]; injection E as <- <-; apply G.
  - match type of E with (if ?b then _ else _) = _ => destruct b eqn:C end; [|discriminate]. injection E as <- <-.
    apply andb_true_iff in C. destruct C as [C _]. apply andb_true_iff in C. destruct C as [C1 C2]. apply Nat.ltb_lt in C1.
    assert (N : ~ In n (map fst (t_ended s))).
    { intros H. apply negb_true_iff in C2. apply in_map_iff in H. destruct H as (x & <- & H). assert (X : existsb (fun y => Nat.eqb (fst y) (fst x)) (t_ended s) = true).
      { apply existsb_exists. exists x. rewrite Nat.eqb_refl. auto. } congruence. }
    constructor; cbn.
    + intros m. destruct e; cbn.
      * unfold set_remove. rewrite filter_In, I1. split.
        -- intros [[A B] C]. split; [exact A|]. intros [H|H]; [injection H as ->; rewrite Nat.eqb_refl in C; discriminate|exact (B H)].
        -- intros [A B]. split; [split; [exact A|intros H; apply B; auto]|]. destruct (Nat.eqb_spec m n) as [->|]; [destruct B; auto|reflexivity].
      * rewrite I1. split; intros [A B]; (split; [exact A|]); intros H; apply B; [destruct H as [H|H]; [discriminate|exact H]|auto].
      * rewrite I1. split; intros [A B]; (split; [exact A|]); intros H; apply B; [destruct H as [H|H]; [discriminate|exact H]|auto].
    + destruct e; auto. apply NoDup_filter, I2.
    + constructor; assumption.
    + intros m e1 [H|H]; [injection H as <- _; exact C1|exact (I4 _ _ H)].
  - destruct (existsb (Nat.eqb i) (t_cancelled s)); injection E as <- <-; constructor; auto.
Qed.
Lemma tinv_exec : forall cs s, texec cs no_tasks = Some s -> tinv s.
Proof.
  assert (G : forall cs s s1, tinv s -> texec cs s = Some s1 -> tinv s1).
  { induction cs as [|c cs IH]; intros s s1 I E; cbn in E; [congruence|]. destruct (tstep c s) as [[r s2]|] eqn:S; [|discriminate]. eapply IH; [eapply tinv_step; eassumption|exact E]. }
  intros cs s. apply G. constructor; cbn; try constructor; intros; try tauto; try lia. 
Qed.
(** A started task is in the set of running tasks until its computation ends, and a
    computation that returns takes its task out; each task is in the set at most once. *)
Theorem C78_running_partial : forall cs s n, texec cs no_tasks = Some s ->
  (n < t_count s -> ~ ended s n -> In n (t_running s)) /\ (In (n, Returns) (t_ended s) -> ~ In n (t_running s)) /\ NoDup (t_running s).
Proof.
  intros cs s n E. apply tinv_exec in E. destruct E as [I1 I2 _ _]. split; [|split; [|exact I2]].
  - intros A B. apply I1. split; [exact A|]. intros H. apply B. eexists; exact H.
  - intros H A. apply I1 in A. tauto.
Qed.
Print Assumptions C78_running_partial.
Example C78_running_case : option_map t_running (texec [TStart NoToken; TStart NoToken; TEnd 0 Returns] no_tasks) = Some [1].
Proof. reflexivity. Qed.
(** False: a computation that raises or is cancelled leaves its task in the set for ever. *)
Theorem C78_leak_refuted : forall cs s n e, texec cs no_tasks = Some s -> In (n, e) (t_ended s) -> e <> Returns ->
  In n (t_running s) /\ forall cs1 s1, texec cs1 s = Some s1 -> In n (t_running s1).
Proof.
  intros cs s n e E H N. assert (G : forall s, tinv s -> In (n, e) (t_ended s) -> In n (t_running s)).
  { intros x [I1 _ I3 I4] X. apply I1. split; [eapply I4; exact X|]. intros Y. apply N.
    clear - I3 X Y. induction (t_ended x) as [|[m f] l IH]; [destruct X|]. cbn in I3. inversion I3; subst. destruct X as [X|X], Y as [Y|Y]; try congruence.
    - injection X as -> ->. destruct H1. apply in_map_iff. exists (n, Returns). auto.
    - injection Y as -> ->. destruct H1. apply in_map_iff. exists (n, e). auto.
    - auto. }
  pose proof (tinv_exec _ _ E) as I. split; [apply G; assumption|]. clear E. intros cs1. revert s I H. induction cs1 as [|c cs1 IH]; intros s I H s1 E; cbn in E.
  - injection E as <-. apply G; assumption.
  - destruct (tstep c s) as [[r s2]|] eqn:S; [|discriminate]. eapply IH; [eapply tinv_step; eassumption| |exact E].
    destruct c as [tok|m e1|i]; cbn [tstep] in S.
    + destruct tok as [| |i]; [| |destruct (existsb (Nat.eqb i) (t_cancelled s))]; injection S as <- <-; exact H.
    + match type of S with (if ?b then _ else _) = _ => destruct b end; [|discriminate]. injection S as <- <-. right; exact H.
    + destruct (existsb (Nat.eqb i) (t_cancelled s)); injection S as <- <-; exact H.
Qed.
Print Assumptions C78_leak_refuted.
Example C78_leak_case : option_map (fun s => (t_ended s, t_running s)) (texec [TStart NoToken; TEnd 0 Raises; TStart (TokenOf 7); TCancel 7; TEnd 1 IsCancelled] no_tasks) =
  Some ([(1, IsCancelled); (0, Raises)], [1; 0]).
Proof. reflexivity. Qed.

(** ** C79: start and tokens *)
(** start raises exactly for CancellationToken.none() and for the token of a cancelled
    source; otherwise cancelling the source later calls cancel() on the task. *)
Theorem C79_start_partial : forall s tok, exists r s1, tstep (TStart tok) s = Some (r, s1) /\
  (r = Raise ObjectDisposed <-> tok = TokenNone \/ exists i, tok = TokenOf i /\ In i (t_cancelled s)) /\ (r = Ret tt \/ r = Raise ObjectDisposed).
Proof.
  intros s [| |i]; cbn.
  - eexists _, _. split; [reflexivity|]. split; [|auto]. split; [discriminate|]. intros [H|(i & H & _)]; discriminate.
  - eexists _, _. split; [reflexivity|]. split; [|auto]. tauto.
  - destruct (existsb (Nat.eqb i) (t_cancelled s)) eqn:X; eexists _, _; (split; [reflexivity|]); (split; [|auto]).
    + split; [|auto]. intros _. right. exists i. split; [reflexivity|]. apply existsb_exists in X. destruct X as (j & A & B). apply Nat.eqb_eq in B. congruence.
    + split; [discriminate|]. intros [H|(j & H & A)]; [discriminate|]. injection H as <-. assert (Y : existsb (Nat.eqb i) (t_cancelled s) = true) by (apply existsb_exists; exists i; rewrite Nat.eqb_refl; auto). congruence.
Qed.
Print Assumptions C79_start_partial.
Lemma registered_mono : forall c s r s1 x, tstep c s = Some (r, s1) -> (In x (t_registered s) -> In x (t_registered s1)) /\ (forall n, In n (t_asked s) -> In n (t_asked s1)).
Proof.
  intros c s r s1 x S. destruct c as [tok|m e1|j]; cbn [tstep] in S.
  - destruct tok as [| |j]; [| |destruct (existsb (Nat.eqb j) (t_cancelled s))]; injection S as <- <-; cbn; auto.
  - match type of S with (if ?b then _ else _) = _ => destruct b end; [|discriminate]. injection S as <- <-. auto.
  - destruct (existsb (Nat.eqb j) (t_cancelled s)); injection S as <- <-; cbn; auto. split; [auto|]. intros n H. apply in_app_iff. auto.
Qed.
(** C78 again.  False of the token as well: its source keeps the callback, and with it the
    task, of every computation started with it, also of those that have returned. *)
Theorem C78_registration_refuted : forall cs s i s1 cs1 s2, texec cs no_tasks = Some s -> tstep (TStart (TokenOf i)) s = Some (Ret tt, s1) ->
  texec cs1 s1 = Some s2 -> In (i, t_count s) (t_registered s2).
Proof.
  intros cs s i s1 cs1 s2 _ S E. assert (G : forall cs a b x, texec cs a = Some b -> In x (t_registered a) -> In x (t_registered b)).
  { clear. induction cs as [|c cs IH]; intros a b x E H; cbn in E; [injection E as <-; exact H|].
    destruct (tstep c a) as [[r a1]|] eqn:S; [|discriminate]. eapply IH; [exact E|]. apply (proj1 (registered_mono c a r a1 x S)), H. }
  eapply G; [exact E|]. cbn in S. destruct (existsb (Nat.eqb i) (t_cancelled s)); [discriminate|]. injection S as <-. left. reflexivity.
Qed.
Print Assumptions C78_registration_refuted.
Example C78_registration_case : option_map (fun s => (t_running s, t_registered s)) (texec [TStart (TokenOf 7); TEnd 0 Returns] no_tasks) = Some ([], [(7, 0)]).
Proof. reflexivity. Qed.

(** A task started with the token of a source that is cancelled later is asked to cancel. *)
Theorem C79_cancelled_later_partial : forall cs s i s1 cs1 s2, texec cs no_tasks = Some s -> tstep (TStart (TokenOf i)) s = Some (Ret tt, s1) ->
  texec cs1 s1 = Some s2 -> In i (t_cancelled s2) -> In (t_count s) (t_asked s2).
Proof.
  intros cs s i s1 cs1 s2 E S E2 H. cbn in S. destruct (existsb (Nat.eqb i) (t_cancelled s)) eqn:X; [discriminate|]. injection S as <-.
  assert (G : forall cs s s1 n, In (i, n) (t_registered s) -> (In i (t_cancelled s) -> In n (t_asked s)) -> texec cs s = Some s1 -> In i (t_cancelled s1) -> In n (t_asked s1)).
  { clear. induction cs as [|c cs IH]; intros s s1 n R A E H; cbn in E; [injection E as <-; auto|]. destruct (tstep c s) as [[r s2]|] eqn:S; [|discriminate].
    pose proof (registered_mono c s r s2 (i, n) S) as [M1 M2]. eapply IH; [apply M1, R| |exact E|exact H].
    intros C. destruct c as [tok|m e1|j]; cbn [tstep] in S.
    - destruct tok as [| |j]; [| |destruct (existsb (Nat.eqb j) (t_cancelled s))]; injection S as <- <-; cbn in *; auto.
    - match type of S with (if ?b then _ else _) = _ => destruct b end; [|discriminate]. injection S as <- <-. auto.
    - destruct (existsb (Nat.eqb j) (t_cancelled s)) eqn:Y; injection S as <- <-; cbn in *; auto. apply in_app_iff. destruct C as [->|C]; [|auto]. left.
      apply in_map_iff. exists (i, n). split; [reflexivity|]. apply filter_In. cbn. rewrite Nat.eqb_refl. auto. }
  eapply G; [| |exact E2|exact H]; cbn; [left; reflexivity|]. intros C. exfalso.
  assert (Y : existsb (Nat.eqb i) (t_cancelled s) = true) by (apply existsb_exists; exists i; rewrite Nat.eqb_refl; auto). congruence.
Qed.
Print Assumptions C79_cancelled_later_partial.
Example C79_case : option_map t_asked (texec [TStart (TokenOf 3); TStart NoToken; TStart (TokenOf 3); TCancel 3] no_tasks) = Some [2; 0].
Proof. reflexivity. Qed.
(** False: when start raises because the token is cancelled (or is none()), the computation
    runs nevertheless, and cancelling sources never cancels it. *)
Theorem C79_raises_but_runs_refuted : exists s s1 s2, texec [TCancel 0] no_tasks = Some s /\ tstep (TStart (TokenOf 0)) s = Some (Raise ObjectDisposed, s1) /\
  In 0 (t_running s1) /\ tstep (TEnd 0 Returns) s1 = Some (Ret tt, s2) /\ In (0, Returns) (t_ended s2) /\
  forall cs s3, texec cs s1 = Some s3 -> ~ In (0, IsCancelled) (t_ended s3).
Proof.
  eexists _, _, _. split; [reflexivity|]. split; [reflexivity|]. split; [left; reflexivity|]. split; [reflexivity|]. split; [left; reflexivity|].
  assert (G : forall cs s s1, 0 < t_count s -> (forall i, ~ In (i, 0) (t_registered s)) -> ~ In 0 (t_asked s) -> ~ In (0, IsCancelled) (t_ended s) -> texec cs s = Some s1 -> ~ In (0, IsCancelled) (t_ended s1)).
  { clear. induction cs as [|c cs IH]; intros s s1 P R A N E; cbn in E; [injection E as <-; exact N|]. destruct (tstep c s) as [[r s2]|] eqn:S; [|discriminate].
    destruct c as [tok|m e1|j]; cbn [tstep] in S.
    - destruct tok as [| |j]; [| |destruct (existsb (Nat.eqb j) (t_cancelled s))]; injection S as <- <-; (eapply IH; [| | | |exact E]); cbn; auto; try lia.
      intros i [H|H]; [injection H as _ H; lia|exact (R _ H)].
    - match type of S with (if ?b then _ else _) = _ => destruct b eqn:X end; [|discriminate]. injection S as <- <-. eapply IH; [| | | |exact E]; cbn; auto. intros [H|H]; [|exact (N H)]. injection H as -> ->.
      apply andb_true_iff in X. destruct X as [_ X]. apply existsb_exists in X. destruct X as (y & Y & Z). apply Nat.eqb_eq in Z. subst. exact (A Y).
    - destruct (existsb (Nat.eqb j) (t_cancelled s)); injection S as <- <-; (eapply IH; [| | | |exact E]); cbn; auto. intros H. apply in_app_iff in H. destruct H as [H|H]; [|exact (A H)].
      apply in_map_iff in H. destruct H as ([i n] & Y & H). cbn in Y. subst. apply filter_In in H. exact (R _ (proj1 H)). }
  intros cs s3. apply G; cbn; auto.
Qed.
Print Assumptions C79_raises_but_runs_refuted.
