(** Agents that keep reply channels. *)
From Coq Require Import List Bool Arith Lia.
From Verif.Model Require Import Base Thread Aiotools Mailbox Agent Reply Request.
From Verif.Spec Require Import MailboxSpec AgentSpec AiotoolsSpec RequestSpec KeepingSpec.
From Verif.Proofs Require Import ReplyFacts AgentFacts AgentFacts2 RequestFacts.
Import ListNotations.

Lemma keeping_seq : forall S O (f : S -> nat -> S * list O) b tr b1, sequential (keeping f) b tr b1 ->
  forall ms, prefix (outputs tr) (snd b ++ repliesto f (fst b) (messages tr ++ ms)) /\
    (snd b1 = [] -> outputs tr = snd b ++ repliesto f (fst b) (messages tr)).
Proof.
  intros S O f b tr b1. induction 1 as [[s os]|[s [|o os]] k m tr b1 N Q IH|[s [|o os]] o1 b2 tr b1 N Q IH]; intros ms; try discriminate N; cbn.
  - split; [eexists; reflexivity|]. intros ->. reflexivity.
  - injection N as <-. specialize (IH ms). destruct (f s m) as [s1 os]. exact IH.
  - injection N as <- <-. specialize (IH ms). cbn in IH. destruct IH as [[l E] IH]. split; [exists l; rewrite E; reflexivity|]. intros H. rewrite (IH H). reflexivity.
Qed.

Section Any.
  Context {B : Type} (next : B -> act B (nat * reply_value)) (b0 : B).
  (** The caller of an asked request waits once nothing goes on. *)
  Lemma asked_called : forall cs y n, exec (ystep next) cs (system_start b0) = Some y -> system_quiet next y -> In n (y_asked y) -> r_called (y_req y n) = true.
  Proof.
    intros cs y n E Q A. pose proof (yinv_pf next b0 cs y E) as I. pose proof (quiet_agent _ y Q) as QA. pose proof (quiet_requests _ y Q n) as RI.
    destruct (y_run _ _ _ I) as [ds D2].
    assert (TI : forall t, s_thr (a_box (y_agent y)) t = Idle).
    { destruct (gen_pf _ _ ds _ D2) as [[gs G] _]. destruct (MailboxFacts6.threads_pf gs _ G) as (cons & pos & LI & _). apply (idle_quiet cons _ LI).
      intros u. specialize (QA (Box (CRun u)) Logic.I). cbn [astep] in QA. destruct (step (CRun u) (a_box (y_agent y))); [discriminate|reflexivity]. }
    destruct (y_pending _ _ _ I n A) as [H|[t H]]; [exact H|]. exfalso. specialize (Q (YGoOn t) Logic.I). cbn in Q. rewrite H in Q. destruct (y_ask _ _ _ I t n H) as [H1 _].
    rewrite (TI t), (RI t), H1 in Q. cbn in Q. discriminate.
  Qed.
  Lemma any_value : forall cs y n v, exec (ystep next) cs (system_start b0) = Some y -> sees (r_fut (y_req y n)) (OValue v) -> In (n, v) (outputs (rev (a_trace (y_agent y)))).
  Proof.
    intros cs y n v E H. pose proof (yinv_pf next b0 cs y E) as I. destruct (y_each _ _ _ I n) as [es X]. destruct (value_pf es _ v X H) as [t R].
    apply (y_replied _ _ _ I) in R. apply outputs_in, in_rev. rewrite rev_involutive. exact (proj2 R).
  Qed.
  (** When nothing goes on any more: it depends only on what the body replied to the request. *)
  Lemma any_rest : forall cs y n, exec (ystep next) cs (system_start b0) = Some y -> system_quiet next y -> In n (y_asked y) ->
    let rs := outputs (rev (a_trace (y_agent y))) in
    ((exists v, In (n, v) rs) -> ~ In (n, None) rs -> (exists v, In (n, v) rs /\ sees (r_fut (y_req y n)) (OValue v)) \/ In GaveUp (r_log (y_req y n))) /\
    ((forall v, In (n, v) rs -> v = None) -> r_fut (y_req y n) = Pending \/ In GaveUp (r_log (y_req y n))).
  Proof.
    intros cs y n E Q A rs. pose proof (yinv_pf next b0 cs y E) as I. pose proof (quiet_requests _ y Q n) as RI. pose proof (asked_called cs y n E Q A) as RC.
    destruct (y_each _ _ _ I n) as [es X]. destruct (binv_pf es _ X) as [B1 B2].
    assert (RP : forall t v, In (ReplyCalled t v) (r_log (y_req y n)) <-> t = 0 /\ In (n, v) rs).
    { intros t v. rewrite (y_replied _ _ _ I). unfold rs. rewrite outputs_in, <- in_rev. reflexivity. }
    split.
    - intros [v V] N. destruct (B1 RC) as [t [T|T]]; [rewrite RI in T; discriminate|]. destruct (B2 0 v) as [U|U]; [apply RP; auto| |rewrite RI in U; discriminate].
      destruct (completes_pf es _ t 0 X) as [(x & w & S & C)|G]; auto; [intros w W; apply N, (RP w), W|]. left. exists (Some x). split; [apply (RP w), C|exact S].
    - intros N. destruct (r_fut (y_req y n)) as [|v|e|] eqn:F; [auto| | |]; right; eapply (none_pf es _ _ X); try (intros t v0 H; apply (N v0), (RP t), H); rewrite F; constructor.
  Qed.
End Any.

Section Keeping.
  Context {S : Type} (f : S -> nat -> S * list (nat * reply_value)) (s0 : S).
  Lemma keeping_prefix : forall cs y, Forall request_on_loop cs -> exec (ystep (keeping f)) cs (keep s0) = Some y ->
    prefix (outputs (rev (a_trace (y_agent y)))) (repliesto f s0 (posted (s_log (a_box (y_agent y))))).
  Proof.
    intros cs y L E. destruct (agent_part (keeping f) (s0, []) cs y L E) as (ds & D1 & D2). destruct (agent_prefix_pf (keeping f) (s0, []) ds _ D1 D2) as ((b & SQ) & (ms & P) & _).
    rewrite P. exact (proj1 (keeping_seq _ _ f _ _ _ SQ ms)).
  Qed.
  Lemma keeping_all : forall cs y, Forall request_on_loop cs -> exec (ystep (keeping f)) cs (keep s0) = Some y ->
    system_quiet (keeping f) y -> (forall t, ~ In (CancelRequested t) (s_log (a_box (y_agent y)))) ->
    outputs (rev (a_trace (y_agent y))) = repliesto f s0 (posted (s_log (a_box (y_agent y)))).
  Proof.
    intros cs y L E Q N. destruct (agent_part (keeping f) (s0, []) cs y L E) as (ds & D1 & D2).
    destruct (agent_all_pf (keeping f) (s0, []) ds _ D1 D2 (quiet_agent _ y Q) N) as (b & SQ & [[_ [D|D]]|(g & k & W & R & M)]).
    - destruct b as [s [|o os]]; discriminate D.
    - destruct b as [s [|o os]]; discriminate D.
    - rewrite <- M. apply (proj2 (keeping_seq _ _ f _ _ _ SQ [])). destruct b as [s [|o os]]; [reflexivity|discriminate R].
  Qed.
End Keeping.

(** *** The lock *)
Section Lock.
  Context (acquire : nat -> bool).
  Notation grants ms := (repliesto (lock acquire) unlocked ms).
  Definition grant (n : nat) : nat * reply_value := (n, Some 1).
  (** What is granted is in the order in which it was asked for; never more than one more than
      was released. *)
  Lemma lock_run : forall ms held q, (held = false -> q = []) ->
    exists g, repliesto (lock acquire) (held, q) ms = map grant g /\ prefix g (q ++ acquires acquire ms) /\
      length g + (if held then 1 else 0) <= 1 + length (releases acquire ms) /\
      ((forall ms1 ms2, ms = ms1 ++ ms2 -> length (releases acquire ms1) <= length q + (if held then 1 else 0) + length (acquires acquire ms1)) ->
        g = firstn ((if held then 0 else 1) + length (releases acquire ms)) (q ++ acquires acquire ms)).
  Proof.
    induction ms as [|m ms IH]; intros held q HQ.
    - exists []. cbn. repeat split; [eexists; reflexivity|destruct held; lia|]. intros _. destruct held; [reflexivity|]. rewrite (HQ eq_refl). reflexivity.
    - cbn [repliesto]. unfold lock at 1. unfold acquires, releases. cbn [filter]. destruct (acquire m) eqn:A; cbn [negb].
      + destruct held.
        * destruct (IH true (q ++ [m])) as (g & E & P & C & D); [discriminate|]. exists g. cbn [app]. rewrite <- app_assoc in P, D. cbn in P, D. repeat split; auto.
          intros K. apply D. intros ms1 ms2 ->. specialize (K (m :: ms1) ms2 eq_refl). unfold acquires, releases in K |- *. cbn in K. rewrite A in K. cbn in K. rewrite app_length. cbn. lia.
        * rewrite (HQ eq_refl) in *. destruct (IH true []) as (g & E & [l P] & C & D); [discriminate|]. exists (m :: g). cbn in *. rewrite E. repeat split; [exists l; cbn; unfold acquires in P; rewrite P; reflexivity|unfold releases in *; lia|].
          intros K. rewrite D; [reflexivity|]. intros ms1 ms2 ->. specialize (K (m :: ms1) ms2 eq_refl). unfold acquires, releases in K |- *. cbn in K. rewrite A in K. cbn in K. lia.
      + destruct q as [|n q].
        * destruct (IH false []) as (g & E & P & C & D); [reflexivity|]. exists g. cbn in *. repeat split; auto; [unfold releases in *; destruct held; lia|].
          intros K. destruct held.
          -- rewrite D; [reflexivity|]. intros ms1 ms2 ->. specialize (K (m :: ms1) ms2 eq_refl). unfold acquires, releases in K |- *. cbn in K. rewrite A in K. cbn in K. lia.
          -- specialize (K [m] ms eq_refl). unfold acquires, releases in K. cbn in K. rewrite A in K. cbn in K. lia.
        * destruct held; [|discriminate (HQ eq_refl)]. destruct (IH true q) as (g & E & [l P] & C & D); [discriminate|]. exists (n :: g). cbn in *. rewrite E. repeat split; [exists l; cbn; unfold acquires in P; rewrite P; reflexivity|unfold releases in *; lia|].
          intros K. rewrite D; [reflexivity|]. intros ms1 ms2 ->. specialize (K (m :: ms1) ms2 eq_refl). unfold acquires, releases in K |- *. cbn in K. rewrite A in K. cbn in K. lia.
  Qed.
  (** The permits: as many grants as there were permits and releases, if so many asked. *)
  Lemma pool_run : forall ms free q, (free <> 0 -> q = []) ->
    repliesto (pool acquire) (free, q) ms = map grant (firstn (free + length (releases acquire ms)) (q ++ acquires acquire ms)).
  Proof.
    induction ms as [|m ms IH]; intros free q HQ.
    - cbn. destruct free as [|free]; [reflexivity|]. rewrite HQ by discriminate. reflexivity.
    - cbn [repliesto]. unfold pool at 1. unfold acquires, releases. cbn [filter]. destruct (acquire m) eqn:A; cbn [negb].
      + destruct free as [|free].
        * rewrite IH by congruence. rewrite <- app_assoc. reflexivity.
        * rewrite HQ by discriminate. rewrite IH by reflexivity. reflexivity.
      + destruct q as [|n q].
        * rewrite IH by reflexivity. cbn [length app]. rewrite Nat.add_succ_r. reflexivity.
        * destruct free as [|free]; [|discriminate HQ; discriminate]. rewrite IH by congruence. reflexivity.
  Qed.
End Lock.
