(** Lemmas about cancellation: what cancel calls. *)
From Coq Require Import List Bool Arith Lia.
From Verif.Model Require Import Base Thread Cancellation.
From Verif.Spec Require Import LogSpec CancellationSpec.
From Verif.Proofs Require Import ThreadFacts CancellationFacts CancellationFacts2 CancellationFacts3.
Import ListNotations.

(** ** Logs *)
Definition is_cc (e : event) : bool := match e with CancelCalled _ => true | _ => false end.
(** the log before the first call of cancel *)
Fixpoint pre (log : list event) : list event :=
  match log with
  | [] => []
  | e :: l => if existsb is_cc l then pre l else if is_cc e then l else e :: l
  end.
Lemma pre_fixed : forall e l, existsb is_cc l = true -> pre (e :: l) = pre l.
Proof. intros e l H. cbn. rewrite H. reflexivity. Qed.
Lemma pre_all : forall l, existsb is_cc l = false -> pre l = l.
Proof. intros [|e l] H; [reflexivity|]. cbn in *. apply orb_false_iff in H. destruct H as [-> ->]. reflexivity. Qed.
Lemma pre_incl : forall l, incl (pre l) l.
Proof.
  induction l as [|e l IH]; cbn; [apply incl_refl|]. destruct (existsb is_cc l); [apply incl_tl, IH|]. destruct (is_cc e); [apply incl_tl, incl_refl|apply incl_refl].
Qed.
Lemma pre_split : forall l2 t l1, no_cancel l1 -> pre (l2 ++ CancelCalled t :: l1) = l1.
Proof.
  intros l2 t l1 N. assert (E : existsb is_cc l1 = false).
  { destruct (existsb is_cc l1) eqn:E; [|reflexivity]. exfalso. apply existsb_exists in E. destruct E as ([] & A & B); try discriminate. exact (N _ A). }
  induction l2 as [|e l2 IH]; cbn [app pre]; [rewrite E; reflexivity|].
  replace (existsb is_cc (l2 ++ CancelCalled t :: l1)) with true; [exact IH|]. symmetry. apply existsb_exists. exists (CancelCalled t). split; [apply in_app_iff; cbn; auto|reflexivity].
Qed.
Lemma has_cc : forall l, existsb is_cc l = true <-> exists t, In (CancelCalled t) l.
Proof.
  intros l. rewrite existsb_exists. split.
  - intros ([] & A & B); try discriminate. eauto.
  - intros (t & A). exists (CancelCalled t). auto.
Qed.
(** [b] was registered before the call that registers [a] *)
Definition prec (log : list event) (b a : nat) : Prop := exists u v, before log (Registered u b) (RegisterCalled v a).
Lemma before_cons : forall (x : event) log e1 e2, before (x :: log) e1 e2 <-> before log e1 e2 \/ (x = e2 /\ In e1 log).
Proof.
  intros x log e1 e2. split.
  - intros ([|y l2] & l1 & E & H); cbn in E; injection E as <- E; [right; subst; auto|]. left. exists l2, l1. auto.
  - intros [(l2 & l1 & E & H)|[-> H]]; [exists (x :: l2), l1; rewrite E; auto|exists [], log; auto].
Qed.
Lemma before_in : forall log (e1 e2 : event), before log e1 e2 -> In e1 log /\ In e2 log.
Proof. intros log e1 e2 (l2 & l1 & -> & H). rewrite !in_app_iff. cbn. auto. Qed.
Lemma prec_cons : forall x log b a, prec (x :: log) b a -> prec log b a \/ exists v, x = RegisterCalled v a.
Proof. intros x log b a (u & v & H). apply before_cons in H. destruct H as [H|[-> _]]; [left; exists u, v; exact H|eauto]. Qed.
Lemma prec_more : forall x log b a, prec log b a -> prec (x :: log) b a.
Proof. intros x log b a (u & v & H). exists u, v. apply before_cons. auto. Qed.
Definition ordered (log : list event) (l : list nat) : Prop := ForallOrdPairs (fun a b => ~ prec log b a) l.
Lemma ordered_log : forall e log l, ordered log l -> (forall v a, e = RegisterCalled v a -> ~ In a l) -> ordered (e :: log) l.
Proof.
  intros e log l H N. induction H as [|a l F H IH]; [constructor|]. constructor; [|apply IH; intros v b E I; exact (N v b E (or_intror I))].
  rewrite Forall_forall in *. intros b B P. apply prec_cons in P. destruct P as [P|(v & ->)]; [exact (F _ B P)|]. apply (N v a eq_refl). left; reflexivity.
Qed.
Lemma ordered_app_one : forall log l k, ordered log l -> (forall a, ~ prec log k a) -> ordered log (l ++ [k]).
Proof.
  intros log l k H N. induction H as [|a l F H IH]; cbn; [constructor; [constructor|constructor]|]. constructor; [|exact IH].
  apply Forall_app. split; [exact F|]. constructor; [apply N|constructor].
Qed.
Lemma ordered_del : forall log l1 x l2, ordered log (l1 ++ x :: l2) -> ordered log (l1 ++ l2).
Proof.
  intros log l1 x l2. induction l1 as [|a l1 IH]; cbn; intros H; inversion H; subst; [assumption|]. constructor; [|apply IH; assumption].
  rewrite Forall_forall in *. intros b B. apply H2. rewrite in_app_iff in *. cbn. tauto.
Qed.
Lemma invoked_in : forall log k, In k (invoked log) <-> exists t, In (Invoked t k) log.
Proof.
  induction log as [|e log IH]; intros k; cbn; [split; [tauto|intros (t & [])]|].
  destruct e; cbn; rewrite ?in_app_iff, IH; cbn; split; try (intros (u & H); eauto; fail); try (intros (u & [H|H]); [discriminate|eauto]).
  - intros [(u & H)|[->|[]]]; eauto.
  - intros (u & [H|H]); [injection H as -> ->; auto|left; eauto].
Qed.
Lemma count_invoked : forall log k, count (is_invoked k) log = count (Nat.eqb k) (invoked log).
Proof.
  induction log as [|e log IH]; intros k; [reflexivity|]. rewrite count_cons. destruct e; cbn [is_invoked invoked]; rewrite ?IH; try reflexivity.
  unfold count. rewrite filter_app, app_length. cbn. rewrite (Nat.eqb_sym k0 k). destruct (Nat.eqb k k0); cbn; lia.
Qed.

Inductive subseq : list nat -> list nat -> Prop :=
| sub_nil : forall l, subseq [] l
| sub_keep : forall x l1 l2, subseq l1 l2 -> subseq (x :: l1) (x :: l2)
| sub_skip : forall x l1 l2, subseq l1 l2 -> subseq l1 (x :: l2).
Lemma sub_refl : forall l, subseq l l.
Proof. induction l; constructor; assumption. Qed.
Lemma sub_in : forall l1 l2, subseq l1 l2 -> incl l1 l2.
Proof. induction 1; intros y; cbn; [tauto| |right; auto]. intros [->|]; auto. Qed.
Lemma sub_nodup : forall l1 l2, subseq l1 l2 -> NoDup l2 -> NoDup l1.
Proof. induction 1; intros N; inversion N; subst; try constructor; auto. intros A. eapply sub_in in A; [|eassumption]. tauto. Qed.
Lemma sub_ordered : forall log l1 l2, subseq l1 l2 -> ordered log l2 -> ordered log l1.
Proof.
  unfold ordered. induction 1; intros N; inversion N; subst; try constructor; auto. rewrite Forall_forall in *. intros y Y. eapply sub_in in Y; [|eassumption]. auto.
Qed.
Lemma sub_tail : forall ls r l, subseq (ls ++ r) l -> subseq r l.
Proof.
  intros ls r l H. remember (ls ++ r) as m eqn:E. revert ls E. induction H; intros ls E.
  - symmetry in E. apply app_eq_nil in E. destruct E as [-> ->]. constructor.
  - destruct ls as [|y ls]; cbn in E; [subst; constructor; assumption|]. injection E as -> ->. apply sub_skip. eapply IHsubseq. reflexivity.
  - apply sub_skip. eapply IHsubseq. exact E.
Qed.
Lemma sub_drop : forall a ls r l, subseq (a ++ ls ++ r) l -> subseq (a ++ r) l.
Proof.
  intros a ls r l H. remember (a ++ ls ++ r) as m eqn:E. revert a E. induction H; intros a E.
  - symmetry in E. apply app_eq_nil in E. destruct E as [-> E]. apply app_eq_nil in E. destruct E as [_ ->]. constructor.
  - destruct a as [|y a]; cbn in E; cbn [app].
    + eapply (sub_tail ls). rewrite <- E. constructor. assumption.
    + injection E as -> ->. constructor. eapply IHsubseq. reflexivity.
  - apply sub_skip. eapply IHsubseq. exact E.
Qed.

(** ** The invariant *)
Record snap (s : state) (T : tops) (S : list nat) : Prop := {
  n_dup : NoDup S;
  n_cancel : existsb is_cc (s_log s) = true;
  n_early : forall u k, In (Registered u k) (pre (s_log s)) -> (forall v, ~ In (UnregisterCalled v k) (s_log s)) -> In k S;
  n_gone : forall k, unregistered k (pre (s_log s)) -> ~ In k S;
  n_order : ordered (s_log s) S;
  n_old : forall k, In k S -> exists u, In (RegisterCalled u k) (s_log s);
  n_notpre : forall u k, prestore (T u) = Some k -> ~ In k S;
  n_raised : forall u k, In (RegisterRaised u k) (s_log s) -> ~ In k S
}.
Definition late_event (e : event) : bool :=
  match e with CancelReturned _ | Aborted _ | Invoked _ _ | Requested _ true | RegisterRaised _ _ | Entered _ false => true | _ => false end.
Definition mark (p : option pc) : bool := match p with Some (C_Set | C_Snapshot | C_Release _ | C_Next _) => true | _ => false end.
Definition rests : Type := nat -> list nat.
Definition nums : Type := nat -> nat.
Definition own (p : option pc) : nat := match p with Some p => cancels1 (Call p) | None => 0 end.
Definition phase (s : state) (T : tops) (R : rests) (N : nums) : Prop :=
  if s_disposed s then
    (forall t, T t <> Some C_Set) /\ existsb is_cc (s_log s) = true /\
    ((exists t, T t = Some C_Snapshot /\ invoked (s_log s) = [] /\ (forall u, R u = []) /\ forall u, T u = Some C_Snapshot -> u = t) \/
     ((forall t, T t <> Some C_Snapshot) /\
      exists S t0, subseq (invoked (s_log s) ++ R t0) S /\ (forall u, u <> t0 -> R u = []) /\
        ((forall u, ~ In (Aborted u) (s_log s)) -> invoked (s_log s) ++ R t0 = S) /\ (forall u k, In (Invoked u k) (s_log s) -> u = t0) /\ snap s T S))
  else (forall e, In e (s_log s) -> late_event e = false) /\ (forall u, R u = []) /\ (forall u, N u = own (T u)) /\
       forall t, mark (T t) = true -> T t = Some C_Set.
Record inv3 (s : state) (T : tops) (R : rests) (N : nums) : Prop := {
  d_gone : forall k, unregistered k (pre (s_log s)) -> ~ In k (map snd (s_listeners s));
  d_order : ordered (s_log s) (map snd (s_listeners s));
  d_cancel : forall t p, T t = Some p -> cancels1 (Call p) = 1 -> existsb is_cc (s_log s) = true;
  d_phase : phase s T R N
}.
Lemma inv3_init : inv3 init (fun _ => None) (fun _ => []) (fun _ => 0).
Proof.
  constructor; cbn; auto; try discriminate.
  - constructor.
  - repeat split; auto; intros; [tauto|discriminate].
Qed.

Lemma unregistered_gone : forall s T, inv2 s T -> forall k, unregistered k (s_log s) -> ~ In k (map snd (s_listeners s)).
Proof.
  intros s T J k [(t & H) A] L. apply in_map_iff in L. destruct L as ([i x] & E & L). cbn in E. subst x.
  assert (C : In k (s_claimed s)).
  { specialize (A t). assert (P : 1 <= count (unregister_returned t k) (s_log s)).
    { rewrite <- A. clear - H. induction (s_log s) as [|e l IH]; [destruct H|]. rewrite count_cons. destruct H as [->|H]; [cbn; rewrite !Nat.eqb_refl; cbn; lia|specialize (IH H); lia]. }
    apply count_pos in P. destruct P as ([] & P & Q); try discriminate. cbn in Q. apply andb_true_iff in Q. destruct Q as [_ Q]. apply Nat.eqb_eq in Q. subst. eapply (a_done _ _ J); exact P. }
  destruct (a_gone _ _ J _ _ C L) as (u & j & Hh). specialize (A u). pose proof (a_count _ _ J u k) as B.
  assert (U : unreg_of (T u) = Some k) by (destruct (T u) as [[]|]; try discriminate; cbn in *; congruence). rewrite U, Nat.eqb_refl in B. lia.
Qed.
Lemma snap_step : forall t s T q s1 S, inv2 s T -> snap s T S ->
  (s_log s1 = s_log s \/ exists e, s_log s1 = e :: s_log s /\ (forall v a, e = RegisterCalled v a -> a = s_calls s) /\ (forall v a, e = RegisterRaised v a -> prestore (T t) = Some a)) ->
  (forall k, prestore q = Some k -> prestore (T t) = Some k \/ k = s_calls s) ->
  snap s1 (set_top T t q) S.
Proof.
  intros t s T q s1 S J N L Q. destruct N as [N1 N2 N3 N4 N5 N6 N7 N8].
  assert (F : ~ In (s_calls s) S).
  { intros H. destruct (N6 _ H) as (u & A). pose proof (a_fresh _ _ J _ _ A). lia. }
  constructor; auto.
  - destruct L as [->|(e & -> & _)]; [exact N2|]. cbn. rewrite N2. apply orb_true_r.
  - destruct L as [->|(e & -> & _)]; [exact N3|]. rewrite pre_fixed by exact N2. intros u k A B. eapply N3; [exact A|]. intros v C. apply (B v). right; exact C.
  - destruct L as [->|(e & -> & _)]; [exact N4|]. rewrite pre_fixed by exact N2. exact N4.
  - destruct L as [->|(e & -> & E1 & _)]; [exact N5|]. apply ordered_log; [exact N5|]. intros v a Ee. rewrite (E1 _ _ Ee). exact F.
  - intros k A. destruct (N6 _ A) as (u & B). exists u. destruct L as [->|(e & -> & _)]; [exact B|right; exact B].
  - intros u k A. bytop u t; [|eapply N7; exact A]. destruct (Q _ A) as [B| ->]; [eapply N7; exact B|exact F].
  - intros u k. destruct L as [->|(e & -> & _ & E2)]; [apply N8|]. intros [A|A]; [subst e; eapply N7, E2; reflexivity|eapply N8; exact A].
Qed.
Definition set_rest (R : rests) (t : nat) (r : list nat) : rests := fun u => if Nat.eqb u t then r else R u.
Lemma set_rest_same : forall (R : rests) t u, set_rest R t (R t) u = R u.
Proof. intros R t u. unfold set_rest. destruct (Nat.eqb_spec u t); congruence. Qed.
Lemma set_rest_this : forall R t r, set_rest R t r t = r.
Proof. intros. unfold set_rest. rewrite Nat.eqb_refl. reflexivity. Qed.
Lemma set_rest_other : forall R t r u, u <> t -> set_rest R t r u = R u.
Proof. intros. unfold set_rest. destruct (Nat.eqb_spec u t); congruence. Qed.
Definition set_num (N : nums) (t n : nat) : nums := fun u => if Nat.eqb u t then n else N u.
(** steps that do not concern the phase *)
Lemma phase_quiet : forall t s T R N q n1 s1, inv2 s T -> phase s T R N -> T t <> Some C_Snapshot -> (s_disposed s = true -> q <> Some C_Set /\ q <> Some C_Snapshot) -> (s_disposed s = false -> mark q = true -> q = Some C_Set) ->
  s_disposed s1 = s_disposed s -> (s_disposed s = false -> n1 = own q) ->
  (s_log s1 = s_log s \/ exists e, s_log s1 = e :: s_log s /\ (forall v a, e = RegisterCalled v a -> a = s_calls s) /\
     (forall v a, e = RegisterRaised v a -> prestore (T t) = Some a) /\ (forall u k, e <> Invoked u k) /\ (s_disposed s = false -> late_event e = false)) ->
  (forall k, prestore q = Some k -> prestore (T t) = Some k \/ k = s_calls s) ->
  phase s1 (set_top T t q) (set_rest R t (R t)) (set_num N t n1).
Proof.
  intros t s T R N q n1 s1 J P NS MQ MF ED EN L Q. pose proof (set_rest_same R t) as ER. unfold phase in *. rewrite ED.
  assert (LI : invoked (s_log s1) = invoked (s_log s)).
  { destruct L as [->|(e & -> & _ & _ & X & _)]; [reflexivity|]. destruct e; try reflexivity. destruct (X t0 k eq_refl). }
  assert (LC : existsb is_cc (s_log s) = true -> existsb is_cc (s_log s1) = true).
  { destruct L as [->|(e & -> & _)]; [auto|]. cbn. intros ->. apply orb_true_r. }
  assert (LL : incl (s_log s) (s_log s1)) by (destruct L as [->|(e & -> & _)]; [apply incl_refl|apply incl_tl, incl_refl]).
  destruct (s_disposed s) eqn:D.
  - destruct P as (P1 & P2 & P3). destruct (MQ eq_refl) as [M1 M2]. split; [|split; [auto|]].
    + intros u. bytop u t; [exact M1|apply P1].
    + destruct P3 as [(t0 & A1 & A2 & A3 & A4)|[A1 (S & t0 & A2 & A3 & A4 & A5 & A6)]].
      * left. exists t0. rewrite set_top_other by congruence. rewrite LI. repeat split; auto; [intros u; rewrite ER; auto|].
        intros u. bytop u t; [intros X; destruct (M2 X)|apply A4].
      * right. split; [intros u; bytop u t; [exact M2|apply A1]|]. exists S, t0. rewrite LI, ER. split; [exact A2|]. split; [|split; [|split]].
        -- intros u X. rewrite ER. auto.
        -- intros X. apply A4. intros u B. apply (X u). apply LL, B.
        -- intros u k. destruct L as [->|(e & -> & _ & _ & X & _)]; [apply A5|]. intros [H|H]; [destruct (X _ _ H)|eapply A5; exact H].
        -- eapply snap_step; [exact J|exact A6| |exact Q]. destruct L as [L|(e & L & X1 & X2 & _)]; [left; exact L|right; exists e; auto].
  - destruct P as (P1 & P2 & P4 & P3). split; [|split; [|split]].
    + intros e. destruct L as [->|(x & -> & _ & _ & _ & X)]; [apply P1|]. intros [<-|H]; auto.
    + intros u. rewrite ER. auto.
    + intros u. unfold set_num. bytop u t; [rewrite Nat.eqb_refl; auto|]. destruct (Nat.eqb_spec u t); [congruence|apply P4].
    + intros u. bytop u t; [auto|apply P3].
Qed.
Lemma no_late_invoked : forall log, (forall e, In e log -> late_event e = false) -> invoked log = [].
Proof.
  induction log as [|e log IH]; intros H; [reflexivity|]. specialize (IH (fun x X => H x (or_intror X))). specialize (H e (or_introl eq_refl)).
  destruct e; cbn in *; auto. discriminate.
Qed.

Lemma gone_step : forall s T s1 T1, inv2 s T -> inv2 s1 T1 -> (forall k, unregistered k (pre (s_log s)) -> ~ In k (map snd (s_listeners s))) ->
  (s_log s1 = s_log s \/ exists e, s_log s1 = e :: s_log s /\ (is_cc e = true -> s_listeners s1 = s_listeners s)) ->
  (forall k, In k (map snd (s_listeners s1)) -> In k (map snd (s_listeners s)) \/ forall u, ~ In (UnregisterCalled u k) (s_log s)) ->
  forall k, unregistered k (pre (s_log s1)) -> ~ In k (map snd (s_listeners s1)).
Proof.
  intros s T s1 T1 J J1 G L A k U H. destruct (existsb is_cc (s_log s)) eqn:C.
  - assert (E : pre (s_log s1) = pre (s_log s)) by (destruct L as [->|(e & -> & _)]; [reflexivity|apply pre_fixed, C]). rewrite E in U.
    destruct (A k H) as [B|B]; [exact (G k U B)|]. destruct U as [(t & U) _]. apply (B t). apply pre_incl, U.
  - destruct L as [L|(e & L & X)].
    + rewrite L in U. rewrite pre_all in U by exact C. rewrite <- L in U. exact (unregistered_gone _ _ J1 k U H).
    + rewrite L in U. cbn in U. rewrite C in U. destruct (is_cc e) eqn:Ec.
      * rewrite (X eq_refl) in H. apply (G k); [|exact H]. rewrite pre_all by exact C. exact U.
      * rewrite <- L in U. exact (unregistered_gone _ _ J1 k U H).
Qed.
