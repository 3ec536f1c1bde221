(** Lemmas about cancellation: stacks, the lock, and the steps seen through a view of the stacks. *)
From Coq Require Import List Bool Arith Lia.
From Verif.Model Require Import Base Thread Cancellation.
From Verif.Spec Require Import LogSpec CancellationSpec.
From Verif.Proofs Require Import ThreadFacts.
Import ListNotations.

(** ** Stacks and the lock *)
Fixpoint user_stack (st : list frame) : Prop :=
  match st with
  | [User] => True
  | User :: Call (C_Wait _) :: st => user_stack st
  | _ => False
  end.
Definition waiting (p : pc) : bool := match p with C_Wait _ => true | _ => false end.
Definition good_stack (st : list frame) : Prop :=
  match st with Call p :: st => waiting p = false /\ user_stack st | _ => user_stack st end.
Definition critical (p : option pc) : bool :=
  match p with
  | Some (C_Test | C_Set | C_Snapshot | C_Release _ | R_Read _ | R_Store _ _ | R_Incr _ _ | R_Release _ _ | U_Del _ _ | U_Release _ _) => true
  | _ => false
  end.
Definition top (st : list frame) : option pc := match st with Call p :: _ => Some p | _ => None end.
Definition rest1 (f : frame) : list nat := match f with Call (C_Release ls | C_Next ls | C_Wait ls) => ls | _ => [] end.
Definition rest (st : list frame) : list nat := concat (map rest1 st).
Definition cancels1 (f : frame) : nat :=
  match f with Call (C_Acquire | C_Test | C_Set | C_Snapshot | C_Release _ | C_Next _ | C_Wait _) => 1 | _ => 0 end.
Definition cancels (st : list frame) : nat := list_sum (map cancels1 st).
Definition view : Type := (option pc * list nat * nat)%type.
Definition look (st : list frame) : view := (top st, rest st, cancels st).

Record inv1 (s : state) : Prop := {
  i_good : forall t, good_stack (s_stacks s t);
  i_crit : forall t, critical (top (s_stacks s t)) = true -> s_lock s = Some (t, 1);
  i_lock : forall o n, s_lock s = Some (o, n) -> n = 1 /\ critical (top (s_stacks s o)) = true
}.
Lemma user_top : forall st, user_stack st -> top st = None.
Proof. intros [|[|p] st]; cbn; tauto. Qed.
Lemma user_good : forall st, user_stack st -> good_stack st.
Proof. intros [|[|p] st]; cbn; tauto. Qed.

(** ** Steps through the view *)
Inductive vstep (t : nat) (s : state) : view -> view -> state -> Prop :=
| v_cancel : forall r n, vstep t s (None, r, n) (Some C_Acquire, r, S n) (say (CancelCalled t) s)
| v_register : forall r n, vstep t s (None, r, n) (Some (R_Check (s_calls s)), r, n) (say (RegisterCalled t (s_calls s)) (count_call s))
| v_unregister : forall r n k i, find_handle k (s_handles s) = Some i ->
    vstep t s (None, r, n) (Some (U_Claim k i), r, n) (say (UnregisterCalled t k) s)
| v_read : forall r n, vstep t s (None, r, n) (None, r, n) (say (Requested t (s_disposed s)) s)
| v_enter : forall r n, vstep t s (None, r, n) (None, r, n) (say (Entered t (negb (s_disposed s))) s)
| v_end : forall ls r n, vstep t s (None, ls ++ r, S n) (Some (C_Next ls), ls ++ r, S n) s
| v_abort : forall ls r n, vstep t s (None, ls ++ r, S n) (None, r, n) (say (Aborted t) s)
| v_c_acquire : forall r n, s_lock s = None -> vstep t s (Some C_Acquire, r, n) (Some C_Test, r, n) (set_lock (Some (t, 1)) s)
| v_c_test : forall r n, vstep t s (Some C_Test, r, n) (Some (if s_disposed s then C_Release [] else C_Set), r, n) s
| v_c_set : forall r n, vstep t s (Some C_Set, r, n) (Some C_Snapshot, r, n) (set_disposed s)
| v_c_snapshot : forall r n,
    vstep t s (Some C_Snapshot, r, n) (Some (C_Release (map snd (s_listeners s))), map snd (s_listeners s) ++ r, n) s
| v_c_release : forall ls r n, s_lock s = Some (t, 1) -> vstep t s (Some (C_Release ls), r, n) (Some (C_Next ls), r, n) (set_lock None s)
| v_c_return : forall r n, vstep t s (Some (C_Next []), r, S n) (None, r, n) (say (CancelReturned t) s)
| v_c_invoke : forall k ls r n, vstep t s (Some (C_Next (k :: ls)), k :: ls ++ r, n) (None, ls ++ r, n) (say (Invoked t k) s)
| v_r_raise : forall k r n, s_disposed s = true -> vstep t s (Some (R_Check k), r, n) (None, r, n) (say (RegisterRaised t k) s)
| v_r_check : forall k r n, s_disposed s = false -> vstep t s (Some (R_Check k), r, n) (Some (R_Acquire k), r, n) s
| v_r_acquire : forall k r n, s_lock s = None -> vstep t s (Some (R_Acquire k), r, n) (Some (R_Read k), r, n) (set_lock (Some (t, 1)) s)
| v_r_read : forall k r n, vstep t s (Some (R_Read k), r, n) (Some (R_Store k (s_id s)), r, n) s
| v_r_store : forall k i r n, vstep t s (Some (R_Store k i), r, n) (Some (R_Incr k i), r, n) (set_listeners (dict_set i k (s_listeners s)) s)
| v_r_incr : forall k i r n, vstep t s (Some (R_Incr k i), r, n) (Some (R_Release k i), r, n) (set_id (S (s_id s)) s)
| v_r_release : forall k i r n, s_lock s = Some (t, 1) ->
    vstep t s (Some (R_Release k i), r, n) (None, r, n) (say (Registered t k) (add_handle k i (set_lock None s)))
| v_u_again : forall k i r n, In k (s_claimed s) -> vstep t s (Some (U_Claim k i), r, n) (None, r, n) (say (Unregistered t k) s)
| v_u_claim : forall k i r n, ~ In k (s_claimed s) -> vstep t s (Some (U_Claim k i), r, n) (Some (U_Acquire k i), r, n) (claim k s)
| v_u_acquire : forall k i r n, s_lock s = None -> vstep t s (Some (U_Acquire k i), r, n) (Some (U_Del k i), r, n) (set_lock (Some (t, 1)) s)
| v_u_del : forall k i r n d, dict_del i (s_listeners s) = Some d ->
    vstep t s (Some (U_Del k i), r, n) (Some (U_Release k true), r, n) (set_listeners d s)
| v_u_key : forall k i r n, dict_del i (s_listeners s) = None -> vstep t s (Some (U_Del k i), r, n) (Some (U_Release k false), r, n) s
| v_u_release : forall k ok r n, s_lock s = Some (t, 1) ->
    vstep t s (Some (U_Release k ok), r, n) (None, r, n) (say (if ok then Unregistered t k else UnregisterRaised t k) (set_lock None s)).

Definition with_stacks (s : state) (x : stacks frame) : state :=
  St (s_disposed s) (s_lock s) (s_id s) (s_listeners s) (s_handles s) (s_claimed s) (s_calls s) x (s_log s).

Lemma existsb_in : forall k l, existsb (Nat.eqb k) l = true <-> In k l.
Proof.
  intros k l. rewrite existsb_exists. split.
  - intros (x & H & E). apply Nat.eqb_eq in E. congruence.
  - intros H. exists k. rewrite Nat.eqb_refl. auto.
Qed.
Lemma look_call : forall p st, look (Call p :: st) = (Some p, rest1 (Call p) ++ rest st, cancels1 (Call p) + cancels st).
Proof. reflexivity. Qed.
Lemma look_user : forall st, user_stack st -> look st = (None, rest st, cancels st).
Proof. intros st H. unfold look. rewrite user_top by exact H. reflexivity. Qed.

(** every step is one of these, in some thread [t] whose stack changes from [st] to [st1] *)
Lemma step_view : forall c s s1, inv1 s -> step c s = Some s1 ->
  exists t st1 s2, good_stack st1 /\ vstep t s (look (s_stacks s t)) (look st1) s2 /\ s1 = with_stacks s2 (s_stacks s1) /\
    forall u, s_stacks s1 u = if Nat.eqb u t then st1 else s_stacks s u.
Proof.
  intros c s s1 I E.
  assert (X : forall t st s2 s3, s_stacks s2 = upd (s_stacks s) t st -> s_disposed s2 = s_disposed s3 -> s_lock s2 = s_lock s3 -> s_id s2 = s_id s3 ->
    s_listeners s2 = s_listeners s3 -> s_handles s2 = s_handles s3 -> s_claimed s2 = s_claimed s3 -> s_calls s2 = s_calls s3 -> s_log s2 = s_log s3 ->
    good_stack st -> vstep t s (look (s_stacks s t)) (look st) s3 ->
    exists t st1 s3, good_stack st1 /\ vstep t s (look (s_stacks s t)) (look st1) s3 /\ s2 = with_stacks s3 (s_stacks s2) /\
      forall u, s_stacks s2 u = if Nat.eqb u t then st1 else s_stacks s u).
  { intros t st s2 s3 ? ? ? ? ? ? ? ? ? G V. exists t, st, s3. repeat split; auto.
    - destruct s2; cbn in *. unfold with_stacks. congruence.
    - intros u. rewrite H. reflexivity. }
  assert (Y : forall t st e, s_stacks s t = User :: st -> s1 = say e s -> vstep t s (look (s_stacks s t)) (look (s_stacks s t)) (say e s) ->
    exists t st1 s3, good_stack st1 /\ vstep t s (look (s_stacks s t)) (look st1) s3 /\ s1 = with_stacks s3 (s_stacks s1) /\
      forall u, s_stacks s1 u = if Nat.eqb u t then st1 else s_stacks s u).
  { intros t st e ES -> V. exists t, (s_stacks s t), (say e s). split; [apply (i_good _ I)|]. split; [exact V|]. split; [destruct s; reflexivity|].
    intros u. cbn. destruct (Nat.eqb_spec u t); congruence. }
  destruct c as [t|t|t k|t|t|t|t|t]; cbn [step] in E; destruct (s_stacks s t) as [|f st] eqn:ES; try discriminate; destruct f as [|p]; try discriminate;
    pose proof (i_good _ I t) as G; rewrite ES in G.
  - injection E as <-. eapply (X t _ _ (say (CancelCalled t) s)); try reflexivity; [split; [reflexivity|exact G]|]. rewrite ES, look_user by exact G. cbn. constructor.
  - injection E as <-. eapply (X t _ _ (say (RegisterCalled t (s_calls s)) (count_call s))); try reflexivity; [split; [reflexivity|exact G]|]. rewrite ES, look_user by exact G. cbn. constructor.
  - destruct (find_handle k (s_handles s)) as [i|] eqn:F; [|discriminate]. injection E as <-.
    eapply (X t _ _ (say (UnregisterCalled t k) s)); try reflexivity; [split; [reflexivity|exact G]|]. rewrite ES, look_user by exact G. cbn. constructor. exact F.
  - injection E as <-. eapply (Y t st); [exact ES|reflexivity|]. rewrite ES, look_user by exact G. constructor.
  - injection E as <-. eapply (Y t st); [exact ES|reflexivity|]. rewrite ES, look_user by exact G. constructor.
  - destruct st as [|[|[]] st]; try discriminate. injection E as <-. eapply (X t _ _ s); try reflexivity; [split; [reflexivity|exact G]|].
    rewrite ES, look_user by exact G. rewrite look_call. exact (v_end t s ls (rest st) (cancels st)).
  - destruct st as [|[|[]] st]; try discriminate. injection E as <-. eapply (X t _ _ (say (Aborted t) s)); try reflexivity; [exact (user_good st G)|].
    rewrite ES, look_user by exact G. rewrite (look_user st) by exact G. exact (v_abort t s ls (rest st) (cancels st)).
  - destruct G as [Gw G]. assert (C := i_crit _ I t). rewrite ES in C. cbn [top] in C.
    assert (LA : forall l, acquire t (s_lock s) = Some l -> critical (Some p) = false -> s_lock s = None /\ l = Some (t, 1)).
    { intros l EL N. apply acquire_inv in EL. destruct EL as [[EL ->]|(n & EL & ->)]; [auto|].
      destruct (i_lock _ I _ _ EL) as [_ Z]. rewrite ES in Z. cbn [top] in Z. congruence. }
    assert (LR : forall l, release t (s_lock s) = Some l -> critical (Some p) = true -> s_lock s = Some (t, 1) /\ l = None).
    { intros l EL N. specialize (C N). rewrite C in EL. split; [exact C|]. eapply release_inv; [exact EL|reflexivity]. }
    destruct p as [| | | |ls|[|k ls]|ls|k|k|k|k i|k i|k i|k i|k i|k i|k ok]; cbn [run_call] in E; unfold locked, unlocked in E.
    + destruct (acquire t (s_lock s)) as [l|] eqn:EL; [|discriminate]. destruct (LA _ eq_refl eq_refl) as [L ->]. injection E as <-.
      eapply (X t _ _ (set_lock (Some (t, 1)) s)); try reflexivity; [split; [reflexivity|exact G]|]. rewrite ES. constructor. exact L.
    + injection E as <-. eapply (X t _ _ s); try reflexivity; [split; [destruct (s_disposed s); reflexivity|exact G]|]. rewrite ES.
      pose proof (v_c_test t s (rest st) (S (cancels st))) as V. rewrite !look_call. destruct (s_disposed s); exact V.
    + injection E as <-. eapply (X t _ _ (set_disposed s)); try reflexivity; [split; [reflexivity|exact G]|]. rewrite ES. constructor.
    + injection E as <-. eapply (X t _ _ s); try reflexivity; [split; [reflexivity|exact G]|]. rewrite ES. constructor.
    + destruct (release t (s_lock s)) as [l|] eqn:EL; [|discriminate]. destruct (LR _ eq_refl eq_refl) as [L ->]. injection E as <-.
      eapply (X t _ _ (set_lock None s)); try reflexivity; [split; [reflexivity|exact G]|]. rewrite ES. constructor. exact L.
    + injection E as <-. eapply (X t _ _ (say (CancelReturned t) s)); try reflexivity; [exact (user_good _ G)|]. rewrite ES, look_call. rewrite look_user by exact G. constructor.
    + injection E as <-. eapply (X t _ _ (say (Invoked t k) s)); try reflexivity; [exact G|]. rewrite ES, look_call. rewrite look_user by exact G.
      exact (v_c_invoke t s k ls (rest st) (S (cancels st))).
    + discriminate.
    + destruct (s_disposed s) eqn:D; injection E as <-.
      * eapply (X t _ _ (say (RegisterRaised t k) s)); try reflexivity; try exact D; [exact (user_good _ G)|]. rewrite ES, look_call. rewrite look_user by exact G. constructor; exact D.
      * eapply (X t _ _ s); try reflexivity; try exact D; [split; [reflexivity|exact G]|]. rewrite ES. constructor; exact D.
    + destruct (acquire t (s_lock s)) as [l|] eqn:EL; [|discriminate]. destruct (LA _ eq_refl eq_refl) as [L ->]. injection E as <-.
      eapply (X t _ _ (set_lock (Some (t, 1)) s)); try reflexivity; [split; [reflexivity|exact G]|]. rewrite ES. constructor. exact L.
    + injection E as <-. eapply (X t _ _ s); try reflexivity; [split; [reflexivity|exact G]|]. rewrite ES. constructor.
    + injection E as <-. eapply (X t _ _ (set_listeners _ s)); try reflexivity; [split; [reflexivity|exact G]|]. rewrite ES. constructor.
    + injection E as <-. eapply (X t _ _ (set_id _ s)); try reflexivity; [split; [reflexivity|exact G]|]. rewrite ES. constructor.
    + destruct (release t (s_lock s)) as [l|] eqn:EL; [|discriminate]. destruct (LR _ eq_refl eq_refl) as [L ->]. injection E as <-.
      eapply (X t _ _ (say (Registered t k) (add_handle k i (set_lock None s)))); try reflexivity; [exact (user_good _ G)|]. rewrite ES, look_call. rewrite look_user by exact G. constructor. exact L.
    + destruct (existsb (Nat.eqb k) (s_claimed s)) eqn:D; injection E as <-.
      * eapply (X t _ _ (say (Unregistered t k) s)); try reflexivity; [exact (user_good _ G)|]. rewrite ES, look_call. rewrite look_user by exact G. constructor. apply existsb_in, D.
      * eapply (X t _ _ (claim k s)); try reflexivity; [split; [reflexivity|exact G]|]. rewrite ES. constructor. intros H. apply existsb_in in H. congruence.
    + destruct (acquire t (s_lock s)) as [l|] eqn:EL; [|discriminate]. destruct (LA _ eq_refl eq_refl) as [L ->]. injection E as <-.
      eapply (X t _ _ (set_lock (Some (t, 1)) s)); try reflexivity; [split; [reflexivity|exact G]|]. rewrite ES. constructor. exact L.
    + destruct (dict_del i (s_listeners s)) as [d|] eqn:D; injection E as <-.
      * eapply (X t _ _ (set_listeners d s)); try reflexivity; [split; [reflexivity|exact G]|]. rewrite ES. constructor. exact D.
      * eapply (X t _ _ s); try reflexivity; [split; [reflexivity|exact G]|]. rewrite ES. constructor. exact D.
    + destruct (release t (s_lock s)) as [l|] eqn:EL; [|discriminate]. destruct (LR _ eq_refl eq_refl) as [L ->]. injection E as <-.
      eapply (X t _ _ (say (if ok then Unregistered t k else UnregisterRaised t k) (set_lock None s))); try reflexivity; [exact (user_good _ G)|]. rewrite ES, look_call. rewrite look_user by exact G. constructor. exact L.
Qed.

(** layer 1 is an invariant *)
Lemma inv1_init : inv1 init.
Proof. constructor; cbn; try discriminate; auto. Qed.
Lemma vstep_lock : forall t s v v1 s1, vstep t s v v1 s1 ->
  (s_lock s1 = s_lock s /\ critical (fst (fst v1)) = critical (fst (fst v))) \/
  (s_lock s = None /\ s_lock s1 = Some (t, 1) /\ critical (fst (fst v1)) = true) \/
  (s_lock s = Some (t, 1) /\ s_lock s1 = None /\ critical (fst (fst v1)) = false).
Proof.
  intros t s v v1 s1 V. destruct V; cbn; auto. destruct (s_disposed s); auto.
Qed.
Lemma inv1_step : forall c s s1, inv1 s -> step c s = Some s1 -> inv1 s1.
Proof.
  intros c s s1 I E. destruct (step_view c s s1 I E) as (t & st1 & s2 & G & V & E1 & U).
  assert (L : s_lock s1 = s_lock s2) by (rewrite E1; reflexivity).
  apply vstep_lock in V. cbn [fst look] in V. constructor.
  - intros u. rewrite U. destruct (Nat.eqb u t); [exact G|apply (i_good _ I)].
  - intros u. rewrite U, L. destruct (Nat.eqb_spec u t) as [->|N].
    + intros C. destruct V as [[V1 V2]|[(V1 & V2 & V3)|(V1 & V2 & V3)]]; try congruence. rewrite V1. apply (i_crit _ I). congruence.
    + intros C. apply (i_crit _ I) in C. destruct V as [[V1 V2]|[(V1 & V2 & V3)|(V1 & V2 & V3)]]; congruence.
  - intros o n. rewrite U, L. intros H. destruct V as [[V1 V2]|[(V1 & V2 & V3)|(V1 & V2 & V3)]].
    + rewrite V1 in H. destruct (i_lock _ I _ _ H) as [-> C]. split; auto. destruct (Nat.eqb_spec o t); congruence.
    + rewrite V2 in H. injection H; intros; subst. rewrite Nat.eqb_refl. auto.
    + congruence.
Qed.
