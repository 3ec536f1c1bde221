(** Lemmas about cancellation: registrations and handles. *)
From Coq Require Import List Bool Arith Lia.
From Verif.Model Require Import Base Thread Cancellation.
From Verif.Spec Require Import LogSpec CancellationSpec.
From Verif.Proofs Require Import ThreadFacts CancellationFacts.
Import ListNotations.

(** ** Dictionaries *)
Lemma dict_set_fresh : forall i k d, ~ In i (map fst d) -> dict_set i k d = d ++ [(i, k)].
Proof.
  intros i k. induction d as [|[j x] d IH]; intros N; cbn in *; [reflexivity|].
  destruct (Nat.eqb_spec j i) as [->|]; [destruct N; auto|]. rewrite IH; auto.
Qed.
Lemma dict_del_some : forall i k d, In (i, k) d -> NoDup (map fst d) ->
  exists d1 d2, d = d1 ++ (i, k) :: d2 /\ dict_del i d = Some (d1 ++ d2).
Proof.
  intros i k. induction d as [|[j x] d IH]; intros H N; [destruct H|]. cbn in *. inversion N; subst.
  destruct (Nat.eqb_spec j i) as [->|NE].
  - destruct H as [H|H]; [injection H as ->; exists [], d; auto|]. exfalso. apply H2. apply (in_map fst) in H. exact H.
  - destruct H as [H|H]; [congruence|]. destruct (IH H H3) as (d1 & d2 & -> & E). exists ((j, x) :: d1), d2. rewrite E. auto.
Qed.
Lemma find_handle_in : forall k i hs, find_handle k hs = Some i -> In (k, i) hs.
Proof.
  intros k i. induction hs as [|[h j] hs IH]; cbn; [discriminate|]. destruct (Nat.eqb_spec h k) as [->|]; [|auto]. intros E. injection E as ->. auto.
Qed.

(** ** The invariant *)
Definition inreg (p : option pc) : option nat :=
  match p with Some (R_Check k | R_Acquire k | R_Read k | R_Store k _ | R_Incr k _ | R_Release k _) => Some k | _ => None end.
Definition prestore (p : option pc) : option nat :=
  match p with Some (R_Check k | R_Acquire k | R_Read k | R_Store k _) => Some k | _ => None end.
Definition poststore (p : option pc) : option (nat * nat) :=
  match p with Some (R_Incr k i | R_Release k i) => Some (i, k) | _ => None end.
Definition prerelease (p : option pc) : option nat :=
  match p with Some (R_Store _ i | R_Incr _ i) => Some i | _ => None end.
Definition unreg (p : option pc) : option (nat * nat) :=
  match p with Some (U_Claim k i | U_Acquire k i | U_Del k i) => Some (k, i) | _ => None end.
Definition holding (p : option pc) : option (nat * nat) :=
  match p with Some (U_Acquire k i | U_Del k i) => Some (k, i) | _ => None end.
Definition unreg_of (p : option pc) : option nat :=
  match p with Some (U_Claim k _ | U_Acquire k _ | U_Del k _ | U_Release k _) => Some k | _ => None end.

Definition tops : Type := nat -> option pc.
Record inv2 (s : state) (T : tops) : Prop := {
  a_fresh : forall t k, In (RegisterCalled t k) (s_log s) -> k < s_calls s;
  a_who : forall t u k, In (RegisterCalled t k) (s_log s) -> In (RegisterCalled u k) (s_log s) -> t = u;
  a_inreg : forall t k, inreg (T t) = Some k -> In (RegisterCalled t k) (s_log s) /\ forall i, ~ In (k, i) (s_handles s);
  a_pre : forall t k i, prestore (T t) = Some k -> ~ In (i, k) (s_listeners s);
  a_post : forall t x, poststore (T t) = Some x -> In x (s_listeners s);
  a_id : forall t i, prerelease (T t) = Some i -> i = s_id s;
  a_idr : forall t k i, T t = Some (R_Release k i) -> i < s_id s;
  a_list : forall i k, In (i, k) (s_listeners s) -> (exists t, In (RegisterCalled t k) (s_log s)) /\ (i < s_id s \/ exists t, T t = Some (R_Incr k i));
  a_keys : NoDup (map fst (s_listeners s));
  a_labels : NoDup (map snd (s_listeners s));
  a_fun : forall k i k1, In (k, i) (s_handles s) -> In (i, k1) (s_listeners s) -> k = k1;
  a_fun2 : forall k i i1, In (k, i) (s_handles s) -> In (i1, k) (s_listeners s) -> i = i1;
  a_handles : forall k i, In (k, i) (s_handles s) -> i < s_id s /\ exists t, In (Registered t k) (s_log s);
  a_reg : forall t k, In (Registered t k) (s_log s) -> In (RegisterCalled t k) (s_log s) /\ exists i, In (k, i) (s_handles s);
  a_live : forall k i, In (k, i) (s_handles s) -> In (i, k) (s_listeners s) \/ In k (s_claimed s);
  a_claimed : forall k, In k (s_claimed s) -> exists t, In (UnregisterCalled t k) (s_log s);
  a_unreg : forall t x, unreg (T t) = Some x -> In x (s_handles s);
  a_hold : forall t k i, holding (T t) = Some (k, i) -> In k (s_claimed s) /\ In (i, k) (s_listeners s);
  a_hold1 : forall t u k i j, holding (T t) = Some (k, i) -> holding (T u) = Some (k, j) -> t = u;
  a_gone : forall k i, In k (s_claimed s) -> In (i, k) (s_listeners s) -> exists t j, holding (T t) = Some (k, j);
  a_nokey : forall t k, T t <> Some (U_Release k false);
  a_nokey2 : forall t k, ~ In (UnregisterRaised t k) (s_log s);
  a_called : forall t k, In (UnregisterCalled t k) (s_log s) -> exists i, In (k, i) (s_handles s);
  a_done : forall t k, In (Unregistered t k) (s_log s) -> In k (s_claimed s);
  a_rel : forall t k ok, T t = Some (U_Release k ok) -> In k (s_claimed s);
  a_count : forall t k, count (unregister_called t k) (s_log s) =
              count (unregister_returned t k) (s_log s) + match unreg_of (T t) with Some j => if Nat.eqb j k then 1 else 0 | None => 0 end;
  a_raised : forall t k, In (RegisterRaised t k) (s_log s) -> (exists u, In (RegisterCalled u k) (s_log s)) /\ (forall u, inreg (T u) <> Some k) /\
               (forall i, ~ In (i, k) (s_listeners s)) /\ forall i, ~ In (k, i) (s_handles s)
}.

Lemma inv2_init : inv2 init (fun _ => None).
Proof. constructor; cbn; intros; try discriminate; try tauto; try constructor. Qed.

Definition set_top (T : tops) (t : nat) (q : option pc) : tops := fun u => if Nat.eqb u t then q else T u.
Lemma set_top_same : forall T t q, set_top T t q t = q.
Proof. intros. unfold set_top. rewrite Nat.eqb_refl. reflexivity. Qed.
Lemma set_top_other : forall T t q u, u <> t -> set_top T t q u = T u.
Proof. intros. unfold set_top. destruct (Nat.eqb_spec u t); congruence. Qed.

Ltac bytop t u := destruct (Nat.eq_dec t u) as [->|]; [rewrite ?set_top_same in *|rewrite ?set_top_other in * by assumption].

(** Each field for one step.  [J] is the invariant before. *)
Section Step.
  Variable s : state.
  Variable T : tops.
  Hypothesis J : inv2 s T.
  Hypothesis EX : forall t u, critical (T t) = true -> critical (T u) = true -> t = u.

  Lemma fresh_id : forall t k i, T t = Some (R_Store k i) -> ~ In i (map fst (s_listeners s)).
  Proof.
    intros t k i E H. apply in_map_iff in H. destruct H as ([i' k'] & F & H). cbn in F. subst i'.
    pose proof (a_id _ _ J t i) as A. rewrite E in A. specialize (A eq_refl).
    destruct (a_list _ _ J _ _ H) as [_ [B|(u & B)]]; [lia|]. assert (t = u); [|congruence]. apply EX; [rewrite E|rewrite B]; reflexivity.
  Qed.
  Lemma set_fresh : forall t k i, T t = Some (R_Store k i) -> dict_set i k (s_listeners s) = s_listeners s ++ [(i, k)].
  Proof. intros t k i E. apply dict_set_fresh. eapply fresh_id; exact E. Qed.
  Lemma del_some : forall t k i, T t = Some (U_Del k i) ->
    exists d1 d2, s_listeners s = d1 ++ (i, k) :: d2 /\ dict_del i (s_listeners s) = Some (d1 ++ d2).
  Proof.
    intros t k i E. apply dict_del_some; [|apply (a_keys _ _ J)]. apply (a_hold _ _ J t). rewrite E. reflexivity.
  Qed.
End Step.
Lemma NoDup_app_one : forall (l : list nat) x, NoDup l -> ~ In x l -> NoDup (l ++ [x]).
Proof.
  induction l as [|y l IH]; intros x N H; cbn in *; [constructor; [intros []|constructor]|]. inversion N; subst. constructor.
  - rewrite in_app_iff. cbn. intros [A|[A|[]]]; [auto|subst; tauto].
  - apply IH; tauto.
Qed.
Ltac logs := repeat match goal with H : _ \/ _ |- _ => destruct H as [H|H]; try discriminate H end.
Definition quiet_event (e : event) : bool :=
  match e with CancelCalled _ | CancelReturned _ | Aborted _ | Invoked _ _ | Requested _ _ | Entered _ _ => true | _ => false end.
Definition plain (p : option pc) : bool := match p with None => true | Some (C_Acquire | C_Test | C_Set | C_Snapshot | C_Release _ | C_Next _ | C_Wait _) => true | _ => false end.
Ltac bt t0 := match goal with
  | H : context[set_top _ t0 _ ?u] |- _ => bytop u t0
  | |- context[set_top _ t0 _ ?u] => bytop u t0
  end.
Lemma inv2_plain : forall t s T q s1, inv2 s T -> plain (T t) = true -> plain q = true ->
  s_id s1 = s_id s -> s_listeners s1 = s_listeners s -> s_handles s1 = s_handles s -> s_claimed s1 = s_claimed s -> s_calls s1 = s_calls s ->
  (s_log s1 = s_log s \/ exists e, quiet_event e = true /\ s_log s1 = e :: s_log s) -> inv2 s1 (set_top T t q).
Proof.
  intros t s T q s1 J Pt Pq E1 E2 E3 E4 E5 EL.
  assert (LI : forall e, quiet_event e = false -> (In e (s_log s1) <-> In e (s_log s))).
  { intros e N. destruct EL as [->|(x & Q & ->)]; [tauto|]. cbn. split; [intros [->|H]; congruence|auto]. }
  assert (LC : forall f, (forall e, quiet_event e = true -> f e = false) -> count f (s_log s1) = count f (s_log s)).
  { intros f N. destruct EL as [->|(x & Q & ->)]; [reflexivity|]. rewrite count_cons, N by exact Q. reflexivity. }
  assert (K : forall A (f : option pc -> option A), (forall p, plain p = true -> f p = None) -> forall u, f (set_top T t q u) = f (T u)).
  { intros A f N u. bytop u t; [rewrite !N by assumption; reflexivity|reflexivity]. }
  assert (KX : forall p, plain (Some p) = false -> forall u, set_top T t q u = Some p <-> T u = Some p).
  { intros p N u. bytop u t; [split; congruence|reflexivity]. }
  assert (Z : forall p : option pc, plain p = true -> inreg p = None /\ prestore p = None /\ poststore p = None /\ prerelease p = None /\ unreg p = None /\ holding p = None /\ unreg_of p = None).
  { intros [[]|]; cbn; intros H; try discriminate; auto 10. }
  assert (K1 := K _ inreg (fun p h => proj1 (Z p h))).
  assert (K2 := K _ prestore (fun p h => proj1 (proj2 (Z p h)))).
  assert (K3 := K _ poststore (fun p h => proj1 (proj2 (proj2 (Z p h))))).
  assert (K4 := K _ prerelease (fun p h => proj1 (proj2 (proj2 (proj2 (Z p h)))))).
  assert (K5 := K _ unreg (fun p h => proj1 (proj2 (proj2 (proj2 (proj2 (Z p h))))))).
  assert (K6 := K _ holding (fun p h => proj1 (proj2 (proj2 (proj2 (proj2 (proj2 (Z p h)))))))).
  assert (K7 := K _ unreg_of (fun p h => proj2 (proj2 (proj2 (proj2 (proj2 (proj2 (Z p h)))))))).
  clear K. destruct J. constructor; intros *; rewrite ?E1, ?E2, ?E3, ?E4, ?E5, ?K1, ?K2, ?K3, ?K4, ?K5, ?K6, ?K7; repeat rewrite LI by reflexivity; eauto.
  - rewrite KX by reflexivity. eauto.
  - intros H. destruct (a_list0 _ _ H) as [(x & A) [B|(u & B)]]; (split; [exists x; apply LI; auto|auto]). right. exists u. apply KX; auto.
  - intros H. destruct (a_handles0 _ _ H) as [A (x & B)]. split; auto. exists x. apply LI; auto.
  - intros H. destruct (a_claimed0 _ H) as (x & A). exists x. apply LI; auto.
  - intros H1 H2. destruct (a_gone0 _ _ H1 H2) as (x & j & A). exists x, j. rewrite K6. exact A.
  - rewrite KX by reflexivity. apply a_nokey0.
  - rewrite KX by reflexivity. eauto.
  - rewrite !LC by (intros []; cbn; congruence). apply a_count0.
  - intros H. destruct (a_raised0 _ _ H) as ((x & A) & B & C). split; [exists x; apply LI; auto|]. split; [|exact C]. intros u. rewrite K1. apply B.
Qed.
Ltac cc := cbn [s_disposed s_lock s_id s_listeners s_handles s_claimed s_calls s_log say count_call set_lock set_disposed set_id set_listeners add_handle claim
   inreg prestore poststore prerelease unreg holding unreg_of] in *.
Ltac bts t0 := repeat (match goal with
  | H : context[set_top _ t0 _ ?u] |- _ => is_var u; destruct (Nat.eq_dec u t0) as [->|]; [rewrite set_top_same in *|rewrite set_top_other in * by assumption]
  | |- context[set_top _ t0 _ ?u] => is_var u; destruct (Nat.eq_dec u t0) as [->|]; [rewrite set_top_same in *|rewrite set_top_other in * by assumption]
  end).
Ltac ev H := first [discriminate H | injection H; clear H; intros; subst].
Ltac inj := repeat match goal with
  | H : Some _ = Some _ |- _ => ev H
  | H : (_, _) = (_, _) |- _ => ev H
  | H : @eq event _ _ |- _ => ev H
  | H : _ \/ _ |- _ => destruct H
  | H : _ /\ _ |- _ => destruct H
  | H : exists _, _ |- _ => destruct H
  end; subst.
Ltac learn J := 
  repeat match type of J with inv2 ?s ?T => match goal with
   | H : In (_, _) (s_listeners s) |- _ => pose proof (a_list _ _ J _ _ H); revert H
   | H : In (_, _) (s_handles s) |- _ => pose proof (a_handles _ _ J _ _ H); pose proof (a_live _ _ J _ _ H); revert H
   | H : In _ (s_claimed s) |- _ => pose proof (a_claimed _ _ J _ H); revert H
   | H : In (Registered _ _) (s_log s) |- _ => pose proof (a_reg _ _ J _ _ H); revert H
   | H : In (RegisterCalled _ _) (s_log s) |- _ => pose proof (a_fresh _ _ J _ _ H); revert H
   | H : In (UnregisterCalled _ _) (s_log s) |- _ => pose proof (a_called _ _ J _ _ H); revert H
   | H : In (RegisterRaised _ _) (s_log s) |- _ => pose proof (a_raised _ _ J _ _ H); revert H
   | H : In (UnregisterRaised _ _) (s_log s) |- _ => destruct (a_nokey2 _ _ J _ _ H)
   | H : inreg (T _) = Some _ |- _ => pose proof (a_inreg _ _ J _ _ H); revert H
   | H : holding (T _) = Some _ |- _ => pose proof (a_hold _ _ J _ _ _ H); revert H
   | H : unreg (T _) = Some _ |- _ => pose proof (a_unreg _ _ J _ _ H); revert H
   | H : T _ = Some (R_Incr _ _) |- _ => pose proof (f_equal inreg H); pose proof (f_equal poststore H); revert H
   end end; intros; cc; inj.
Ltac wit t0 := match goal with
  | H : ?T ?x = Some (R_Incr ?k ?i) |- _ \/ exists u, set_top ?T t0 _ u = Some (R_Incr ?k ?i) => right; exists x; rewrite set_top_other; [exact H|intros ->; congruence]
  | H : holding (?T ?x) = Some (?k, ?i) |- exists u j, holding (set_top ?T t0 _ u) = Some (?k, j) =>
      exists x, i; rewrite set_top_other; [exact H|intros ->; match goal with E : T t0 = _ |- _ => rewrite E in H; discriminate H end]
  end.
Ltac sim J t0 := cc; bts t0; cc; cbn [In]; intros; try discriminate; inj; try discriminate; eauto; try congruence; try lia; try tauto.
Ltac half J := learn J; learn J; rewrite ?count_cons; cbn [unregister_called unregister_returned plus];
  repeat match goal with |- _ /\ _ => split end; eauto; try congruence; try lia.
Ltac field J t0 := intros *; sim J t0; half J; try wit t0;
  try (intros; match goal with |- ?A <> ?B => change (A = B -> False) | |- ~ ?A => change (A -> False) end; intro; sim J t0; half J; fail);
  try (match goal with H1 : In ?k (s_claimed ?s), H2 : In (_, ?k) (s_listeners ?s) |- exists _ _, holding _ = _ => destruct (a_gone _ _ J _ _ H1 H2) as (? & ? & ?); wit t0 end);
  try (match goal with |- count (unregister_called ?t ?k) _ = _ => 
     let A := fresh in pose proof (a_count _ _ J t k) as A; match goal with E : _ = _ |- _ => rewrite E in A; cbn in A; lia end end).


Ltac cnt J ET := match goal with |- _ + count (unregister_called ?t ?k) _ = _ => 
  let A := fresh in pose proof (a_count _ _ J t k) as A; try rewrite ET in A; cbn [unreg_of] in A; rewrite ?Nat.eqb_refl;
  repeat (match goal with |- context[Nat.eqb ?a ?b] => destruct (Nat.eqb_spec a b); subst end); cbn in *; try lia; try congruence end.
Lemma p_register : forall t s T, inv2 s T -> T t = None ->
  inv2 (say (RegisterCalled t (s_calls s)) (count_call s)) (set_top T t (Some (R_Check (s_calls s)))).
Proof.
  intros t s T J ET. pose proof J as J0. destruct J. constructor; field J0 t.
  intros i H. destruct (a_handles0 _ _ H) as [_ (x & A)]. destruct (a_reg0 _ _ A) as [B _]. specialize (a_fresh0 _ _ B). lia.
Qed.
Lemma p_unregister : forall t s T k i, inv2 s T -> T t = None -> find_handle k (s_handles s) = Some i ->
  inv2 (say (UnregisterCalled t k) s) (set_top T t (Some (U_Claim k i))).
Proof.
  intros t s T k i J ET F. apply find_handle_in in F. pose proof J as J0. destruct J. constructor; field J0 t; cnt J0 ET.
Qed.
Lemma p_r_raise : forall t s T k, inv2 s T -> T t = Some (R_Check k) ->
  inv2 (say (RegisterRaised t k) s) (set_top T t None).
Proof.
  intros t s T k J ET. pose proof J as J0. destruct J. 
  assert (R : In (RegisterCalled t k) (s_log s) /\ forall i, ~ In (k, i) (s_handles s)) by (apply a_inreg0; rewrite ET; reflexivity).
  assert (R1 : forall u, inreg (set_top T t None u) <> Some k).
  { intros u E. bytop u t; [discriminate|]. destruct (a_inreg0 _ _ E) as [A _]. apply n. eapply a_who0; [exact A|apply R]. }
  assert (R2 : forall i, ~ In (i, k) (s_listeners s)) by (intros i; apply (a_pre0 t); rewrite ET; reflexivity).
  destruct R as [R R0]. assert (R3 : exists u, In (RegisterCalled u k) (s_log s)) by eauto.
  constructor; field J0 t; auto.
Qed.

Definition special (p : option pc) : bool := match p with Some (R_Incr _ _ | R_Release _ _ | U_Release _ _) => true | _ => false end.
Lemma p_move : forall t s T q, inv2 s T -> inreg (T t) = inreg q -> prestore (T t) = prestore q -> poststore (T t) = poststore q -> 
  unreg (T t) = unreg q -> holding (T t) = holding q -> unreg_of (T t) = unreg_of q -> (forall i, prerelease q = Some i -> i = s_id s) ->
  special (T t) = false -> special q = false -> inv2 s (set_top T t q).
Proof.
  intros t s T q J E1 E2 E3 E4 E5 E6 EI S1 S2.
  assert (K : forall A (f : option pc -> A), f (T t) = f q -> forall u, f (set_top T t q u) = f (T u)).
  { intros A f N u. bytop u t; congruence. }
  assert (KX : forall p, special p = true -> forall u, set_top T t q u = p <-> T u = p).
  { intros p N u. bytop u t; [split; congruence|reflexivity]. }
  assert (K1 := K _ inreg E1). assert (K2 := K _ prestore E2). assert (K3 := K _ poststore E3). assert (K4 := K _ unreg E4).
  assert (K5 := K _ holding E5). assert (K6 := K _ unreg_of E6). clear K.
  destruct J. constructor; intros *; rewrite ?K1, ?K2, ?K3, ?K4, ?K5, ?K6; eauto.
  - intros H. bytop t0 t; eauto.
  - rewrite KX by reflexivity. eauto.
  - intros H. destruct (a_list0 _ _ H) as [A [B|(u & B)]]; (split; [exact A|auto]). right. exists u. apply KX; auto.
  - intros H1 H2. destruct (a_gone0 _ _ H1 H2) as (x & j & A). exists x, j. rewrite K5. exact A.
  - rewrite KX by reflexivity. apply a_nokey0.
  - rewrite KX by reflexivity. eauto.
  - intros H. destruct (a_raised0 _ _ H) as (A & B & C). split; [exact A|]. split; [|exact C]. intros u. rewrite K1. apply B.
Qed.
Lemma inv2_ext : forall s s1 T, inv2 s T -> s_id s1 = s_id s -> s_listeners s1 = s_listeners s -> s_handles s1 = s_handles s ->
  s_claimed s1 = s_claimed s -> s_calls s1 = s_calls s -> s_log s1 = s_log s -> inv2 s1 T.
Proof. intros s s1 T J E1 E2 E3 E4 E5 E6. destruct J. constructor; rewrite ?E1, ?E2, ?E3, ?E4, ?E5, ?E6; assumption. Qed.

Lemma p_r_store : forall t s T k i, inv2 s T -> (forall t u, critical (T t) = true -> critical (T u) = true -> t = u) ->
  T t = Some (R_Store k i) -> inv2 (set_listeners (dict_set i k (s_listeners s)) s) (set_top T t (Some (R_Incr k i))).
Proof.
  intros t s T k i J EX ET. pose proof (fresh_id s T J EX t k i ET) as FI. rewrite (set_fresh s T J EX t k i ET).
  assert (EI : i = s_id s) by (apply (a_id _ _ J t); rewrite ET; reflexivity).
  destruct (a_inreg _ _ J t k) as [R1 R2]; [rewrite ET; reflexivity|].
  assert (R3 : forall j, ~ In (j, k) (s_listeners s)) by (intros j; apply (a_pre _ _ J t); rewrite ET; reflexivity).
  assert (IN : forall x, In x (s_listeners s ++ [(i, k)]) <-> In x (s_listeners s) \/ x = (i, k)).
  { intros x. rewrite in_app_iff. cbn. split; intros [H|H]; auto. destruct H; [auto|tauto]. }
  assert (ND1 : NoDup (map fst (s_listeners s ++ [(i, k)]))).
  { rewrite map_app. cbn. apply NoDup_app_one; [apply (a_keys _ _ J)|exact FI]. }
  assert (ND2 : NoDup (map snd (s_listeners s ++ [(i, k)]))).
  { rewrite map_app. cbn. apply NoDup_app_one; [apply (a_labels _ _ J)|]. intros H. apply in_map_iff in H. destruct H as ([j x] & E & H). cbn in E. subst x. exact (R3 j H). }
  assert (PI : forall p x, prestore p = Some x -> inreg p = Some x) by (intros [[]|] x; cbn; congruence).
  assert (R4 : forall j, ~ In (k, j) (s_handles s)) by exact R2.
  assert (R5 : ~ In k (s_claimed s)).
  { intros H. destruct (a_claimed _ _ J _ H) as (u & A). destruct (a_called _ _ J _ _ A) as (j & B). exact (R2 _ B). }
  pose proof J as J0. destruct J. constructor; cc; auto; intros *; rewrite ?IN; field J0 t; try (exfalso; match goal with H : In (k, _) (s_handles s) |- _ => exact (R4 _ H) end).
  - intros [HX|HX]; [eapply a_pre0; eauto|]. injection HX as -> ->. match goal with H : prestore (T ?u) = Some k |- _ => apply PI in H; destruct (a_inreg0 _ _ H) as [A _]; assert (u = t) by (eapply a_who0; eauto); congruence end.
  - right. exists t. apply set_top_same.
  - intros u. bytop u t; auto. match goal with H : forall u, inreg (T u) <> Some k0 |- _ => intros E; apply (H t); rewrite ET; exact E end.
  - intros j. rewrite IN. intros [HX|HX]; [match goal with H : forall i, ~ In (i, k0) _ |- _ => exact (H _ HX) end|]. injection HX as -> ->. match goal with H : forall u, inreg (T u) <> Some _ |- _ => apply (H t); rewrite ET; reflexivity end.
Qed.
Lemma p_r_incr : forall t s T k i, inv2 s T -> (forall t u, critical (T t) = true -> critical (T u) = true -> t = u) ->
  T t = Some (R_Incr k i) -> inv2 (set_id (S (s_id s)) s) (set_top T t (Some (R_Release k i))).
Proof.
  intros t s T k i J EX ET. pose proof J as J0. 
  assert (EI : i = s_id s) by (apply (a_id _ _ J t); rewrite ET; reflexivity).
  destruct (a_inreg _ _ J t k) as [R1 R2]; [rewrite ET; reflexivity|].
  assert (R3 : In (i, k) (s_listeners s)) by (apply (a_post _ _ J t); rewrite ET; reflexivity).
  assert (R4 : forall u, u <> t -> prerelease (T u) = None).
  { intros u N. destruct (prerelease (T u)) eqn:E; [|reflexivity]. exfalso. apply N, EX; [|rewrite ET; reflexivity].
    destruct (T u) as [[]|]; try discriminate; reflexivity. }
  destruct J. constructor; field J0 t.
  - match goal with H : prerelease (T ?u) = Some _ |- _ => rewrite R4 in H by assumption; discriminate H end.
  - match goal with H : T ?u = Some (R_Release _ ?j) |- _ => pose proof (a_idr0 _ _ _ H); lia end.
  - match goal with H : T ?x = Some (R_Incr k0 i0) |- _ => destruct (Nat.eq_dec x t) as [E|E];
      [left; rewrite E, ET in H; injection H; lia|right; exists x; rewrite set_top_other by assumption; exact H] end.
Qed.
Lemma nodup_fst : forall (d : list (nat * nat)) i x y, NoDup (map fst d) -> In (i, x) d -> In (i, y) d -> x = y.
Proof.
  induction d as [|[j z] d IH]; intros i x y N A B; [destruct A|]. cbn in N. inversion N; subst.
  destruct A as [A|A], B as [B|B]; try congruence; [| |eauto].
  - injection A as -> ->. exfalso. apply H1. apply (in_map fst) in B. exact B.
  - injection B as -> ->. exfalso. apply H1. apply (in_map fst) in A. exact A.
Qed.
Lemma nodup_snd : forall (d : list (nat * nat)) k x y, NoDup (map snd d) -> In (x, k) d -> In (y, k) d -> x = y.
Proof.
  induction d as [|[j z] d IH]; intros i x y N A B; [destruct A|]. cbn in N. inversion N; subst.
  destruct A as [A|A], B as [B|B]; try congruence; [| |eauto].
  - injection A as -> ->. exfalso. apply H1. apply (in_map snd) in B. exact B.
  - injection B as -> ->. exfalso. apply H1. apply (in_map snd) in A. exact A.
Qed.
Lemma p_r_release : forall t s T k i, inv2 s T -> 
  T t = Some (R_Release k i) -> inv2 (say (Registered t k) (add_handle k i s)) (set_top T t None).
Proof.
  intros t s T k i J ET. pose proof J as J0. 
  assert (EI : i < s_id s) by (eapply (a_idr _ _ J t); eauto).
  destruct (a_inreg _ _ J t k) as [R1 R2]; [rewrite ET; reflexivity|].
  assert (R3 : In (i, k) (s_listeners s)) by (apply (a_post _ _ J t); rewrite ET; reflexivity).
  assert (R5 : forall k1, In (i, k1) (s_listeners s) -> k = k1) by (intros k1 H; eapply nodup_fst; [apply (a_keys _ _ J)| |]; eassumption).
  assert (R6 : forall i1, In (i1, k) (s_listeners s) -> i = i1) by (intros i1 H; eapply nodup_snd; [apply (a_labels _ _ J)| |]; eassumption).
  assert (R7 : forall u, u <> t -> inreg (T u) <> Some k).
  { intros u N E. destruct (a_inreg _ _ J _ _ E) as [A _]. apply N. eapply (a_who _ _ J); eauto. }
  assert (R8 : forall u, In (RegisterRaised u k) (s_log s) -> False).
  { intros u H. destruct (a_raised _ _ J _ _ H) as (_ & A & _). apply (A t). rewrite ET. reflexivity. }
  destruct J. constructor.
  12: { cc. intros k0 i0 k1 [H|H] H1; [injection H as <- <-; auto|eauto]. }
  11: { cc. intros k0 i0 k1 [H|H] H1; [injection H as <- <-; auto|eauto]. }
  all: field J0 t.
  all: intros i1 [HX|HX]; [injection HX as <- <-; try (eapply R8; eassumption); try (eapply R7; eassumption)|try (eapply a_inreg0; eassumption); try (eapply a_raised0; eassumption)].
Qed.
