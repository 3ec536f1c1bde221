(** Lemmas about composites disposed by several tasks. *)
From Coq Require Import List Bool Arith Lia.
From Verif.Model Require Import Thread CompositeTasks.
From Verif.Spec Require Import LogSpec CompositeSpec.
Import ListNotations.

(** the objects of what is left *)
Definition left (rest : list (list member)) : list nat := flat_map (flat_map objects) rest.

Fixpoint members_ind (P : member -> Prop) (H1 : forall i, P (One i)) (H2 : forall ds, Forall P ds -> P (All ds)) (d : member) : P d :=
  match d with
  | One i => H1 i
  | All ds => H2 ds ((fix go ds : Forall P ds := match ds with [] => Forall_nil _ | d :: ds => Forall_cons _ (members_ind P H1 H2 d) (go ds) end) ds)
  end.

(** how far a call gets: the objects passed on the way have their flags set *)
Definition passes (flags : nat -> bool) (l : list nat) (p : progress) : Prop :=
  match p with
  | Over => forall i, In i l -> flags i = true
  | Acts i rest => flags i = false /\ exists pre, l = pre ++ i :: left rest /\ forall j, In j pre -> flags j = true
  end.
Lemma left_app : forall a b, left (a ++ b) = left a ++ left b.
Proof. intros. apply flat_map_app. Qed.
Lemma dispose_passes : forall flags d, passes flags (objects d) (dispose_async flags d).
Proof.
  intros flags d. induction d as [i|ds IH] using members_ind.
  - cbn. destruct (flags i) eqn:E; cbn; [intros j [<-|[]]; exact E|]. split; [exact E|]. exists []. split; [reflexivity|intros j []].
  - cbn [objects dispose_async]. induction IH as [|d ds H _ IH]; [intros i []|]. cbn [flat_map].
    destruct (dispose_async flags d) as [|i rest] eqn:E.
    + destruct ((fix loop (ds : list member) := match ds with [] => Over | d :: ds => match dispose_async flags d with Over => loop ds | Acts i rest => Acts i (rest ++ [ds]) end end) ds) as [|i rest].
      * intros i I. apply in_app_or in I as [I|I]; [now apply H|now apply IH].
      * destruct IH as (F & pre & L & K). split; [exact F|]. exists (objects d ++ pre). rewrite L, app_assoc. split; [reflexivity|].
        intros j J. apply in_app_or in J as [J|J]; [now apply H|now apply K].
    + destruct H as (F & pre & L & K). split; [exact F|]. exists pre. split; [|exact K].
      rewrite L, left_app. cbn. rewrite app_nil_r, <- app_assoc. reflexivity.
Qed.
Lemma goes_on_passes : forall flags rest, passes flags (left rest) (goes_on flags rest).
Proof.
  intros flags. induction rest as [|ds rest IH]; [intros i []|]. cbn [goes_on].
  pose proof (dispose_passes flags (All ds)) as H. change (objects (All ds)) with (flat_map objects ds) in H.
  change (left (ds :: rest)) with (flat_map objects ds ++ left rest).
  destruct (dispose_async flags (All ds)) as [|i inner].
  - destruct (goes_on flags rest) as [|i inner].
    + intros i I. apply in_app_or in I as [I|I]; [now apply H|now apply IH].
    + destruct IH as (F & pre & L & K). split; [exact F|]. exists (flat_map objects ds ++ pre). rewrite L, app_assoc. split; [reflexivity|].
      intros j J. apply in_app_or in J as [J|J]; [now apply H|now apply K].
  - destruct H as (F & pre & L & K). split; [exact F|]. exists pre. split; [|exact K]. rewrite L, left_app, <- app_assoc. reflexivity.
Qed.

Lemma put_same : forall A (f : nat -> A) i x, put f i x i = x.
Proof. intros. unfold put. now rewrite Nat.eqb_refl. Qed.
Lemma put_other : forall A (f : nat -> A) i x j, j <> i -> put f i x j = f j.
Proof. intros A f i x j N. unfold put. apply Nat.eqb_neq in N. now rewrite N. Qed.

(** a call [c] of [d] whose objects up to [l] are behind it *)
Record inv (s : state) : Prop := Inv {
  i_flags : forall i, s_flags s i = true <-> has_started (s_log s) i;
  i_once : forall i, count (starts i) (s_log s) = if s_flags s i then 1 else 0;
  i_called : forall c d, In (Called c d) (s_log s) -> c < s_count s;
  i_one_call : forall c d d2, In (Called c d) (s_log s) -> In (Called c d2) (s_log s) -> d = d2;
  i_active : forall c i rest, s_calls s c = Some (i, rest) -> s_flags s i = true /\ In (Started c i) (s_log s) /\
    exists d pre, In (Called c d) (s_log s) /\ objects d = pre ++ left rest /\ forall j, In j pre -> s_flags s j = true;
  i_over : forall c, In (Returned c) (s_log s) \/ In (Raised c) (s_log s) -> s_calls s c = None /\ c < s_count s;
  i_returned : forall c d, In (Returned c) (s_log s) -> In (Called c d) (s_log s) -> forall j, In j (objects d) -> s_flags s j = true;
  i_started : forall c i, In (Started c i) (s_log s) -> (exists b, In (Ended c i b) (s_log s)) \/ (exists rest, s_calls s c = Some (i, rest));
  i_start_called : forall c i, In (Started c i) (s_log s) -> exists d, In (Called c d) (s_log s) /\ In i (objects d);
  i_failed : forall c i, In (Ended c i false) (s_log s) -> In (Raised c) (s_log s);
  i_not_both : forall c, In (Returned c) (s_log s) -> ~ In (Raised c) (s_log s);
  i_ends_active : forall c i rest, s_calls s c = Some (i, rest) -> count (ends i) (s_log s) = 0 /\ forall c2 rest2, s_calls s c2 = Some (i, rest2) -> c2 = c;
  i_ends : forall i, count (ends i) (s_log s) <= if s_flags s i then 1 else 0;
  i_order : forall l2 c i l1, s_log s = l2 ++ Started c i :: l1 -> exists d, In (Called c d) l1 /\
    forall a b, objects d = a ++ i :: b -> ~ In i a -> forall j, In j a -> has_started l1 j }.

Lemma init_inv : inv init.
Proof.
  constructor; cbn; try (intros; contradiction); try (intros; discriminate); try (intros; lia).
  - intros i. split; [discriminate|]. intros (c & []).
  - intros l2 c i l1 E. now apply app_cons_not_nil in E.
Qed.

Lemma first_split : forall (A : Type) (a b pre post : list A) i, a ++ i :: b = pre ++ i :: post -> ~ In i a -> ~ In i pre -> a = pre.
Proof.
  induction a as [|x a IH]; intros b [|y pre] post i E Na Np; cbn in *.
  - reflexivity.
  - inversion E; subst. now contradiction Np; left.
  - inversion E; subst. now contradiction Na; left.
  - inversion E; subst. f_equal. eapply IH; [eassumption|intuition|intuition].
Qed.

(** [goes] keeps the invariant, when the call is not among the active ones in what it says about them *)
Lemma has_cons : forall e log i, has_started log i -> has_started (e :: log) i.
Proof. intros e log i (c & I). exists c. now right. Qed.
Lemma goes_inv : forall c d pre l p s, inv (St (s_flags s) (put (s_calls s) c None) (s_count s) (s_log s)) ->
  In (Called c d) (s_log s) -> objects d = pre ++ l -> (forall j, In j pre -> s_flags s j = true) -> passes (s_flags s) l p ->
  ~ In (Returned c) (s_log s) -> ~ In (Raised c) (s_log s) -> inv (goes c p s).
Proof.
  intros c d pre l p s I C O K P NR NF. pose proof (i_called _ I c d C) as Lt. cbn in Lt. destruct p as [|i rest]; cbn [goes].
  - destruct I as [A1 A2 A3 A3' A4 A5 A6 A7 A8 A9 A10 A11 A12 A13]. cbn in *. constructor; cbn in *.
    + intros i. rewrite A1. split; [apply has_cons|]. intros (c2 & [X|X]); [discriminate|]. now exists c2.
    + exact A2.
    + intros c2 d2 [X|X]; [discriminate|]. eapply A3; eassumption.
    + intros c2 d2 d3 [X|X] [Y|Y]; try discriminate. eapply A3'; eassumption.
    + intros c2 i rest E. destruct (A4 _ _ _ E) as (F & St & d2 & pre2 & D & O2 & K2). split; [exact F|]. split; [now right|]. exists d2, pre2. repeat split; auto.
    + intros c2 [[X|X]|[X|X]]; try discriminate; [|now apply A5; left|now apply A5; right]. inversion X; subst. split; [apply put_same|exact Lt].
    + intros c2 d2 [X|X] [Y|Y] j J; try discriminate; [|eapply A6; eassumption]. inversion X; subst. rewrite (A3' _ _ _ Y C) in J. rewrite O in J.
      apply in_app_or in J as [J|J]; [now apply K|now apply P].
    + intros c2 i [X|X]; [discriminate|]. destruct (A7 _ _ X) as [[b B]|R]; [left; exists b; now right|now right].
    + intros c2 i [X|X]; [discriminate|]. destruct (A8 _ _ X) as (d2 & D & J). exists d2. split; [now right|exact J].
    + intros c2 i [X|X]; [discriminate|]. right. eapply A9; eassumption.
    + intros c2 [X|X] [Y|Y]; try discriminate; [|now apply (A10 c2)]. inversion X; subst. contradiction.
    + exact A11.
    + exact A12.
    + intros l2 c2 i l1 E. destruct l2 as [|e l2]; cbn in E; inversion E; subst. eapply A13; eassumption.
  - destruct P as (F & pre2 & -> & K2). destruct I as [A1 A2 A3 A3' A4 A5 A6 A7 A8 A9 A10 A11 A12 A13]. cbn in *.
    assert (Fi : forall j, s_flags s j = true -> put (s_flags s) i true j = true).
    { intros j J. unfold put. destruct (Nat.eqb j i); [reflexivity|exact J]. }
    assert (NoStart : forall j, put (s_flags s) i true j = true -> j = i \/ s_flags s j = true).
    { intros j J. unfold put in J. destruct (Nat.eqb_spec j i); [now left|now right]. }
    assert (Em : count (ends i) (s_log s) = 0) by (pose proof (A12 i) as Q; rewrite F in Q; unfold count in *; lia).
    constructor; cbn in *.
    + intros j. split.
      * intros J. destruct (NoStart _ J) as [->|J2]; [exists c; now left|]. apply has_cons, A1, J2.
      * intros (c2 & [X|X]); [inversion X; subst; apply put_same|]. apply Fi, A1. now exists c2.
    + intros j. unfold count in *. cbn. rewrite Nat.eqb_sym. destruct (Nat.eqb_spec j i) as [->|N].
      * cbn. rewrite A2, F, put_same. reflexivity.
      * rewrite A2, put_other by exact N. reflexivity.
    + intros c2 d2 [X|X]; [discriminate|]. eapply A3; eassumption.
    + intros c2 d2 d3 [X|X] [Y|Y]; try discriminate. eapply A3'; eassumption.
    + intros c2 i2 rest2 E. destruct (Nat.eq_dec c2 c) as [->|N].
      * rewrite put_same in E. inversion E; subst. split; [apply put_same|]. split; [now left|]. exists d, (pre ++ pre2 ++ [i2]). split; [now right|].
        split; [rewrite O, <- !app_assoc; reflexivity|]. intros j J. apply in_app_or in J as [J|J]; [now apply Fi, K|].
        apply in_app_or in J as [J|[<-|[]]]; [now apply Fi, K2|apply put_same].
      * rewrite put_other in E by exact N. assert (E2 : put (s_calls s) c None c2 = Some (i2, rest2)) by (now rewrite put_other).
        destruct (A4 _ _ _ E2) as (F2 & S2 & d2 & pre3 & D & O2 & K3). split; [now apply Fi|]. split; [now right|]. exists d2, pre3. repeat split; auto.
    + intros c2 X. assert (Y : In (Returned c2) (s_log s) \/ In (Raised c2) (s_log s)) by (destruct X as [[X|X]|[X|X]]; try discriminate; auto).
      assert (N : c2 <> c) by (intros ->; tauto). destruct (A5 _ Y) as [Z1 Z2]. rewrite put_other in Z1 by exact N. rewrite put_other by exact N. auto.
    + intros c2 d2 [X|X] [Y|Y] j J; try discriminate. apply Fi. eapply A6; eassumption.
    + intros c2 i2 [X|X].
      * inversion X; subst. right. exists rest. apply put_same.
      * destruct (A7 _ _ X) as [[b B]|[r2 R]]; [left; exists b; now right|]. right. exists r2. destruct (Nat.eq_dec c2 c) as [->|N].
        -- rewrite put_same in R. discriminate.
        -- now rewrite put_other in R |- *.
    + intros c2 i2 [X|X].
      * inversion X; subst. exists d. split; [now right|]. rewrite O. apply in_or_app. right. apply in_or_app. right. now left.
      * destruct (A8 _ _ X) as (d2 & D & J). exists d2. split; [now right|exact J].
    + intros c2 i2 [X|X]; [discriminate|]. right. eapply A9; eassumption.
    + intros c2 [X|X] [Y|Y]; try discriminate. now apply (A10 c2).
    + intros c2 i2 rest2 E. change (count (ends i2) (Started c i :: s_log s)) with (count (ends i2) (s_log s)).
      destruct (Nat.eq_dec c2 c) as [->|N].
      * rewrite put_same in E. inversion E; subst. split; [exact Em|]. intros c3 r3 E3. destruct (Nat.eq_dec c3 c) as [->|N3]; [reflexivity|].
        rewrite put_other in E3 by exact N3. assert (E4 : put (s_calls s) c None c3 = Some (i2, r3)) by (now rewrite put_other).
        destruct (A4 _ _ _ E4) as (F2 & _). congruence.
      * rewrite put_other in E by exact N. assert (E2 : put (s_calls s) c None c2 = Some (i2, rest2)) by (now rewrite put_other).
        destruct (A11 _ _ _ E2) as [Z U]. split; [exact Z|]. intros c3 r3 E3. destruct (Nat.eq_dec c3 c) as [->|N3].
        -- rewrite put_same in E3. inversion E3; subst. destruct (A4 _ _ _ E2) as (F2 & _). congruence.
        -- rewrite put_other in E3 by exact N3. apply (U c3 r3). now rewrite put_other.
    + intros j. change (count (ends j) (Started c i :: s_log s)) with (count (ends j) (s_log s)). specialize (A12 j).
      destruct (s_flags s j) eqn:E; [now rewrite (Fi _ E)|]. destruct (put (s_flags s) i true j); lia.
    + intros l2 c2 i2 l1 E. destruct l2 as [|e l2]; cbn in E; inversion E; subst; [|eapply A13; eassumption].
      exists d. split; [exact C|]. intros a b Oab Na j J. rewrite O, app_assoc in Oab.
      assert (Q : a = pre ++ pre2).
      { eapply first_split; [symmetry; exact Oab|exact Na|]. intros X. apply in_app_or in X as [X|X]; [specialize (K _ X)|specialize (K2 _ X)]; congruence. }
      subst a. apply A1. apply in_app_or in J as [J|J]; [now apply K|now apply K2].
Qed.

Lemma step_inv : forall ch s s1, inv s -> step ch s = Some s1 -> inv s1.
Proof.
  intros [d|c ok] s s1 I E; cbn in E.
  - inversion E; subst; clear E. set (c := s_count s).
    assert (NC : s_calls s c = None).
    { destruct (s_calls s c) as [[i rest]|] eqn:E; [|reflexivity]. destruct (i_active _ I _ _ _ E) as (_ & _ & d2 & _ & D & _).
      apply (i_called _ I) in D. unfold c in D. lia. }
    apply (goes_inv c d [] (objects d)); cbn; try reflexivity; try (intros j []).
    + destruct I as [A1 A2 A3 A3' A4 A5 A6 A7 A8 A9 A10 A11 A12 A13].
      assert (PC : forall c2, put (s_calls s) c None c2 = s_calls s c2).
      { intros c2. unfold put. destruct (Nat.eqb_spec c2 c) as [->|]; [now rewrite NC|reflexivity]. }
      constructor; cbn.
      * intros i. rewrite A1. split; [apply has_cons|]. intros (c2 & [X|X]); [discriminate|]. now exists c2.
      * exact A2.
      * intros c2 d2 [X|X]; [inversion X; subst; unfold c; lia|]. apply A3 in X. unfold c. lia.
      * intros c2 d2 d3 [X|X] [Y|Y].
        -- congruence.
        -- inversion X; subst. apply A3 in Y. unfold c in Y. lia.
        -- inversion Y; subst. apply A3 in X. unfold c in X. lia.
        -- eapply A3'; eassumption.
      * intros c2 i rest E. rewrite PC in E. destruct (A4 _ _ _ E) as (F & St & d2 & pre2 & D & O2 & K2). split; [exact F|]. split; [now right|]. exists d2, pre2. repeat split; auto.
      * intros c2 X. assert (Y : In (Returned c2) (s_log s) \/ In (Raised c2) (s_log s)) by (destruct X as [[X|X]|[X|X]]; try discriminate; auto).
        rewrite PC. destruct (A5 _ Y). split; [assumption|]. unfold c. lia.
      * intros c2 d2 [X|X] [Y|Y] j J; try discriminate; [|eapply A6; eassumption]. inversion Y; subst. destruct (A5 c (or_introl X)) as [_ Z]. unfold c in Z. lia.
      * intros c2 i [X|X]; [discriminate|]. rewrite PC. destruct (A7 _ _ X) as [[b B]|R]; [left; exists b; now right|now right].
      * intros c2 i [X|X]; [discriminate|]. destruct (A8 _ _ X) as (d2 & D & J). exists d2. split; [now right|exact J].
      * intros c2 i [X|X]; [discriminate|]. right. eapply A9; eassumption.
      * intros c2 [X|X] [Y|Y]; try discriminate. now apply (A10 c2).
      * intros c2 i rest E. rewrite PC in E. destruct (A11 _ _ _ E) as [Z U]. split; [exact Z|]. intros c3 r3 E3. rewrite PC in E3. eapply U; eassumption.
      * exact A12.
      * intros l2 c2 i l1 E. destruct l2 as [|e l2]; cbn in E; inversion E; subst. eapply A13; eassumption.
    + now left.
    + apply dispose_passes.
    + intros [X|X]; [discriminate|]. destruct (i_over _ I c (or_introl X)) as [_ Z]. unfold c in Z. lia.
    + intros [X|X]; [discriminate|]. destruct (i_over _ I c (or_intror X)) as [_ Z]. unfold c in Z. lia.
  - destruct (s_calls s c) as [[i rest]|] eqn:Ec; [|discriminate].
    assert (NR : ~ In (Returned c) (s_log s)) by (intros X; destruct (i_over _ I c (or_introl X)); congruence).
    assert (NF : ~ In (Raised c) (s_log s)) by (intros X; destruct (i_over _ I c (or_intror X)); congruence).
    destruct (i_active _ I _ _ _ Ec) as (Fi & Si & d & pre & D & O & K).
    destruct (i_ends_active _ I _ _ _ Ec) as (Em & Un).
    assert (Base : forall b ev, (forall c2 d2, ev <> Some (Called c2 d2)) -> (forall c2 i2, ev <> Some (Started c2 i2)) -> (forall c2 i2 b2, ev <> Some (Ended c2 i2 b2)) -> (forall c2, ev <> Some (Returned c2)) ->
      (b = true -> ev = None) -> (b = false -> ev = Some (Raised c)) ->
      inv (St (s_flags s) (put (s_calls s) c None) (s_count s) (match ev with Some e => [e] | None => [] end ++ Ended c i b :: s_log s))).
    { intros b ev E1 E2 E3 E4 Et Ef. destruct I as [A1 A2 A3 A3' A4 A5 A6 A7 A8 A9 A10 A11 A12 A13].
      assert (InL : forall e, In e (match ev with Some e => [e] | None => [] end ++ Ended c i b :: s_log s) -> ev = Some e \/ e = Ended c i b \/ In e (s_log s)).
      { intros e J. destruct ev as [e0|]; cbn in J; intuition (subst; auto). }
      assert (OutL : forall e, In e (s_log s) -> In e (match ev with Some e => [e] | None => [] end ++ Ended c i b :: s_log s)).
      { intros e J. apply in_or_app. right. now right. }
      assert (EL : In (Ended c i b) (match ev with Some e => [e] | None => [] end ++ Ended c i b :: s_log s)) by (apply in_or_app; right; now left).
      assert (CS : forall j, count (starts j) (match ev with Some e => [e] | None => [] end ++ Ended c i b :: s_log s) = count (starts j) (s_log s)).
      { intros j. unfold count. destruct ev as [[]|]; try reflexivity. now destruct (E2 c0 i0). }
      assert (CE : forall j, count (ends j) (match ev with Some e => [e] | None => [] end ++ Ended c i b :: s_log s) = (if Nat.eqb i j then 1 else 0) + count (ends j) (s_log s)).
      { intros j. unfold count. destruct ev as [[]|]; try (now destruct (E3 c0 i0 ok0)); cbn; destruct (Nat.eqb i j); reflexivity. }
      constructor; cbn [s_flags s_calls s_count s_log].
      - intros j. rewrite A1. split; intros (c2 & J); exists c2; [now apply OutL|]. destruct (InL _ J) as [X|[X|X]]; [now destruct (E2 c2 j)|discriminate|exact X].
      - intros j. rewrite CS. apply A2.
      - intros c2 d2 J. destruct (InL _ J) as [X|[X|X]]; [now destruct (E1 c2 d2)|discriminate|]. eapply A3; eassumption.
      - intros c2 d2 d3 J J2. destruct (InL _ J) as [X|[X|X]]; [now destruct (E1 c2 d2)|discriminate|].
        destruct (InL _ J2) as [Y|[Y|Y]]; [now destruct (E1 c2 d3)|discriminate|]. eapply A3'; eassumption.
      - intros c2 i2 rest2 E0. destruct (Nat.eq_dec c2 c) as [->|N]; [rewrite put_same in E0; discriminate|]. rewrite put_other in E0 by exact N.
        destruct (A4 _ _ _ E0) as (F & St & d2 & pre2 & D2 & O2 & K2). split; [exact F|]. split; [now apply OutL|]. exists d2, pre2. repeat split; auto.
      - intros c2 J. assert (Y : c2 = c \/ In (Returned c2) (s_log s) \/ In (Raised c2) (s_log s)).
        { destruct J as [J|J]; destruct (InL _ J) as [X|[X|X]]; try discriminate; auto; [now destruct (E4 c2)|].
          destruct b; [rewrite (Et eq_refl) in X; discriminate|rewrite (Ef eq_refl) in X; inversion X; auto]. }
        destruct Y as [->|Y]; [split; [apply put_same|eapply A3; exact D]|]. destruct (A5 _ Y) as [Z1 Z2]. split; [|exact Z2].
        unfold put. destruct (Nat.eqb c2 c); [reflexivity|exact Z1].
      - intros c2 d2 J J2. destruct (InL _ J) as [X|[X|X]]; [now destruct (E4 c2)|discriminate|].
        destruct (InL _ J2) as [Y|[Y|Y]]; [now destruct (E1 c2 d2)|discriminate|]. eapply A6; eassumption.
      - intros c2 i2 J. destruct (InL _ J) as [X|[X|X]]; [now destruct (E2 c2 i2)|discriminate|]. destruct (A7 _ _ X) as [[b2 B]|[r2 R]]; [left; exists b2; now apply OutL|].
        destruct (Nat.eq_dec c2 c) as [->|N].
        + rewrite Ec in R. inversion R; subst. left. exists b. exact EL.
        + right. exists r2. now rewrite put_other.
      - intros c2 i2 J. destruct (InL _ J) as [X|[X|X]]; [now destruct (E2 c2 i2)|discriminate|]. destruct (A8 _ _ X) as (d2 & D2 & J2). exists d2. split; [now apply OutL|exact J2].
      - intros c2 i2 J. destruct (InL _ J) as [X|[X|X]]; [now destruct (E3 c2 i2 false)| |apply OutL; eapply A9; exact X]. inversion X; subst. rewrite (Ef eq_refl). now left.
      - intros c2 J J2. destruct (InL _ J) as [X|[X|X]]; [now destruct (E4 c2)|discriminate|].
        destruct (InL _ J2) as [Y|[Y|Y]]; [|discriminate|now apply (A10 c2)].
        destruct b; [rewrite (Et eq_refl) in Y; discriminate|rewrite (Ef eq_refl) in Y; inversion Y; subst; contradiction].
      - intros c2 i2 rest2 E0. destruct (Nat.eq_dec c2 c) as [->|N]; [rewrite put_same in E0; discriminate|]. rewrite put_other in E0 by exact N.
        destruct (A11 _ _ _ E0) as [Z U]. split.
        + rewrite CE. destruct (Nat.eqb_spec i i2) as [->|]; [|exact Z]. destruct (Un _ _ E0). congruence.
        + intros c3 r3 E5. destruct (Nat.eq_dec c3 c) as [->|N3]; [rewrite put_same in E5; discriminate|]. rewrite put_other in E5 by exact N3. eapply U; eassumption.
      - intros j. rewrite CE. destruct (Nat.eqb_spec i j) as [<-|]; [rewrite Fi, Em; lia|apply A12].
      - intros l2 c2 i2 l1 E0. assert (Q : exists l3, s_log s = l3 ++ Started c2 i2 :: l1).
        { destruct ev as [e0|]; cbn in E0.
          - destruct l2 as [|x l2]; cbn in E0; [inversion E0; subst; now destruct (E2 c2 i2)|]. inversion E0 as [[X Y]]. destruct l2 as [|y l2]; cbn in Y; [discriminate|]. inversion Y. now exists l2.
          - destruct l2 as [|x l2]; cbn in E0; [discriminate|]. inversion E0. now exists l2. }
        destruct Q as (l3 & Q). eapply A13; exact Q. }
    destruct ok; inversion E; subst; clear E.
    + apply (goes_inv c d pre (left rest)); cbn.
      * exact (Base true None ltac:(discriminate) ltac:(discriminate) ltac:(discriminate) ltac:(discriminate) ltac:(reflexivity) ltac:(discriminate)).
      * now right.
      * exact O.
      * exact K.
      * apply goes_on_passes.
      * intros [X|X]; [discriminate|contradiction].
      * intros [X|X]; [discriminate|contradiction].
    + exact (Base false (Some (Raised c)) ltac:(discriminate) ltac:(discriminate) ltac:(discriminate) ltac:(discriminate) ltac:(discriminate) ltac:(reflexivity)).
Qed.
Lemma exec_inv : forall cs s s1, inv s -> exec step cs s = Some s1 -> inv s1.
Proof.
  induction cs as [|ch cs IH]; intros s s1 I E; cbn in E; [inversion E; now subst|].
  destruct (step ch s) as [s2|] eqn:Es; [|discriminate]. eapply IH; [eapply step_inv; eassumption|exact E].
Qed.
