(** The calls of the methods of a builder. *)
From Coq Require Import List Bool Lia PeanoNat.
From Verif.Model Require Import Base OptionResult Builder BuilderCalls.
From Verif.Spec Require Import BuilderSpec CustomBuilderSpec BuilderCallsSpec.
From Verif.Proofs Require Import BuilderFacts.
Import ListNotations.
Local Open Scope py_scope.

(** What is written down of a list of calls. *)
Fixpoint notes {C} (faults : C -> option exn) (cs log : list C) : option exn * list C :=
  match cs with
  | [] => (None, log)
  | c :: cs => match faults c with None => notes faults cs (log ++ [c]) | Some x => (Some x, log ++ [c]) end
  end.
Lemma notes_all : forall C (faults : C -> option exn) cs log, Forall (fun c => faults c = None) cs -> notes faults cs log = (None, log ++ cs).
Proof.
  intros C faults. induction cs as [|c cs IH]; intros log F; cbn.
  - rewrite app_nil_r. reflexivity.
  - inversion F as [|? ? F1 F2]; subst. rewrite F1, IH by exact F2. rewrite <- app_assoc. reflexivity.
Qed.
Lemma notes_cut : forall C (faults : C -> option exn) pre c post x log, Forall (fun c => faults c = None) pre -> faults c = Some x ->
  notes faults (pre ++ c :: post) log = (Some x, log ++ pre ++ [c]).
Proof.
  intros C faults. induction pre as [|d pre IH]; intros c post x log F Fc; cbn.
  - rewrite Fc. reflexivity.
  - inversion F as [|? ? F1 F2]; subst. rewrite F1, (IH c post x) by auto. rewrite <- app_assoc. reflexivity.
Qed.

Lemma notes_app : forall C (faults : C -> option exn) cs ds log,
  notes faults (cs ++ ds) log = match notes faults cs log with (None, l) => notes faults ds l | r => r end.
Proof.
  intros C faults. induction cs as [|c cs IH]; intros ds log; cbn; [reflexivity|]. destruct (faults c); [reflexivity|apply IH].
Qed.

Section Beside.
  Context {L W A Mo St : Type} (resume : St -> pyopt A -> W -> node (pyopt A) Mo St * W).
  Lemma send_beside : forall g v (log : L) w,
    send (beside resume) g v (log, w) = let '(o, g1, w1) := send resume g v w in (o, g1, (log, w1)).
  Proof.
    intros g v log w. assert (R : forall s v, run_body (beside resume) s v (log, w) = let '(o, g1, w1) := run_body resume s v w in (o, g1, (log, w1))).
    { intros s u. unfold run_body, beside. cbn [fst snd]. destruct (resume s u w) as [[] w1]; reflexivity. }
    destruct g as [s|[|u us] s|us s|]; cbn; try apply R; try reflexivity. destruct v; [destruct us; [apply R|]|]; reflexivity.
  Qed.
End Beside.

Section Calls.
  Context {W A Mo St : Type} (b : builder (pyopt A) Mo) (resume : St -> pyopt A -> W -> node (pyopt A) Mo St * W) (effect : Mo) (is_async : bool).
  Notation V := (pyopt A).
  Variable faults : called V Mo -> option exn.
  Hypothesis unit_law : left_unit b.
  Hypothesis delay_law : eager_delay b.
  Hypothesis plain : plain_faults faults.
  Notation state := ((list (called V Mo) * W) * (gstate A St * bool))%type.
  Notation call := (spied (W := W) faults b).
  Notation body := (beside (L := list (called V Mo)) resume).

  (** the outcome [o] of what makes the calls [cs], if it would end as [final] in [w1] *)
  Definition agrees {X} (o : res X * (list (called V Mo) * W)) (cs log : list (called V Mo)) (final : res X) (w1 : W) : Prop :=
    match notes faults cs log with
    | (None, log1) => o = (final, (log1, w1))
    | (Some x, log1) => exists w2, o = (Raise x, (log1, w2))
    end.

  (** the calls of the loop, and its value *)
  Fixpoint loop_calls (last result : Mo) (vs : list V) (e : ending V Mo) : list (called V Mo) :=
    CBind last ::
    match vs with
    | v :: vs => [CReturn v; CDelay; CCombine result (b_return b v)] ++ loop_calls (b_return b v) (b_combine b result (b_return b v)) vs e
    | [] =>
        match e with
        | EReturn (PyVal x) => [CReturn (PyVal x); CDelay; CCombine result (b_return b (PyVal x))]
        | EFail m => [CReturnFrom m; CDelay; CCombine result (b_return_from b m)]
        | _ => []
        end
    end.
  Fixpoint loop_value (result : Mo) (vs : list V) (e : ending V Mo) : res Mo :=
    match vs with
    | v :: vs => loop_value (b_combine b result (b_return b v)) vs e
    | [] =>
        match e with
        | EReturn PyNone => Ret result
        | EReturn (PyVal x) => Ret (b_combine b result (b_return b (PyVal x)))
        | EFail m => Ret (b_combine b result (b_return_from b m))
        | EThrow e => Raise e
        end
    end.

  Definition possible (e : ending V Mo) : Prop := match e with EReturn (PyVal _) => is_async = false | _ => True end.
  Lemma loop_agrees : forall g v w vs e w1, sends resume g v w vs e w1 -> possible e -> forall result log,
    exists n, forall fuel, n <= fuel ->
    let '(o, s) := mloop call body effect is_async fuel (b_return b v) result ((log, w), (g, false)) in
    agrees (o, fst s) (loop_calls (b_return b v) result vs e) log (loop_value result vs e) w1.
  Proof.
    induction 1 as [g v w x g1 w1 E|g v w m g1 w1 E|g v w e g1 w1 E|g v w u g1 w1 vs e w2 E Sd IH]; intros Po result log.
    - exists 2. intros [|[|fuel]] L; try lia. unfold agrees. cbn [mloop snd m_bind spied loop_calls notes loop_value].
      unfold bind at 1, side at 1, note at 1. cbn [fst snd].
      destruct (faults (CBind (b_return b v))) as [y|] eqn:F1.
      { destruct (plain _ _ F1) as [N1 N2]. destruct y; try congruence; eexists; reflexivity. }
      rewrite unit_law. unfold mbinder, bind at 1, msend. rewrite send_beside, E. destruct x as [|x]; [reflexivity|]. cbn in Po; rewrite Po.
      unfold side, bind, note, spied; cbn. unfold note; cbn.
      destruct (faults (CReturn (PyVal x))) as [y|] eqn:F2; cbn.
      { destruct (plain _ _ F2) as [N1 N2]. destruct y; try congruence; eexists; reflexivity. }
      destruct (faults CDelay) as [y|] eqn:F3; cbn.
      { destruct (plain _ _ F3) as [N1 N2]. destruct y; try congruence; eexists; reflexivity. }
      rewrite delay_law. cbn.
      destruct (faults (CCombine result (b_return b (PyVal x)))) as [y|] eqn:F4; cbn.
      { destruct (plain _ _ F4) as [N1 N2]. destruct y; try congruence; eexists; reflexivity. }
      reflexivity.
    - exists 2. intros [|[|fuel]] L; try lia. unfold agrees. cbn [mloop snd m_bind spied loop_calls notes loop_value].
      unfold bind at 1, side at 1, note at 1. cbn [fst snd].
      destruct (faults (CBind (b_return b v))) as [y|] eqn:F1.
      { destruct (plain _ _ F1) as [N1 N2]. destruct y; try congruence; eexists; reflexivity. }
      rewrite unit_law. unfold mbinder, bind at 1, msend. rewrite send_beside, E.
      unfold side, bind, note, spied; cbn. unfold note; cbn.
      destruct (faults (CReturnFrom m)) as [y|] eqn:F2; cbn.
      { destruct (plain _ _ F2) as [N1 N2]. destruct y; try congruence; eexists; reflexivity. }
      destruct (faults CDelay) as [y|] eqn:F3; cbn.
      { destruct (plain _ _ F3) as [N1 N2]. destruct y; try congruence; eexists; reflexivity. }
      rewrite delay_law. cbn.
      destruct (faults (CCombine result (b_return_from b m))) as [y|] eqn:F4; cbn.
      { destruct (plain _ _ F4) as [N1 N2]. destruct y; try congruence; eexists; reflexivity. }
      reflexivity.
    - pose proof (send_not_stop resume _ _ _ _ _ _ E) as NS.
      exists 1. intros [|fuel] L; try lia. unfold agrees. cbn [mloop snd m_bind spied loop_calls notes loop_value].
      unfold bind at 1, side at 1, note at 1. cbn [fst snd].
      destruct (faults (CBind (b_return b v))) as [y|] eqn:F1.
      { destruct (plain _ _ F1) as [N1 N2]. destruct y; try congruence; eexists; reflexivity. }
      rewrite unit_law. unfold mbinder, bind at 1, msend. rewrite send_beside, E. destruct e; try congruence; reflexivity.
    - destruct (IH Po (b_combine b result (b_return b u)) (log ++ [CBind (b_return b v)] ++ [CReturn u] ++ [CDelay] ++ [CCombine result (b_return b u)])) as [n IHn].
      exists (S n). intros [|fuel] L; [lia|]. assert (L' : n <= fuel) by lia. specialize (IHn fuel L').
      unfold agrees in *. cbn [mloop snd m_bind spied loop_calls notes loop_value app].
      unfold bind at 1, side at 1, note at 1. cbn [fst snd].
      destruct (faults (CBind (b_return b v))) as [y|] eqn:F1.
      { destruct (plain _ _ F1) as [N1 N2]. destruct y; try congruence; eexists; reflexivity. }
      rewrite unit_law. unfold mbinder at 1, bind at 1, msend at 1. rewrite send_beside, E. cbn [m_return spied].
      unfold bind at 1, note at 1.
      destruct (faults (CReturn u)) as [y|] eqn:F2.
      { destruct (plain _ _ F2) as [N1 N2]. destruct y; try congruence; eexists; reflexivity. }
      unfold ret. unfold side at 1. cbn [m_delay spied fst snd]. unfold bind at 1, note at 1.
      destruct (faults CDelay) as [y|] eqn:F3.
      { destruct (plain _ _ F3) as [N1 N2]. destruct y; try congruence; eexists; reflexivity. }
      rewrite delay_law. unfold ret. unfold side at 1. cbn [m_combine spied fst snd]. unfold bind at 1, note at 1.
      destruct (faults (CCombine result (b_return b u))) as [y|] eqn:F4.
      { destruct (plain _ _ F4) as [N1 N2]. destruct y; try congruence; eexists; reflexivity. }
      unfold ret. rewrite <- !app_assoc. exact IHn.
  Qed.

  Definition value_calls (v : res Mo) : list (called V Mo) := match v with Ret r => [CRun r] | Raise _ => [] end.
  Lemma rest_loop : forall vs last result e,
    rest_calls b last result vs e = loop_calls last result vs e ++ value_calls (loop_value result vs e).
  Proof.
    induction vs as [|v vs IH]; intros last result e; cbn; [destruct e as [[]| |]; reflexivity|].
    rewrite IH. reflexivity.
  Qed.
  Lemma loop_custom : forall vs v e,
    match loop_value (b_return b v) vs e with Ret r => Ret (b_run b r) | Raise x => Raise x end = custom_value b (v :: vs) e.
  Proof.
    intros vs v e. unfold custom_value, combined, statements. cbn [List.map app].
    generalize (b_return b v). induction vs as [|u vs IH]; intros r; cbn; [destruct e as [[]| |]; reflexivity|apply IH].
  Qed.
  Lemma run_agrees : forall r log w, agrees (m_run call r (log, w)) [CRun r] log (Ret (b_run b r)) w.
  Proof.
    intros r log w. unfold agrees. cbn. unfold bind, note. destruct (faults (CRun r)); [eexists|]; reflexivity.
  Qed.

  Lemma agrees_step : forall X (o : res X * (list (called V Mo) * W)) c cs log final w1, faults c = None ->
    agrees o cs (log ++ [c]) final w1 -> agrees o (c :: cs) log final w1.
  Proof. intros X o c cs log final w1 F H. unfold agrees. cbn. rewrite F. exact H. Qed.
  Lemma agrees_stop : forall X (o : res X * (list (called V Mo) * W)) c cs log final w1 x w2, faults c = Some x ->
    o = (Raise x, (log ++ [c], w2)) -> agrees o (c :: cs) log final w1.
  Proof. intros X o c cs log final w1 x w2 F H. unfold agrees. cbn. rewrite F. exists w2. exact H. Qed.

  Lemma call_agrees : forall s w vs e w1, body_gives resume s PyNone w vs e w1 -> possible e -> forall log,
    exists n, forall fuel, n <= fuel -> agrees (mcall call body effect is_async fuel s (log, w)) (expected_calls b vs e) log (custom_value b vs e) w1.
  Proof.
    intros s w vs e w1 B Po log. apply body_sends in B.
    inversion B as [? ? ? x g1 ? E|? ? ? m g1 ? E|? ? ? x g1 ? E|? ? ? u g1 w0 vs1 ? ? E Sd]; subst; clear B.
    - exists 1. intros [|fuel] L; [lia|]. unfold mcall, expected_calls. cbn [m_zero spied]. unfold bind at 1, note at 1.
      destruct (faults CZero) as [y|] eqn:F0; [exact (agrees_stop _ _ _ _ _ _ _ _ _ F0 eq_refl)|apply (agrees_step _ _ _ _ _ _ _ F0)].
      unfold ret, mbinder at 1, bind at 1, msend at 1. rewrite send_beside, E. destruct x as [|x].
      { apply run_agrees. }
      cbn in Po; rewrite Po.
      unfold side at 1. cbn [m_return spied fst snd]. unfold bind at 1, note at 1.
      destruct (faults (CReturn (PyVal x))) as [y|] eqn:F2.
      { destruct (plain _ _ F2) as [N1 N2]. destruct y; try congruence; exact (agrees_stop _ _ _ _ _ _ _ _ _ F2 eq_refl). }
      apply (agrees_step _ _ _ _ _ _ _ F2).
      unfold ret. unfold side at 1. cbn [m_delay spied fst snd]. unfold bind at 1, note at 1.
      destruct (faults CDelay) as [y|] eqn:F3.
      { destruct (plain _ _ F3) as [N1 N2]. destruct y; try congruence; exact (agrees_stop _ _ _ _ _ _ _ _ _ F3 eq_refl). }
      apply (agrees_step _ _ _ _ _ _ _ F3).
      rewrite delay_law. unfold ret. cbn [mloop snd fst]. apply run_agrees.
    - exists 1. intros [|fuel] L; [lia|]. unfold mcall, expected_calls. cbn [m_zero spied]. unfold bind at 1, note at 1.
      destruct (faults CZero) as [y|] eqn:F0; [exact (agrees_stop _ _ _ _ _ _ _ _ _ F0 eq_refl)|apply (agrees_step _ _ _ _ _ _ _ F0)].
      unfold ret, mbinder at 1, bind at 1, msend at 1. rewrite send_beside, E.
      unfold side at 1. cbn [m_return_from spied fst snd]. unfold bind at 1, note at 1.
      destruct (faults (CReturnFrom m)) as [y|] eqn:F2.
      { destruct (plain _ _ F2) as [N1 N2]. destruct y; try congruence; exact (agrees_stop _ _ _ _ _ _ _ _ _ F2 eq_refl). }
      apply (agrees_step _ _ _ _ _ _ _ F2).
      unfold ret. unfold side at 1. cbn [m_delay spied fst snd]. unfold bind at 1, note at 1.
      destruct (faults CDelay) as [y|] eqn:F3.
      { destruct (plain _ _ F3) as [N1 N2]. destruct y; try congruence; exact (agrees_stop _ _ _ _ _ _ _ _ _ F3 eq_refl). }
      apply (agrees_step _ _ _ _ _ _ _ F3).
      rewrite delay_law. unfold ret. cbn [mloop snd fst]. apply run_agrees.
    - pose proof (send_not_stop resume _ _ _ _ _ _ E) as NS.
      exists 0. intros fuel L. unfold mcall, expected_calls. cbn [m_zero spied]. unfold bind at 1, note at 1.
      destruct (faults CZero) as [y|] eqn:F0; [exact (agrees_stop _ _ _ _ _ _ _ _ _ F0 eq_refl)|apply (agrees_step _ _ _ _ _ _ _ F0)].
      unfold ret, mbinder at 1, bind at 1, msend at 1. rewrite send_beside, E. destruct x; try congruence; reflexivity.
    - destruct (loop_agrees _ _ _ _ _ _ Sd Po (b_return b u) (log ++ [CZero] ++ [CReturn u] ++ [CDelay])) as [n H].
      exists n. intros fuel L. specialize (H fuel L). rewrite <- loop_custom.
      unfold mcall, expected_calls. cbn [m_zero spied app]. unfold bind at 1, note at 1.
      destruct (faults CZero) as [y|] eqn:F0; [exact (agrees_stop _ _ _ _ _ _ _ _ _ F0 eq_refl)|apply (agrees_step _ _ _ _ _ _ _ F0)].
      unfold ret, mbinder at 1, bind at 1, msend at 1. rewrite send_beside, E. cbn [m_return spied].
      unfold bind at 1, note at 1.
      destruct (faults (CReturn u)) as [y|] eqn:F2.
      { destruct (plain _ _ F2) as [N1 N2]. destruct y; try congruence; exact (agrees_stop _ _ _ _ _ _ _ _ _ F2 eq_refl). }
      apply (agrees_step _ _ _ _ _ _ _ F2).
      unfold ret. unfold side at 1. cbn [m_delay spied fst snd]. unfold bind at 1, note at 1.
      destruct (faults CDelay) as [y|] eqn:F3.
      { destruct (plain _ _ F3) as [N1 N2]. destruct y; try congruence; exact (agrees_stop _ _ _ _ _ _ _ _ _ F3 eq_refl). }
      apply (agrees_step _ _ _ _ _ _ _ F3).
      rewrite delay_law. unfold ret. unfold agrees in *. rewrite rest_loop, notes_app, <- !app_assoc.
      destruct (mloop _ _ _ _ _ _ _ _) as [o [lw gd]]. cbn [fst] in *.
      destruct (notes faults (loop_calls _ _ _ _) _) as [[x|] log1].
      + destruct H as [w2 H]. injection H; intros; subst. eexists; reflexivity.
      + injection H; intros; subst. destruct (loop_value (b_return b u) vs1 e) as [r|x]; cbn [value_calls].
        * apply run_agrees.
        * reflexivity.
  Qed.

  Hypothesis bodies : is_async = true -> async_body resume.
  Lemma possible_body : forall s v w vs e w1, body_gives resume s v w vs e w1 -> possible e.
  Proof.
    intros s v w vs e w1 B. destruct is_async eqn:Ea; [|unfold possible; rewrite Ea; destruct e as [[]| |]; auto].
    specialize (bodies eq_refl). induction B as [s v w x w1 E|s v w e w1 E|s v w m w1 E|s v w u s1 w1 vs e w2 E B IH|s v w u us s1 w1 vs e w2 E B IH
                   |s v w u us s1 w1 vs e w2 E Fa B IH|s v w u us s1 w1 nones x rest E Q Fa]; try exact I; try exact IH.
    pose proof (bodies s v w) as H. rewrite E in H. destruct x; [exact I|contradiction].
  Qed.

  Lemma calls_pf : forall s w vs e w1 log, body_gives resume s PyNone w vs e w1 -> Forall (fun c => faults c = None) (expected_calls b vs e) ->
    settles (fun fuel => mcall call body effect is_async fuel s (log, w)) (custom_value b vs e, (log ++ expected_calls b vs e, w1)).
  Proof.
    intros s w vs e w1 log B F. destruct (call_agrees s w vs e w1 B (possible_body _ _ _ _ _ _ B) log) as [n H]. exists n. intros fuel L. specialize (H fuel L).
    unfold agrees in H. rewrite notes_all in H by exact F. exact H.
  Qed.
  Lemma missing_pf : forall s w vs e w1 log pre c post x, body_gives resume s PyNone w vs e w1 ->
    expected_calls b vs e = pre ++ c :: post -> Forall (fun c => faults c = None) pre -> faults c = Some x ->
    exists n, forall fuel, n <= fuel -> exists w2, mcall call body effect is_async fuel s (log, w) = (Raise x, (log ++ pre ++ [c], w2)).
  Proof.
    intros s w vs e w1 log pre c post x B Q F Fc. destruct (call_agrees s w vs e w1 B (possible_body _ _ _ _ _ _ B) log) as [n H]. exists n. intros fuel L. specialize (H fuel L).
    unfold agrees in H. rewrite Q, (notes_cut _ _ _ _ _ _ _ F Fc) in H. exact H.
  Qed.
End Calls.

(** Methods without effects: the builder of Builder.v. *)
Section Quiet.
  Context {W A Mo St : Type} (b : builder (pyopt A) Mo) (resume : St -> pyopt A -> W -> node (pyopt A) Mo St * W) (effect : Mo).
  Hypothesis unit_law : left_unit b.
  Hypothesis delay_law : eager_delay b.
  Definition pack (s : W * (gstate A St * bool)) : @bworld W A St := BW (fst s) (fst (snd s)) (snd (snd s)).
  Lemma quiet_binder : forall v s,
    (let '(r, s1) := mbinder (quiet b) resume effect false v s in (r, pack s1)) = binder b resume v (pack s) /\
    (forall m s1, mbinder (quiet b) resume effect false v s = (Ret m, s1) -> (exists u, m = b_return b u) \/ snd (snd s1) = true).
  Proof.
    intros v [w [g []]]; unfold mbinder, binder, bind, msend, bsend, pack; cbn [bw bw_gen bw_done fst snd];
    destruct (send resume g v w) as [[[u|[|u]|m|e] g1] w1]; unfold side; cbn; unfold ret; rewrite ?delay_law; cbn; split;
      try reflexivity; intros m0 s1 E; try discriminate; injection E; intros; subst; first [left; eexists; reflexivity|right; reflexivity].
  Qed.
  Lemma quiet_loop : forall fuel value result s, (exists v, value = b_return b v) \/ snd (snd s) = true ->
    (let '(r, s1) := mloop (quiet b) resume effect false fuel value result s in (r, pack s1)) = loop b resume fuel value result (pack s).
  Proof.
    induction fuel as [|fuel IH]; intros value result s P; [reflexivity|].
    cbn [mloop loop]. unfold pack at 2. cbn [bw_done]. destruct (snd (snd s)) eqn:D; [reflexivity|].
    destruct P as [[v ->]|P]; [|discriminate]. cbn [quiet m_bind m_combine]. rewrite !unit_law.
    destruct (quiet_binder v s) as [E V].
    destruct (mbinder (quiet b) resume effect false v s) as [[m|e] s1]; rewrite <- E.
    - unfold side, ret; cbn [fst snd]. destruct s1 as [w1 [g1 d1]]. apply IH. exact (V _ _ eq_refl).
    - destruct e; reflexivity.
  Qed.
  Lemma quiet_pf : forall fuel s, mcall (quiet b) resume effect false fuel s ==m call_gen b resume fuel s.
  Proof.
    intros fuel s w. unfold mcall, call_gen. cbn [quiet m_zero m_run]. unfold ret.
    destruct (quiet_binder PyNone (w, (GBody s, false))) as [E V]. change (BW w (GBody s) false) with (pack (w, (GBody s, false))).
    destruct (mbinder (quiet b) resume effect false PyNone (w, (GBody s, false))) as [[m|e] s1]; rewrite <- E.
    - rewrite <- quiet_loop by exact (V _ _ eq_refl). destruct (mloop _ _ _ _ _ _ _ _) as [[r|e] s2]; reflexivity.
    - destruct e; reflexivity.
  Qed.
  Lemma aquiet_binder : forall v s,
    (let '(r, s1) := mbinder (quiet b) resume effect true v s in (r, pack s1)) = abinder b resume v (pack s) /\
    (forall m s1, mbinder (quiet b) resume effect true v s = (Ret m, s1) -> (exists u, m = b_return b u) \/ snd (snd s1) = true).
  Proof.
    intros v [w [g []]]; unfold mbinder, abinder, bind, msend, asend, pack; cbn [bw bw_gen bw_done fst snd];
    destruct (send resume g v w) as [[[u|[|u]|m|e] g1] w1]; unfold side; cbn; unfold ret; rewrite ?delay_law; cbn; split;
      try reflexivity; intros m0 s1 E; try discriminate; injection E; intros; subst; first [left; eexists; reflexivity|right; reflexivity].
  Qed.
  Lemma aquiet_loop : forall fuel value result s, (exists v, value = b_return b v) \/ snd (snd s) = true ->
    (let '(r, s1) := mloop (quiet b) resume effect true fuel value result s in (r, pack s1)) = aloop b resume fuel value result (pack s).
  Proof.
    induction fuel as [|fuel IH]; intros value result s P; [reflexivity|].
    cbn [mloop aloop]. unfold pack at 2. cbn [bw_done]. destruct (snd (snd s)) eqn:D; [reflexivity|].
    destruct P as [[v ->]|P]; [|discriminate]. cbn [quiet m_bind m_combine]. rewrite !unit_law.
    destruct (aquiet_binder v s) as [E V].
    destruct (mbinder (quiet b) resume effect true v s) as [[m|e] s1]; rewrite <- E.
    - unfold side, ret; cbn [fst snd]. destruct s1 as [w1 [g1 d1]]. apply IH. exact (V _ _ eq_refl).
    - destruct e; reflexivity.
  Qed.
  Lemma aquiet_pf : forall fuel s, mcall (quiet b) resume effect true fuel s ==m acall_gen b resume fuel s.
  Proof.
    intros fuel s w. unfold mcall, acall_gen. cbn [quiet m_zero m_run]. unfold ret.
    destruct (aquiet_binder PyNone (w, (GBody s, false))) as [E V]. change (BW w (GBody s) false) with (pack (w, (GBody s, false))).
    destruct (mbinder (quiet b) resume effect true PyNone (w, (GBody s, false))) as [[m|e] s1]; rewrite <- E.
    - rewrite <- aquiet_loop by exact (V _ _ eq_refl). destruct (mloop _ _ _ _ _ _ _ _) as [[r|e] s2]; reflexivity.
    - destruct e; reflexivity.
  Qed.
End Quiet.

(** Bodies that are plain functions. *)
Lemma plain_calls_pf : forall W A Mo (b : builder (pyopt A) Mo) faults (body : M W (pyopt A)) log w,
  mcall_plain (spied faults b) (fun lw => let '(r, w1) := body (snd lw) in (r, (fst lw, w1))) (log, w) =
  match body w with
  | (Raise e, w1) => (Raise e, (log, w1))
  | (Ret v, w1) =>
      let first := match v with PyNone => CZero | PyVal _ => CReturn v end in
      let value := match v with PyNone => b_zero b | PyVal _ => b_return b v end in
      match faults first with
      | Some x => (Raise x, (log ++ [first], w1))
      | None =>
          match faults (CRun value) with
          | Some x => (Raise x, (log ++ [first; CRun value], w1))
          | None => (Ret (b_run b value), (log ++ [first; CRun value], w1))
          end
      end
  end.
Proof.
  intros W A Mo b faults body log w. unfold mcall_plain, bind at 1. cbn [fst snd]. destruct (body w) as [[[|x]|e] w1]; [| |reflexivity];
    unfold spied, bind, note; cbn.
  - destruct (faults CZero); [reflexivity|]. unfold ret. destruct (faults (CRun (b_zero b))); rewrite <- app_assoc; reflexivity.
  - destruct (faults (CReturn (PyVal x))); [reflexivity|]. unfold ret. destruct (faults (CRun (b_return b (PyVal x)))); rewrite <- app_assoc; reflexivity.
Qed.

(** Zero is called whatever the body does. *)
Lemma zero_pf : forall W A Mo St (b : methods W (pyopt A) Mo) resume effect is_async fuel (s : St) x w w1,
  m_zero b w = (Raise x, w1) -> mcall b resume effect is_async fuel s w = (Raise x, w1).
Proof. intros W A Mo St b resume effect is_async fuel s x w w1 Z. unfold mcall. rewrite Z. reflexivity. Qed.
(** What [delay] is given is a value that the body has computed. *)
Lemma delay_pf : forall W A Mo St (b : methods W (pyopt A) Mo) resume effect is_async fuel (s : St) z m v s1 x w w1,
  (forall w, m_zero b w = (Ret z, w)) -> (forall w, m_return b v w = (Ret m, w)) ->
  (forall f w, m_delay b f w = (Raise x, w)) -> x <> StopIterationExn ->
  resume s PyNone w = (NYield v s1, w1) -> mcall b resume effect is_async fuel s w = (Raise x, w1).
Proof.
  intros W A Mo St b resume effect is_async fuel s z m v s1 x w w1 Z R D N E. unfold mcall. rewrite Z.
  unfold mbinder, bind, msend. cbn [send]. unfold run_body. rewrite E, R. unfold side. cbn [fst]. rewrite D.
  destruct x; try congruence; reflexivity.
Qed.
