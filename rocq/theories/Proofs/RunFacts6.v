(** Lemmas about loops over any iterator: elements taken one by one. *)
From Coq Require Import List ZArith Bool Lia.
From Verif.Model Require Import Base Gen OptionResult Seq.
From Verif.Spec Require Import RunSpec.
From Verif.Proofs Require Import SeqFacts RunFacts RunFacts2 RunFacts5.
Import ListNotations.
Local Open Scope py_scope.

Lemma batch_pulls_some : forall W A B S (f : S -> A -> M W (S * list B)) s g w l w1, batch_pulls f s g w l w1 -> l <> [].
Proof. induction 1; [assumption|]. intros E. apply app_eq_nil in E. now apply IHbatch_pulls. Qed.
Lemma batch_pulls_skip : forall W A B S (f : S -> A -> M W (S * list B)) s (g : gen W A) w g1 w1 l w2, step g w = (Ret (Skip g1), w1) ->
  batch_pulls f s g1 w1 l w2 -> batch_pulls f s g w l w2.
Proof.
  intros W A B S f s g w g1 w1 l w2 E R. inversion R; subst.
  - eapply bp_last; [eapply pu_skip; eassumption|eassumption|assumption].
  - eapply bp_next; [eapply pu_skip; eassumption|eassumption|eassumption].
Qed.
Lemma batch_pulls_ext : forall W A B S (f f' : S -> A -> M W (S * list B)),
  (forall s x w s1 ys w1, f s x w = (Ret (s1, ys), w1) -> f' s x w = (Ret (s1, ys), w1)) ->
  forall s g w l w1, batch_pulls f s g w l w1 -> batch_pulls f' s g w l w1.
Proof.
  intros W A B S f f' H. induction 1 as [s g w x g1 w1 s1 ys w2 P E N|s g w x g1 w1 s1 ys w2 l w3 P E R IH].
  - eapply bp_last; [exact P|now apply H; exact E|exact N].
  - eapply bp_next; [exact P|apply H; exact E|exact IH].
Qed.

Section Loop.
  Context {W A B S : Type}.
  Variable body : S -> A -> M W (S * list B).
  Variable loop : S -> gen W A -> gen W B.
  Hypothesis short : forall s x w s1 ys w1, body s x w = (Ret (s1, ys), w1) -> List.length ys <= 1.
  Hypothesis loop_step : forall s g w, step (loop s g) w =
    match step g w with
    | (Ret (Yield x g1), w1) =>
        match body s x w1 with
        | (Ret (s1, []), w2) => (Ret (Skip (loop s1 g1)), w2)
        | (Ret (s1, y :: _), w2) => (Ret (Yield y (loop s1 g1)), w2)
        | (Raise StopIterationExn, w2) => (Ret Stop, w2)
        | (Raise e, w2) => (Raise e, w2)
        end
    | (Ret (Skip g1), w1) => (Ret (Skip (loop s g1)), w1)
    | (Ret Stop, w1) => (Ret Stop, w1)
    | (Raise e, w1) => (Raise e, w1)
    end.

  Lemma loop_pull : forall g w l0 g1 w1, pulled g w l0 g1 w1 -> forall x, l0 = [x] -> forall s s1 ys w2 l k w3,
    body s x w1 = (Ret (s1, ys), w2) -> pulled (loop s1 g1) w2 l k w3 -> ys ++ l <> [] -> pulled (loop s g) w (ys ++ l) k w3.
  Proof.
    induction 1 as [g w|g w g1 w1 z l0 g2 w2 E P IH|g w z g1 w1 l0 g2 w2 E P IH]; intros x L s s1 ys w3 l k w4 Eb Q N; try discriminate.
    - pose proof (IH _ L _ _ _ _ _ _ _ Eb Q N) as H. destruct (ys ++ l) as [|y l1]; [congruence|]. eapply pu_skip; [rewrite loop_step, E; reflexivity|exact H].
    - injection L as -> ->. inversion P; subst. pose proof (short _ _ _ _ _ _ Eb) as L. destruct ys as [|y [|? ?]]; cbn [List.length] in L; [| |lia].
      + cbn in N |- *. destruct l as [|y l]; [congruence|]. eapply pu_skip; [rewrite loop_step, E, Eb; reflexivity|exact Q].
      + eapply pu_yield; [rewrite loop_step, E, Eb; reflexivity|exact Q].
  Qed.
  Lemma batch_loop : forall s g w l w1, batch_pulls body s g w l w1 -> exists k, pulled (loop s g) w l k w1.
  Proof.
    induction 1 as [s g w x g1 w1 s1 ys w2 P E N|s g w x g1 w1 s1 ys w2 l w3 P E R (k & IH)].
    - exists (loop s1 g1). rewrite <- (app_nil_r ys). eapply loop_pull; [exact P|reflexivity|exact E|apply pu_none|]. now rewrite app_nil_r.
    - exists k. eapply loop_pull; [exact P|reflexivity|exact E|exact IH|]. intros X. apply app_eq_nil in X. now apply (batch_pulls_some _ _ _ _ _ _ _ _ _ _ R).
  Qed.
  Lemma loop_batch : forall h w l k w1, pulled h w l k w1 -> l <> [] -> forall s g, h = loop s g -> batch_pulls body s g w l w1.
  Proof.
    induction 1 as [h w|h w h1 w1 y l k w2 E P IH|h w y h1 w1 l k w2 E P IH]; intros N s g ->; [congruence| |]; rewrite loop_step in E;
      destruct (step g w) as [[[x0 g0|g0|]|e0] w0] eqn:Eg; try discriminate;
      try (destruct (body s x0 w0) as [[[s1 [|y1 ys]]|e1] w3] eqn:Eb; try discriminate; try (destruct e1; discriminate)).
    - injection E as <- <-. change (y :: l) with ([] ++ y :: l). eapply bp_next; [eapply pu_yield; [exact Eg|apply pu_none]|exact Eb|]. now apply IH.
    - injection E as <- <-. eapply batch_pulls_skip; [exact Eg|]. now apply IH.
    - injection E as -> <- <-. pose proof (short _ _ _ _ _ _ Eb) as L. destruct ys; cbn [List.length] in L; [|lia].
      change (y :: l) with ([y] ++ l). destruct l as [|z l].
      + inversion P; subst. rewrite app_nil_r. eapply bp_last; [eapply pu_yield; [exact Eg|apply pu_none]|exact Eb|discriminate].
      + eapply bp_next; [eapply pu_yield; [exact Eg|apply pu_none]|exact Eb|]. apply IH; [discriminate|reflexivity].
  Qed.
  Lemma batch_iff : forall s g w l w1, l <> [] -> (exists k, pulled (loop s g) w l k w1) <-> batch_pulls body s g w l w1.
  Proof. intros s g w l w1 N. split; [intros (k & P); eapply loop_batch; eauto|apply batch_loop]. Qed.
End Loop.

Section Open.
  Context {W A B : Type}.
  Lemma opening_pulls_iff : forall (src : iterable W A) (k : gen W A -> gen W B) w g w0, src w = (Ret g, w0) -> forall l w1, l <> [] ->
    (exists h, pulls (ret (opening src k)) w l h w1) <-> (exists h, pulled (k g) w0 l h w1).
  Proof.
    intros src k w g w0 E l w1 N.
    assert (E1 : step (opening src k) w = (Ret (Skip (k g)), w0)) by (cbn; unfold bind, in_generator; rewrite E; reflexivity).
    split.
    - intros (h & g' & w' & E' & P). injection E' as <- <-. exists h. inversion P; subst; [congruence| |]; match goal with E2 : step _ _ = _ |- _ => rewrite E1 in E2; inversion E2; subst end. assumption.
    - intros (h & P). exists h. eexists _, _. split; [reflexivity|]. destruct l as [|x l]; [congruence|]. eapply pu_skip; eassumption.
  Qed.
  Lemma built_pulls_iff : forall (src : iterable W A) (k : gen W A -> gen W B) w g w0, src w = (Ret g, w0) -> forall l w1,
    (exists h, pulls (do g <- src; ret (k g)) w l h w1) <-> (exists h, pulled (k g) w0 l h w1).
  Proof.
    intros src k w g w0 E l w1. unfold pulls, bind. rewrite E. split.
    - intros (h & g' & w' & E' & P). injection E' as <- <-. now exists h.
    - intros (h & P). exists h, (k g), w0. now split.
  Qed.
End Open.

Section Ops.
  Context {W A B S : Type}.
  Variables (src : iterable W A) (w : W) (g : gen W A) (w0 : W).
  Hypothesis E : src w = (Ret g, w0).

  Lemma map_pulls_any : forall (f : A -> M W B) l w1, l <> [] ->
    (exists k, pulls (map f src) w l k w1) <-> batch_pulls (fun (_ : unit) x => do y <- f x; ret (tt, [y])) tt g w0 l w1.
  Proof using E.
    intros f l w1 N. unfold map. rewrite (opening_pulls_iff src (map_loop f) w g w0 E l w1 N).
    rewrite (batch_iff (fun (_ : unit) x => do y <- outside (f x); ret (tt, [y])) (fun (_ : unit) g => map_loop f g)) with (s := tt); [| | |exact N].
    - split; apply batch_pulls_ext; intros s x v s1 ys v1 H; unfold bind, outside in *; destruct (f x v) as [[y|[]] v2]; try discriminate; exact H.
    - intros s x v s1 ys v1 H. one H.
    - each_step f.
  Qed.
  Lemma filter_pulls_any : forall (p : A -> M W bool) l w1, l <> [] ->
    (exists k, pulls (filter p src) w l k w1) <-> batch_pulls (fun (_ : unit) x => do b <- p x; ret (tt, if b : bool then [x] else [])) tt g w0 l w1.
  Proof using E.
    intros p l w1 N. unfold filter. rewrite (built_pulls_iff src (filter_loop p) w g w0 E l w1).
    apply (batch_iff (fun (_ : unit) x => do b <- p x; ret (tt, if b : bool then [x] else [])) (fun (_ : unit) g => filter_loop p g)); [| |exact N].
    - intros s x v s1 ys v1 H. unfold bind in H. destruct (p x v) as [[[]|?] ?]; [injection H as <- <- <-; cbn; lia..|discriminate].
    - intros s h v. destruct s; cbn; unfold bind; destruct (step h v) as [[[x g1|g1|]|e] v2] eqn:?;
        [destruct (p x v2) as [[[]|[]] ?]; reflexivity|reflexivity|reflexivity|no_stop_raised].
  Qed.
  Lemma scan_pulls_any : forall (f : S -> A -> M W S) s l w1, l <> [] ->
    (exists k, pulls (scan f s src) w (s :: l) k w1) <-> batch_pulls (fun s x => do s1 <- f s x; ret (s1, [s1])) s g w0 l w1.
  Proof using E.
    intros f s l w1 N. unfold scan. rewrite (built_pulls_iff src (fun g => Gen (ret (Yield s (scan_loop f s g)))) w g w0 E).
    rewrite <- (batch_iff (fun s x => do s1 <- f s x; ret (s1, [s1])) (fun s g => scan_loop f s g)); [| | |exact N].
    - split; intros (k & P).
      + inversion P; subst; match goal with E2 : step _ _ = _ |- _ => cbn in E2; inversion E2; subst end. now exists k.
      + exists k. eapply pu_yield; [reflexivity|exact P].
    - intros s0 x v s1 ys v1 H. one H.
    - intros s0 h v. cbn; unfold bind; destruct (step h v) as [[[x g1|g1|]|e] v2] eqn:?;
        [destruct (f s0 x v2) as [[y|[]] ?]; reflexivity|reflexivity|reflexivity|no_stop_raised].
  Qed.
End Ops.

Section Collect.
  Context {W A B : Type}.
  Variable f : A -> M W (iterable W B).
  Implicit Types g : gen W A.

  Lemma collect_pulls_some : forall g w l w1, collect_pulls f g w l w1 -> l <> [].
  Proof. induction 1; [assumption|]. intros E. apply app_eq_nil in E. now apply IHcollect_pulls. Qed.
  Lemma collect_pulls_skip : forall g w g1 w1 l w2, step g w = (Ret (Skip g1), w1) -> collect_pulls f g1 w1 l w2 -> collect_pulls f g w l w2.
  Proof.
    intros g w g1 w1 l w2 E R. inversion R; subst.
    - eapply cp_last; [eapply pu_skip; eassumption|eassumption|assumption|eassumption].
    - eapply cp_next; [eapply pu_skip; eassumption|eassumption|eassumption|eassumption].
  Qed.

  Lemma collect_enter : forall g w l0 g1 w1, pulled g w l0 g1 w1 -> forall x, l0 = [x] -> forall it w2 h w3 l k w4,
    f x w1 = (Ret it, w2) -> it w2 = (Ret h, w3) -> l <> [] -> pulled (collect_loop f (Some h) g1) w3 l k w4 -> pulled (collect_loop f None g) w l k w4.
  Proof.
    induction 1 as [g w|g w g1 w1 z l0 g2 w2 E P IH|g w z g1 w1 l0 g2 w2 E P IH]; intros x L it w3 h w4 l k w5 Ef Ei N Q; try discriminate.
    - pose proof (IH _ L _ _ _ _ _ _ _ Ef Ei N Q) as H. destruct l as [|y l]; [congruence|]. eapply pu_skip; [stp|exact H].
    - injection L as -> ->. inversion P; subst. destruct l as [|y l]; [congruence|]. eapply pu_skip; [|exact Q].
      cbn. unfold bind, in_generator. rewrite E, Ef. cbn. rewrite Ei. reflexivity.
  Qed.
  Lemma collect_inner_pulled : forall (h : gen W B) w l h1 w1, pulled h w l h1 w1 -> forall g, pulled (collect_loop f (Some h) g) w l (collect_loop f (Some h1) g) w1.
  Proof.
    induction 1 as [h w|h w h1 w1 y l k w2 E P IH|h w y h1 w1 l k w2 E P IH]; intros g.
    - apply pu_none.
    - eapply pu_skip; [stp|apply IH].
    - eapply pu_yield; [stp|apply IH].
  Qed.
  Lemma collect_inner_over : forall (h : gen W B) w l r w1, produces h w l r w1 -> r = Ret tt -> forall g l2 k w2, l2 <> [] ->
    pulled (collect_loop f None g) w1 l2 k w2 -> pulled (collect_loop f (Some h) g) w (l ++ l2) k w2.
  Proof.
    induction 1 as [h w w1 E|h w e w1 E|h w g1 w1 l r w2 E P IH|h w x g1 w1 l r w2 E P IH]; intros R g l2 k w3 N Q; try discriminate; cbn [app].
    - destruct l2 as [|y l2]; [congruence|]. eapply pu_skip; [stp|exact Q].
    - pose proof (IH R g l2 k w3 N Q) as H. destruct (l ++ l2) as [|y l3] eqn:El; [apply app_eq_nil in El; destruct El; congruence|]. eapply pu_skip; [stp|exact H].
    - eapply pu_yield; [stp|]. now apply IH.
  Qed.
  Lemma collect_pulls_loop : forall g w l w1, collect_pulls f g w l w1 -> exists k, pulled (collect_loop f None g) w l k w1.
  Proof.
    induction 1 as [g w x g1 w1 it w2 l h w3 P E N I|g w x g1 w1 it w2 l w3 l2 w4 P E I R (k & IH)].
    - destruct I as (h0 & w4 & Ei & Q). eexists. eapply collect_enter; [exact P|reflexivity|exact E|exact Ei|exact N|]. apply collect_inner_pulled. exact Q.
    - pose proof (collect_pulls_some _ _ _ _ R) as N. destruct I as [(h0 & w5 & Ei & Q)|(e & _ & _ & X)]; [|discriminate]. exists k.
      eapply collect_enter; [exact P|reflexivity|exact E|exact Ei| |].
      + intros X. apply app_eq_nil in X. now apply N.
      + eapply collect_inner_over; [exact Q|reflexivity|exact N|exact IH].
  Qed.
  Lemma loop_collect_pulls : forall k w l k1 w1, pulled k w l k1 w1 -> l <> [] ->
    (forall g, k = collect_loop f None g -> collect_pulls f g w l w1) /\
    (forall h g, k = collect_loop f (Some h) g ->
       (exists h1, pulled h w l h1 w1) \/
       (exists l1 l2 w2, l = l1 ++ l2 /\ produces h w l1 (Ret tt) w2 /\ collect_pulls f g w2 l2 w1)).
  Proof.
    assert (INNER : forall g x g1 w w0 it w2 h w3 l w1, l <> [] -> step g w = (Ret (Yield x g1), w0) -> f x w0 = (Ret it, w2) -> it w2 = (Ret h, w3) ->
      ((exists h1, pulled h w3 l h1 w1) \/
       (exists l1 l2 w4, l = l1 ++ l2 /\ produces h w3 l1 (Ret tt) w4 /\ collect_pulls f g1 w4 l2 w1)) -> collect_pulls f g w l w1).
    { intros g x g1 w w0 it w2 h w3 l w1 N Eg Ef Ei [(h1 & P)|(l1 & l2 & w4 & -> & P & R)].
      - eapply cp_last; [eapply pu_yield; [exact Eg|apply pu_none]|exact Ef|exact N|]. exists h, w3. split; [exact Ei|exact P].
      - eapply cp_next; [eapply pu_yield; [exact Eg|apply pu_none]|exact Ef| |exact R]. left. exists h, w3. now split. }
    induction 1 as [k w|k w k1 w1 y l k2 w2 E P IH|k w y k1 w1 l k2 w2 E P IH]; intros N; [congruence| |]; split.
    - intros g ->. destruct (IH N) as [IH1 IH2]. cbn in E. unfold bind, in_generator in E. destruct (step g w) as [[[x g0|g0|]|e0] w0] eqn:Eg; cbn in E; try discriminate.
      + destruct (f x w0) as [[it|[]] w3] eqn:Ef; cbn in E; try discriminate.
        destruct (it w3) as [[h|[]] w4] eqn:Ei; cbn in E; try discriminate. injection E as <- <-.
        eapply INNER; [discriminate|exact Eg|exact Ef|exact Ei|]. apply IH2. reflexivity.
      + injection E as <- <-. eapply collect_pulls_skip; [exact Eg|]. apply IH1. reflexivity.
      + destruct e0; discriminate.
    - intros h g ->. destruct (IH N) as [IH1 IH2]. cbn in E. unfold bind in E. destruct (step h w) as [[[x g0|g0|]|e0] w0] eqn:Eg; cbn in E; try discriminate.
      + injection E as <- <-. destruct (IH2 _ _ eq_refl) as [(h1 & Q)|(l1 & l2 & w4 & El & Q & R)].
        * left. exists h1. eapply pu_skip; eassumption.
        * right. exists l1, l2, w4. split; [exact El|]. split; [eapply pr_skip; eassumption|exact R].
      + injection E as <- <-. right. exists [], (y :: l), w0. split; [reflexivity|]. split; [now apply pr_stop|]. apply IH1. reflexivity.
      + destruct e0; discriminate.
    - intros g ->. cbn in E. unfold bind, in_generator in E. destruct (step g w) as [[[x g0|g0|]|e0] w0] eqn:Eg; cbn in E; try discriminate.
      + destruct (f x w0) as [[it|[]] w3] eqn:Ef; cbn in E; try discriminate. destruct (it w3) as [[h|[]] w4] eqn:Ei; discriminate.
      + destruct e0; discriminate.
    - intros h g ->. cbn in E. unfold bind in E. destruct (step h w) as [[[x g0|g0|]|e0] w0] eqn:Eg; cbn in E; try discriminate.
      + injection E as -> <- <-. destruct l as [|z l].
        * inversion P; subst. left. exists g0. eapply pu_yield; [exact Eg|apply pu_none].
        * destruct (IH ltac:(discriminate)) as [_ IH2]. destruct (IH2 _ _ eq_refl) as [(h1 & Q)|(l1 & l2 & w4 & El & Q & R)].
          -- left. exists h1. eapply pu_yield; eassumption.
          -- right. exists (y :: l1), l2, w4. split; [cbn; now rewrite <- El|]. split; [eapply pr_yield; eassumption|exact R].
      + destruct e0; discriminate.
  Qed.
  Lemma collect_pulls_any : forall (src : iterable W A) w g w0, src w = (Ret g, w0) -> forall l w1, l <> [] ->
    (exists k, pulls (collect f src) w l k w1) <-> collect_pulls f g w0 l w1.
  Proof.
    intros src w g w0 E l w1 N. unfold collect. rewrite (opening_pulls_iff src (collect_loop f None) w g w0 E l w1 N). split.
    - intros (k & P). now apply (proj1 (loop_collect_pulls _ _ _ _ _ P N)).
    - apply collect_pulls_loop.
  Qed.
End Collect.

Section Zip.
  Context {W A B : Type}.
  Implicit Types (g : gen W A) (h : gen W B).

  Lemma pair_pulls_skip : forall g h w g1 w1 l w2, step g w = (Ret (Skip g1), w1) -> pair_pulls g1 h w1 l w2 -> pair_pulls g h w l w2.
  Proof.
    intros g h w g1 w1 l w2 E R. inversion R; subst.
    - eapply pp_last; [eapply pu_skip; eassumption|eassumption].
    - eapply pp_next; [eapply pu_skip; eassumption|eassumption|eassumption].
  Qed.
  Lemma zip_pull1 : forall g w l0 g1 w1, pulled g w l0 g1 w1 -> forall x, l0 = [x] -> forall h l k w2, l <> [] ->
    pulled (zip_loop (Some x) g1 h) w1 l k w2 -> pulled (zip_loop None g h) w l k w2.
  Proof.
    induction 1 as [g w|g w g1 w1 y l0 g2 w2 E P IH|g w y g1 w1 l0 g2 w2 E P IH]; intros x L h l k w3 N Q; try discriminate.
    - pose proof (IH _ L _ _ _ _ N Q) as H. destruct l as [|p l]; [congruence|]. eapply pu_skip; [stp|exact H].
    - injection L as -> ->. inversion P; subst. destruct l as [|p l]; [congruence|]. eapply pu_skip; [stp|exact Q].
  Qed.
  Lemma zip_pull2 : forall h w l0 h1 w1, pulled h w l0 h1 w1 -> forall y, l0 = [y] -> forall x g l k w2,
    pulled (zip_loop None g h1) w1 l k w2 -> pulled (zip_loop (Some x) g h) w ((x, y) :: l) k w2.
  Proof.
    induction 1 as [h w|h w h1 w1 z l0 h2 w2 E P IH|h w z h1 w1 l0 h2 w2 E P IH]; intros y L x g l k w3 Q; try discriminate.
    - eapply pu_skip; [stp|]. eapply IH; eassumption.
    - injection L as -> ->. inversion P; subst. eapply pu_yield; [stp|exact Q].
  Qed.
  Lemma pair_pulls_loop : forall g h w l w1, pair_pulls g h w l w1 -> exists k, pulled (zip_loop None g h) w l k w1.
  Proof.
    induction 1 as [g h w x g1 w1 y h1 w2 P Q|g h w x g1 w1 y h1 w2 l w3 P Q R (k & IH)].
    - eexists. eapply zip_pull1; [exact P|reflexivity|discriminate|]. eapply zip_pull2; [exact Q|reflexivity|apply pu_none].
    - exists k. eapply zip_pull1; [exact P|reflexivity|discriminate|]. eapply zip_pull2; [exact Q|reflexivity|exact IH].
  Qed.
  Lemma loop_pair_pulls : forall k w l k1 w1, pulled k w l k1 w1 -> l <> [] ->
    (forall g h, k = zip_loop None g h -> pair_pulls g h w l w1) /\
    (forall x g h, k = zip_loop (Some x) g h ->
       exists y l2 h1 w2, l = (x, y) :: l2 /\ pulled h w [y] h1 w2 /\ (l2 = [] /\ w2 = w1 \/ pair_pulls g h1 w2 l2 w1)).
  Proof.
    induction 1 as [k w|k w k1 w1 p l k2 w2 E P IH|k w p k1 w1 l k2 w2 E P IH]; intros N; [congruence| |]; split.
    - intros g h ->. destruct (IH N) as [IH1 IH2]. cbn in E. unfold bind in E. destruct (step g w) as [[[x g0|g0|]|e0] w0] eqn:Eg; cbn in E; try discriminate.
      + injection E as <- <-. destruct (IH2 _ _ _ eq_refl) as (y & l2 & h1 & w3 & -> & Q & [(-> & ->)|R]).
        * eapply pp_last; [eapply pu_yield; [exact Eg|apply pu_none]|exact Q].
        * eapply pp_next; [eapply pu_yield; [exact Eg|apply pu_none]|exact Q|exact R].
      + injection E as <- <-. eapply pair_pulls_skip; [exact Eg|]. apply IH1. reflexivity.
      + destruct e0; discriminate.
    - intros x g h ->. destruct (IH N) as [IH1 IH2]. cbn in E. unfold bind in E. destruct (step h w) as [[[y g0|g0|]|e0] w0] eqn:Eg; cbn in E; try discriminate.
      + injection E as <- <-. destruct (IH2 _ _ _ eq_refl) as (y & l2 & h1 & w3 & -> & Q & R).
        exists y, l2, h1, w3. split; [reflexivity|]. split; [eapply pu_skip; eassumption|exact R].
      + destruct e0; discriminate.
    - intros g h ->. cbn in E. unfold bind in E. destruct (step g w) as [[[x g0|g0|]|e0] w0] eqn:Eg; cbn in E; try discriminate. destruct e0; discriminate.
    - intros x g h ->. cbn in E. unfold bind in E. destruct (step h w) as [[[y g0|g0|]|e0] w0] eqn:Eg; cbn in E; try discriminate.
      + injection E as <- <- <-. exists y, l, g0, w0. split; [reflexivity|]. split; [eapply pu_yield; [exact Eg|apply pu_none]|].
        destruct l as [|q l]; [left; split; [reflexivity|now inversion P]|]. right. apply (proj1 (IH ltac:(discriminate))). reflexivity.
      + destruct e0; discriminate.
  Qed.
  Lemma zip_pulls_any : forall (src : iterable W A) (src2 : iterable W B) w g w0 h w2, src w = (Ret g, w0) -> src2 w0 = (Ret h, w2) -> forall l w1, l <> [] ->
    (exists k, pulls (zip src src2) w l k w1) <-> pair_pulls g h w2 l w1.
  Proof.
    intros src src2 w g w0 h w2 E1 E2 l w1 N. unfold pulls, zip, bind. rewrite E1, E2. split.
    - intros (k & g' & w' & E' & P). injection E' as <- <-. now apply (proj1 (loop_pair_pulls _ _ _ _ _ P N)).
    - intros P. destruct (pair_pulls_loop _ _ _ _ _ P) as (k & Q). exists k. eexists _, _. split; [reflexivity|exact Q].
  Qed.
End Zip.

Section Choose.
  Context {W A B : Type}.
  Variable f : A -> M W (option B).

  Lemma choose_pulls_batch : forall (g : gen W A) w l w1,
    collect_pulls (fun x => do o <- f x; ret (of_list (opt_to_list o))) g w l w1 <->
    batch_pulls (fun (_ : unit) x => do o <- f x; ret (tt, match o with Some y => [y] | None => [] end)) tt g w l w1.
  Proof.
    intros g w l w1. split.
    - induction 1 as [g w x g1 w1 it w2 l h w3 P E N I|g w x g1 w1 it w2 l w3 l2 w4 P E I R IH];
        unfold bind in E; destruct (f x w1) as [[o|e] w5] eqn:Ef; try discriminate; injection E as <- <-.
      + destruct I as (h0 & w6 & Ei & Q). injection Ei as <- <-. destruct o as [y|]; cbn in Q.
        * inversion Q; subst; [congruence|discriminate|]. match goal with X : step _ _ = _ |- _ => cbn in X; injection X as <- <- <- end.
          match goal with X : pulled (list_gen []) _ _ _ _ |- _ => inversion X; subst; try discriminate end.
          eapply bp_last; [exact P|unfold bind; rewrite Ef; reflexivity|discriminate].
        * inversion Q; subst; [congruence|discriminate|discriminate].
      + destruct I as [(h0 & w6 & Ei & Q)|(e & _ & _ & X)]; [|discriminate]. injection Ei as <- <-.
        assert (l = match o with Some y => [y] | None => [] end /\ w3 = w5) as [-> ->].
        { destruct o as [y|]; cbn in Q.
          - inversion Q; subst; try discriminate. match goal with X : step _ _ = _ |- _ => cbn in X; injection X as <- <- <- end.
            match goal with X : produces (list_gen []) _ _ _ _ |- _ => inversion X; subst; try discriminate end.
            match goal with X : step _ _ = _ |- _ => cbn in X; injection X as <- end. now split.
          - inversion Q; subst; try discriminate. match goal with X : step _ _ = _ |- _ => cbn in X; injection X as <- end. now split. }
        eapply bp_next; [exact P|unfold bind; rewrite Ef; reflexivity|exact IH].
    - generalize tt as s0. induction 1 as [s g w x g1 w1 s1 ys w2 P E N|s g w x g1 w1 s1 ys w2 l w3 P E R IH];
        unfold bind in E; destruct (f x w1) as [[o|e] w5] eqn:Ef; try discriminate; injection E as <- <- <-.
      + destruct o as [y|]; [|congruence]. eapply cp_last; [exact P|unfold bind; rewrite Ef; reflexivity|discriminate|].
        exists (list_gen [y]), w5. split; [reflexivity|]. eapply pu_yield; [reflexivity|apply pu_none].
      + eapply cp_next; [exact P|unfold bind; rewrite Ef; reflexivity| |exact IH]. left. eexists _, w5. split; [reflexivity|].
        destruct o as [y|]; cbn; [eapply pr_yield; [reflexivity|]|]; now apply pr_stop.
  Qed.
  Lemma choose_pulls_any : forall (src : iterable W A) w g w0, src w = (Ret g, w0) -> forall l w1, l <> [] ->
    (exists k, pulls (choose f src) w l k w1) <->
    batch_pulls (fun (_ : unit) x => do o <- f x; ret (tt, match o with Some y => [y] | None => [] end)) tt g w0 l w1.
  Proof. intros src w g w0 E l w1 N. unfold choose. rewrite (collect_pulls_any _ src w g w0 E l w1 N). apply choose_pulls_batch. Qed.
End Choose.
