(** Lemmas about loops over any iterator: collect, zip and the consumers. *)
From Coq Require Import List ZArith Bool Lia.
From Verif.Model Require Import Base Gen OptionResult Seq.
From Verif.Spec Require Import RunSpec.
From Verif.Proofs Require Import SeqFacts RunFacts.
Import ListNotations.
Local Open Scope py_scope.

(** Undoing the first step of an iteration. *)
Ltac first_step P E := inversion P as [? ? ? E|? ? ? ? E|? ? ? ? ? ? ? E ?|? ? ? ? ? ? ? ? E ?]; subst.

Section Collect.
  Context {W A B : Type}.
  Variable f : A -> M W (iterable W B).
  Implicit Types g : gen W A.

  Lemma collect_ended : forall g w l r w1, produces g w l r w1 -> l = [] -> produces (collect_loop f None g) w [] r w1.
  Proof.
    induction 1 as [g w w1 E|g w e w1 E|g w g1 w1 l r w2 E P IH|g w x g1 w1 l r w2 E P IH]; intros L; try discriminate.
    - apply pr_stop. stp.
    - apply pr_raise. stp.
    - eapply pr_skip; [stp|]. auto.
  Qed.
  Lemma collect_inner_ret : forall (h : gen W B) w l w1 g l2 r w2, produces h w l (Ret tt) w1 ->
    produces (collect_loop f None g) w1 l2 r w2 -> produces (collect_loop f (Some h) g) w (l ++ l2) r w2.
  Proof.
    intros h w l w1 g l2 r w2 P Q. remember (Ret tt) as r0 eqn:E0. induction P; try discriminate; cbn [app].
    - eapply pr_skip; [stp|exact Q].
    - eapply pr_skip; [stp|]. auto.
    - eapply pr_yield; [stp|]. auto.
  Qed.
  Lemma collect_inner_raise : forall (h : gen W B) w l e w1 g, produces h w l (Raise e) w1 ->
    produces (collect_loop f (Some h) g) w l (Raise e) w1.
  Proof.
    intros h w l e w1 g P. remember (Raise e) as r0 eqn:E0. induction P; try discriminate; cbn [app].
    - injection E0 as ->. apply pr_raise. stp.
    - eapply pr_skip; [stp|]. auto.
    - eapply pr_yield; [stp|]. auto.
  Qed.
  Definition entered (x : A) g1 : M W (gstep B (gen W B)) :=
    do it <- in_generator (f x); do k <- in_generator it; ret (Skip (collect_loop f (Some k) g1)).
  Lemma collect_pulled : forall g w l g1 w1, pulled g w l g1 w1 -> forall x, l = [x] -> forall l2 r w2,
    (forall h, step h w1 = (entered x g1) w1 -> produces h w1 l2 r w2) ->
    produces (collect_loop f None g) w l2 r w2.
  Proof.
    induction 1 as [g w|g w g1 w1 y l g2 w2 E P IH|g w y g1 w1 l g2 w2 E P IH]; intros x L l2 r w3 H; try discriminate.
    - eapply pr_skip; [stp|]. eapply IH; eauto.
    - injection L as -> ->. inversion P; subst. clear P IH.
      assert (N : forall w0, fst ((entered x g2) w0) <> Raise StopIterationExn).
      { intros w0. unfold entered, bind, in_generator. destruct (f x w0) as [[it|[]] wa]; cbn; try discriminate. destruct (it wa) as [[k|[]] wb]; cbn; discriminate. }
      assert (E1 : step (collect_loop f None g) w = (entered x g2) w2).
      { cbn. unfold bind at 1. rewrite E. cbn. fold (entered x g2). specialize (N w2).
        destruct (entered x g2 w2) as [[st|e0] w4]; [reflexivity|]. cbn in N. destruct e0; try reflexivity. now contradiction N. }
      pose (h := Gen (fun _ : W => step (collect_loop f None g) w)).
      assert (E3 : step h w2 = step (collect_loop f None g) w).
      { cbn -[step collect_loop]. unfold h. cbn [step]. destruct (step (collect_loop f None g) w) as [[st|e] w4] eqn:E4; [reflexivity|].
        pose proof (step_no_stop _ _ _ _ _ _ E4) as N4. destruct e; try reflexivity; now contradiction N4. }
      assert (K : produces h w2 l2 r w3) by (apply H; now rewrite E3, E1).
      inversion K; subst; rewrite E3 in *.
      + now apply pr_stop.
      + now apply pr_raise.
      + eapply pr_skip; eassumption.
      + eapply pr_yield; eassumption.
  Qed.

  Lemma collect_runs : forall g w l r w1, runs_inner f g w l r w1 -> produces (collect_loop f None g) w l r w1.
  Proof.
    induction 1 as [g w r w1 P|g w x g1 w1 e w2 P E|g w x g1 w1 it w2 l e w3 P E I|g w x g1 w1 it w2 l w3 l2 r w4 P E I R IH].
    - eapply collect_ended; [exact P|reflexivity].
    - eapply collect_pulled; [exact P|reflexivity|]. intros h Eh. unfold entered, bind, in_generator in Eh. rewrite E in Eh.
      destruct e; now apply pr_raise.
    - eapply collect_pulled; [exact P|reflexivity|]. intros h Eh. unfold entered, bind, in_generator in Eh. rewrite E in Eh.
      destruct I as [(k & w4 & E1 & P1)|(e1 & E1 & -> & E2)]; cbn in Eh; rewrite E1 in Eh; cbn in Eh.
      + rewrite (produces_leaving _ _ _ _ _ _ _ P1). eapply pr_skip; [exact Eh|]. now apply collect_inner_raise.
      + injection E2 as ->. destruct e1; now apply pr_raise.
    - eapply collect_pulled; [exact P|reflexivity|]. intros h Eh. unfold entered, bind, in_generator in Eh. rewrite E in Eh.
      destruct I as [(k & w5 & E1 & P1)|(e1 & E1 & _ & E2)]; [|discriminate]. cbn in Eh. rewrite E1 in Eh. cbn in Eh.
      eapply pr_skip; [exact Eh|]. eapply collect_inner_ret; eassumption.
  Qed.

  Lemma runs_collect : forall k w l r w1, produces k w l r w1 ->
    (forall g, k = collect_loop f None g -> runs_inner f g w l r w1) /\
    (forall h g, k = collect_loop f (Some h) g ->
       (exists e, r = Raise e /\ produces h w l (Raise e) w1) \/
       (exists l1 l2 w2, l = l1 ++ l2 /\ produces h w l1 (Ret tt) w2 /\ runs_inner f g w2 l2 r w1)).
  Proof.
    assert (INNER : forall g x g1 w w0 it w2 h w3 l r w1, step g w = (Ret (Yield x g1), w0) -> f x w0 = (Ret it, w2) -> it w2 = (Ret h, w3) ->
      ((exists e, r = Raise e /\ produces h w3 l (Raise e) w1) \/
       (exists l1 l2 w4, l = l1 ++ l2 /\ produces h w3 l1 (Ret tt) w4 /\ runs_inner f g1 w4 l2 r w1)) -> runs_inner f g w l r w1).
    { intros g x g1 w w0 it w2 h w3 l r w1 Eg Ef Ei [(e & -> & P)|(l1 & l2 & w4 & -> & P & R)].
      - rewrite <- (produces_leaving _ _ _ _ _ _ _ P). eapply ri_inner; [eapply pu_yield; [exact Eg|apply pu_none]|exact Ef|]. left. exists h, w3. now split.
      - eapply ri_next; [eapply pu_yield; [exact Eg|apply pu_none]|exact Ef| |exact R]. left. exists h, w3. now split. }
    induction 1 as [k w w1 E|k w e w1 E|k w g1 w1 l r w2 E P [IH1 IH2]|k w x g1 w1 l r w2 E P [IH1 IH2]]; split.
    - intros g ->. cbn in E. unfold bind, in_generator in E. destruct (step g w) as [[[x g0|g0|]|e] w0] eqn:Eg; cbn in E; try discriminate.
      + destruct (f x w0) as [[it|[]] w2]; cbn in E; try discriminate. destruct (it w2) as [[h|[]] w3]; discriminate.
      + injection E as ->. apply ri_end. now apply pr_stop.
      + pose proof (step_no_stop _ _ _ _ _ _ Eg). destruct e; try discriminate. congruence.
    - intros h g ->. cbn in E. unfold bind in E. destruct (step h w) as [[[x g0|g0|]|e] w0] eqn:Eg; cbn in E; try discriminate.
      pose proof (step_no_stop _ _ _ _ _ _ Eg). destruct e; try discriminate. congruence.
    - intros g ->. cbn in E. unfold bind, in_generator in E. destruct (step g w) as [[[x g0|g0|]|e0] w0] eqn:Eg; cbn in E; try discriminate.
      + destruct (f x w0) as [[it|e0] w2] eqn:Ef; cbn in E.
        * destruct (it w2) as [[h|e0] w3] eqn:Ei; cbn in E; [discriminate|].
          assert (X : Raise e = leaving (Raise e0 : res unit) /\ w1 = w3) by (destruct e0; inversion E; now split). destruct X as [-> ->].
          eapply ri_inner; [eapply pu_yield; [exact Eg|apply pu_none]|exact Ef|]. right. exists e0. now repeat split.
        * assert (X : Raise e = leaving (Raise e0 : res unit) /\ w1 = w2) by (destruct e0; inversion E; now split). destruct X as [-> ->].
          eapply ri_raise; [eapply pu_yield; [exact Eg|apply pu_none]|exact Ef].
      + assert (X : e = e0 /\ w1 = w0) by (destruct e0; inversion E; now split). destruct X as [-> ->]. apply ri_end. now apply pr_raise.
    - intros h g ->. cbn in E. unfold bind in E. destruct (step h w) as [[[x g0|g0|]|e0] w0] eqn:Eg; cbn in E; try discriminate.
      assert (X : e = e0 /\ w1 = w0) by (destruct e0; inversion E; now split). destruct X as [-> ->]. left. exists e0. split; [reflexivity|now apply pr_raise].
    - intros g ->. cbn in E. unfold bind, in_generator in E. destruct (step g w) as [[[x g0|g0|]|e0] w0] eqn:Eg; cbn in E; try discriminate.
      + destruct (f x w0) as [[it|[]] w3] eqn:Ef; cbn in E; try discriminate.
        destruct (it w3) as [[h|[]] w4] eqn:Ei; cbn in E; try discriminate. injection E as <- <-.
        eapply INNER; [exact Eg|exact Ef|exact Ei|]. apply IH2. reflexivity.
      + injection E as <- <-. eapply inner_skip; [exact Eg|]. apply IH1. reflexivity.
      + destruct e0; discriminate.
    - intros h g ->. cbn in E. unfold bind in E. destruct (step h w) as [[[x g0|g0|]|e0] w0] eqn:Eg; cbn in E; try discriminate.
      + injection E as <- <-. destruct (IH2 _ _ eq_refl) as [(e & -> & Q)|(l1 & l2 & w4 & -> & Q & R)].
        * left. exists e. split; [reflexivity|eapply pr_skip; eassumption].
        * right. exists l1, l2, w4. split; [reflexivity|]. split; [eapply pr_skip; eassumption|exact R].
      + injection E as <- <-. right. exists [], l, w0. split; [reflexivity|]. split; [now apply pr_stop|]. apply IH1. reflexivity.
      + destruct e0; discriminate.
    - intros g ->. cbn in E. unfold bind, in_generator in E. destruct (step g w) as [[[y g0|g0|]|e0] w0] eqn:Eg; cbn in E; try discriminate.
      + destruct (f y w0) as [[it|[]] w3] eqn:Ef; cbn in E; try discriminate. destruct (it w3) as [[h|[]] w4] eqn:Ei; discriminate.
      + destruct e0; discriminate.
    - intros h g ->. cbn in E. unfold bind in E. destruct (step h w) as [[[y g0|g0|]|e0] w0] eqn:Eg; cbn in E; try discriminate.
      + injection E as -> <- <-. destruct (IH2 _ _ eq_refl) as [(e & -> & Q)|(l1 & l2 & w4 & -> & Q & R)].
        * left. exists e. split; [reflexivity|eapply pr_yield; eassumption].
        * right. exists (x :: l1), l2, w4. split; [reflexivity|]. split; [eapply pr_yield; eassumption|exact R].
      + destruct e0; discriminate.
  Qed.

  Lemma collect_loop_iff : forall g w l r w1, produces (collect_loop f None g) w l r w1 <-> runs_inner f g w l r w1.
  Proof.
    intros. split; [|apply collect_runs]. intros P. apply runs_collect in P. destruct P as [H _]. now apply H.
  Qed.
End Collect.

(** A callback that gives lists. *)
Lemma inner_lists : forall W A B (f : A -> M W (list B)) (g : gen W A) w l r w1,
  runs_inner (fun x => do ys <- f x; ret (of_list ys)) g w l r w1 <-> runs (fun _ x => do ys <- outside (f x); ret (tt, ys)) tt g w l r w1.
Proof.
  intros W A B f g w l r w1. split.
  - induction 1 as [g w r w1 P|g w x g1 w1 e w2 P E|g w x g1 w1 it w2 l e w3 P E I|g w x g1 w1 it w2 l w3 l2 r w4 P E I R IH].
    + now apply ru_end.
    + unfold bind in E. destruct (f x w1) as [[ys|e0] w3] eqn:Ef; [discriminate|]. injection E as -> ->.
      assert (X : exists e', Raise e' = leaving (Raise e : res unit) /\ leaving (Raise e : res (list B)) = Raise e') by (destruct e; eexists; split; reflexivity).
      destruct X as (e' & <- & X). eapply ru_raise; [exact P|]. unfold bind, outside. rewrite Ef, X. reflexivity.
    + unfold bind in E. destruct (f x w1) as [[ys|e0] w4] eqn:Ef; [|discriminate]. injection E as <- <-.
      destruct I as [(h & w5 & E1 & P1)|(e1 & E1 & _)]; [|discriminate]. injection E1 as <- <-.
      destruct (produces_det _ _ _ _ _ P1 _ _ _ (list_gen_produces ys w4)) as (_ & X & _). discriminate.
    + unfold bind in E. destruct (f x w1) as [[ys|e0] w5] eqn:Ef; [|discriminate]. injection E as <- <-.
      destruct I as [(h & w6 & E1 & P1)|(e1 & E1 & _)]; [|discriminate]. injection E1 as <- <-.
      destruct (produces_det _ _ _ _ _ P1 _ _ _ (list_gen_produces ys w5)) as (-> & _ & ->).
      eapply ru_next; [exact P| |exact IH]. unfold bind, outside. rewrite Ef. reflexivity.
  - remember tt as s eqn:Es. clear Es. induction 1 as [s0 g w r w1 P|s0 g w x g1 w1 e w2 P E|s0 g w x g1 w1 s1 ys w2 l r w3 P E R IH].
    + now apply ri_end.
    + unfold bind, outside in E. destruct (f x w1) as [[ys|e0] w3] eqn:Ef; [discriminate|].
      assert (X : Raise e = leaving (Raise e0 : res unit) /\ w2 = w3) by (destruct e0; inversion E; now split). destruct X as [-> ->].
      eapply ri_raise; [exact P|]. unfold bind. rewrite Ef. reflexivity.
    + unfold bind, outside in E. destruct (f x w1) as [[ys'|e0] w4] eqn:Ef; [|destruct e0; discriminate]. injection E as <- <- <-.
      eapply ri_next; [exact P|unfold bind; rewrite Ef; reflexivity| |exact IH]. left. eexists _, _. split; [reflexivity|apply list_gen_produces].
Qed.

Section Zip.
  Context {W A B : Type}.
  Implicit Types (g : gen W A) (h : gen W B).

  Lemma zip_ended : forall g w l r w1, produces g w l r w1 -> l = [] -> forall h, produces (zip_loop None g h) w [] r w1.
  Proof.
    induction 1 as [g w w1 E|g w e w1 E|g w g1 w1 l r w2 E P IH|g w x g1 w1 l r w2 E P IH]; intros L h; try discriminate.
    - apply pr_stop. stp.
    - apply pr_raise. stp.
    - eapply pr_skip; [stp|]. auto.
  Qed.
  Lemma zip_second : forall h w l r w1, produces h w l r w1 -> l = [] -> forall x g, produces (zip_loop (Some x) g h) w [] r w1.
  Proof.
    induction 1 as [h w w1 E|h w e w1 E|h w g1 w1 l r w2 E P IH|h w y g1 w1 l r w2 E P IH]; intros L x g; try discriminate.
    - apply pr_stop. stp.
    - apply pr_raise. stp.
    - eapply pr_skip; [stp|]. auto.
  Qed.
  Lemma zip_pulled : forall g w l g1 w1, pulled g w l g1 w1 -> forall x, l = [x] -> forall h l2 r w2,
    produces (zip_loop (Some x) g1 h) w1 l2 r w2 -> produces (zip_loop None g h) w l2 r w2.
  Proof.
    induction 1 as [g w|g w g1 w1 y l g2 w2 E P IH|g w y g1 w1 l g2 w2 E P IH]; intros x L h l2 r w3 H; try discriminate.
    - eapply pr_skip; [stp|]. eapply IH; eauto.
    - injection L as -> ->. inversion P; subst. eapply pr_skip; [stp|exact H].
  Qed.
  Lemma zip_pulled2 : forall h w l h1 w1, pulled h w l h1 w1 -> forall y, l = [y] -> forall x g l2 r w2,
    produces (zip_loop None g h1) w1 l2 r w2 -> produces (zip_loop (Some x) g h) w ((x, y) :: l2) r w2.
  Proof.
    induction 1 as [g w|g w g1 w1 y l g2 w2 E P IH|g w y g1 w1 l g2 w2 E P IH]; intros x L h l2 l3 r w3 H; try discriminate.
    - eapply pr_skip; [stp|]. eapply IH; eauto.
    - injection L as -> ->. inversion P; subst. eapply pr_yield; [stp|exact H].
  Qed.
  Lemma zip_runs : forall g h w l r w1, runs_both g h w l r w1 -> produces (zip_loop None g h) w l r w1.
  Proof.
    induction 1 as [g h w r w1 P|g h w x g1 w1 r w2 P Q|g h w x g1 w1 y h1 w2 l r w3 P Q R IH].
    - eapply zip_ended; [exact P|reflexivity].
    - eapply zip_pulled; [exact P|reflexivity|]. eapply zip_second; [exact Q|reflexivity].
    - eapply zip_pulled; [exact P|reflexivity|]. eapply zip_pulled2; [exact Q|reflexivity|exact IH].
  Qed.
  Lemma runs_zip : forall k w l r w1, produces k w l r w1 ->
    (forall g h, k = zip_loop None g h -> runs_both g h w l r w1) /\
    (forall x g h, k = zip_loop (Some x) g h ->
       (l = [] /\ produces h w [] r w1) \/
       (exists y l2 h1 w2, l = (x, y) :: l2 /\ pulled h w [y] h1 w2 /\ runs_both g h1 w2 l2 r w1)).
  Proof.
    induction 1 as [k w w1 E|k w e w1 E|k w g1 w1 l r w2 E P [IH1 IH2]|k w p g1 w1 l r w2 E P [IH1 IH2]]; split.
    - intros g h ->. cbn in E. unfold bind in E. destruct (step g w) as [[[x g0|g0|]|e] w0] eqn:Eg; cbn in E; try discriminate.
      + injection E as ->. apply rb_first. now apply pr_stop.
      + pose proof (step_no_stop _ _ _ _ _ _ Eg). destruct e; try discriminate. congruence.
    - intros x g h ->. cbn in E. unfold bind in E. destruct (step h w) as [[[y g0|g0|]|e] w0] eqn:Eg; cbn in E; try discriminate.
      + injection E as ->. left. split; [reflexivity|now apply pr_stop].
      + pose proof (step_no_stop _ _ _ _ _ _ Eg). destruct e; try discriminate. congruence.
    - intros g h ->. cbn in E. unfold bind in E. destruct (step g w) as [[[x g0|g0|]|e0] w0] eqn:Eg; cbn in E; try discriminate.
      assert (X : e = e0 /\ w1 = w0) by (destruct e0; inversion E; now split). destruct X as [-> ->]. apply rb_first. now apply pr_raise.
    - intros x g h ->. cbn in E. unfold bind in E. destruct (step h w) as [[[y g0|g0|]|e0] w0] eqn:Eg; cbn in E; try discriminate.
      assert (X : e = e0 /\ w1 = w0) by (destruct e0; inversion E; now split). destruct X as [-> ->]. left. split; [reflexivity|now apply pr_raise].
    - intros g h ->. cbn in E. unfold bind in E. destruct (step g w) as [[[x g0|g0|]|e0] w0] eqn:Eg; cbn in E; try discriminate.
      + injection E as <- <-. destruct (IH2 _ _ _ eq_refl) as [(-> & Q)|(y & l2 & h1 & w3 & -> & Q & R)].
        * eapply rb_second; [eapply pu_yield; [exact Eg|apply pu_none]|exact Q].
        * eapply rb_next; [eapply pu_yield; [exact Eg|apply pu_none]|exact Q|exact R].
      + injection E as <- <-. eapply both_skip; [exact Eg|]. apply IH1. reflexivity.
      + destruct e0; discriminate.
    - intros x g h ->. cbn in E. unfold bind in E. destruct (step h w) as [[[y g0|g0|]|e0] w0] eqn:Eg; cbn in E; try discriminate.
      + injection E as <- <-. destruct (IH2 _ _ _ eq_refl) as [(-> & Q)|(y & l2 & h1 & w3 & -> & Q & R)].
        * left. split; [reflexivity|eapply pr_skip; eassumption].
        * right. exists y, l2, h1, w3. split; [reflexivity|]. split; [eapply pu_skip; eassumption|exact R].
      + destruct e0; discriminate.
    - intros g h ->. cbn in E. unfold bind in E. destruct (step g w) as [[[x g0|g0|]|e0] w0] eqn:Eg; cbn in E; try discriminate.
      destruct e0; discriminate.
    - intros x g h ->. cbn in E. unfold bind in E. destruct (step h w) as [[[y g0|g0|]|e0] w0] eqn:Eg; cbn in E; try discriminate.
      + injection E as <- <- <-. right. exists y, l, g0, w0. split; [reflexivity|]. split; [eapply pu_yield; [exact Eg|apply pu_none]|]. apply IH1. reflexivity.
      + destruct e0; discriminate.
  Qed.
  Lemma zip_loop_iff : forall g h w l r w1, produces (zip_loop None g h) w l r w1 <-> runs_both g h w l r w1.
  Proof. intros. split; [|apply zip_runs]. intros P. apply runs_zip in P. destruct P as [H _]. now apply H. Qed.
End Zip.
