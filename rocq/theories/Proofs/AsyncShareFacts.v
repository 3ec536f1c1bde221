(** Lemmas about async iterators with visible suspensions. *)
From Coq Require Import List ZArith Bool Lia.
From Verif.Model Require Import Base PyList Gen AsyncSeq AsyncShare.
From Verif.Spec Require Import AsyncShareSpec.
Import ListNotations.
Local Open Scope py_scope.

Section Facts.
  Context {W : Type}.
  Lemma pnext_not_stop : forall A (g : pgen W A) w e g1 w1, pnext g w = (PRaise e g1, w1) -> e <> StopIterationExn.
  Proof. intros A [n] w e g1 w1 E ->. cbn in E. destruct (n w) as [[| | |[]|] ?]; discriminate. Qed.

  (** ** nobody interferes *)
  Lemma each_alone : forall A B S (body : S -> A -> M W (turn S B)) s p g, alone p g -> alone (p_each body s p) (each body s g).
  Proof.
    intros A B S body. cofix CIH. intros s p g [H]. constructor. intros w. specialize (H w). cbn. unfold bind, in_async.
    destruct (pnext p w) as [[x p1|p1|p1|e p1|k] w1] eqn:E, (step g w) as [[st|e1] w2] eqn:E1; inversion H; subst; cbn.
    - destruct (body s x w2) as [[[y s1|s1|]|e] w3]; cbn.
      + apply sp_yield. now apply CIH.
      + apply sp_skip. now apply CIH.
      + apply sp_stop.
      + unfold p_raise. destruct e; apply sp_raise.
    - apply sp_skip. now apply CIH.
    - apply sp_stop.
    - assert (N := pnext_not_stop _ _ _ _ _ _ E). destruct e1; first [apply sp_raise|now destruct N].
    - apply sp_wait. now apply CIH.
  Qed.
  Lemma started_alone : forall A B (pi : piterable W A) it (pl : pgen W A -> pgen W B) gl, alone_it pi it ->
    (forall p g, alone p g -> alone (pl p) (gl g)) -> alone (p_started pi pl) (started it gl).
  Proof.
    intros A B pi it pl gl F L. constructor. intros w. specialize (F w). cbn. unfold bind, in_async.
    destruct (pi w) as [[p|e] w1], (it w) as [[g|e1] w2]; inversion F; subst; cbn.
    - apply sp_skip. now apply L.
    - unfold p_raise. destruct e1; apply sp_raise.
  Qed.
  Definition inner_alone {B} (p : option (pgen W B)) (g : option (gen W B)) : Prop :=
    match p, g with Some p, Some g => alone p g | None, None => True | _, _ => False end.
  Lemma collect_alone : forall A B (f : A -> M W (piterable W B)) f', alone_fun f f' ->
    forall pin gin p g, inner_alone pin gin -> alone p g -> alone (p_collect_loop f pin p) (collect_loop f' gin g).
  Proof.
    intros A B f f' F. cofix CIH. intros pin gin p g I H. constructor. intros w. cbn. unfold bind, in_async. destruct pin as [h|], gin as [h'|]; try contradiction.
    - destruct I as [I]. specialize (I w).
      destruct (pnext h w) as [[x p1|p1|p1|e p1|k] w1] eqn:E, (step h' w) as [[st|e1] w2] eqn:E1; inversion I; subst; cbn.
      + apply sp_yield. now apply CIH.
      + apply sp_skip. now apply CIH.
      + apply sp_skip. now apply CIH.
      + assert (N := pnext_not_stop _ _ _ _ _ _ E). destruct e1; first [apply sp_raise|now destruct N].
      + apply sp_wait. now apply CIH.
    - destruct H as [H]. specialize (H w).
      destruct (pnext p w) as [[x p1|p1|p1|e p1|k] w1] eqn:E, (step g w) as [[st|e1] w2] eqn:E1; inversion H; subst; cbn.
      + specialize (F x w2). destruct (f x w2) as [[it|e] w3], (f' x w2) as [[it'|e'] w4]; inversion F as [? ? ? O|]; subst; cbn.
        * specialize (O w4). destruct (it w4) as [[q|e] w5], (it' w4) as [[q'|e'] w6]; inversion O; subst; cbn.
          -- apply sp_skip. now apply CIH.
          -- unfold p_raise. destruct e'; apply sp_raise.
        * unfold p_raise. destruct e'; apply sp_raise.
      + apply sp_skip. now apply CIH.
      + apply sp_stop.
      + assert (N := pnext_not_stop _ _ _ _ _ _ E). destruct e1; first [apply sp_raise|now destruct N].
      + apply sp_wait. now apply CIH.
  Qed.
  Definition other_alone {B} (p : option (piterable W B)) (g : option (iterable W B)) : Prop :=
    match p, g with Some p, Some g => alone_it p g | None, None => True | _, _ => False end.
  Lemma append_alone : forall B po go p g, other_alone po go -> alone p g -> alone (@p_append_loop W B po p) (append_loop go g).
  Proof.
    intros B. cofix CIH. intros po go p g O [H]. constructor. intros w. specialize (H w). cbn. unfold bind, in_async.
    destruct (pnext p w) as [[x p1|p1|p1|e p1|k] w1] eqn:E, (step g w) as [[st|e1] w2] eqn:E1; inversion H; subst; cbn.
    - apply sp_yield. now apply CIH.
    - apply sp_skip. now apply CIH.
    - destruct po as [po|], go as [go|]; try contradiction; [|apply sp_stop]. cbn in O. specialize (O w2).
      destruct (po w2) as [[q|e] w5], (go w2) as [[q'|e'] w6]; inversion O; subst; cbn.
      + apply sp_skip. now apply CIH.
      + unfold p_raise. destruct e'; apply sp_raise.
    - assert (N := pnext_not_stop _ _ _ _ _ _ E). destruct e1; first [apply sp_raise|now destruct N].
    - apply sp_wait. now apply CIH.
  Qed.
  Lemma list_alone : forall A (xs : list A), alone (p_list xs : pgen W A) (list_gen xs).
  Proof. intros A. cofix CIH. intros [|x xs]; constructor; intros w; cbn; [apply sp_stop|apply sp_yield, CIH]. Qed.
  Lemma range_alone : forall start stop st, alone (p_range start stop st : pgen W Z) (AsyncSeq.range start stop st).
  Proof.
    intros. constructor. intros w. unfold p_range, AsyncSeq.range. cbn. unfold bind, lift, p_raise.
    destruct (py_range start stop st) as [xs|e] eqn:E; cbn; [apply sp_skip, list_alone|].
    unfold py_range in E. destruct (Z.eqb st 0); [|discriminate]. injection E as <-. apply sp_raise.
  Qed.
  Lemma scan_alone : forall A S (f : S -> A -> M W S) s pi it, alone_it pi it -> alone (p_scan f s pi) (AsyncSeq.scan f s it).
  Proof.
    intros A S f s pi it H. constructor. intros w. cbn. apply sp_yield. apply started_alone; [exact H|]. intros. now apply each_alone.
  Qed.

  (** ** exceptions thrown into awaits *)
  Lemma over_dies : forall A, dies (p_over : pgen W A).
  Proof. intros A. cofix CIH. constructor. intros w. cbn. apply dy_stop. Qed.
  Lemma over_passes : forall A, passes (p_over : pgen W A).
  Proof. intros A. cofix CIH. constructor. intros w. cbn. apply pa_stop. exact CIH. Qed.
  Lemma dies_passes : forall A (g : pgen W A), dies g -> passes g.
  Proof.
    intros A. cofix CIH. intros g [H]. constructor. intros w. specialize (H w). destruct (pnext g w) as [st w1]. inversion H; subst; constructor; auto using over_passes.
    intros e w2 N. match goal with T : forall e w1, _ -> exists w2, _ |- _ => destruct (T e w2 N) as [w3 E] end. eauto using over_passes.
  Qed.
  Lemma each_throw : forall A B S (body : S -> A -> M W (turn S B)) s g e w g1 w1, e <> StopIterationExn -> pnext g w = (PRaise e g1, w1) ->
    pnext (p_each body s g) w = (PRaise e p_over, w1).
  Proof. intros A B S body s g e w g1 w1 N E. cbn. rewrite E. destruct e; try reflexivity. now destruct N. Qed.
  Lemma each_dies : forall A B S (body : S -> A -> M W (turn S B)) s g, passes g -> dies (p_each body s g).
  Proof.
    intros A B S body. cofix CIH. intros s g [H]. constructor. intros w. specialize (H w). cbn.
    destruct (pnext g w) as [[x p1|p1|p1|e p1|k] w1] eqn:E; inversion H; subst; cbn.
    - destruct (body s x w1) as [[[y s1|s1|]|e] w3]; cbn.
      + apply dy_yield. now apply CIH.
      + apply dy_skip. now apply CIH.
      + apply dy_stop.
      + unfold p_raise. destruct e; apply dy_raise.
    - apply dy_skip. now apply CIH.
    - apply dy_stop.
    - destruct e; first [apply dy_raise|apply dy_stop].
    - apply dy_wait; [now apply CIH|]. intros e w2 N. match goal with T : forall e w1, _ -> exists g w2, _ |- _ => destruct (T e w2 N) as (g' & w3 & E' & _) end. exists w3. eapply each_throw; eauto.
  Qed.
  Lemma started_dies : forall A B (it : piterable W A) (l : pgen W A -> pgen W B), passes_it it -> (forall g, passes g -> dies (l g)) -> dies (p_started it l).
  Proof.
    intros A B it l H L. constructor. intros w. specialize (H w). cbn. destruct (it w) as [[g|e] w1].
    - apply dy_skip. now apply L.
    - unfold p_raise. destruct e; apply dy_raise.
  Qed.
  Lemma collect_dies : forall A B (f : A -> M W (piterable W B)), (forall x w it w1, f x w = (Ret it, w1) -> passes_it it) ->
    forall inner g, match inner with Some h => passes h | None => True end -> passes g -> dies (p_collect_loop f inner g).
  Proof.
    intros A B f F. cofix CIH. intros inner g I H. constructor. intros w. cbn. destruct inner as [h|].
    - destruct I as [I]. specialize (I w). destruct (pnext h w) as [[x p1|p1|p1|e p1|k] w1] eqn:E; inversion I; subst; cbn.
      + apply dy_yield. now apply CIH.
      + apply dy_skip. now apply CIH.
      + apply dy_skip. now apply CIH.
      + destruct e; first [apply dy_raise|apply dy_stop].
      + apply dy_wait; [now apply CIH|]. intros e w2 N. match goal with T : forall e w1, _ -> exists g w2, _ |- _ => destruct (T e w2 N) as (g' & w3 & E' & _) end. exists w3. cbn. rewrite E'. destruct e; try reflexivity. now destruct N.
    - assert (H0 := H). destruct H0 as [H0]. specialize (H0 w). destruct (pnext g w) as [[x p1|p1|p1|e p1|k] w1] eqn:E; inversion H0; subst; cbn.
      + specialize (F x w1). destruct (f x w1) as [[it|e] w3].
        * specialize (F it w3 eq_refl w3). destruct (it w3) as [[q|e] w5].
          -- apply dy_skip. now apply CIH.
          -- unfold p_raise. destruct e; apply dy_raise.
        * unfold p_raise. destruct e; apply dy_raise.
      + apply dy_skip. now apply CIH.
      + apply dy_stop.
      + destruct e; first [apply dy_raise|apply dy_stop].
      + apply dy_wait; [now apply CIH|]. intros e w2 N. match goal with T : forall e w1, _ -> exists g w2, _ |- _ => destruct (T e w2 N) as (g' & w3 & E' & _) end. exists w3. cbn. rewrite E'. destruct e; try reflexivity. now destruct N.
  Qed.
  Lemma append_dies : forall B other g, match other with Some it => passes_it it | None => True end -> passes g -> dies (@p_append_loop W B other g).
  Proof.
    intros B. cofix CIH. intros other g O [H]. constructor. intros w. specialize (H w). cbn.
    destruct (pnext g w) as [[x p1|p1|p1|e p1|k] w1] eqn:E; inversion H; subst; cbn.
    - apply dy_yield. now apply CIH.
    - apply dy_skip. now apply CIH.
    - destruct other as [it|]; [|apply dy_stop]. specialize (O w1). destruct (it w1) as [[q|e] w5].
      + apply dy_skip. now apply CIH.
      + unfold p_raise. destruct e; apply dy_raise.
    - destruct e; first [apply dy_raise|apply dy_stop].
    - apply dy_wait; [now apply CIH|]. intros e w2 N. match goal with T : forall e w1, _ -> exists g w2, _ |- _ => destruct (T e w2 N) as (g' & w3 & E' & _) end. exists w3. cbn. rewrite E'. destruct e; try reflexivity. now destruct N.
  Qed.
  Lemma list_dies : forall A (xs : list A), dies (p_list xs : pgen W A).
  Proof. intros A. cofix CIH. intros [|x xs]; constructor; intros w; cbn; [apply dy_stop|apply dy_yield, CIH]. Qed.
  Lemma range_dies : forall start stop st, dies (p_range start stop st : pgen W Z).
  Proof.
    intros. constructor. intros w. unfold p_range. cbn. unfold p_raise. destruct (py_range start stop st) as [xs|e]; cbn; [apply dy_skip, list_dies|].
    destruct e; apply dy_raise.
  Qed.
  Lemma queue_passes : forall A (xs : list A) b, passes (p_queue xs b : pgen W A).
  Proof.
    intros A. cofix CIH. intros [|x xs] b; constructor; intros w; cbn; [apply pa_stop, CIH|]. destruct b; [apply pa_yield, CIH|].
    apply pa_wait; [apply CIH|]. intros e w1 N. exists (p_queue (x :: xs) false), w1. split; [destruct e; try reflexivity; now destruct N|apply CIH].
  Qed.
End Facts.
