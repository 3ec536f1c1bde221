(** Lemmas about loops over any iterator with any callbacks. *)
From Coq Require Import List ZArith Bool Lia.
From Verif.Model Require Import Base Gen OptionResult Seq.
From Verif.Spec Require Import RunSpec.
From Verif.Proofs Require Import SeqFacts.
Import ListNotations.
Local Open Scope py_scope.

Lemma produces_nil_ended : forall W A (g : gen W A) w l r w1, produces g w l r w1 -> ended r = r.
Proof. intros W A g w l r w1 P. apply produces_no_stop in P. destruct r as [|[]]; try reflexivity. now contradiction P. Qed.

(** A step that hands out nothing may be put in front. *)
Section Skips.
  Context {W A B S : Type}.
  Implicit Types g : gen W A.

  Lemma runs_skip : forall (f : S -> A -> M W (S * list B)) s g w g1 w1 l r w2, step g w = (Ret (Skip g1), w1) ->
    runs f s g1 w1 l r w2 -> runs f s g w l r w2.
  Proof.
    intros f s g w g1 w1 l r w2 E R. inversion R; subst.
    - apply ru_end. eapply pr_skip; eassumption.
    - eapply ru_raise; [eapply pu_skip; eassumption|eassumption].
    - eapply ru_next; [eapply pu_skip; eassumption|eassumption|eassumption].
  Qed.
  Lemma inner_skip : forall (f : A -> M W (iterable W B)) g w g1 w1 l r w2, step g w = (Ret (Skip g1), w1) ->
    runs_inner f g1 w1 l r w2 -> runs_inner f g w l r w2.
  Proof.
    intros f g w g1 w1 l r w2 E R. inversion R; subst.
    - apply ri_end. eapply pr_skip; eassumption.
    - eapply ri_raise; [eapply pu_skip; eassumption|eassumption].
    - eapply ri_inner; [eapply pu_skip; eassumption|eassumption|eassumption].
    - eapply ri_next; [eapply pu_skip; eassumption|eassumption|eassumption|eassumption].
  Qed.
  Lemma both_skip : forall g (h : gen W B) w g1 w1 l r w2, step g w = (Ret (Skip g1), w1) ->
    runs_both g1 h w1 l r w2 -> runs_both g h w l r w2.
  Proof.
    intros g h w g1 w1 l r w2 E R. inversion R; subst.
    - apply rb_first. eapply pr_skip; eassumption.
    - eapply rb_second; [eapply pu_skip; eassumption|eassumption].
    - eapply rb_next; [eapply pu_skip; eassumption|eassumption|eassumption].
  Qed.
  Lemma folds_skip : forall (f : S -> A -> M W S) s g w g1 w1 r w2, step g w = (Ret (Skip g1), w1) ->
    folds f s g1 w1 r w2 -> folds f s g w r w2.
  Proof.
    intros f s g w g1 w1 r w2 E R. inversion R; subst.
    - apply fo_end. eapply pr_skip; eassumption.
    - eapply fo_raise; [eapply pu_skip; eassumption|eassumption].
    - eapply fo_next; [eapply pu_skip; eassumption|eassumption|eassumption].
  Qed.
  Lemma searches_skip : forall (f : Z -> A -> M W (option B)) s g w g1 w1 r w2, step g w = (Ret (Skip g1), w1) ->
    searches f s g1 w1 r w2 -> searches f s g w r w2.
  Proof.
    intros f s g w g1 w1 r w2 E R. inversion R; subst.
    - apply se_end. eapply pr_skip; eassumption.
    - eapply se_raise; [eapply pu_skip; eassumption|eassumption].
    - eapply se_found; [eapply pu_skip; eassumption|eassumption].
    - eapply se_next; [eapply pu_skip; eassumption|eassumption|eassumption].
  Qed.
End Skips.

(** A loop that hands out at most one element per element of its source. *)
Section Loop.
  Context {W A B S : Type}.
  Variable body : S -> A -> M W (S * list B).
  Variable loop : S -> gen W A -> gen W B.
  Hypothesis short : forall s x w s1 ys w1, body s x w = (Ret (s1, ys), w1) -> List.length ys <= 1.
  Hypothesis loop_step : forall s g w, step (loop s g) w =
    match step g w with
    | (Ret (Yield x g1), w1) =>
        match body s x w1 with
        | (Ret (s1, []), w2) => (Ret (Skip (loop s1 g1)), w2)
        | (Ret (s1, y :: _), w2) => (Ret (Yield y (loop s1 g1)), w2)
        | (Raise StopIterationExn, w2) => (Ret Stop, w2)
        | (Raise e, w2) => (Raise e, w2)
        end
    | (Ret (Skip g1), w1) => (Ret (Skip (loop s g1)), w1)
    | (Ret Stop, w1) => (Ret Stop, w1)
    | (Raise e, w1) => (Raise e, w1)
    end.

  Lemma loop_end : forall g w l r w1, produces g w l r w1 -> l = [] -> forall s, produces (loop s g) w [] (ended r) w1.
  Proof.
    induction 1 as [g w w1 E|g w e w1 E|g w g1 w1 l r w2 E P IH|g w x g1 w1 l r w2 E P IH]; intros L s; try discriminate.
    - apply pr_stop. rewrite loop_step, E. reflexivity.
    - pose proof (step_no_stop _ _ _ _ _ _ E) as N. destruct e; try (exfalso; apply N; reflexivity); apply pr_raise; rewrite loop_step, E; reflexivity.
    - eapply pr_skip; [rewrite loop_step, E; reflexivity|]. now apply IH.
  Qed.

  Lemma loop_pulled : forall g w l g1 w1, pulled g w l g1 w1 -> forall x, l = [x] -> forall s l2 r w2,
    (forall h, step h w1 = match body s x w1 with
                           | (Ret (s1, []), w2) => (Ret (Skip (loop s1 g1)), w2)
                           | (Ret (s1, y :: _), w2) => (Ret (Yield y (loop s1 g1)), w2)
                           | (Raise StopIterationExn, w2) => (Ret Stop, w2)
                           | (Raise e, w2) => (Raise e, w2)
                           end -> produces h w1 l2 r w2) -> produces (loop s g) w l2 r w2.
  Proof.
    induction 1 as [g w|g w g1 w1 y l g2 w2 E P IH|g w y g1 w1 l g2 w2 E P IH]; intros x L s l2 r w3 H; try discriminate.
    - eapply pr_skip; [rewrite loop_step, E; reflexivity|]. eapply IH; eauto.
    - injection L as -> ->. inversion P; subst. clear P IH.
      assert (F : forall h, step h w2 = step (loop s g) w -> produces h w2 l2 r w3).
      { intros h E2. apply H. rewrite E2, loop_step, E. reflexivity. }
      pose proof (F (Gen (fun _ => step (loop s g) w))) as K.
      assert (E3 : step (Gen (fun _ => step (loop s g) w)) w2 = step (loop s g) w).
      { cbn. destruct (step (loop s g) w) as [[st|e] w4] eqn:E4; [reflexivity|]. pose proof (step_no_stop _ _ _ _ _ _ E4) as N. destruct e; try reflexivity; now contradiction N. }
      specialize (K E3). inversion K; subst; rewrite E3 in *.
      + now apply pr_stop.
      + now apply pr_raise.
      + eapply pr_skip; eassumption.
      + eapply pr_yield; eassumption.
  Qed.

  Lemma loop_runs : forall s g w l r w1, runs body s g w l r w1 -> produces (loop s g) w l (ended r) w1.
  Proof.
    induction 1 as [s g w r w1 P|s g w x g1 w1 e w2 P E|s g w x g1 w1 s1 ys w2 l r w3 P E R IH].
    - eapply loop_end; [exact P|reflexivity].
    - eapply loop_pulled; [exact P|reflexivity|]. intros h Eh. rewrite E in Eh. destruct e; first [now apply pr_raise|now apply pr_stop].
    - eapply loop_pulled; [exact P|reflexivity|]. intros h Eh. rewrite E in Eh. pose proof (short _ _ _ _ _ _ E) as L.
      destruct ys as [|y [|? ?]]; cbn [List.length] in L; [| |lia].
      + eapply pr_skip; eassumption.
      + eapply pr_yield; eassumption.
  Qed.

  Lemma runs_loop : forall h w l r w1, produces h w l r w1 -> forall s g, h = loop s g ->
    exists r0, runs body s g w l r0 w1 /\ r = ended r0.
  Proof.
    induction 1 as [h w w1 E|h w e w1 E|h w g1 w1 l r w2 E P IH|h w x g1 w1 l r w2 E P IH]; intros s g ->; rewrite loop_step in E;
      destruct (step g w) as [[[x0 g0|g0|]|e0] w0] eqn:Eg; try discriminate;
      try (destruct (body s x0 w0) as [[[s1 [|y ys]]|e1] w3] eqn:Eb; try discriminate).
    - destruct e1; try discriminate. injection E as ->. exists (Raise StopIterationExn). split; [|reflexivity].
      eapply ru_raise; [eapply pu_yield; [exact Eg|apply pu_none]|exact Eb].
    - injection E as ->. exists (Ret tt). split; [|reflexivity]. apply ru_end. now apply pr_stop.
    - assert (N : e1 <> StopIterationExn) by (intros ->; discriminate). assert (E' : e = e1 /\ w1 = w3) by (destruct e1; now inversion E).
      destruct E' as [-> ->]. exists (Raise e1). split; [|destruct e1; try reflexivity; now contradiction N].
      eapply ru_raise; [eapply pu_yield; [exact Eg|apply pu_none]|exact Eb].
    - injection E as -> ->. exists (Raise e). split; [apply ru_end; now apply pr_raise|].
      pose proof (step_no_stop _ _ _ _ _ _ Eg) as N. destruct e; try reflexivity; now contradiction N.
    - injection E as <- <-. destruct (IH _ _ eq_refl) as (r0 & R & ->). exists r0. split; [|reflexivity].
      change l with ([] ++ l). eapply ru_next; [eapply pu_yield; [exact Eg|apply pu_none]|exact Eb|exact R].
    - destruct e1; discriminate.
    - injection E as <- <-. destruct (IH _ _ eq_refl) as (r0 & R & ->). exists r0. split; [|reflexivity]. eapply runs_skip; eassumption.
    - pose proof (short _ _ _ _ _ _ Eb) as L. destruct ys; cbn [List.length] in L; [|lia].
      injection E as -> <- <-. destruct (IH _ _ eq_refl) as (r0 & R & ->). exists r0. split; [|reflexivity].
      change (x :: l) with ([x] ++ l). eapply ru_next; [eapply pu_yield; [exact Eg|apply pu_none]|exact Eb|exact R].
    - destruct e1; discriminate.
  Qed.

  Lemma loop_iff : forall s g w l r w1, produces (loop s g) w l r w1 <-> exists r0, runs body s g w l r0 w1 /\ r = ended r0.
  Proof.
    intros. split.
    - intros P. eapply runs_loop; [exact P|reflexivity].
    - intros (r0 & R & ->). now apply loop_runs.
  Qed.
End Loop.

(** Opening a source. *)
Section Open.
  Context {W A B : Type}.

  Lemma iterates_opened : forall (it : iterable W B) w g w0, it w = (Ret g, w0) -> forall l r w1,
    iterates it w l r w1 <-> produces g w0 l r w1.
  Proof.
    intros it w g w0 E l r w1. split.
    - intros [(g' & w' & E' & P)|(e & E' & _)]; rewrite E in E'; [|discriminate]. injection E' as <- <-. exact P.
    - intros P. left. exists g, w0. now split.
  Qed.

  Lemma opening_iff : forall (src : iterable W A) (k : gen W A -> gen W B) w g w0, src w = (Ret g, w0) -> forall l r w1,
    iterates (ret (opening src k)) w l r w1 <-> produces (k g) w0 l r w1.
  Proof.
    intros src k w g w0 E l r w1. rewrite (iterates_opened _ _ (opening src k) w eq_refl).
    assert (E1 : step (opening src k) w = (Ret (Skip (k g)), w0)) by (cbn; unfold bind, in_generator; rewrite E; reflexivity).
    split.
    - intros P. inversion P as [? ? ? E2|? ? ? ? E2|? ? ? ? ? ? ? E2 P2|? ? ? ? ? ? ? ? E2]; subst; rewrite E1 in E2; try discriminate.
      injection E2 as <- <-. exact P2.
    - intros P. eapply pr_skip; [exact E1|exact P].
  Qed.

  Lemma built_iff : forall (src : iterable W A) (k : gen W A -> gen W B) w g w0, src w = (Ret g, w0) -> forall l r w1,
    iterates (do g <- src; ret (k g)) w l r w1 <-> produces (k g) w0 l r w1.
  Proof. intros src k w g w0 E. apply iterates_opened. unfold bind. rewrite E. reflexivity. Qed.
End Open.

Lemma runs_ext : forall W A B S (f f' : S -> A -> M W (S * list B)), (forall s x w, f s x w = f' s x w) ->
  forall s g w l r w1, runs f s g w l r w1 -> runs f' s g w l r w1.
Proof.
  intros W A B S f f' H. induction 1 as [s g w r w1 P|s g w x g1 w1 e w2 P E|s g w x g1 w1 s1 ys w2 l r w3 P E R IH].
  - now apply ru_end.
  - eapply ru_raise; [exact P|]. now rewrite <- H.
  - eapply ru_next; [exact P| |exact IH]. now rewrite <- H.
Qed.

(** A callback that does not raise StopIteration. *)
Lemma runs_no_stop : forall W A B S (f : S -> A -> M W (S * list B)), (forall s x, no_stop (f s x)) ->
  forall s g w l r w1, runs f s g w l r w1 -> ended r = r.
Proof.
  intros W A B S f H. induction 1 as [s g w r w1 P|s g w x g1 w1 e w2 P E|s g w x g1 w1 s1 ys w2 l r w3 P E R IH].
  - eapply produces_nil_ended, P.
  - specialize (H s x w1). rewrite E in H. destruct e; try reflexivity. now contradiction H.
  - exact IH.
Qed.
Lemma outside_no_stop : forall W X Y (m : M W X) (k : X -> Y), no_stop (do x <- outside m; ret (k x)).
Proof. intros W X Y m k w. unfold bind, outside. destruct (m w) as [[x|[]] w1]; cbn; discriminate. Qed.

(** Relating [produces] of a loop and [runs] when the callback raises no StopIteration. *)
Lemma drop_ended : forall W A B S (f : S -> A -> M W (S * list B)), (forall s x, no_stop (f s x)) ->
  forall s g w l r w1, (exists r0, runs f s g w l r0 w1 /\ r = ended r0) <-> runs f s g w l r w1.
Proof.
  intros W A B S f H s g w l r w1. split.
  - intros (r0 & R & ->). now rewrite (runs_no_stop _ _ _ _ _ H _ _ _ _ _ _ R).
  - intros R. exists r. split; [exact R|]. symmetry. eapply runs_no_stop; eassumption.
Qed.

Ltac one E := unfold bind in E; match type of E with context [match ?m with _ => _ end] => destruct m as [[?|?] ?] end;
  [injection E as <- <- <-; cbn; lia|discriminate].
Ltac each_step f := let s := fresh "s" in let h := fresh "h" in let v := fresh "v" in
  intros s h v; destruct s; cbn; unfold bind, in_generator, outside; destruct (step h v) as [[[?x ?g|?g|]|?e] ?v] eqn:?;
  [match goal with |- context [f ?x ?w] => destruct (f x w) as [[?|[]] ?]; reflexivity end|reflexivity|reflexivity|no_stop_raised].

Section Ops.
  Context {W A B S : Type}.

  Lemma map_loop_iff : forall (f : A -> M W B) g w l r w1,
    produces (map_loop f g) w l r w1 <-> runs (fun _ x => do y <- outside (f x); ret (tt, [y])) tt g w l r w1.
  Proof.
    intros f g w l r w1. rewrite <- (drop_ended _ _ _ _ (fun (_ : unit) x => do y <- outside (f x); ret (tt, [y]))).
    2:{ intros s x. apply (outside_no_stop _ _ _ (f x) (fun y => (tt, [y]))). }
    apply (loop_iff (fun _ x => do y <- outside (f x); ret (tt, [y])) (fun (_ : unit) g => map_loop f g)).
    - intros s x w2 s1 ys w3 E. one E.
    - each_step f.
  Qed.

  Lemma filter_loop_iff : forall (p : A -> M W bool) g w l r w1,
    produces (filter_loop p g) w l r w1 <-> exists r0, runs (fun _ x => do b <- p x; ret (tt, if b : bool then [x] else [])) tt g w l r0 w1 /\ r = ended r0.
  Proof.
    intros p g w l r w1. apply (loop_iff (fun _ x => do b <- p x; ret (tt, if b : bool then [x] else [])) (fun (_ : unit) g => filter_loop p g)).
    - intros s x w2 s1 ys w3 E. unfold bind in E. destruct (p x w2) as [[[]|?] ?]; [injection E as <- <- <-; cbn; lia..|discriminate].
    - intros s g0 w0. destruct s; cbn; unfold bind; destruct (step g0 w0) as [[[x g1|g1|]|e] w2] eqn:?;
        [destruct (p x w2) as [[[]|[]] w3]; reflexivity|reflexivity|reflexivity|no_stop_raised].
  Qed.

  Lemma scan_loop_iff : forall (f : S -> A -> M W S) s g w l r w1,
    produces (scan_loop f s g) w l r w1 <-> exists r0, runs (fun s x => do s1 <- f s x; ret (s1, [s1])) s g w l r0 w1 /\ r = ended r0.
  Proof.
    intros f s g w l r w1. apply (loop_iff (fun s x => do s1 <- f s x; ret (s1, [s1])) (fun s g => scan_loop f s g)).
    - intros s0 x w2 s1 ys w3 E. one E.
    - intros s0 g0 w0. cbn; unfold bind; destruct (step g0 w0) as [[[x g1|g1|]|e] w2] eqn:?;
        [destruct (f s0 x w2) as [[y|[]] w3]; reflexivity|reflexivity|reflexivity|no_stop_raised].
  Qed.

  Lemma mapi_loop_iff : forall (f : Z -> A -> M W B) i g w l r w1,
    produces (mapi_loop f i g) w l r w1 <-> exists r0, runs (fun i x => do y <- f i x; ret ((i + 1)%Z, [y])) i g w l r0 w1 /\ r = ended r0.
  Proof.
    intros f i g w l r w1. apply (loop_iff (fun i x => do y <- f i x; ret ((i + 1)%Z, [y])) (fun i g => mapi_loop f i g)).
    - intros s0 x w2 s1 ys w3 E. one E.
    - intros s0 g0 w0. cbn; unfold bind; destruct (step g0 w0) as [[[x g1|g1|]|e] w2] eqn:?;
        [destruct (f s0 x w2) as [[y|[]] w3]; reflexivity|reflexivity|reflexivity|no_stop_raised].
  Qed.
End Ops.
