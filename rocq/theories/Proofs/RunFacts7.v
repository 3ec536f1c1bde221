(** Lemmas about loops over any iterator: elements of AsyncSeq taken one by one. *)
From Coq Require Import List ZArith Bool Lia.
From Verif.Model Require Import Base Gen AsyncSeq.
From Verif.Model Require Seq.
From Verif.Spec Require Import RunSpec.
From Verif.Proofs Require Import SeqFacts RunFacts RunFacts6.
Import ListNotations.
Local Open Scope py_scope.

Section Async.
  Context {W A B S : Type}.

  Lemma started_pulls_iff : forall (src : iterable W A) (k : gen W A -> gen W B) w g w0, src w = (Ret g, w0) -> forall l w1, l <> [] ->
    (exists h, pulled (started src k) w l h w1) <-> (exists h, pulled (k g) w0 l h w1).
  Proof.
    intros src k w g w0 E l w1 N.
    assert (E1 : step (started src k) w = (Ret (Skip (k g)), w0)) by (cbn; unfold bind, in_async; rewrite E; reflexivity).
    split; intros (h & P); exists h.
    - inversion P; subst; [congruence| |]; match goal with E2 : step _ _ = _ |- _ => rewrite E1 in E2; inversion E2; subst end. assumption.
    - destruct l as [|x l]; [congruence|]. eapply pu_skip; eassumption.
  Qed.
  Lemma each_pulls_iff : forall (body : S -> A -> M W (turn S B)) (f : S -> A -> M W (S * list B)),
    (forall s x w, match body s x w with
                   | (Ret (Give y s1), w1) => f s x w = (Ret (s1, [y]), w1)
                   | (Ret (Drop s1), w1) => f s x w = (Ret (s1, []), w1)
                   | (Ret Leave, _) => False
                   | (Raise e, w1) => f s x w = (Raise e, w1)
                   end) ->
    forall s g w l w1, l <> [] -> (exists h, pulled (each body s g) w l h w1) <-> batch_pulls f s g w l w1.
  Proof.
    intros body f H s g w l w1 N.
    set (f' := fun s x w => match f s x w with (Ret p, w1) => (Ret p, w1) | (Raise e, w1) => (leaving (Raise e), w1) end).
    rewrite (batch_iff f' (fun s g => each body s g)); [| | |exact N].
    - split; apply batch_pulls_ext; intros s0 x v s1 ys v1 E; unfold f' in *; destruct (f s0 x v) as [[p|e] v2]; try discriminate; try exact E. destruct e; discriminate.
    - intros s0 x v s1 ys v1 E. unfold f' in E. specialize (H s0 x v). destruct (body s0 x v) as [[[]|e] w3]; try contradiction; rewrite H in E.
      + injection E as <- <- <-. cbn. lia.
      + injection E as <- <- <-. cbn. lia.
      + destruct e; discriminate.
    - intros s0 h v. cbn. unfold bind, in_async. destruct (step h v) as [[[x g1|g1|]|e] v1] eqn:Es; [|reflexivity|reflexivity|].
      + cbn. specialize (H s0 x v1). unfold f'. destruct (body s0 x v1) as [[[]|e] w3]; try contradiction; rewrite H; try reflexivity. destruct e; reflexivity.
      + no_stop_raised.
  Qed.
  Lemma async_for_pulls_iff : forall (body : S -> A -> M W (turn S B)) (f : S -> A -> M W (S * list B)),
    (forall s x w, match body s x w with
                   | (Ret (Give y s1), w1) => f s x w = (Ret (s1, [y]), w1)
                   | (Ret (Drop s1), w1) => f s x w = (Ret (s1, []), w1)
                   | (Ret Leave, _) => False
                   | (Raise e, w1) => f s x w = (Raise e, w1)
                   end) ->
    forall (src : iterable W A) w g w0, src w = (Ret g, w0) -> forall s l w1, l <> [] ->
    (exists h, pulled (async_for body s src) w l h w1) <-> batch_pulls f s g w0 l w1.
  Proof. intros body f H src w g w0 E s l w1 N. unfold async_for. rewrite (started_pulls_iff _ _ _ _ _ E _ _ N). now apply each_pulls_iff. Qed.
End Async.

Section Ops.
  Context {W A B S : Type}.
  Variables (src : iterable W A) (w : W) (g : gen W A) (w0 : W).
  Hypothesis E : src w = (Ret g, w0).

  Lemma async_map_pulls : forall (f : A -> M W B) l w1, l <> [] ->
    (exists k, pulled (map f src) w l k w1) <-> batch_pulls (fun (_ : unit) x => do y <- f x; ret (tt, [y])) tt g w0 l w1.
  Proof using E.
    intros f l w1 N. unfold map. apply async_for_pulls_iff; [|exact E|exact N].
    intros s x v. destruct s. unfold bind. destruct (f x v) as [[y|e] v1]; reflexivity.
  Qed.
  Lemma async_filter_pulls : forall (p : A -> M W bool) l w1, l <> [] ->
    (exists k, pulled (filter p src) w l k w1) <-> batch_pulls (fun (_ : unit) x => do b <- p x; ret (tt, if b : bool then [x] else [])) tt g w0 l w1.
  Proof using E.
    intros p l w1 N. unfold filter. apply async_for_pulls_iff; [|exact E|exact N].
    intros s x v. destruct s. unfold bind. destruct (p x v) as [[[]|e] v1]; reflexivity.
  Qed.
  Lemma async_choose_pulls : forall (f : A -> M W (option B)) l w1, l <> [] ->
    (exists k, pulled (choose f src) w l k w1) <-> batch_pulls (fun (_ : unit) x => do o <- f x; ret (tt, match o with Some y => [y] | None => [] end)) tt g w0 l w1.
  Proof using E.
    intros f l w1 N. unfold choose. apply async_for_pulls_iff; [|exact E|exact N].
    intros s x v. destruct s. unfold bind. destruct (f x v) as [[[]|e] v1]; reflexivity.
  Qed.
  Lemma async_scan_pulls : forall (f : S -> A -> M W S) s l w1, l <> [] ->
    (exists k, pulled (scan f s src) w (s :: l) k w1) <-> batch_pulls (fun s x => do s1 <- f s x; ret (s1, [s1])) s g w0 l w1.
  Proof using E.
    intros f s l w1 N. transitivity (exists k, pulled (async_for (fun s x => do s1 <- f s x; ret (Give s1 s1)) s src) w l k w1).
    - split; intros (k & P); exists k.
      + inversion P; subst; match goal with E2 : step _ _ = _ |- _ => cbn in E2; inversion E2; subst end. assumption.
      + eapply pu_yield; [reflexivity|exact P].
    - apply async_for_pulls_iff; [|exact E|exact N].
      intros s0 x v. unfold bind. destruct (f s0 x v) as [[y|e] v1]; reflexivity.
  Qed.
End Ops.

Section Collect.
  Context {W A B : Type}.
  Variable f : A -> M W (iterable W B).

  Lemma async_collect_step : forall o (g : gen W A) w, match step (collect_loop f o g) w, step (Seq.collect_loop f o g) w with
      | (Ret (Yield y k), w1), (Ret (Yield y' k'), w1') => y = y' /\ w1 = w1' /\ exists o g, k = collect_loop f o g /\ k' = Seq.collect_loop f o g
      | (Ret (Skip k), w1), (Ret (Skip k'), w1') => w1 = w1' /\ exists o g, k = collect_loop f o g /\ k' = Seq.collect_loop f o g
      | (Ret Stop, w1), (Ret Stop, w1') => w1 = w1'
      | (Raise e, w1), (Raise e', w1') => e = e' /\ w1 = w1'
      | _, _ => False
      end.
  Proof.
    intros [h|] g w; cbn; unfold bind, in_generator, in_async.
    - destruct (step h w) as [[[y h1|h1|]|e] w1] eqn:E; cbn; try (repeat split; eauto; fail).
      pose proof (step_no_stop _ _ _ _ _ _ E) as N. destruct e; try (now split); now contradiction N.
    - destruct (step g w) as [[[x g1|g1|]|e] w1] eqn:E; cbn; try (repeat split; eauto; fail).
      + destruct (f x w1) as [[it|[]] w2]; cbn; try (now split). destruct (it w2) as [[h|[]] w3]; cbn; try (now split). split; eauto.
      + pose proof (step_no_stop _ _ _ _ _ _ E) as N. destruct e; try (now split); now contradiction N.
  Qed.
  Lemma async_collect_pulled : forall k w l k1 w1, pulled k w l k1 w1 ->
    (forall o g, k = collect_loop f o g -> exists k2, pulled (Seq.collect_loop f o g) w l k2 w1) /\
    (forall o g, k = Seq.collect_loop f o g -> exists k2, pulled (collect_loop f o g) w l k2 w1).
  Proof.
    induction 1 as [k w|k w k1 w1 y l k2 w2 E P [IH1 IH2]|k w y k1 w1 l k2 w2 E P [IH1 IH2]]; split; intros o g ->;
      try (eexists; apply pu_none); pose proof (async_collect_step o g w) as ST; rewrite E in ST.
    - destruct (step (Seq.collect_loop f o g) w) as [[[y' k'|k'|]|e'] w'] eqn:E'; try contradiction. destruct ST as (<- & o1 & g1 & -> & ->).
      destruct (IH1 _ _ eq_refl) as (k3 & Q). exists k3. eapply pu_skip; eassumption.
    - destruct (step (collect_loop f o g) w) as [[[y' k'|k'|]|e'] w'] eqn:E'; try contradiction. destruct ST as (-> & o1 & g1 & -> & ->).
      destruct (IH2 _ _ eq_refl) as (k3 & Q). exists k3. eapply pu_skip; eassumption.
    - destruct (step (Seq.collect_loop f o g) w) as [[[y' k'|k'|]|e'] w'] eqn:E'; try contradiction. destruct ST as (-> & <- & o1 & g1 & -> & ->).
      destruct (IH1 _ _ eq_refl) as (k3 & Q). exists k3. eapply pu_yield; eassumption.
    - destruct (step (collect_loop f o g) w) as [[[y' k'|k'|]|e'] w'] eqn:E'; try contradiction. destruct ST as (-> & -> & o1 & g1 & -> & ->).
      destruct (IH2 _ _ eq_refl) as (k3 & Q). exists k3. eapply pu_yield; eassumption.
  Qed.
  Lemma async_collect_pulls : forall (src : iterable W A) w g w0, src w = (Ret g, w0) -> forall l w1, l <> [] ->
    (exists k, pulled (collect f src) w l k w1) <-> collect_pulls f g w0 l w1.
  Proof.
    intros src w g w0 E l w1 N. unfold collect. rewrite (started_pulls_iff src (collect_loop f None) w g w0 E l w1 N). split.
    - intros (k & P). destruct (proj1 (async_collect_pulled _ _ _ _ _ P) _ _ eq_refl) as (k2 & Q). now apply (proj1 (loop_collect_pulls f _ _ _ _ _ Q N)).
    - intros P. destruct (collect_pulls_loop f _ _ _ _ P) as (k & Q). exact (proj2 (async_collect_pulled _ _ _ _ _ Q) _ _ eq_refl).
  Qed.
End Collect.
