(** Lemmas about loops over any iterator: AsyncSeq. *)
From Coq Require Import List ZArith Bool Lia.
From Verif.Model Require Import Base Gen AsyncSeq.
From Verif.Model Require Seq.
From Verif.Spec Require Import RunSpec.
From Verif.Proofs Require Import SeqFacts RunFacts RunFacts3.
From Verif.Proofs Require RunFacts2.
Import ListNotations.
Local Open Scope py_scope.

Section Async.
  Context {W A B S : Type}.

  Lemma started_iff : forall (src : iterable W A) (k : gen W A -> gen W B) w g w0, src w = (Ret g, w0) -> forall l r w1,
    produces (started src k) w l r w1 <-> produces (k g) w0 l r w1.
  Proof.
    intros src k w g w0 E l r w1.
    assert (E1 : step (started src k) w = (Ret (Skip (k g)), w0)) by (cbn; unfold bind, in_async; rewrite E; reflexivity).
    split.
    - intros P. inversion P as [? ? ? E2|? ? ? ? E2|? ? ? ? ? ? ? E2 P2|? ? ? ? ? ? ? ? E2]; subst; rewrite E1 in E2; try discriminate.
      injection E2 as <- <-. exact P2.
    - intros P. eapply pr_skip; [exact E1|exact P].
  Qed.
  Lemma started_raises : forall (src : iterable W A) (k : gen W A -> gen W B) w e w1, src w = (Raise e, w1) ->
    produces (started src k) w [] (leaving (Raise e)) w1.
  Proof. intros src k w e w1 E. destruct e; (apply pr_raise; cbn; unfold bind, in_async; rewrite E; reflexivity). Qed.

  Lemma each_iff : forall (body : S -> A -> M W (turn S B)) (f : S -> A -> M W (S * list B)),
    (forall s x w, match body s x w with
                   | (Ret (Give y s1), w1) => f s x w = (Ret (s1, [y]), w1)
                   | (Ret (Drop s1), w1) => f s x w = (Ret (s1, []), w1)
                   | (Ret Leave, _) => False
                   | (Raise e, w1) => f s x w = (leaving (Raise e), w1)
                   end) ->
    forall s g w l r w1, produces (each body s g) w l r w1 <-> runs f s g w l r w1.
  Proof.
    intros body f H s g w l r w1. rewrite <- (drop_ended _ _ _ _ f).
    2:{ intros s0 x w0. specialize (H s0 x w0). destruct (body s0 x w0) as [[[]|e] w2]; try contradiction; rewrite H; cbn; try discriminate.
        destruct e; discriminate. }
    apply (loop_iff f (fun s g => each body s g)).
    - intros s0 x w0 s1 ys w2 E. specialize (H s0 x w0). destruct (body s0 x w0) as [[[]|e] w3]; try contradiction; rewrite H in E.
      + injection E as <- <- <-. cbn. lia.
      + injection E as <- <- <-. cbn. lia.
      + destruct e; discriminate.
    - intros s0 h v. cbn. unfold bind, in_async. destruct (step h v) as [[[x g1|g1|]|e] v1] eqn:Es; [|reflexivity|reflexivity|].
      + cbn. specialize (H s0 x v1). destruct (body s0 x v1) as [[[]|e] w3]; try contradiction; rewrite H; try reflexivity. destruct e; reflexivity.
      + no_stop_raised.
  Qed.

  Lemma async_collect_loop_iff : forall (f : A -> M W (iterable W B)) g w l r w1,
    produces (collect_loop f None g) w l r w1 <-> runs_inner f g w l r w1.
  Proof.
    intros f g w l r w1. rewrite <- RunFacts2.collect_loop_iff.
    assert (ST : forall o g w, match step (collect_loop f o g) w, step (Seq.collect_loop f o g) w with
      | (Ret (Yield y k), w1), (Ret (Yield y' k'), w1') => y = y' /\ w1 = w1' /\ exists o g, k = collect_loop f o g /\ k' = Seq.collect_loop f o g
      | (Ret (Skip k), w1), (Ret (Skip k'), w1') => w1 = w1' /\ exists o g, k = collect_loop f o g /\ k' = Seq.collect_loop f o g
      | (Ret Stop, w1), (Ret Stop, w1') => w1 = w1'
      | (Raise e, w1), (Raise e', w1') => e = e' /\ w1 = w1'
      | _, _ => False
      end).
    { clear. intros [h|] g w; cbn; unfold bind, in_generator, in_async.
      - destruct (step h w) as [[[y h1|h1|]|e] w1] eqn:E; cbn; try (repeat split; eauto; fail).
        pose proof (step_no_stop _ _ _ _ _ _ E) as N. destruct e; try (now split); now contradiction N.
      - destruct (step g w) as [[[x g1|g1|]|e] w1] eqn:E; cbn; try (repeat split; eauto; fail).
        + destruct (f x w1) as [[it|[]] w2]; cbn; try (now split). destruct (it w2) as [[h|[]] w3]; cbn; try (now split). split; eauto.
        + pose proof (step_no_stop _ _ _ _ _ _ E) as N. destruct e; try (now split); now contradiction N. }
    split.
    - intros P. remember (collect_loop f None g) as k eqn:Ek. revert Ek. generalize (@None (gen W B)) as o. revert g.
      induction P as [k w w1 E|k w e w1 E|k w k1 w1 l r w2 E P IH|k w x k1 w1 l r w2 E P IH]; intros g o ->; specialize (ST o g w); rewrite E in ST;
        destruct (step (Seq.collect_loop f o g) w) as [[[y k'|k'|]|e'] w'] eqn:E'; try contradiction.
      + subst. now apply pr_stop.
      + destruct ST as [<- <-]. now apply pr_raise.
      + destruct ST as (<- & o1 & g1 & -> & ->). eapply pr_skip; [exact E'|]. now apply IH.
      + destruct ST as (-> & <- & o1 & g1 & -> & ->). eapply pr_yield; [exact E'|]. now apply IH.
    - intros P. remember (Seq.collect_loop f None g) as k eqn:Ek. revert Ek. generalize (@None (gen W B)) as o. revert g.
      induction P as [k w w1 E|k w e w1 E|k w k1 w1 l r w2 E P IH|k w x k1 w1 l r w2 E P IH]; intros g o ->; specialize (ST o g w); rewrite E in ST;
        destruct (step (collect_loop f o g) w) as [[[y k'|k'|]|e'] w'] eqn:E'; try contradiction.
      + subst. now apply pr_stop.
      + destruct ST as [-> ->]. now apply pr_raise.
      + destruct ST as (-> & o1 & g1 & -> & ->). eapply pr_skip; [exact E'|]. now apply IH.
      + destruct ST as (-> & -> & o1 & g1 & -> & ->). eapply pr_yield; [exact E'|]. now apply IH.
  Qed.
End Async.

Lemma async_map_any : forall W A B (f : A -> M W B) (src : iterable W A) w g w0, src w = (Ret g, w0) -> forall l r w1,
  produces (map f src) w l r w1 <-> runs (fun _ x => do y <- outside (f x); ret (tt, [y])) tt g w0 l r w1.
Proof.
  intros W A B f src w g w0 E l r w1. unfold map, async_for. rewrite (started_iff _ _ _ _ _ E). apply each_iff.
  intros s x v. unfold bind, outside. destruct (f x v) as [[y|[]] v1]; reflexivity.
Qed.
Lemma async_filter_any : forall W A (p : A -> M W bool) (src : iterable W A) w g w0, src w = (Ret g, w0) -> forall l r w1,
  produces (filter p src) w l r w1 <-> runs (fun _ x => do b <- outside (p x); ret (tt, if b : bool then [x] else [])) tt g w0 l r w1.
Proof.
  intros W A p src w g w0 E l r w1. unfold filter, async_for. rewrite (started_iff _ _ _ _ _ E). apply each_iff.
  intros s x v. unfold bind, outside. destruct (p x v) as [[[]|[]] v1]; reflexivity.
Qed.
Lemma async_choose_any : forall W A B (f : A -> M W (option B)) (src : iterable W A) w g w0, src w = (Ret g, w0) -> forall l r w1,
  produces (choose f src) w l r w1 <-> runs (fun _ x => do o <- outside (f x); ret (tt, match o with Some y => [y] | None => [] end)) tt g w0 l r w1.
Proof.
  intros W A B f src w g w0 E l r w1. unfold choose, async_for. rewrite (started_iff _ _ _ _ _ E). apply each_iff.
  intros s x v. unfold bind, outside. destruct (f x v) as [[[]|[]] v1]; reflexivity.
Qed.
Lemma async_collect_any : forall W A B (f : A -> M W (iterable W B)) (src : iterable W A) w g w0, src w = (Ret g, w0) -> forall l r w1,
  produces (collect f src) w l r w1 <-> runs_inner f g w0 l r w1.
Proof. intros W A B f src w g w0 E l r w1. unfold collect. rewrite (started_iff _ _ _ _ _ E). apply async_collect_loop_iff. Qed.
Lemma async_concat_any : forall W A (src : iterable W (iterable W A)) w g w0, src w = (Ret g, w0) -> forall l r w1,
  produces (concat src) w l r w1 <-> runs_inner (fun it => ret it) g w0 l r w1.
Proof. intros W A src w g w0 E l r w1. unfold concat. rewrite (started_iff _ _ _ _ _ E). apply async_collect_loop_iff. Qed.
Lemma async_scan_any : forall W A S (f : S -> A -> M W S) s (src : iterable W A) w g w0, src w = (Ret g, w0) -> forall l r w1,
  produces (scan f s src) w l r w1 <-> exists l1, l = s :: l1 /\ runs (fun s x => do s1 <- outside (f s x); ret (s1, [s1])) s g w0 l1 r w1.
Proof.
  intros W A S f s src w g w0 E l r w1. transitivity (exists l1, l = s :: l1 /\ produces (each (fun s x => do s1 <- f s x; ret (Give s1 s1)) s g) w0 l1 r w1).
  - split.
    + intros P. inversion P as [? ? ? E2|? ? ? ? E2|? ? ? ? ? ? ? E2 P2|? ? ? ? ? ? ? ? E2 P2]; subst; cbn in E2; try discriminate.
      injection E2 as <- <- <-. eexists. split; [reflexivity|]. unfold async_for in P2. rewrite (started_iff _ _ _ _ _ E) in P2. exact P2.
    + intros (l1 & -> & P). eapply pr_yield; [reflexivity|]. unfold async_for. rewrite (started_iff _ _ _ _ _ E). exact P.
  - assert (I : forall l1, produces (each (fun s x => do s1 <- f s x; ret (Give s1 s1)) s g) w0 l1 r w1 <->
                 runs (fun s x => do s1 <- outside (f s x); ret (s1, [s1])) s g w0 l1 r w1).
    { intros l1. apply each_iff. intros s0 x v. unfold bind, outside. destruct (f s0 x v) as [[y|[]] v1]; reflexivity. }
    split; intros (l1 & -> & P); exists l1; (split; [reflexivity|]); now apply I.
Qed.

Lemma async_fold_any : forall W A S (f : S -> A -> M W S) s (src : iterable W A) w g w0, src w = (Ret g, w0) ->
  (forall r w1, folds f s g w0 r w1 -> exists n, forall fuel, n <= fuel -> fold fuel f s src w = (leaving r, w1)) /\
  (forall fuel r w1, fold fuel f s src w = (r, w1) -> r <> Raise OutOfFuel -> exists r0, folds f s g w0 r0 w1 /\ r = leaving r0).
Proof.
  intros W A S f s src w g w0 E.
  assert (D : forall fuel, fold fuel f s src w = let '(r, w1) := Seq.fold fuel f s src w in (leaving r, w1)).
  { intros fuel. unfold fold, Seq.fold, in_async, bind. rewrite E.
    assert (Q : for_gen (R := Empty_set) fuel g s (fun s x w => match f s x w with (Ret s1, w1) => ret (inl s1) w1 | (Raise e, w1) => (Raise e, w1) end) w0 =
                let '(r, w1) := for_gen (R := S) fuel g s (fun s x w => match f s x w with (Ret s1, w1) => ret (inl s1) w1 | (Raise e, w1) => (Raise e, w1) end) w0 in
                (rmap (fun x => match x with inl s => inl s | inr s => inl s end) r, w1)).
    { clear E. revert g s w0. induction fuel as [|fuel IH]; intros g s w0; [reflexivity|]. cbn. unfold bind.
      destruct (step g w0) as [[[x g1|g1|]|e] w1]; [|apply IH|reflexivity|reflexivity]. destruct (f s x w1) as [[s1|e] w2]; [|reflexivity]. cbn. apply IH. }
    rewrite Q. clear. match goal with |- context [for_gen (R := S) ?a ?b ?c ?d ?e] => destruct (for_gen (R := S) a b c d e) as [[[s1|s1]|[]] w1] end; reflexivity. }
  destruct (RunFacts3.fold_any f s src w g w0 E) as [F1 F2]. split.
  - intros r w1 H. destruct (F1 _ _ H) as [n K]. exists n. intros fuel L. rewrite D, (K fuel L). reflexivity.
  - intros fuel r w1 H N. rewrite D in H. destruct (Seq.fold fuel f s src w) as [r0 w2] eqn:K. injection H as <- <-.
    exists r0. split; [|reflexivity]. apply (F2 _ _ _ K). intros ->. now apply N.
Qed.
