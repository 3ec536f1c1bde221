(** Lemmas about Seq: effectful callbacks, laziness, repeated iteration, consumers. *)
From Coq Require Import List ZArith Bool Lia.
From Verif.Model Require Import Base Gen OptionResult Seq.
From Verif.Spec Require Import ListM SeqSpec.
From Verif.Proofs Require Import SeqFacts.
Import ListNotations.
Local Open Scope py_scope.

(** *** Effectful callbacks over a script *)
Lemma raw_raise : forall W A (g : gen W A) w e w1, match g with Gen n => n w end = (Raise e, w1) -> produces g w [] (ended (Raise e)) w1.
Proof.
  intros W A [n] w e w1 E. destruct e; first [apply pr_stop; cbn; rewrite E; reflexivity|apply pr_raise; cbn; rewrite E; reflexivity].
Qed.
Lemma in_generator_outside : forall W X (m : M W X), in_generator m ==m outside m.
Proof. intros W X m w. unfold in_generator, outside. destruct (m w) as [[x|[]] w1]; reflexivity. Qed.
Lemma outside_ret : forall W X (m : M W X) w x w1, outside m w = (Ret x, w1) -> m w = (Ret x, w1).
Proof. intros W X m w x w1. unfold outside. destruct (m w) as [[y|[]] w2]; cbn; congruence. Qed.
Lemma outside_no_stop : forall W X (m : M W X) w w1, outside m w <> (Raise StopIterationExn, w1).
Proof. intros W X m w w1. unfold outside. destruct (m w) as [[x|[]] w2]; discriminate. Qed.
Lemma script_step : forall W A (m : M W A) ms w x w1, m w = (Ret x, w1) -> step (script_gen (m :: ms)) w = (Ret (Yield x (script_gen ms)), w1).
Proof. intros W A m ms w x w1 E. cbn. unfold bind. rewrite E. reflexivity. Qed.
Lemma script_step_raise : forall W A (m : M W A) ms w e w1, m w = (Raise e, w1) -> e <> StopIterationExn -> step (script_gen (m :: ms)) w = (Raise e, w1).
Proof. intros W A m ms w e w1 E N. cbn. unfold bind. rewrite E. destruct e; try reflexivity. now contradiction N. Qed.
Lemma script_step_stop : forall W A (m : M W A) ms w w1, m w = (Raise StopIterationExn, w1) -> step (script_gen (m :: ms)) w = (Ret Stop, w1).
Proof. intros W A m ms w w1 E. cbn. unfold bind. rewrite E. reflexivity. Qed.

(** The source raises: it ends if that is StopIteration. *)
Ltac src_raises E :=
  match type of E with ?m ?w = (Raise ?e, ?w1) =>
    destruct e;
    first [ apply pr_stop; cbn; unfold bind at 1; cbn; unfold bind at 1; rewrite E; reflexivity
          | apply pr_raise; cbn; unfold bind at 1; cbn; unfold bind at 1; rewrite E; reflexivity ]
  end.
Ltac src_gives E := cbn; unfold bind at 1; cbn; unfold bind at 1; rewrite E; cbn; unfold bind at 1.

Section Script.
  Context {W A B : Type}.
  Implicit Types ms : list (M W A).

  Lemma map_script : forall (f : A -> M W B) ms w,
    let '(l, r, w1) := emit (List.map (fun m => do x <- m; do y <- outside (f x); ret [y]) ms) w in
    produces (map_loop f (script_gen ms)) w l (ended r) w1.
  Proof.
    intros f. induction ms as [|m ms IH]; intros w; cbn [List.map emit].
    - now apply pr_stop.
    - unfold bind at 1. destruct (m w) as [[x|e] w1] eqn:E1; [|src_raises E1].
      unfold bind. destruct (outside (f x) w1) as [[y|e] w2] eqn:E2; cbn [ret app].
      + specialize (IH w2). destruct emit as [[l r] w3]. eapply pr_yield; [|exact IH].
        src_gives E1. rewrite in_generator_outside, E2. reflexivity.
      + apply raw_raise. src_gives E1. rewrite in_generator_outside, E2. reflexivity.
  Qed.

  Lemma filter_script : forall (p : A -> M W bool) ms w,
    let '(l, r, w1) := emit (List.map (fun m => do x <- m; do b <- p x; ret (if b : bool then [x] else [])) ms) w in
    produces (filter_loop p (script_gen ms)) w l (ended r) w1.
  Proof.
    intros p. induction ms as [|m ms IH]; intros w; cbn [List.map emit].
    - now apply pr_stop.
    - unfold bind at 1. destruct (m w) as [[x|e] w1] eqn:E1; [|src_raises E1].
      unfold bind. destruct (p x w1) as [[[|]|e] w2] eqn:E2; cbn [ret app].
      + specialize (IH w2). destruct emit as [[l r] w3]. eapply pr_yield; [|exact IH].
        src_gives E1. rewrite E2. reflexivity.
      + specialize (IH w2). destruct emit as [[l r] w3]. eapply pr_skip; [|exact IH].
        src_gives E1. rewrite E2. reflexivity.
      + apply raw_raise. src_gives E1. rewrite E2. reflexivity.
  Qed.

  Lemma collect_script : forall (f : A -> M W (list B)) ms w,
    let '(l, r, w1) := emit (List.map (fun m => do x <- m; outside (f x)) ms) w in
    produces (collect_loop (fun x => do ys <- f x; ret (of_list ys)) None (script_gen ms)) w l (ended r) w1.
  Proof.
    intros f. induction ms as [|m ms IH]; intros w; cbn [List.map emit].
    - now apply pr_stop.
    - unfold bind at 1. destruct (m w) as [[x|e] w1] eqn:E1; [|src_raises E1].
      destruct (outside (f x) w1) as [[ys|e] w2] eqn:E2; cbn [ret app].
      + specialize (IH w2). destruct emit as [[l r] w3].
        eapply pr_skip; [src_gives E1; unfold in_generator, bind; rewrite (outside_ret _ _ _ _ _ _ E2); reflexivity|].
        apply collect_loop_inner. exact IH.
      + apply raw_raise. src_gives E1. unfold in_generator, bind. revert E2. unfold outside. destruct (f x w1) as [[o|[]] w3]; intros [= <- <-]; reflexivity.
  Qed.

  Lemma choose_script : forall (f : A -> M W (option B)) ms w,
    let '(l, r, w1) := emit (List.map (fun m => do x <- m; do o <- outside (f x); ret (match o with Some y => [y] | None => [] end)) ms) w in
    produces (collect_loop (fun x => do o <- f x; ret (of_list (opt_to_list o))) None (script_gen ms)) w l (ended r) w1.
  Proof.
    intros f. induction ms as [|m ms IH]; intros w; cbn [List.map emit].
    - now apply pr_stop.
    - unfold bind at 1. destruct (m w) as [[x|e] w1] eqn:E1; [|src_raises E1].
      unfold bind. destruct (outside (f x) w1) as [[o|e] w2] eqn:E2; cbn [ret app].
      + specialize (IH w2). destruct emit as [[l r] w3].
        change (match o with Some y => [y] | None => [] end) with (opt_to_list o).
        eapply pr_skip; [src_gives E1; unfold in_generator, bind; rewrite (outside_ret _ _ _ _ _ _ E2); reflexivity|].
        apply collect_loop_inner. exact IH.
      + apply raw_raise. src_gives E1. unfold in_generator, bind. revert E2. unfold outside. destruct (f x w1) as [[o|[]] w3]; intros [= <- <-]; reflexivity.
  Qed.

  Lemma scan_script : forall S (f : S -> A -> M W S) ms s w,
    let '(l, r, w1) := scan_emit f s ms w in produces (scan_loop f s (script_gen ms)) w l (ended r) w1.
  Proof.
    intros S f. induction ms as [|m ms IH]; intros s w; cbn [scan_emit].
    - now apply pr_stop.
    - unfold bind at 1. destruct (m w) as [[x|e] w1] eqn:E1; [|src_raises E1].
      destruct (f s x w1) as [[s1|e] w2] eqn:E2.
      + specialize (IH s1 w2). destruct scan_emit as [[l r] w3]. eapply pr_yield; [|exact IH].
        src_gives E1. rewrite E2. reflexivity.
      + apply raw_raise. src_gives E1. rewrite E2. reflexivity.
  Qed.

  Lemma mapi_script : forall (f : Z -> A -> M W B) ms i w,
    let '(l, r, w1) := emit (List.map (fun '(i, m) => do x <- m; do y <- f i x; ret [y]) (number i ms)) w in
    produces (mapi_loop f i (script_gen ms)) w l (ended r) w1.
  Proof.
    intros f. induction ms as [|m ms IH]; intros i w; cbn [List.map emit number].
    - now apply pr_stop.
    - unfold bind at 1. destruct (m w) as [[x|e] w1] eqn:E1; [|src_raises E1].
      unfold bind. destruct (f i x w1) as [[y|e] w2] eqn:E2; cbn [ret app].
      + specialize (IH (i + 1)%Z w2). destruct emit as [[l r] w3]. eapply pr_yield; [|exact IH].
        src_gives E1. rewrite E2. reflexivity.
      + apply raw_raise. src_gives E1. rewrite E2. reflexivity.
  Qed.

  Lemma zip_scripts : forall ms (ns : list (M W B)) w,
    let '(l, r, w1) := emit (zip_script ms ns) w in produces (zip_loop None (script_gen ms) (script_gen ns)) w l (ended r) w1.
  Proof.
    induction ms as [|m ms IH]; intros ns w; cbn [zip_script emit].
    - now apply pr_stop.
    - destruct ns as [|n ns]; cbn [emit].
      + unfold bind at 1. destruct (m w) as [[x|e] w1] eqn:E1; cbn [ret app]; [|src_raises E1].
        eapply pr_skip; [cbn; unfold bind; cbn; unfold bind; rewrite E1; reflexivity|]. now apply pr_stop.
      + unfold bind at 1. destruct (m w) as [[x|e] w1] eqn:E1; cbn [ret app]; [|src_raises E1].
        unfold bind at 1. destruct (n w1) as [[y|e] w2] eqn:E2; cbn [ret app].
        * specialize (IH ns w2). destruct emit as [[l r] w3].
          eapply pr_skip; [cbn; unfold bind; cbn; unfold bind; rewrite E1; reflexivity|].
          eapply pr_yield; [cbn; unfold bind; cbn; unfold bind; rewrite E2; reflexivity|]. exact IH.
        * eapply pr_skip; [cbn; unfold bind; cbn; unfold bind; rewrite E1; reflexivity|]. src_raises E2.
  Qed.
End Script.

(** *** Laziness *)
Section Lazy.
  Context {W A B : Type}.
  Implicit Types g : gen W A.

  Lemma filter_loop_pulled : forall (p : A -> bool) g w l g1 w1, pulled g w l g1 w1 -> forall l0 x, l = l0 ++ [x] -> p x = true ->
    pulled (filter_loop (fun x => ret (p x)) g) w (List.filter p l) (filter_loop (fun x => ret (p x)) g1) w1.
  Proof.
    intros p. induction 1 as [g w|g w g1 w1 x l g2 w2 E P IH|g w x g1 w1 l g2 w2 E P IH]; intros l0 z EQ PZ.
    - destruct l0; discriminate.
    - specialize (IH l0 z EQ PZ).
      assert (N : exists y l', List.filter p (x :: l) = y :: l').
      { rewrite EQ, filter_app. cbn. rewrite PZ. destruct (List.filter p l0); cbn; eauto. }
      destruct N as (y & l' & N). rewrite N in *. eapply pu_skip; [stp|exact IH].
    - destruct l0 as [|y l0]; injection EQ as -> ->.
      + inversion P; subst. cbn. rewrite PZ. eapply pu_yield; [|apply pu_none]. cbn. unfold bind. rewrite E. cbn. rewrite PZ. reflexivity.
      + specialize (IH l0 z eq_refl PZ). cbn [List.filter]. destruct (p y) eqn:E1.
        * eapply pu_yield; [cbn; unfold bind; rewrite E; cbn; rewrite E1; reflexivity|exact IH].
        * assert (N : exists y l', List.filter p (l0 ++ [z]) = y :: l').
          { rewrite filter_app. cbn. rewrite PZ. destruct (List.filter p l0); cbn; eauto. }
          destruct N as (y1 & l' & N). rewrite N in *.
          eapply pu_skip; [cbn; unfold bind; rewrite E; cbn; rewrite E1; reflexivity|exact IH].
  Qed.

  Lemma scan_loop_pulled : forall S (F : S -> A -> S) g w l g1 w1, pulled g w l g1 w1 -> forall s,
    pulled (scan_loop (fun s x => ret (F s x)) s g) w (scan_list F s l) (scan_loop (fun s x => ret (F s x)) (fold_left F l s) g1) w1.
  Proof.
    intros S F. induction 1; intros s; cbn [scan_list fold_left].
    - apply pu_none.
    - eapply pu_skip; [stp|apply IHpulled].
    - eapply pu_yield; [stp|apply IHpulled].
  Qed.

  Lemma collect_inner_pulled : forall (f : A -> M W (iterable W B)) g (ys : list B) w l (g2 : gen W B) w2,
    (l = [] /\ g2 = collect_loop f (Some (list_gen [])) g /\ w2 = w) \/ (l <> [] /\ pulled (collect_loop f None g) w l g2 w2) ->
    pulled (collect_loop f (Some (list_gen ys)) g) w (ys ++ l) g2 w2.
  Proof.
    intros f g. induction ys as [|y ys IH]; intros w l g2 w2 H; cbn [app].
    - destruct H as [(-> & -> & ->)|[N P]]; [apply pu_none|]. destruct l as [|x l]; [congruence|].
      eapply pu_skip; [reflexivity|exact P].
    - eapply pu_yield; [reflexivity|]. now apply IH.
  Qed.

  Lemma collect_loop_pulled : forall (F : A -> list B) g w l g1 w1, pulled g w l g1 w1 -> forall l0 x, l = l0 ++ [x] -> F x <> [] ->
    pulled (collect_loop (fun x => ret (of_list (F x))) None g) w (flat_map F l)
      (collect_loop (fun x => ret (of_list (F x))) (Some (list_gen [])) g1) w1.
  Proof.
    intros F. induction 1 as [g w|g w g1 w1 x l g2 w2 E P IH|g w x g1 w1 l g2 w2 E P IH]; intros l0 z EQ PZ.
    - destruct l0; discriminate.
    - specialize (IH l0 z EQ PZ).
      assert (N : exists y l', flat_map F (x :: l) = y :: l').
      { rewrite EQ, flat_map_app. cbn. rewrite app_nil_r. destruct (F z) as [|u v]; [congruence|]. destruct (flat_map F l0); cbn; eauto. }
      destruct N as (y & l' & N). rewrite N in *. eapply pu_skip; [stp|exact IH].
    - assert (N : exists y l', flat_map F (x :: l) = y :: l').
      { rewrite EQ, flat_map_app. cbn. rewrite app_nil_r. destruct (F z) as [|u v]; [congruence|]. destruct (flat_map F l0); cbn; eauto. }
      assert (G : pulled (collect_loop (fun x => ret (of_list (F x))) (Some (list_gen (F x))) g1) w1 (F x ++ flat_map F l)
                    (collect_loop (fun x => ret (of_list (F x))) (Some (list_gen [])) g2) w2).
      { apply collect_inner_pulled. destruct l0 as [|y l0]; injection EQ as -> ->.
        - left. inversion P; subst. repeat split.
        - right. split; [|now apply (IH l0 z)]. rewrite flat_map_app. cbn. rewrite app_nil_r.
          intros C. apply app_eq_nil in C. now destruct C. }
      cbn [flat_map] in *. destruct N as (y & l' & N). rewrite N in *. eapply pu_skip; [stp|exact G].
  Qed.

  Lemma concat_inner_pulled : forall g w l g1 w1 its, pulled g w l g1 w1 ->
    pulled (concat_loop (Some g) its) w l (concat_loop (Some g1) its) w1.
  Proof.
    intros g w l g1 w1 its. induction 1.
    - apply pu_none.
    - eapply pu_skip; [stp|exact IHpulled].
    - eapply pu_yield; [stp|exact IHpulled].
  Qed.

  Lemma concat_pulled : forall (its1 : list (iterable W A)) w l1 w1, iterates_all its1 w l1 (Ret tt) w1 ->
    forall it its2 l2 g2 w2, l2 <> [] -> pulls it w1 l2 g2 w2 ->
    pulled (concat_loop None (its1 ++ it :: its2)) w (l1 ++ l2) (concat_loop (Some g2) its2) w2.
  Proof.
    intros its1 w l1 w1 H. remember (Ret tt) as r eqn:Er.
    induction H as [w|it its w l e w1 I|it its w l w1 l2 r w2 I _ IH]; intros it0 its2 l3 g2 w3 N P.
    - destruct P as (g & w2 & E & P). destruct l3 as [|x l3]; [congruence|].
      cbn. eapply pu_skip; [cbn; unfold bind, in_generator; rewrite E; reflexivity|]. now apply concat_inner_pulled.
    - destruct e; discriminate.
    - specialize (IH Er it0 its2 l3 g2 w3 N P). destruct I as [(g & w4 & E & Q)|(e1 & _ & _ & E1)]; [|discriminate].
      assert (G : pulled (concat_loop (Some g) (its ++ it0 :: its2)) w4 ((l ++ l2) ++ l3) (concat_loop (Some g2) its2) w3).
      { clear E. rewrite <- app_assoc. remember (l2 ++ l3) as l4 eqn:E4.
        assert (N4 : exists x l5, l4 = x :: l5) by (subst; destruct l2, l3; cbn; eauto; congruence).
        clear E4. remember (Ret tt) as r0 eqn:E0 in Q. induction Q; try discriminate; cbn [app].
        - destruct N4 as (x & l5 & ->). eapply pu_skip; [stp|exact IH].
        - destruct (l ++ l4) eqn:E5; [destruct l; [destruct N4 as (x & l5 & ->)|]; discriminate|].
          eapply pu_skip; [stp|]. now apply IHQ.
        - eapply pu_yield; [stp|]. now apply IHQ. }
      destruct ((l ++ l2) ++ l3) as [|x l5] eqn:E5.
      { apply app_eq_nil in E5. destruct E5. congruence. }
      cbn [app]. eapply pu_skip; [cbn; unfold bind, in_generator; rewrite E; reflexivity|exact G].
  Qed.

  Lemma skip_loop_pulled : forall g w l g1 w1, pulled g w l g1 w1 -> forall count i, (0 <= i)%Z ->
    (Z.of_nat (List.length l) > count - i)%Z ->
    pulled (skip_loop count i g) w (skipn (Z.to_nat (count - i)) l) (skip_loop count (i + Z.of_nat (List.length l)) g1) w1.
  Proof.
    induction 1 as [g w|g w g1 w1 x l g2 w2 E P IH|g w x g1 w1 l g2 w2 E P IH]; intros count i Hi L.
    - cbn in L. rewrite skipn_nil. cbn. replace (i + 0)%Z with i by lia. apply pu_none.
    - specialize (IH count i Hi L).
      destruct (skipn (Z.to_nat (count - i)) (x :: l)) as [|y l'] eqn:E1.
      + exfalso. assert (Q := f_equal (@List.length A) E1). rewrite skipn_length in Q. cbn [List.length] in Q, L. lia.
      + eapply pu_skip; [stp|exact IH].
    - cbn [List.length] in *. destruct (Z.leb_spec count i) as [C|C].
      + replace (Z.to_nat (count - i)) with 0 by lia. cbn [skipn].
        eapply pu_yield; [stp; destruct (Z.leb_spec count i); [reflexivity|lia]|].
        destruct l as [|y l].
        * inversion P; subst. cbn. apply pu_none.
        * cbn [List.length] in *. specialize (IH count (i + 1)%Z ltac:(lia) ltac:(lia)). replace (Z.to_nat (count - (i + 1))) with 0 in IH by lia.
          cbn [skipn] in IH. replace (i + Z.of_nat (Datatypes.S (Datatypes.S (List.length l))))%Z with (i + 1 + Z.of_nat (Datatypes.S (List.length l)))%Z by lia. exact IH.
      + replace (Z.to_nat (count - i)) with (Datatypes.S (Z.to_nat (count - (i + 1)))) by lia. cbn [skipn].
        specialize (IH count (i + 1)%Z ltac:(lia) ltac:(lia)).
        destruct (skipn (Z.to_nat (count - (i + 1))) l) as [|y l'] eqn:E1.
        * exfalso. assert (Q := f_equal (@List.length A) E1). rewrite skipn_length in Q. cbn [List.length] in Q. lia.
        * eapply pu_skip; [stp; destruct (Z.leb_spec count i); [lia|reflexivity]|].
          replace (i + Z.of_nat (Datatypes.S (List.length l)))%Z with (i + 1 + Z.of_nat (List.length l))%Z by lia. exact IH.
  Qed.

  Lemma pairwise_loop_pulled : forall g w l g1 w1, pulled g w l g1 w1 ->
    (forall p, pulled (pairwise_loop (Some p) g) w (combine (p :: l) l) (pairwise_loop (Some (List.last l p)) g1) w1) /\
    (forall x y l', l = x :: y :: l' -> pulled (pairwise_loop None g) w (combine l (tl l)) (pairwise_loop (Some (List.last l x)) g1) w1).
  Proof.
    induction 1 as [g w|g w g1 w1 x l g2 w2 E P [IH1 IH2]|g w x g1 w1 l g2 w2 E P [IH1 IH2]].
    - split; [intros p; apply pu_none|discriminate].
    - split.
      + intros p. specialize (IH1 p). cbn [combine] in *. eapply pu_skip; [stp|exact IH1].
      + intros x0 y l' EQ. specialize (IH2 _ _ _ EQ). injection EQ as -> ->. cbn [combine tl] in *. eapply pu_skip; [stp|exact IH2].
    - split.
      + intros p. cbn [combine]. eapply pu_yield; [stp|]. replace (List.last (x :: l) p) with (List.last l x); [destruct l; apply IH1|].
        destruct l as [|y l]; [reflexivity|]. clear. cbn [List.last]. revert y. induction l as [|z l IH]; intros y; cbn; auto.
      + intros x0 y l' EQ. injection EQ as -> ->. cbn [combine tl]. specialize (IH1 x0). cbn [combine] in IH1.
        eapply pu_skip; [stp|]. replace (List.last (x0 :: y :: l') x0) with (List.last (y :: l') x0) by reflexivity. exact IH1.
  Qed.

  Lemma take_loop_pulled : forall g w l g1 w1, pulled g w l g1 w1 -> forall count i, 
    (i + Z.of_nat (List.length l) <= count)%Z ->
    exists g2, pulled (take_loop count None i g) w l g2 w1.
  Proof.
    induction 1 as [g w|g w g1 w1 x l g2 w2 E P IH|g w x g1 w1 l g2 w2 E P IH]; intros count i L; cbn [List.length] in L.
    - eexists. apply pu_none.
    - destruct (IH count i) as (g3 & Q); [cbn [List.length]; lia|]. exists g3. eapply pu_skip; [stp|exact Q].
    - destruct l as [|y l].
      + inversion P; subst. eexists. eapply pu_yield; [stp|apply pu_none].
      + destruct (IH count (i + 1)%Z) as (g3 & Q); [lia|]. exists g3.
        eapply pu_yield; [stp|]. eapply pu_skip; [|exact Q]. cbn. cbn [List.length] in L. destruct (Z.eqb_spec i (count - 1)); [lia|reflexivity].
  Qed.
End Lazy.

Lemma apply_op_quiet : forall W A B (o : op W A B) (src : iterable W A),
  match o with OpZip src1 => quiet src1 | _ => True end -> quiet src ->
  forall w, exists it, apply_op o src w = (Ret it, w) /\ quiet it.
Proof.
  intros W A B o src Q H w. destruct o; cbn in *;
    try (eexists; split; [reflexivity|]; intros w1; eexists; reflexivity).
  - eexists. split; [reflexivity|]. intros w1. unfold take. destruct (0 <? z)%Z; eexists; reflexivity.
  - eexists. split; [reflexivity|]. intros w1. unfold pairwise, bind. destruct (H w1) as (g & ->). eexists. reflexivity.
  - unfold filter, bind. destruct (H w) as (g & ->). eexists. split; [reflexivity|]. intros w1. eexists. reflexivity.
  - unfold scan, bind. destruct (H w) as (g & ->). eexists. split; [reflexivity|]. intros w1. eexists. reflexivity.
  - unfold zip, bind. destruct (Q w) as (g & ->). destruct (H w) as (h & ->). eexists. split; [reflexivity|]. intros w1. eexists. reflexivity.
Qed.

Lemma build_quiet : forall W A B (p : pipeline W A B) (src : iterable W A),
  quiet_pipeline p -> quiet src -> forall w, exists it, build p src w = (Ret it, w) /\ quiet it.
Proof.
  intros W A B p. induction p as [A|A B C o p IH]; intros src Q H w; cbn.
  - eexists. split; [reflexivity|exact H].
  - destruct Q as [Qo Qp]. destruct (apply_op_quiet _ _ _ o src Qo H w) as (it & E & Hit).
    unfold bind. rewrite E. now apply IH.
Qed.

(** *** Repeated iteration *)
Section Again.
  Context {W A B : Type}.
  Variable I : W -> Prop.

  Lemma steady_produces : forall (g : gen W A) l, steady I g l -> forall w, I w -> exists w1, produces g w l (Ret tt) w1 /\ I w1.
  Proof.
    induction 1 as [g H|g g1 l H _ IH|g x g1 l H _ IH]; intros w Iw; destruct (H w Iw) as (w1 & E & Iw1).
    - exists w1. split; auto. now apply pr_stop.
    - destruct (IH w1 Iw1) as (w2 & P & Iw2). exists w2. split; auto. eapply pr_skip; eauto.
    - destruct (IH w1 Iw1) as (w2 & P & Iw2). exists w2. split; auto. eapply pr_yield; eauto.
  Qed.

  Lemma reiterable_iterated : forall (it : iterable W A) l, reiterable I it l -> forall n w, I w ->
    exists w1, iterated it n w (repeat l n) w1 /\ I w1.
  Proof.
    intros it l (g & O & S). induction n as [|n IH]; intros w Iw; cbn.
    - exists w. split; auto. constructor.
    - destruct (O w Iw) as (w1 & E & Iw1). destruct (steady_produces g l S w1 Iw1) as (w2 & P & Iw2).
      destruct (IH w2 Iw2) as (w3 & Q & Iw3). exists w3. split; auto. econstructor; eauto. left. eauto.
  Qed.

  Lemma steady_list : forall xs : list A, steady I (list_gen xs) xs.
  Proof.
    induction xs as [|x xs IH].
    - apply sd_stop. intros w Iw. exists w. split; auto.
    - eapply sd_yield; [|exact IH]. intros w Iw. exists w. split; auto.
  Qed.

  Lemma reiterable_opening : forall (src : iterable W A) (k : gen W A -> gen W B) l l2, reiterable I src l ->
    (forall g, steady I g l -> steady I (k g) l2) -> reiterable I (ret (opening src k)) l2.
  Proof.
    intros src k l l2 (g & O & S) H. exists (opening src k). split.
    - intros w Iw. exists w. split; auto.
    - eapply sd_skip; [|apply H, S]. intros w Iw. destruct (O w Iw) as (w1 & E & Iw1). exists w1. split; auto.
      cbn. unfold bind, in_generator. rewrite E. reflexivity.
  Qed.

  Ltac stq w Iw := intros w Iw;
    match goal with H : steps_to I _ _ |- _ => let w1 := fresh in let E := fresh in let i := fresh in
      destruct (H w Iw) as (w1 & E & i); cbn; unfold bind; cbn; rewrite E; cbn; try (eexists; split; [reflexivity|assumption]) end.

  Lemma map_steady : forall (f : A -> M W B) F, gives I f F -> forall g l, steady I g l -> steady I (map_loop f g) (List.map F l).
  Proof.
    intros f F G. induction 1 as [g H|g g1 l H _ IH|g x g1 l H _ IH]; cbn.
    - apply sd_stop. stq w Iw.
    - eapply sd_skip; [|exact IH]. stq w Iw.
    - eapply sd_yield; [|exact IH]. intros w Iw. destruct (H w Iw) as (w1 & E & Iw1). destruct (G x w1 Iw1) as (w2 & E2 & Iw2).
      exists w2. split; auto. cbn. unfold bind, in_generator. rewrite E. rewrite E2. reflexivity.
  Qed.

  Lemma collect_inner_steady : forall (f : A -> M W (iterable W B)) g h ys l,
    steady I h ys -> steady I (collect_loop f None g) l -> steady I (collect_loop f (Some h) g) (ys ++ l).
  Proof.
    intros f g h ys l H G. induction H as [h H|h h1 ys H _ IH|h y h1 ys H _ IH]; cbn [app].
    - eapply sd_skip; [|exact G]. stq w Iw.
    - eapply sd_skip; [|exact IH]. stq w Iw.
    - eapply sd_yield; [|exact IH]. stq w Iw.
  Qed.

  (** the callback may return any re-iterable, and the same one every time *)
  Definition gives_iterable (f : A -> M W (iterable W B)) (F : A -> list B) : Prop :=
    forall x, exists it, (forall w, I w -> exists w1, f x w = (Ret it, w1) /\ I w1) /\ reiterable I it (F x).

  Lemma collect_steady : forall (f : A -> M W (iterable W B)) F, gives_iterable f F ->
    forall g l, steady I g l -> steady I (collect_loop f None g) (flat_map F l).
  Proof.
    intros f F G. induction 1 as [g H|g g1 l H _ IH|g x g1 l H _ IH]; cbn.
    - apply sd_stop. stq w Iw.
    - eapply sd_skip; [|exact IH]. stq w Iw.
    - destruct (G x) as (it & Hit & h & Hh & Sh).
      eapply sd_skip; [|apply collect_inner_steady; [exact Sh|exact IH]].
      intros w Iw. destruct (H w Iw) as (w1 & E & Iw1). destruct (Hit w1 Iw1) as (w2 & E2 & Iw2). destruct (Hh w2 Iw2) as (w3 & E3 & Iw3).
      exists w3. split; auto. cbn. unfold bind, in_generator. rewrite E. rewrite E2. rewrite E3. reflexivity.
  Qed.

  Lemma concat_inner_steady : forall (g : gen W A) l, steady I g l -> forall its l2, steady I (concat_loop None its) l2 ->
    steady I (concat_loop (Some g) its) (l ++ l2).
  Proof.
    intros g l H its l2 G. induction H as [h H|h h1 ys H _ IH|h y h1 ys H _ IH]; cbn [app].
    - eapply sd_skip; [|exact G]. stq w Iw.
    - eapply sd_skip; [|exact IH]. stq w Iw.
    - eapply sd_yield; [|exact IH]. stq w Iw.
  Qed.

  Lemma concat_steady : forall (its : list (iterable W A)) ls, Forall2 (reiterable I) its ls ->
    steady I (concat_loop None its) (List.concat ls).
  Proof.
    induction 1 as [|it l its ls (g & O & S) _ IH]; cbn.
    - apply sd_stop. intros w Iw. exists w. split; auto.
    - eapply sd_skip; [|apply concat_inner_steady; [exact S|exact IH]].
      intros w Iw. destruct (O w Iw) as (w1 & E & Iw1). exists w1. split; auto. cbn. unfold bind, in_generator. rewrite E. reflexivity.
  Qed.

  Lemma skip_steady : forall (g : gen W A) l, steady I g l -> forall count i, (0 <= i)%Z ->
    steady I (skip_loop count i g) (skipn (Z.to_nat (count - i)) l).
  Proof.
    induction 1 as [g H|g g1 l H _ IH|g x g1 l H _ IH]; intros count i Hi.
    - rewrite skipn_nil. apply sd_stop. stq w Iw.
    - eapply sd_skip; [|apply IH, Hi]. stq w Iw.
    - specialize (IH count (i + 1)%Z ltac:(lia)). destruct (Z.leb_spec count i) as [L|L].
      + replace (Z.to_nat (count - i)) with 0 by lia. replace (Z.to_nat (count - (i + 1))) with 0 in IH by lia.
        eapply sd_yield; [|exact IH]. stq w Iw. destruct (Z.leb_spec count i); [eexists; split; [reflexivity|assumption]|lia].
      + replace (Z.to_nat (count - i)) with (Datatypes.S (Z.to_nat (count - (i + 1)))) by lia. cbn [skipn].
        eapply sd_skip; [|exact IH]. stq w Iw. destruct (Z.leb_spec count i); [lia|eexists; split; [reflexivity|assumption]].
  Qed.

  Lemma take_steady : forall (g : gen W A) l, steady I g l -> forall count i, (i < count)%Z ->
    steady I (take_loop count None i g) (firstn (Z.to_nat (count - i)) l).
  Proof.
    induction 1 as [g H|g g1 l H _ IH|g x g1 l H _ IH]; intros count i Hi.
    - rewrite firstn_nil. apply sd_stop. stq w Iw.
    - eapply sd_skip; [|apply IH, Hi]. stq w Iw.
    - replace (Z.to_nat (count - i)) with (Datatypes.S (Z.to_nat (count - (i + 1)))) by lia. cbn [firstn].
      eapply sd_yield; [stq w Iw|]. destruct (Z.eqb_spec i (count - 1)) as [E|E].
      + replace (Z.to_nat (count - (i + 1))) with 0 by lia. cbn. apply sd_stop. intros w Iw. exists w. split; auto.
        cbn. destruct (Z.eqb_spec i (count - 1)); [reflexivity|lia].
      + eapply sd_skip; [|apply IH; lia]. intros w Iw. exists w. split; auto.
        cbn. destruct (Z.eqb_spec i (count - 1)); [lia|reflexivity].
  Qed.

  Lemma pairwise_steady : forall (g : gen W A) l, steady I g l ->
    (forall p, steady I (pairwise_loop (Some p) g) (combine (p :: l) l)) /\ steady I (pairwise_loop None g) (combine l (tl l)).
  Proof.
    induction 1 as [g H|g g1 l H _ [IH1 IH2]|g x g1 l H _ [IH1 IH2]].
    - split; intros; apply sd_stop; stq w Iw.
    - split.
      + intros p. eapply sd_skip; [|apply IH1]. stq w Iw.
      + eapply sd_skip; [|exact IH2]. stq w Iw.
    - split.
      + intros p. cbn [combine]. eapply sd_yield; [stq w Iw|]. destruct l; apply IH1.
      + cbn [tl]. eapply sd_skip; [|apply IH1]. stq w Iw.
  Qed.
End Again.

(** *** Consumers *)
Section Consume.
  Context {W A B S : Type}.

  (** [for_gen] with a pure body over any finite source *)
  Lemma for_gen_produces : forall (F : S -> A -> S) (g : gen W A) w l r w1, produces g w l r w1 ->
    exists n, forall fuel, n <= fuel -> forall s R,
      for_gen fuel g s (fun s x => ret (inl (F s x))) w =
      (match r with Ret _ => Ret (inl (fold_left F l s) : S + R) | Raise e => Raise e end, w1).
  Proof.
    intros F. induction 1 as [g w w1 E|g w e w1 E|g w g1 w1 l r w2 E P [n IH]|g w x g1 w1 l r w2 E P [n IH]].
    - exists 1. intros [|fuel] L s R; [lia|]. cbn. unfold bind. rewrite E. reflexivity.
    - exists 1. intros [|fuel] L s R; [lia|]. cbn. unfold bind. rewrite E. reflexivity.
    - exists (Datatypes.S n). intros [|fuel] L s R; [lia|]. cbn. unfold bind. rewrite E. apply IH. lia.
    - exists (Datatypes.S n). intros [|fuel] L s R; [lia|]. cbn. unfold bind. rewrite E. cbn. rewrite IH by lia. reflexivity.
  Qed.

  (** [for_gen] with any body over a script *)
  Lemma for_gen_script : forall (body : S -> A -> M W S) R ms fuel s, Forall no_stop ms -> List.length ms < fuel ->
    for_gen fuel (script_gen ms) s (fun s x => do s <- body s x; ret (inl s : S + R)) ==m
    (do s <- foldM (fun s m => do x <- m; body s x) s ms; ret (inl s)).
  Proof.
    intros body R. induction ms as [|m ms IH]; intros fuel s N L w; (destruct fuel as [|fuel]; [cbn in L; lia|]).
    - reflexivity.
    - inversion N as [|? ? N1 N2]; subst. cbn in L. cbn [for_gen foldM]. unfold bind.
      specialize (N1 w). destruct (m w) as [[x|e] w1] eqn:E.
      + rewrite (script_step _ _ _ _ _ _ _ E). destruct (body s x w1) as [[s1|e] w2]; cbn; auto.
        assert (H := IH fuel s1 N2 ltac:(lia) w2). unfold bind in H. exact H.
      + rewrite (script_step_raise _ _ _ _ _ _ _ E); [reflexivity|]. cbn in N1. congruence.
  Qed.

  Lemma fold_script : forall (f : S -> A -> M W S) ms s fuel, Forall no_stop ms -> List.length ms < fuel ->
    fold fuel f s (of_script ms) ==m foldM (fun s m => do x <- m; f s x) s ms.
  Proof.
    intros f ms s fuel N L w. unfold fold, of_script. unfold bind at 1. cbn.
    assert (H := for_gen_script f S ms fuel s N L w). unfold bind in *. rewrite H. clear.
    destruct foldM as [[s1|e] w1]; reflexivity.
  Qed.

  (** Early exit: a pure search stops right after the hit. *)
  Lemma for_gen_hit : forall R (body : S -> A -> S + R) (g : gen W A) w l g1 w1, pulled g w l g1 w1 ->
    forall l0 x s s1 v, l = l0 ++ [x] ->
    (forall pre y post, l0 = pre ++ y :: post -> exists s', body (fold_left (fun s a => match body s a with inl s => s | inr _ => s end) pre s) y = inl s') ->
    s1 = fold_left (fun s a => match body s a with inl s => s | inr _ => s end) l0 s -> body s1 x = inr v ->
    exists n, forall fuel, n <= fuel -> for_gen fuel g s (fun s x => ret (body s x)) w = (Ret (inr v), w1).
  Proof.
    intros R body. induction 1 as [g w|g w g1 w1 x l g2 w2 E P IH|g w x g1 w1 l g2 w2 E P IH]; intros l0 z s s1 v EQ M E1 HV.
    - destruct l0; discriminate.
    - destruct (IH l0 z s s1 v EQ M E1 HV) as [n H]. exists (Datatypes.S n). intros [|fuel] L; [lia|].
      cbn. unfold bind. rewrite E. apply H. lia.
    - destruct l0 as [|y l0]; injection EQ as -> ->.
      + cbn in E1. subst s1. inversion P; subst. exists 1. intros [|fuel] L; [lia|]. cbn. unfold bind. rewrite E. cbn. rewrite HV. reflexivity.
      + destruct (M [] y l0 eq_refl) as (s' & Es). cbn in Es, E1. rewrite Es in E1.
        destruct (IH l0 z s' s1 v eq_refl) as [n H].
        * intros pre u post Q. subst l0. destruct (M (y :: pre) u post eq_refl) as (s2 & Q2). cbn in Q2. rewrite Es in Q2. eauto.
        * exact E1.
        * exact HV.
        * exists (Datatypes.S n). intros [|fuel] L; [lia|]. cbn. unfold bind. rewrite E. cbn. rewrite Es. apply H. lia.
  Qed.

  (** ... and a search without a hit reads everything. *)
  Lemma for_gen_miss : forall R (body : S -> A -> S + R) (F : S -> A -> S) (g : gen W A) w l r w1, produces g w l r w1 ->
    forall s, (forall pre y post, l = pre ++ y :: post -> body (fold_left F pre s) y = inl (F (fold_left F pre s) y)) ->
    exists n, forall fuel, n <= fuel ->
      for_gen fuel g s (fun s x => ret (body s x)) w =
      (match r with Ret _ => Ret (inl (fold_left F l s)) | Raise e => Raise e end, w1).
  Proof.
    intros R body F. induction 1 as [g w w1 E|g w e w1 E|g w g1 w1 l r w2 E P IH|g w x g1 w1 l r w2 E P IH]; intros s M.
    - exists 1. intros [|fuel] L; [lia|]. cbn. unfold bind. rewrite E. reflexivity.
    - exists 1. intros [|fuel] L; [lia|]. cbn. unfold bind. rewrite E. reflexivity.
    - destruct (IH s M) as [n H]. exists (Datatypes.S n). intros [|fuel] L; [lia|]. cbn. unfold bind. rewrite E. apply H. lia.
    - assert (E1 := M [] x l eq_refl). cbn in E1. destruct (IH (F s x)) as [n H].
      { intros pre y post ->. apply (M (x :: pre) y post eq_refl). }
      exists (Datatypes.S n). intros [|fuel] L; [lia|]. cbn. unfold bind. rewrite E. cbn. rewrite E1. rewrite H by lia. reflexivity.
  Qed.
End Consume.
