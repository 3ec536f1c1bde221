(** Lemmas about Seq: observations of the lazy operations. *)
From Coq Require Import List ZArith Bool Lia.
From Verif.Model Require Import Base Gen OptionResult Seq.
From Verif.Spec Require Import ListM SeqSpec.
Import ListNotations.
Local Open Scope py_scope.

Lemma step_no_stop : forall W A (g : gen W A) w e w1, step g w = (Raise e, w1) -> e <> StopIterationExn.
Proof. intros W A [n] w e w1 E ->. cbn in E. destruct (n w) as [[st|e] w2]; [discriminate|]. destruct e; discriminate. Qed.

Lemma produces_no_stop : forall W A (g : gen W A) w l r w1, produces g w l r w1 -> r <> Raise StopIterationExn.
Proof.
  induction 1 as [g w w1 E|g w e w1 E|g w g1 w1 l r w2 E P IH|g w x g1 w1 l r w2 E P IH]; try assumption; [discriminate|].
  intros [= ->]. exact (step_no_stop _ _ _ _ _ _ E eq_refl).
Qed.

Lemma produces_leaving : forall W A (g : gen W A) w l r w1, produces g w l r w1 -> leaving r = r.
Proof. intros W A g w l r w1 P. apply produces_no_stop in P. destruct r as [|[]]; try reflexivity. now contradiction P. Qed.

Section Basics.
  Context {W A : Type}.
  Implicit Types g : gen W A.

  Lemma produces_det : forall g w l r w1, produces g w l r w1 -> forall l' r' w1', produces g w l' r' w1' -> l = l' /\ r = r' /\ w1 = w1'.
  Proof.
    induction 1; intros l' r' w1' P; inversion P; subst;
      match goal with E1 : step ?g ?w = _, E2 : step ?g ?w = _ |- _ => rewrite E1 in E2; try discriminate; injection E2; intros; subst end;
      try (repeat split; reflexivity);
      match goal with IH : forall _ _ _, produces ?g ?w _ _ _ -> _, Q : produces ?g ?w _ _ _ |- _ => destruct (IH _ _ _ Q) as (? & ? & ?); subst; repeat split; reflexivity end.
  Qed.

  Lemma pulled_app : forall g w l g1 w1, pulled g w l g1 w1 -> forall l2 g2 w2, pulled g1 w1 l2 g2 w2 -> pulled g w (l ++ l2) g2 w2.
  Proof.
    induction 1; intros l2 g3 w3 P; cbn; [exact P| |].
    - eapply pu_skip; [eassumption|]. apply (IHpulled _ _ _ P).
    - eapply pu_yield; [eassumption|]. now apply IHpulled.
  Qed.

  Lemma pulled_produces : forall g w l g1 w1, pulled g w l g1 w1 -> forall l2 r w2, produces g1 w1 l2 r w2 -> produces g w (l ++ l2) r w2.
  Proof.
    induction 1; intros l2 r w3 P; cbn; [exact P| |].
    - eapply pr_skip; [eassumption|]. apply (IHpulled _ _ _ P).
    - eapply pr_yield; [eassumption|]. now apply IHpulled.
  Qed.

  Lemma produces_pulled : forall g w l r w1, produces g w l r w1 -> forall l1 l2, l = l1 ++ l2 ->
    exists g1 w2, pulled g w l1 g1 w2 /\ produces g1 w2 l2 r w1.
  Proof.
    induction 1 as [g w w1 E|g w e w1 E|g w g1 w1 l r w2 E P IH|g w x g1 w1 l r w2 E P IH]; intros l1 l2 EQ.
    - symmetry in EQ. apply app_eq_nil in EQ. destruct EQ as [-> ->]. exists g, w. split; [constructor|]. now apply pr_stop.
    - symmetry in EQ. apply app_eq_nil in EQ. destruct EQ as [-> ->]. exists g, w. split; [constructor|]. now apply pr_raise.
    - destruct l1 as [|x l1].
      + exists g, w. split; [constructor|]. cbn in EQ. subst. eapply pr_skip; eauto.
      + destruct (IH (x :: l1) l2 EQ) as (g2 & w3 & H1 & H2). exists g2, w3. split; auto. eapply pu_skip; eauto.
    - destruct l1 as [|y l1].
      + exists g, w. split; [constructor|]. cbn in EQ. subst. eapply pr_yield; eauto.
      + injection EQ as -> EQ. destruct (IH l1 l2 EQ) as (g2 & w3 & H1 & H2). exists g2, w3. split; auto. eapply pu_yield; eauto.
  Qed.

  Lemma list_gen_produces : forall xs w, produces (list_gen (W := W) (A := A) xs) w xs (Ret tt) w.
  Proof.
    induction xs as [|x xs IH]; intros w.
    - now apply pr_stop.
    - eapply pr_yield; [reflexivity|apply IH].
  Qed.

  Lemma opening_produces : forall B (src : iterable W B) (k : gen W B -> gen W A) w l r w2 (g : gen W B) w1,
    src w = (Ret g, w1) -> produces (k g) w1 l r w2 -> produces (opening src k) w l r w2.
  Proof.
    intros B src k w l r w2 g w1 E P. eapply pr_skip; [|exact P]. cbn. unfold bind, in_generator. rewrite E. reflexivity.
  Qed.

  Lemma opening_raises : forall B (src : iterable W B) (k : gen W B -> gen W A) w e w1,
    src w = (Raise e, w1) -> produces (opening src k) w [] (leaving (Raise e)) w1.
  Proof. intros B src k w e w1 E. destruct e; (apply pr_raise; cbn; unfold bind, in_generator; rewrite E; reflexivity). Qed.

  Lemma opening_pulled : forall B (src : iterable W B) (k : gen W B -> gen W A) w l g2 w2 (g : gen W B) w1,
    src w = (Ret g, w1) -> l <> [] -> pulled (k g) w1 l g2 w2 -> pulled (opening src k) w l g2 w2.
  Proof.
    intros B src k w l g2 w2 g w1 E N P. destruct l as [|x l]; [congruence|]. eapply pu_skip; [|exact P]. cbn. unfold bind, in_generator. rewrite E. reflexivity.
  Qed.

  (** Lifting a statement about loops to iterables built with [opening]. *)
  Lemma opening_iterates : forall B (src : iterable W B) (k : gen W B -> gen W A) (F : list B -> list A) w l r w2,
    F [] = [] ->
    (forall (g : gen W B) w1, produces g w1 l r w2 -> produces (k g) w1 (F l) r w2) ->
    iterates src w l r w2 -> iterates (ret (opening src k)) w (F l) (leaving r) w2.
  Proof.
    intros B src k F w l r w2 F0 H [(g & w1 & E & P)|(e & E & -> & ->)]; left; eexists _, w; (split; [reflexivity|]).
    - rewrite (produces_leaving _ _ _ _ _ _ _ P). eapply opening_produces; eauto.
    - rewrite F0. now apply opening_raises.
  Qed.
End Basics.

Ltac no_stop_raised :=
  match goal with E : step _ _ = (Raise ?e, _) |- _ => destruct e; try reflexivity; exfalso; exact (step_no_stop _ _ _ _ _ _ E eq_refl) end.
Ltac stp := cbn; unfold bind, in_generator; cbn; match goal with E : step _ _ = _ |- _ => rewrite E end; cbn; try reflexivity; try no_stop_raised.

Section Ops.
  Context {W A B : Type}.
  Implicit Types g : gen W A.

  (** *** map *)
  Lemma map_loop_produces : forall (F : A -> B) g w l r w1, produces g w l r w1 ->
    produces (map_loop (fun x => ret (F x)) g) w (List.map F l) r w1.
  Proof.
    intros F. induction 1.
    - apply pr_stop. stp.
    - apply pr_raise. stp.
    - eapply pr_skip; [stp|exact IHproduces].
    - eapply pr_yield; [stp|exact IHproduces].
  Qed.

  Lemma map_loop_pulled : forall (F : A -> B) g w l g1 w1, pulled g w l g1 w1 ->
    pulled (map_loop (fun x => ret (F x)) g) w (List.map F l) (map_loop (fun x => ret (F x)) g1) w1.
  Proof.
    intros F. induction 1; cbn [List.map].
    - apply pu_none.
    - eapply pu_skip; [stp|exact IHpulled].
    - eapply pu_yield; [stp|exact IHpulled].
  Qed.

  Lemma map_iterates : forall (F : A -> B) (src : iterable W A) w l r w2, iterates src w l r w2 ->
    iterates (map (fun x => ret (F x)) src) w (List.map F l) (leaving r) w2.
  Proof.
    intros F src w l r w2 H. unfold map. apply (opening_iterates _ src _ (List.map F)); auto.
    intros g w1. apply map_loop_produces.
  Qed.

  (** *** filter *)
  Lemma filter_loop_produces : forall (p : A -> bool) g w l r w1, produces g w l r w1 ->
    produces (filter_loop (fun x => ret (p x)) g) w (List.filter p l) r w1.
  Proof.
    intros p. induction 1; cbn [List.filter].
    - apply pr_stop. stp.
    - apply pr_raise. stp.
    - eapply pr_skip; [stp|exact IHproduces].
    - destruct (p x) eqn:E; [eapply pr_yield|eapply pr_skip]; try exact IHproduces; cbn; unfold bind; rewrite H; cbn; rewrite E; reflexivity.
  Qed.

  Lemma filter_produces : forall (p : A -> bool) (src : iterable W A) w l r w2, iterates src w l r w2 ->
    iterates (filter (fun x => ret (p x)) src) w (List.filter p l) r w2.
  Proof.
    intros p src w l r w2 [(g & w1 & E & P)|(e & E & -> & ->)].
    - left. eexists _, w1. split; [unfold filter, bind; rewrite E; reflexivity|]. now apply filter_loop_produces.
    - right. exists e. split; auto. unfold filter, bind. rewrite E. reflexivity.
  Qed.

  (** *** scan *)
  Lemma scan_loop_produces : forall S (F : S -> A -> S) g w l r w1, produces g w l r w1 -> forall s,
    produces (scan_loop (fun s x => ret (F s x)) s g) w (scan_list F s l) r w1.
  Proof.
    intros S F. induction 1; intros s; cbn [scan_list].
    - apply pr_stop. stp.
    - apply pr_raise. stp.
    - eapply pr_skip; [stp|apply IHproduces].
    - eapply pr_yield; [stp|apply IHproduces].
  Qed.

  Lemma scan_produces : forall S (F : S -> A -> S) s (src : iterable W A) w l r w2, iterates src w l r w2 ->
    match src w with
    | (Ret _, _) => iterates (scan (fun s x => ret (F s x)) s src) w (s :: scan_list F s l) r w2
    | (Raise _, _) => iterates (scan (fun s x => ret (F s x)) s src) w [] r w2
    end.
  Proof.
    intros S F s src w l r w2 [(g & w1 & E & P)|(e & E & -> & ->)]; rewrite E.
    - left. eexists _, w1. split; [unfold scan, bind; rewrite E; reflexivity|].
      eapply pr_yield; [reflexivity|]. now apply scan_loop_produces.
    - right. exists e. split; auto. unfold scan, bind. rewrite E. reflexivity.
  Qed.

  (** *** collect *)
  Lemma collect_loop_inner : forall (f : A -> M W (iterable W B)) g (ys : list B) w l r w1,
    produces (collect_loop f None g) w l r w1 ->
    produces (collect_loop f (Some (list_gen ys)) g) w (ys ++ l) r w1.
  Proof.
    intros f g. induction ys as [|y ys IH]; intros w l r w1 P.
    - eapply pr_skip; [reflexivity|exact P].
    - eapply pr_yield; [reflexivity|]. now apply IH.
  Qed.

  Lemma collect_loop_produces : forall (F : A -> list B) g w l r w1, produces g w l r w1 ->
    produces (collect_loop (fun x => ret (of_list (F x))) None g) w (flat_map F l) r w1.
  Proof.
    intros F. induction 1; cbn [flat_map].
    - apply pr_stop. stp.
    - apply pr_raise. stp.
    - eapply pr_skip; [stp|exact IHproduces].
    - eapply pr_skip; [stp|]. now apply collect_loop_inner.
  Qed.

  Lemma collect_iterates : forall (F : A -> list B) (src : iterable W A) w l r w2, iterates src w l r w2 ->
    iterates (collect (fun x => ret (of_list (F x))) src) w (flat_map F l) (leaving r) w2.
  Proof.
    intros F src w l r w2 H. unfold collect. apply (opening_iterates _ src _ (flat_map F)); auto.
    intros g w1. apply collect_loop_produces.
  Qed.

  (** *** choose *)
  Lemma choose_loop_produces : forall (F : A -> option B) g w l r w1, produces g w l r w1 ->
    produces (collect_loop (fun x => do o <- ret (F x); ret (of_list (opt_to_list o))) None g) w
      (flat_map (fun x => match F x with Some y => [y] | None => [] end) l) r w1.
  Proof.
    intros F. induction 1; cbn [flat_map].
    - apply pr_stop. stp.
    - apply pr_raise. stp.
    - eapply pr_skip; [stp|exact IHproduces].
    - eapply pr_skip; [stp|]. change (match F x with Some y => [y] | None => [] end) with (opt_to_list (F x)).
      now apply collect_loop_inner.
  Qed.

  Lemma choose_iterates : forall (F : A -> option B) (src : iterable W A) w l r w2, iterates src w l r w2 ->
    iterates (choose (fun x => ret (F x)) src) w (flat_map (fun x => match F x with Some y => [y] | None => [] end) l) (leaving r) w2.
  Proof.
    intros F src w l r w2 H. unfold choose, collect.
    apply (opening_iterates _ src _ (flat_map (fun x => match F x with Some y => [y] | None => [] end))); auto.
    intros g w1. apply choose_loop_produces.
  Qed.

  (** *** concat *)
  Lemma concat_inner_ret : forall g w l w1 its l2 r w2, produces g w l (Ret tt) w1 ->
    produces (concat_loop None its) w1 l2 r w2 -> produces (concat_loop (Some g) its) w (l ++ l2) r w2.
  Proof.
    intros g w l w1 its l2 r w2 P Q. remember (Ret tt) as r0 eqn:E0. induction P; try discriminate; cbn [app].
    - eapply pr_skip; [stp|exact Q].
    - eapply pr_skip; [stp|]. auto.
    - eapply pr_yield; [stp|]. auto.
  Qed.

  Lemma concat_inner_raise : forall g w l e w1 its, produces g w l (Raise e) w1 ->
    produces (concat_loop (Some g) its) w l (Raise e) w1.
  Proof.
    intros g w l e w1 its P. remember (Raise e) as r0 eqn:E0. induction P; try discriminate; cbn [app].
    - injection E0 as ->. apply pr_raise. stp.
    - eapply pr_skip; [stp|]. auto.
    - eapply pr_yield; [stp|]. auto.
  Qed.

  Lemma concat_loop_produces : forall (its : list (iterable W A)) w l r w1,
    iterates_all its w l r w1 -> produces (concat_loop None its) w l r w1.
  Proof.
    induction 1 as [w|it its w l e w1 I|it its w l w1 l2 r w2 I _ IH].
    - apply pr_stop. reflexivity.
    - destruct I as [(g & w2 & E & P)|(e1 & E & -> & E1)].
      + rewrite (produces_leaving _ _ _ _ _ _ _ P). eapply pr_skip; [cbn; unfold bind, in_generator; rewrite E; reflexivity|]. now apply concat_inner_raise.
      + injection E1 as ->. destruct e1; (apply pr_raise; cbn; unfold bind, in_generator; rewrite E; reflexivity).
    - destruct I as [(g & w3 & E & P)|(e1 & E & _ & E1)]; [|discriminate].
      eapply pr_skip; [cbn; unfold bind, in_generator; rewrite E; reflexivity|]. eapply concat_inner_ret; eauto.
  Qed.

  Lemma concat_iterates : forall (its : list (iterable W A)) w l r w1,
    iterates_all its w l r w1 -> iterates (concat its) w l r w1.
  Proof. intros its w l r w1 H. left. eexists _, w. split; [reflexivity|]. now apply concat_loop_produces. Qed.

  (** *** skip *)
  Lemma skip_loop_produces : forall g w l r w1, produces g w l r w1 -> forall count i, (0 <= i)%Z ->
    produces (skip_loop count i g) w (skipn (Z.to_nat (count - i)) l) r w1.
  Proof.
    induction 1; intros count i Hi.
    - rewrite skipn_nil. apply pr_stop. stp.
    - rewrite skipn_nil. apply pr_raise. stp.
    - eapply pr_skip; [stp|]. now apply IHproduces.
    - specialize (IHproduces count (i + 1)%Z ltac:(lia)). destruct (Z.leb_spec count i) as [L|L].
      + replace (Z.to_nat (count - i)) with 0 by lia. replace (Z.to_nat (count - (i + 1))) with 0 in IHproduces by lia.
        eapply pr_yield; [stp; destruct (Z.leb_spec count i); [reflexivity|lia]|exact IHproduces].
      + replace (Z.to_nat (count - i)) with (Datatypes.S (Z.to_nat (count - (i + 1)))) by lia. cbn [skipn].
        eapply pr_skip; [stp; destruct (Z.leb_spec count i); [lia|reflexivity]|exact IHproduces].
  Qed.

  Lemma skip_iterates : forall count (src : iterable W A) w l r w2, iterates src w l r w2 ->
    iterates (skip count src) w (skipn (Z.to_nat count) l) (leaving r) w2.
  Proof.
    intros count src w l r w2 H. unfold skip. apply (opening_iterates _ src _ (skipn (Z.to_nat count))); auto.
    - apply skipn_nil.
    - intros g w1 P. rewrite <- (Z.sub_0_r count) at 2. now apply skip_loop_produces.
  Qed.

  (** *** take *)
  Lemma take_loop_short : forall g w l r w1, produces g w l r w1 -> forall count i, (i + Z.of_nat (List.length l) < count)%Z ->
    produces (take_loop count None i g) w l r w1.
  Proof.
    induction 1; intros count i L; cbn [List.length] in L.
    - apply pr_stop. stp.
    - apply pr_raise. stp.
    - eapply pr_skip; [stp|]. now apply IHproduces.
    - eapply pr_yield; [stp|]. eapply pr_skip.
      + cbn. destruct (Z.eqb_spec i (count - 1)); [lia|reflexivity].
      + apply IHproduces. lia.
  Qed.

  Lemma take_loop_enough : forall g w l g1 w1, pulled g w l g1 w1 -> forall count i, l <> [] ->
    count = (i + Z.of_nat (List.length l))%Z ->
    produces (take_loop count None i g) w l (Ret tt) w1.
  Proof.
    induction 1 as [g w|g w g1 w1 x l g2 w2 E P IH|g w x g1 w1 l g2 w2 E P IH]; intros count i N L; [congruence| |]; cbn [List.length] in L.
    - eapply pr_skip; [stp|]. apply IH; auto.
    - eapply pr_yield; [stp|]. destruct l as [|y l].
      + inversion P; subst. apply pr_stop. cbn. destruct (Z.eqb_spec i (i + 1 - 1)); [reflexivity|lia].
      + eapply pr_skip.
        * cbn. destruct (Z.eqb_spec i (count - 1)) as [E1|E1]; [|reflexivity]. cbn [List.length] in L. lia.
        * apply IH; [congruence|]. lia.
  Qed.

  Lemma take_short : forall count (src : iterable W A) w l r w2, (Z.of_nat (List.length l) < count)%Z ->
    iterates src w l r w2 -> iterates (take count src) w l (leaving r) w2.
  Proof.
    intros count src w l r w2 L H. unfold take. destruct (Z.ltb_spec 0 count); [|lia].
    apply (opening_iterates _ src _ (fun l => l)); auto. intros g w1 P. now apply take_loop_short.
  Qed.

  Lemma take_enough : forall count (src : iterable W A) w l g2 w2, (Z.of_nat (List.length l) = count)%Z ->
    (0 < count)%Z -> pulls src w l g2 w2 -> iterates (take count src) w l (Ret tt) w2.
  Proof.
    intros count src w l g2 w2 L C (g & w1 & E & P). unfold take. destruct (Z.ltb_spec 0 count); [|lia].
    left. eexists _, w. split; [reflexivity|]. eapply opening_produces; [exact E|].
    eapply take_loop_enough; [exact P| |lia]. intros ->. cbn in L. lia.
  Qed.

  Lemma take_none : forall count (src : iterable W A) w, (count <= 0)%Z -> iterates (take count src) w [] (Ret tt) w.
  Proof.
    intros count src w L. unfold take. destruct (Z.ltb_spec 0 count); [lia|]. left. eexists _, w. split; [reflexivity|].
    now apply pr_stop.
  Qed.

  (** *** pairwise *)
  Lemma pairwise_loop_produces : forall g w l r w1, produces g w l r w1 ->
    (forall p, produces (pairwise_loop (Some p) g) w (combine (p :: l) l) r w1) /\
    produces (pairwise_loop None g) w (combine l (tl l)) r w1.
  Proof.
    induction 1 as [g w w1 E|g w e w1 E|g w g1 w1 l r w2 E P [IH1 IH2]|g w x g1 w1 l r w2 E P [IH1 IH2]].
    - split; intros; apply pr_stop; stp.
    - split; intros; apply pr_raise; stp.
    - split; intros; (eapply pr_skip; [stp|auto]).
    - split.
      + intros p. cbn [combine]. eapply pr_yield; [stp|]. destruct l; apply IH1.
      + eapply pr_skip; [stp|]. cbn [tl]. apply IH1.
  Qed.

  Lemma pairwise_iterates : forall (src : iterable W A) w l r w2, iterates src w l r w2 ->
    iterates (pairwise src) w (combine l (tl l)) r w2.
  Proof.
    intros src w l r w2 [(g & w1 & E & P)|(e & E & -> & ->)].
    - left. eexists _, w1. split; [unfold pairwise, bind; rewrite E; reflexivity|]. now apply pairwise_loop_produces.
    - right. exists e. split; auto. unfold pairwise, bind. rewrite E. reflexivity.
  Qed.

  (** *** zip *)
  Lemma zip_loop_list : forall g w l r w1, produces g w l r w1 -> forall ys : list B, List.length l <= List.length ys ->
    produces (zip_loop None g (list_gen ys)) w (combine l ys) r w1.
  Proof.
    induction 1; intros ys L; cbn [combine].
    - apply pr_stop. stp.
    - apply pr_raise. stp.
    - eapply pr_skip; [stp|]. auto.
    - destruct ys as [|y ys]; cbn in L; [lia|]. eapply pr_skip; [stp|]. eapply pr_yield; [reflexivity|]. apply IHproduces. lia.
  Qed.

  Lemma zip_loop_list_long : forall g w l g1 w1, pulled g w l g1 w1 -> forall ys : list B, List.length l = Datatypes.S (List.length ys) ->
    produces (zip_loop None g (list_gen ys)) w (combine l ys) (Ret tt) w1.
  Proof.
    induction 1 as [g w|g w g1 w1 x l g2 w2 E P IH|g w x g1 w1 l g2 w2 E P IH]; intros ys L; [discriminate| |].
    - eapply pr_skip; [stp|]. now apply IH.
    - eapply pr_skip; [stp|]. destruct ys as [|y ys]; cbn in L.
      + injection L as L. apply length_zero_iff_nil in L. subst l. inversion P; subst. now apply pr_stop.
      + eapply pr_yield; [reflexivity|]. apply IH. lia.
  Qed.

  Lemma zip_list : forall (src : iterable W A) w l r w2 (ys : list B), List.length l <= List.length ys ->
    iterates src w l r w2 -> iterates (zip src (of_list ys)) w (combine l ys) r w2.
  Proof.
    intros src w l r w2 ys L [(g & w1 & E & P)|(e & E & -> & ->)].
    - left. eexists _, w1. split; [unfold zip, bind; rewrite E; reflexivity|]. now apply zip_loop_list.
    - right. exists e. split; auto. unfold zip, bind. rewrite E. reflexivity.
  Qed.

  Lemma zip_list_long : forall (src : iterable W A) w l g2 w2 (ys : list B), List.length l = Datatypes.S (List.length ys) ->
    pulls src w l g2 w2 -> iterates (zip src (of_list ys)) w (combine l ys) (Ret tt) w2.
  Proof.
    intros src w l g2 w2 ys L (g & w1 & E & P).
    left. eexists _, w1. split; [unfold zip, bind; rewrite E; reflexivity|]. eapply zip_loop_list_long; eauto.
  Qed.
End Ops.
