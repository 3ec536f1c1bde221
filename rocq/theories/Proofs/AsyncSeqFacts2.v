(** Lemmas about AsyncSeq: the operations. *)
From Coq Require Import List ZArith Bool Lia.
From Verif.Model Require Import Base PyList Gen AsyncSeq.
From Verif.Model Require Seq.
From Verif.Spec Require Import ListM AsyncSeqSpec.
From Verif.Proofs Require Import SeqFacts SeqFacts2 SeqFacts3 AsyncSeqFacts.
Import ListNotations.
Local Open Scope py_scope.

Section Ops.
  Context {W A B S : Type}.
  Implicit Types src : iterable W A.
  (** A pure body. *)
  Lemma pure_iterates : forall S B (F : S -> A -> turn S B) s src w l r w1,
    goes F s l -> iterates src w l r w1 -> produces (async_for (fun s x => ret (F s x)) s src) w (outs F s l) (leaving r) w1.
  Proof.
    intros S0 B0 F s src w l r w1 G [(g & w2 & O & P)|(e & O & -> & ->)].
    - eapply started_ret; [exact O|]. apply each_produces; assumption.
    - cbn. apply started_raise, O.
  Qed.
  Lemma pure_pulled : forall S B (F : S -> A -> turn S B) s src w l l0 x y s1 g1 w1, goes F s l -> l = l0 ++ [x] -> F (after F s l0) x = Give y s1 ->
    pulls src w l g1 w1 -> exists g2, pulled (async_for (fun s x => ret (F s x)) s src) w (outs F s l) g2 w1.
  Proof.
    intros S0 B0 F s src w l l0 x y s1 g1 w1 G L H (g & w2 & O & P). pose proof (each_pulled F g w2 l g1 w1 P s G) as Q.
    eexists. destruct (outs F s l) as [|b bs] eqn:X.
    - exfalso. clear - X G L H. subst l. revert s G X H. induction l0 as [|a l0 IH]; intros s G X H; cbn in *; [rewrite H in X; discriminate|]. destruct (F s a); [discriminate|eauto|contradiction].
    - eapply started_pulled; [exact O|]. apply Q. right. eauto 8.
  Qed.
  Lemma map_pf : forall (F : A -> B) src w l r w1, iterates src w l r w1 -> produces (map (fun x => ret (F x)) src) w (List.map F l) (leaving r) w1.
  Proof.
    intros F src w l r w1 I. replace (List.map F l) with (outs (fun (_ : unit) x => Give (F x) tt) tt l) by (clear; induction l; cbn; congruence).
    refine (pure_iterates _ _ _ _ _ _ _ _ _ _ I). clear. induction l; cbn; auto.
  Qed.
  Lemma filter_pf : forall (P : A -> bool) src w l r w1, iterates src w l r w1 -> produces (filter (fun x => ret (P x)) src) w (List.filter P l) (leaving r) w1.
  Proof.
    intros P src w l r w1 I. replace (List.filter P l) with (outs (fun (_ : unit) x => if P x then Give x tt else Drop tt) tt l) by (clear; induction l as [|x l IH]; cbn; [|destruct (P x)]; congruence).
    refine (pure_iterates _ _ _ _ _ _ _ _ _ _ I). clear. induction l as [|x l IH]; cbn; auto. destruct (P x); auto.
  Qed.
  Lemma choose_pf : forall (F : A -> option B) src w l r w1, iterates src w l r w1 ->
    produces (choose (fun x => ret (F x)) src) w (flat_map (fun x => match F x with Some y => [y] | None => [] end) l) (leaving r) w1.
  Proof.
    intros F src w l r w1 I. replace (flat_map _ l) with (outs (fun (_ : unit) x => match F x with Some y => Give y tt | None => Drop tt end) tt l) by (clear; induction l as [|x l IH]; cbn; [|destruct (F x); cbn]; congruence).
    refine (pure_iterates _ _ _ _ _ _ _ _ _ _ I). clear. induction l as [|x l IH]; cbn; auto. destruct (F x); auto.
  Qed.
  Lemma scan_pf : forall (F : S -> A -> S) s src w l r w1, iterates src w l r w1 -> produces (scan (fun s x => ret (F s x)) s src) w (s :: scan_list F s l) (leaving r) w1.
  Proof.
    intros F s src w l r w1 I. eapply pr_yield; [reflexivity|]. replace (scan_list F s l) with (outs (fun s x => Give (F s x) (F s x)) s l) by (clear; revert s; induction l; intros s; cbn; congruence).
    refine (pure_iterates _ _ _ _ _ _ _ _ _ _ I). clear. revert s. induction l; cbn; auto.
  Qed.
  Definition skip_turn (count i : Z) (x : A) : turn Z A := if Z.leb count i then Give x (i + 1)%Z else Drop (i + 1)%Z.
  Lemma skip_outs : forall count l i, outs (skip_turn count) i l = skipn (Z.to_nat (count - i)) l.
  Proof.
    intros count. induction l as [|x l IH]; intros i; [rewrite skipn_nil; reflexivity|]. cbn. unfold skip_turn at 1. destruct (Z.leb_spec count i) as [L|L]; rewrite IH.
    - replace (Z.to_nat (count - i)) with 0 by lia. replace (Z.to_nat (count - (i + 1))) with 0 by lia. reflexivity.
    - replace (Z.to_nat (count - i)) with (Datatypes.S (Z.to_nat (count - (i + 1)))) by lia. reflexivity.
  Qed.
  Lemma skip_goes : forall count l i, goes (skip_turn count) i l.
  Proof. intros count. induction l as [|x l IH]; intros i; cbn; auto. unfold skip_turn at 1. destruct (Z.leb count i); auto. Qed.
  Lemma skip_pf : forall n src w l r w1, iterates src w l r w1 -> produces (skip n src) w (skipn (Z.to_nat n) l) (leaving r) w1.
  Proof.
    intros n src w l r w1 I. replace (skipn (Z.to_nat n) l) with (outs (skip_turn n) 0%Z l) by (rewrite skip_outs, Z.sub_0_r; reflexivity).
    refine (pure_iterates _ _ _ _ _ _ _ _ _ _ I). apply skip_goes.
  Qed.
  Lemma tail_pf : forall src w l r w1, iterates src w l r w1 -> produces (tail src) w (tl l) (leaving r) w1.
  Proof.
    intros src w l r w1 I. assert (G : forall k, outs (fun (first : bool) (x : A) => if first then Drop false else Give x false) false k = k /\ goes (fun (first : bool) (x : A) => if first then Drop false else Give x false) false k).
    { induction k as [|x k [IH1 IH2]]; cbn; [auto|rewrite IH1; auto]. }
    replace (tl l) with (outs (fun (first : bool) (x : A) => if first then Drop false else Give x false) true l) by (destruct l; [reflexivity|apply G]).
    refine (pure_iterates _ _ _ _ _ _ _ _ _ _ I). destruct l; [exact Logic.I|apply G].
  Qed.
  Definition take_turn (count i : Z) (x : A) : turn Z A := if Z.leb count i then Leave else Give x (i + 1)%Z.
  Lemma take_outs : forall count l i, (i + Z.of_nat (List.length l) <= count)%Z -> outs (take_turn count) i l = l /\ goes (take_turn count) i l /\ after (take_turn count) i l = (i + Z.of_nat (List.length l))%Z.
  Proof.
    intros count. induction l as [|x l IH]; intros i L; cbn [List.length] in L; [cbn; repeat split; auto; lia|]. cbn [outs goes after].
    assert (T : take_turn count i x = Give x (i + 1)%Z) by (unfold take_turn; destruct (Z.leb_spec count i); [lia|reflexivity]). rewrite T.
    destruct (IH (i + 1)%Z) as (H1 & H2 & H3); [lia|]. rewrite H1, H3. repeat split; auto. cbn [List.length]. lia.
  Qed.
  Lemma take_short_pf : forall n src w l r w1, (Z.of_nat (List.length l) <= n)%Z -> iterates src w l r w1 -> produces (take n src) w l (leaving r) w1.
  Proof.
    intros n src w l r w1 L I. destruct (take_outs n l 0) as (H1 & H2 & _); [lia|]. rewrite <- H1. refine (pure_iterates _ _ _ _ _ _ _ _ _ _ I). exact H2.
  Qed.
  Lemma take_long_pf : forall n src w l x g1 w1, Z.of_nat (List.length l) = Z.max 0 n -> pulls src w (l ++ [x]) g1 w1 -> produces (take n src) w l (Ret tt) w1.
  Proof.
    intros n src w l x g1 w1 L (g & w2 & O & P). eapply started_ret; [exact O|].
    destruct (Z.leb_spec 0 n).
    - destruct (take_outs n l 0) as (H1 & H2 & H3); [lia|]. rewrite <- H1. eapply (each_leaves (take_turn n)); [exact P|reflexivity|exact H2|]. rewrite H3. unfold take_turn. destruct (Z.leb_spec n (0 + Z.of_nat (List.length l))); [reflexivity|lia].
    - assert (l = []) by (destruct l; [reflexivity|cbn [List.length] in L; lia]). subst l. change [] with (outs (take_turn n) 0%Z []). eapply (each_leaves (take_turn n)); [exact P|reflexivity|exact Logic.I|]. cbn. unfold take_turn. destruct (Z.leb_spec n 0); [reflexivity|lia].
  Qed.
  Lemma list_pulled_world : forall (g : gen W A) w l g1 w1, pulled g w l g1 w1 -> forall xs, g = list_gen xs -> w1 = w.
  Proof.
    induction 1 as [g w|g w g1 w1 y l0 g2 w2 E P IH|g w y g1 w1 l0 g2 w2 E P IH]; intros xs ->; [reflexivity| |]; destruct xs; cbn in E; try discriminate; injection E as; subst; eapply IH; reflexivity.
  Qed.
  Lemma take_list_pf : forall n (xs : list A) (w : W), produces (take n (of_list xs)) w (firstn (Z.to_nat n) xs) (Ret tt) w.
  Proof.
    intros n xs w. destruct (Z.leb_spec (Z.of_nat (List.length xs)) n) as [L|L].
    - rewrite firstn_all2 by lia. apply (take_short_pf n (of_list xs) w xs (Ret tt) w L). left. exists (list_gen xs), w. split; [reflexivity|apply list_gen_produces].
    - destruct (skipn (Z.to_nat n) xs) as [|x ys] eqn:E.
      + assert (H : List.length (skipn (Z.to_nat n) xs) = 0) by (rewrite E; reflexivity). rewrite skipn_length in H. destruct xs as [|x xs]; [|cbn [List.length] in *; lia].
        rewrite firstn_nil. eapply started_ret; [reflexivity|]. apply pr_stop. reflexivity.
      + destruct (produces_pulled (list_gen xs) w xs (Ret tt) w (list_gen_produces xs w) (firstn (Z.to_nat n) xs ++ [x]) ys) as (g1 & w2 & P & Q).
        { rewrite <- app_assoc. cbn. rewrite <- E. symmetry. apply firstn_skipn. }
        assert (w2 = w) by (eapply list_pulled_world; [exact P|reflexivity]).
        subst w2. eapply take_long_pf; [|exists (list_gen xs), w; split; [reflexivity|exact P]]. rewrite firstn_length. lia.
  Qed.

  (** append *)
  Lemma append_last : forall (g : gen W A) w l r w1, produces g w l r w1 -> produces (append_loop None g) w l (leaving r) w1.
  Proof.
    induction 1 as [g w w1 E|g w e w1 E|g w g1 w1 l r w2 E P IH|g w x g1 w1 l r w2 E P IH].
    - apply pr_stop. stp_ret E.
    - eapply produces_raise; [exact E|reflexivity].
    - eapply pr_skip; [stp_ret E|exact IH].
    - eapply pr_yield; [stp_ret E|exact IH].
  Qed.
  Lemma append_first : forall other (g : gen W A) w l r w1, produces g w l r w1 ->
    (forall e, r = Raise e -> produces (append_loop (Some other) g) w l (leaving r) w1) /\
    (r = Ret tt -> forall l2 r2 w2, iterates other w1 l2 r2 w2 -> produces (append_loop (Some other) g) w (l ++ l2) (leaving r2) w2).
  Proof.
    intros other. induction 1 as [g w w1 E|g w e w1 E|g w g1 w1 l r w2 E P [IH1 IH2]|g w x g1 w1 l r w2 E P [IH1 IH2]]; split; intros; try discriminate.
    - destruct H0 as [(h & w3 & O & P)|(e & O & -> & ->)].
      + eapply pr_skip; [|apply append_last, P]. stp_ret E. unfold bind. erewrite in_async_ret by exact O. reflexivity.
      + destruct (step_raise W _ _ other (fun g => ret (Skip (A := A) (append_loop None g))) w1 e w2 unit O) as (e1 & H1 & ->). apply raw_raise'. stp_ret E. exact H1.
    - eapply produces_raise; [exact E|reflexivity].
    - eapply pr_skip; [stp_ret E|eapply IH1; eassumption].
    - eapply pr_skip; [stp_ret E|eapply IH2; eassumption].
    - eapply pr_yield; [stp_ret E|eapply IH1; eassumption].
    - cbn [app]. eapply pr_yield; [stp_ret E|eapply IH2; eassumption].
  Qed.
  Lemma append_pf : forall other src w l r w1, iterates_all [src; other] w l r w1 -> produces (append other src) w l (leaving r) w1.
  Proof.
    intros other src w l r w1 I. inversion I as [|? ? ? ? e ? H|? ? ? l1 w2 l2 ? ? H1 H2]; subst.
    - rewrite leaving_twice. destruct H as [(g & w2 & O & P)|(e1 & O & -> & Q)].
      + eapply started_ret; [exact O|]. eapply append_first; [exact P|reflexivity].
      + injection Q as ->. apply started_raise, O.
    - destruct H1 as [(g & w3 & O & P)|(e1 & O & -> & Q)]; [|discriminate]. eapply started_ret; [exact O|]. inversion H2 as [|? ? ? ? e ? H|? ? ? l3 w4 l4 ? ? H3 H4]; subst.
      + rewrite leaving_twice. eapply append_first; [exact P|reflexivity|exact H].
      + inversion H4; subst. rewrite app_nil_r. eapply (proj2 (append_first other _ _ _ _ _ P)); [reflexivity|exact H3].
  Qed.
  (** collect *)
  Lemma collect_inner_raise : forall (f : A -> M W (iterable W B)) g (h : gen W B) w l e w1, produces h w l (Raise e) w1 -> produces (collect_loop f (Some h) g) w l (leaving (Raise e)) w1.
  Proof.
    intros f g h w l e w1 P. remember (Raise e) as r eqn:R. induction P as [h w w1 E|h w e0 w1 E|h w h1 w1 l r w2 E P IH|h w x h1 w1 l r w2 E P IH]; try discriminate; subst.
    - injection R as ->. eapply produces_raise; [exact E|reflexivity].
    - eapply pr_skip; [stp_ret E|auto].
    - eapply pr_yield; [stp_ret E|auto].
  Qed.
  Lemma collect_inner_ret : forall (f : A -> M W (iterable W B)) g (h : gen W B) w l w1 l2 r2 w2, produces h w l (Ret tt) w1 -> produces (collect_loop f None g) w1 l2 r2 w2 -> produces (collect_loop f (Some h) g) w (l ++ l2) r2 w2.
  Proof.
    intros f g h w l w1 l2 r2 w2 P Q. remember (Ret tt) as r eqn:R. induction P as [h w w1 E|h w e0 w1 E|h w h1 w1 l r w3 E P IH|h w x h1 w1 l r w3 E P IH]; try discriminate; subst; cbn [app].
    - eapply pr_skip; [stp_ret E|exact Q].
    - eapply pr_skip; [stp_ret E|auto].
    - eapply pr_yield; [stp_ret E|auto].
  Qed.
  Lemma collect_loop_pf : forall (f : A -> M W (iterable W B)) ms w l r w1, collects f ms w l r w1 -> Forall no_stop ms -> produces (collect_loop f None (script_gen ms)) w l (leaving r) w1.
  Proof.
    induction 1 as [w|m ms w e w1 E|m ms w x w1 e w2 E Ef|m ms w x w1 it w2 l e w3 E Ef I|m ms w x w1 it w2 l w3 l2 r w4 E Ef I C IH]; intros N; [|inversion N as [|? ? N1 N2]; subst..].
    - apply pr_stop. reflexivity.
    - eapply (produces_raise _ _ _ _ (step (script_gen (m :: ms)))); [apply script_step_raise; [exact E|specialize (N1 w); rewrite E in N1; cbn in N1; congruence]|reflexivity].
    - pose proof (script_step _ _ m ms w x w1 E) as E1.
      destruct (step_raise W _ _ (f x) (fun it => do h <- in_async it; ret (Skip (A := B) (collect_loop f (Some h) (script_gen ms)))) w1 e w2 unit Ef) as (e1 & H1 & ->). apply raw_raise'. set (g0 := script_gen (m :: ms)); change (step g0 w = (Ret (Yield x (script_gen ms)), w1)) in E1; clearbody g0. stp_ret E1. exact H1.
    - pose proof (script_step _ _ m ms w x w1 E) as E1. destruct I as [(h & w4 & O & P)|(e1 & O & -> & Q)].
      + eapply pr_skip; [|eapply collect_inner_raise, P]. set (g0 := script_gen (m :: ms)); change (step g0 w = (Ret (Yield x (script_gen ms)), w1)) in E1; clearbody g0. stp_ret E1. unfold bind. erewrite in_async_ret by exact Ef. erewrite in_async_ret by exact O. reflexivity.
      + injection Q as <-. destruct (step_raise W _ _ it (fun h => ret (Skip (A := B) (collect_loop f (Some h) (script_gen ms)))) w2 e w3 unit O) as (e2 & H2 & ->). apply raw_raise'. set (g0 := script_gen (m :: ms)); change (step g0 w = (Ret (Yield x (script_gen ms)), w1)) in E1; clearbody g0. stp_ret E1. unfold bind in *. erewrite in_async_ret by exact Ef. exact H2.
    - pose proof (script_step _ _ m ms w x w1 E) as E1. destruct I as [(h & w5 & O & P)|(e1 & O & -> & Q)]; [|discriminate].
      eapply pr_skip; [|eapply collect_inner_ret; [exact P|exact (IH N2)]]. set (g0 := script_gen (m :: ms)); change (step g0 w = (Ret (Yield x (script_gen ms)), w1)) in E1; clearbody g0. stp_ret E1. unfold bind. erewrite in_async_ret by exact Ef. erewrite in_async_ret by exact O. reflexivity.
  Qed.
  Lemma collect_pf : forall (f : A -> M W (iterable W B)) ms w l r w1, collects f ms w l r w1 -> Forall no_stop ms -> produces (collect f (of_script ms)) w l (leaving r) w1.
  Proof. intros f ms w l r w1 C N. eapply started_ret; [reflexivity|]. now apply collect_loop_pf. Qed.
  Lemma collect_list_loop : forall (F : A -> list B) (g : gen W A) w l r w1, produces g w l r w1 -> produces (collect_loop (fun x => ret (of_list (F x))) None g) w (flat_map F l) (leaving r) w1.
  Proof.
    intros F. induction 1 as [g w w1 E|g w e w1 E|g w g1 w1 l r w2 E P IH|g w x g1 w1 l r w2 E P IH]; cbn [flat_map].
    - apply pr_stop. stp_ret E.
    - eapply produces_raise; [exact E|reflexivity].
    - eapply pr_skip; [stp_ret E|exact IH].
    - eapply pr_skip; [stp_ret E|]. eapply collect_inner_ret; [apply list_gen_produces|exact IH].
  Qed.
  Lemma collect_list_pf : forall (F : A -> list B) src w l r w1, iterates src w l r w1 -> produces (collect (fun x => ret (of_list (F x))) src) w (flat_map F l) (leaving r) w1.
  Proof. intros F src w l r w1 I. apply (started_iterates src _ (flat_map F)); auto. intros g w2. apply collect_list_loop. Qed.
End Ops.
