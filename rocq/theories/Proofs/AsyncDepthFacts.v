(** Lemmas for C121: any source, and chains on an AsyncSeq. *)
From Coq Require Import List ZArith Bool Lia.
From Verif.Model Require Import Base Gen MapDepth Chain ChainDepth AsyncDepth.
From Verif.Model Require AsyncSeq.
From Verif.Spec Require Import ChainDepthSpec ChainWorkSpec.
From Verif.Proofs Require Import ChainDepthFacts.
Import ListNotations.
Local Open Scope py_scope.

(** ** any source *)
Lemma step_not_stop : forall W A (g : gen W A) w e w1, step g w = (Raise e, w1) -> e <> StopIterationExn.
Proof. intros W A [n] w e w1 E. unfold step in E. destruct (n w) as [[a|[]] w2]; inversion E; subst; discriminate. Qed.
Lemma any_fits : forall W A k (g : gen W A), fits k (d_any g) g.
Proof.
  intros W A. cofix CIH. intros k g. constructor. intros d w _. unfold dstep. cbn. unfold bind. destruct (step g w) as [[[a g1|g1|]|e] w1] eqn:E; cbn.
  - constructor. apply CIH.
  - constructor. apply CIH.
  - constructor.
  - apply step_not_stop in E. over e E.
Qed.
Lemma source_fits : forall W A k (it : iterable W A), fits_it k (d_source it) it.
Proof. intros W A k it w. unfold d_source, bind. destruct (it w) as [[g|e] w1]; [|now split]. split; [reflexivity|apply any_fits]. Qed.
Lemma chain_source : forall W A B (c : chain W A B) src d fuel, 2 * generators c < d ->
  (do it <- d_on_seq c (d_source src); d_to_list fuel d it) ==m (do it <- on_seq c src; to_list fuel it).
Proof.
  intros W A B c src d fuel D w. unfold bind at 1 2.
  pose proof (chain_fits _ _ _ c 1 (d_source src) src ltac:(lia) (source_fits _ _ _ _) w) as H.
  destruct (d_on_seq c (d_source src) w) as [[di|e] w1], (on_seq c src w) as [[it|e2] w2]; try contradiction; destruct H as [E H]; [|subst; reflexivity].
  subst w2. unfold d_to_list, to_list, bind at 1 2. specialize (H w1). destruct (di w1) as [[dg|e] w3], (it w1) as [[g|e2] w4]; try contradiction; destruct H as [E H]; [|subst; reflexivity].
  subst w4. assert (D1 : 2 * generators c + 1 <= d) by lia. apply (drain_eq _ _ _ _ _ _ _ _ D1 H).
Qed.
Lemma chain_source_overflow : forall W A B (c : chain W A B) (g : gen W A) d (w : W), all_ask c -> d < 2 * generators c ->
  exists n, forall fuel, n <= fuel -> (do it <- d_on_seq c (d_source (ret g)); d_to_list fuel d it) w = (Raise RecursionError, w).
Proof.
  intros W A B c g d w P D. assert (O : over_it (W := W) 0 (d_source (ret g))) by (exists (d_any g); split; [reflexivity|intros d1 w1 L; lia]).
  destruct (chain_over _ _ _ c 0 _ P O) as (di & E & h & E2 & O2). assert (D1 : d < 2 * generators c + 0) by lia.
  destruct (overflows_drain _ _ _ _ _ (O2 d w D1)) as [n H]. exists n. intros fuel L. unfold bind, d_to_list. rewrite E. unfold bind. rewrite E2. now apply H.
Qed.

(** ** AsyncSeq *)
Ltac aunf := unfold dstep at 1, step at 1; cbn; unfold bind, AsyncSeq.in_async.
Section Fits.
  Context {W A B S : Type}.
  Lemma started_fits : forall k (di : diterable W A) it (dl : dgen W A -> dgen W B) l, fits_it k di it ->
    (forall dg g, fits k dg g -> fits (Datatypes.S k) (dl dg) (l g)) -> fits (Datatypes.S k) (a_started di dl) (AsyncSeq.started it l).
  Proof.
    intros k di it dl l F L. constructor. intros d w D. destruct d as [|d]; [lia|]. specialize (F w). aunf.
    destruct (di w) as [[dg|e] w1], (it w) as [[g|e2] w2]; try contradiction; destruct F as [E F].
    - subst w2. constructor. now apply L.
    - subst e2 w2. exns e.
  Qed.
  Lemma each_fits : forall (body : S -> A -> M W (AsyncSeq.turn S B)) k s dg g, fits k dg g -> fits (Datatypes.S k) (a_each body s dg) (AsyncSeq.each body s g).
  Proof.
    intros body. cofix CIH. intros k s dg g [H]. constructor. intros d w D. destruct d as [|d]; [exfalso; lia|]. assert (D1 : k <= d) by lia. specialize (H d w D1).
    aunf. destruct H as [a dg1 g1 w1 H|dg1 g1 w1 H|w1|e w1 N].
    - destruct (body s a w1) as [[[y s1|s1|]|e] w2].
      + constructor. apply CIH. assumption.
      + constructor. apply CIH. assumption.
      + constructor.
      + exns e.
    - constructor. apply CIH. assumption.
    - constructor.
    - over e N.
  Qed.
  Lemma acollect_fits : forall (df : A -> M W (diterable W B)) (f : A -> M W (iterable W B)) k,
    (forall x w, match df x w, f x w with
                 | (Ret di, w1), (Ret it, w2) => w1 = w2 /\ fits_it k di it
                 | (Raise e, w1), (Raise e2, w2) => e = e2 /\ w1 = w2
                 | _, _ => False
                 end) ->
    forall dg g di i, fits k dg g -> match di, i with None, None => True | Some dh, Some h => fits k dh h | _, _ => False end ->
    fits (Datatypes.S k) (a_collect_loop df di dg) (AsyncSeq.collect_loop f i g).
  Proof.
    intros df f k F. cofix CIH. intros dg g di i H I. constructor. intros d w D. destruct d as [|d]; [exfalso; lia|]. assert (D1 : k <= d) by lia.
    destruct di as [dh|], i as [h|]; try contradiction; aunf.
    - destruct I as [I]. specialize (I d w D1). destruct I as [a dg1 g1 w1 I|dg1 g1 w1 I|w1|e w1 N].
      + constructor. apply CIH; assumption.
      + constructor. apply CIH; assumption.
      + constructor. apply CIH; [assumption|exact Logic.I].
      + over e N.
    - destruct H as [H]. specialize (H d w D1). destruct H as [a dg1 g1 w1 H|dg1 g1 w1 H|w1|e w1 N].
      + specialize (F a w1). destruct (df a w1) as [[dt|e] w2], (f a w1) as [[it|e2] w3]; try contradiction; destruct F as [E F].
        * subst w3. specialize (F w2). destruct (dt w2) as [[dh|e] w3], (it w2) as [[h|e2] w4]; try contradiction; destruct F as [E F].
          -- subst w4. constructor. apply CIH; assumption.
          -- subst e2 w4. exns e.
        * subst e2 w3. exns e.
      + constructor. apply CIH; [assumption|exact Logic.I].
      + constructor.
      + over e N.
  Qed.
  Lemma append_fits : forall k dot ot, match dot, ot with None, None => True | Some di, Some it => fits_it k di it | _, _ => False end ->
    forall (dg : dgen W B) g, fits k dg g -> fits (Datatypes.S k) (a_append_loop dot dg) (AsyncSeq.append_loop ot g).
  Proof.
    intros k. cofix CIH. intros dot ot F dg g [H]. constructor. intros d w D. destruct d as [|d]; [exfalso; lia|]. assert (D1 : k <= d) by lia. specialize (H d w D1).
    aunf. destruct H as [a dg1 g1 w1 H|dg1 g1 w1 H|w1|e w1 N].
    - constructor. apply CIH; assumption.
    - constructor. apply CIH; assumption.
    - destruct dot as [di|], ot as [it|]; try contradiction.
      + specialize (F w1). destruct (di w1) as [[dh|e] w2], (it w1) as [[h|e2] w3]; try contradiction; destruct F as [E F].
        * subst w3. constructor. apply CIH; [exact Logic.I|assumption].
        * subst e2 w3. exns e.
      + constructor.
    - over e N.
  Qed.
End Fits.
Lemma alist_fits : forall W A k (xs : list A), 1 <= k -> fits_it (W := W) k (a_of_list xs) (of_list xs).
Proof. intros W A k xs K. apply ret_fits. apply (fits_le 1); [|exact K]. apply wrap_fits, list_fits. Qed.
Lemma astage_fits : forall W A B (s : stage W A B) k di it, 1 <= k -> fits_it k di it -> fits (S k) (a_stage s di) (async_stage s it).
Proof.
  intros W A B s k di it K F. destruct s; cbn [a_stage async_stage]; try (apply started_fits; [exact F|]; intros dg g H; apply each_fits, H).
  - apply started_fits; [exact F|]. intros dg g H. apply acollect_fits; [|exact H|exact Logic.I].
    intros x w. unfold bind. destruct (m x w) as [[ys|e] w1]; [|now split]. split; [reflexivity|]. now apply alist_fits.
  - apply started_fits; [exact F|]. intros dg g H. apply append_fits; [|exact H]. now apply alist_fits.
Qed.
Lemma achain_fits : forall W A B (c : chain W A B) k di it, 1 <= k -> fits_it k di it -> fits_it (stages c + k) (d_on_async c di) (on_async c it).
Proof.
  induction c as [A|A B C s c IH]; intros k di it K F; cbn [d_on_async on_async stages]; [exact F|].
  replace (S (stages c) + k) with (stages c + S k) by lia. apply IH; [lia|]. apply ret_fits, astage_fits; assumption.
Qed.
Lemma achain_list : forall W A B (c : chain W A B) src d fuel, stages c < d ->
  d_to_list fuel d (d_on_async c (d_source src)) ==m to_list fuel (on_async c src).
Proof.
  intros W A B c src d fuel D w. pose proof (achain_fits _ _ _ c 1 (d_source src) src ltac:(lia) (source_fits _ _ _ _)) as H.
  unfold d_to_list, to_list, bind at 1 2. specialize (H w). destruct (d_on_async c (d_source src) w) as [[dg|e] w3], (on_async c src w) as [[g|e2] w4]; try contradiction; destruct H as [E H]; [|subst; reflexivity].
  subst w4. assert (D1 : stages c + 1 <= d) by lia. apply (drain_eq _ _ _ _ _ _ _ _ D1 H).
Qed.

Section Over.
  Context {W A B S : Type}.
  Lemma started_over : forall k (di : diterable W A) (loop : dgen W A -> dgen W B), over_it k di -> (forall g, over k g -> over (Datatypes.S k) (loop g)) -> over (Datatypes.S k) (a_started di loop).
  Proof.
    intros k di loop (g & E & O) L d w D. destruct d as [|d]; [apply ov_now; reflexivity|]. eapply ov_skip; [|apply (L g O); lia].
    unfold dstep. cbn. unfold bind, AsyncSeq.in_async. rewrite E. reflexivity.
  Qed.
End Over.
Ltac alo := intros; apply loop_over;
  [intros d w h E; unfold dstep at 1; cbn; unfold bind, AsyncSeq.in_async; rewrite E; reflexivity|intros d w h h1 E; unfold dstep at 1; cbn; unfold bind, AsyncSeq.in_async; rewrite E; reflexivity|reflexivity|assumption].
Lemma astage_over : forall W A B (s : stage W A B) k di, over_it k di -> over (S k) (a_stage s di).
Proof. intros W A B s k di O. destruct s; cbn [a_stage]; apply started_over; try exact O; alo. Qed.
Lemma achain_over : forall W A B (c : chain W A B) k di, over_it k di -> over_it (stages c + k) (d_on_async c di).
Proof.
  induction c as [A|A B C s c IH]; intros k di O; cbn [d_on_async stages]; [exact O|].
  replace (S (stages c) + k) with (stages c + S k) by lia. apply IH, ret_over, astage_over, O.
Qed.
Lemma achain_overflow : forall W A B (c : chain W A B) (g : gen W A) d (w : W), d < stages c ->
  exists n, forall fuel, n <= fuel -> d_to_list fuel d (d_on_async c (d_source (ret g))) w = (Raise RecursionError, w).
Proof.
  intros W A B c g d w D. assert (O : over_it (W := W) 0 (d_source (ret g))) by (exists (d_any g); split; [reflexivity|intros d1 w1 L; lia]).
  destruct (achain_over _ _ _ c 0 _ O) as (h & E2 & O2). assert (D1 : d < stages c + 0) by lia.
  destruct (overflows_drain _ _ _ _ _ (O2 d w D1)) as [n H]. exists n. intros fuel L. unfold bind, d_to_list. unfold bind. rewrite E2. now apply H.
Qed.
