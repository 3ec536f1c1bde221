(** Lemmas for C121. *)
From Coq Require Import List ZArith Bool Lia.
From Verif.Model Require Import Base Gen OptionResult MapDepth Chain ChainDepth.
From Verif.Model Require Functions Extra Seq.
From Verif.Spec Require Import ChainDepthSpec.
Import ListNotations.
Local Open Scope py_scope.

(** ** functions *)
Lemma d_reduce_eq : forall W V (fns : list (V -> M W V)) d x, 1 <= d -> d_reduce d fns x ==m Functions.compose fns x.
Proof.
  intros W V fns d x L. destruct d as [|d]; [lia|]. revert x. induction fns as [|f fns IH]; intros x w; [reflexivity|].
  unfold Functions.compose in *. cbn. unfold bind. destruct (f x w) as [[y|e] w1]; [|reflexivity]. apply IH.
Qed.
Lemma d_compose_eq : forall W V (fns : list (V -> M W V)) d x, 2 <= d -> d_compose fns d x ==m Functions.compose fns x.
Proof. intros W V fns d x L. destruct d as [|d]; [lia|]. apply d_reduce_eq. lia. Qed.
Lemma d_pipe_eq : forall W V (fns : list (V -> M W V)) d x, 3 <= d -> d_pipe x fns d ==m Functions.pipe x fns.
Proof. intros W V fns d x L. destruct d as [|d]; [lia|]. apply d_compose_eq. lia. Qed.

Section Pipelines.
  Context {W V E : Type}.
  Lemma res_fold_eq : forall (fns : list (V -> M W (result V E))) a b k, 1 <= k -> (forall d x, k <= d -> a d x ==m b x) ->
    forall d x, k + length fns <= d -> fold_left d_res_gn fns a d x ==m fold_left Extra.res_reducer fns b x.
  Proof.
    induction fns as [|f fns IH]; intros a b k K H d x L; cbn in *; [apply H; lia|].
    apply (IH _ _ (S k)); [lia| |lia]. intros d1 x1 L1 w. destruct d1 as [|[|d1]]; [lia|lia|]. unfold d_res_gn, Extra.res_reducer. cbn. unfold bind.
    rewrite H by lia. destruct (b x1 w) as [[r|e] w1]; reflexivity.
  Qed.
  Lemma res_fold_over : forall (fns : list (V -> M W (result V E))) a k, (forall d x w, d < k -> a d x w = (Raise RecursionError, w)) ->
    forall d x w, d < k + length fns -> fold_left d_res_gn fns a d x w = (Raise RecursionError, w).
  Proof.
    induction fns as [|f fns IH]; intros a k H d x w L; cbn in *; [apply H; lia|].
    apply (IH _ (S k)); [|lia]. intros d1 x1 w1 L1. destruct d1 as [|d1]; [reflexivity|]. unfold d_res_gn. cbn. unfold bind. rewrite H by lia. reflexivity.
  Qed.
  Lemma opt_fold_eq : forall (fns : list (V -> M W (option V))) a b k, 1 <= k -> (forall d x, k <= d -> a d x ==m b x) ->
    forall d x, k + length fns <= d -> fold_left d_opt_gn fns a d x ==m fold_left Extra.opt_reducer fns b x.
  Proof.
    induction fns as [|f fns IH]; intros a b k K H d x L; cbn in *; [apply H; lia|].
    apply (IH _ _ (S k)); [lia| |lia]. intros d1 x1 L1 w. destruct d1 as [|[|d1]]; [lia|lia|]. unfold d_opt_gn, Extra.opt_reducer. cbn. unfold bind.
    rewrite H by lia. destruct (b x1 w) as [[r|e] w1]; reflexivity.
  Qed.
  Lemma opt_fold_over : forall (fns : list (V -> M W (option V))) a k, (forall d x w, d < k -> a d x w = (Raise RecursionError, w)) ->
    forall d x w, d < k + length fns -> fold_left d_opt_gn fns a d x w = (Raise RecursionError, w).
  Proof.
    induction fns as [|f fns IH]; intros a k H d x w L; cbn in *; [apply H; lia|].
    apply (IH _ (S k)); [|lia]. intros d1 x1 w1 L1. destruct d1 as [|d1]; [reflexivity|]. unfold d_opt_gn. cbn. unfold bind. rewrite H by lia. reflexivity.
  Qed.
  Lemma res_pipeline_depth : forall (fns : list (V -> M W (result V E))) d x,
    (length fns < d -> d_res_pipeline fns d x ==m Extra.res_pipeline fns x) /\
    (d <= length fns -> forall w, d_res_pipeline fns d x w = (Raise RecursionError, w)).
  Proof.
    intros fns d x. split.
    - intros L. apply (res_fold_eq _ _ _ 1); [lia| |lia]. intros d1 x1 L1 w. destruct d1; [lia|reflexivity].
    - intros L w. apply (res_fold_over _ _ 1); [|lia]. intros d1 x1 w1 L1. destruct d1; [reflexivity|lia].
  Qed.
  Lemma opt_pipeline_depth : forall (fns : list (V -> M W (option V))) d x,
    (length fns < d -> d_opt_pipeline fns d x ==m Extra.opt_pipeline fns x) /\
    (d <= length fns -> forall w, d_opt_pipeline fns d x w = (Raise RecursionError, w)).
  Proof.
    intros fns d x. split.
    - intros L. apply (opt_fold_eq _ _ _ 1); [lia| |lia]. intros d1 x1 L1 w. destruct d1; [lia|reflexivity].
    - intros L w. apply (opt_fold_over _ _ 1); [|lia]. intros d1 x1 w1 L1. destruct d1; [reflexivity|lia].
  Qed.
End Pipelines.

(** ** iterators: with [k] frames or more the same steps *)
Inductive fstep {W A} (R : dgen W A -> gen W A -> Prop) : res (gstep A (dgen W A)) * W -> res (gstep A (gen W A)) * W -> Prop :=
| fs_yield : forall a dg g w, R dg g -> fstep R (Ret (Yield a dg), w) (Ret (Yield a g), w)
| fs_skip : forall dg g w, R dg g -> fstep R (Ret (Skip dg), w) (Ret (Skip g), w)
| fs_stop : forall w, fstep R (Ret Stop, w) (Ret Stop, w)
| fs_raise : forall e w, e <> StopIterationExn -> fstep R (Raise e, w) (Raise e, w).
CoInductive fits {W A} (k : nat) (dg : dgen W A) (g : gen W A) : Prop :=
| fits_next : (forall d w, k <= d -> fstep (fits k) (dstep d dg w) (step g w)) -> fits k dg g.
Definition fits_it {W A} (k : nat) (di : diterable W A) (it : iterable W A) : Prop :=
  forall w, match di w, it w with
            | (Ret dg, w1), (Ret g, w2) => w1 = w2 /\ fits k dg g
            | (Raise e, w1), (Raise e2, w2) => e = e2 /\ w1 = w2
            | _, _ => False
            end.
Ltac unf := unfold dstep at 1, step at 1; cbn; unfold bind, in_generator.
Ltac over e N := destruct e; try (elim N; reflexivity); constructor; discriminate.
Ltac exns e := destruct e; cbn; constructor; discriminate.

Section Fits.
  Context {W A B : Type}.
  Lemma fits_le : forall k k2 (dg : dgen W A) g, fits k dg g -> k <= k2 -> fits k2 dg g.
  Proof.
    cofix CIH. intros k k2 dg g [H] L. constructor. intros d w D. assert (D1 : k <= d) by lia. specialize (H d w D1).
    destruct H as [a dg1 g1 w1 H|dg1 g1 w1 H|w1|e w1 N].
    - constructor. apply (CIH k); assumption.
    - constructor. apply (CIH k); assumption.
    - constructor.
    - constructor. assumption.
  Qed.
  Lemma list_fits : forall k (xs : list A), fits (W := W) k (d_list xs) (list_gen xs).
  Proof. cofix CIH. intros k xs. constructor. intros d w _. destruct xs as [|x xs]; cbn; constructor. apply CIH. Qed.
  Lemma wrap_fits : forall k (dg : dgen W A) g, fits k dg g -> fits (S k) (d_wrap dg) g.
  Proof.
    cofix CIH. intros k dg g [H]. constructor. intros d w D. destruct d as [|d]; [exfalso; lia|]. assert (D1 : k <= d) by lia. specialize (H d w D1).
    unfold dstep at 1. cbn. unfold bind. destruct H as [a dg1 g1 w1 H|dg1 g1 w1 H|w1|e w1 N].
    - constructor. apply CIH. assumption.
    - constructor. apply CIH. assumption.
    - constructor.
    - over e N.
  Qed.
  Lemma opening_fits : forall k (di : diterable W A) it (dl : dgen W A -> dgen W B) l, fits_it k di it ->
    (forall dg g, fits k dg g -> fits (S k) (dl dg) (l g)) -> fits (S k) (d_opening di dl) (Seq.opening it l).
  Proof.
    intros k di it dl l F L. constructor. intros d w D. destruct d as [|d]; [lia|]. specialize (F w). unf.
    destruct (di w) as [[dg|e] w1], (it w) as [[g|e2] w2]; try contradiction; destruct F as [E F].
    - subst w2. constructor. now apply L.
    - subst e2 w2. exns e.
  Qed.
  Lemma map_fits : forall (f : A -> M W B) k dg g, fits k dg g -> fits (S k) (d_map_loop f dg) (Seq.map_loop f g).
  Proof.
    intros f. cofix CIH. intros k dg g [H]. constructor. intros d w D. destruct d as [|d]; [exfalso; lia|]. assert (D1 : k <= d) by lia. specialize (H d w D1).
    unf. destruct H as [a dg1 g1 w1 H|dg1 g1 w1 H|w1|e w1 N].
    - destruct (f a w1) as [[y|e] w2].
      + constructor. apply CIH. assumption.
      + exns e.
    - constructor. apply CIH. assumption.
    - constructor.
    - over e N.
  Qed.
  Lemma collect_fits : forall (df : A -> M W (diterable W B)) (f : A -> M W (iterable W B)) k,
    (forall x w, match df x w, f x w with
                 | (Ret di, w1), (Ret it, w2) => w1 = w2 /\ fits_it k di it
                 | (Raise e, w1), (Raise e2, w2) => e = e2 /\ w1 = w2
                 | _, _ => False
                 end) ->
    forall dg g di i, fits k dg g -> match di, i with None, None => True | Some dh, Some h => fits k dh h | _, _ => False end ->
    fits (S k) (d_collect_loop df di dg) (Seq.collect_loop f i g).
  Proof.
    intros df f k F. cofix CIH. intros dg g di i H I. constructor. intros d w D. destruct d as [|d]; [exfalso; lia|]. assert (D1 : k <= d) by lia.
    destruct di as [dh|], i as [h|]; try contradiction; unf.
    - destruct I as [I]. specialize (I d w D1). destruct I as [a dg1 g1 w1 I|dg1 g1 w1 I|w1|e w1 N].
      + constructor. apply CIH; assumption.
      + constructor. apply CIH; assumption.
      + constructor. apply CIH; [assumption|exact Logic.I].
      + over e N.
    - destruct H as [H]. specialize (H d w D1). destruct H as [a dg1 g1 w1 H|dg1 g1 w1 H|w1|e w1 N].
      + specialize (F a w1). destruct (df a w1) as [[dt|e] w2], (f a w1) as [[it|e2] w3]; try contradiction; destruct F as [E F].
        * subst w3. specialize (F w2). destruct (dt w2) as [[dh|e] w3], (it w2) as [[h|e2] w4]; try contradiction; destruct F as [E F].
          -- subst w4. constructor. apply CIH; assumption.
          -- subst e2 w4. exns e.
        * subst e2 w3. exns e.
      + constructor. apply CIH; [assumption|exact Logic.I].
      + constructor.
      + over e N.
  Qed.
  Lemma concat_fits : forall k dits its, Forall2 (fits_it k) dits its ->
    forall (di : option (dgen W A)) i, match di, i with None, None => True | Some dh, Some h => fits k dh h | _, _ => False end ->
    fits (S k) (d_concat_loop di dits) (Seq.concat_loop i its).
  Proof.
    intros k. cofix CIH. intros dits its F di i I. constructor. intros d w D. destruct d as [|d]; [exfalso; lia|]. assert (D1 : k <= d) by lia.
    destruct di as [dh|], i as [h|]; try contradiction; unf.
    - destruct I as [I]. specialize (I d w D1). destruct I as [a dg1 g1 w1 I|dg1 g1 w1 I|w1|e w1 N].
      + constructor. apply CIH; assumption.
      + constructor. apply CIH; assumption.
      + constructor. apply CIH; [assumption|exact Logic.I].
      + over e N.
    - destruct F as [|dt it dits its F1 F]; [constructor|]. specialize (F1 w). destruct (dt w) as [[dh|e] w1], (it w) as [[h|e2] w2]; try contradiction; destruct F1 as [E F1].
      + subst w2. constructor. apply CIH; assumption.
      + subst e2 w2. exns e.
  Qed.
  Lemma filter_fits : forall (p : A -> M W bool) k dg g, fits k dg g -> fits k (d_filter_loop p dg) (Seq.filter_loop p g).
  Proof.
    intros p. cofix CIH. intros k dg g [H]. constructor. intros d w D. specialize (H d w D).
    unf. destruct H as [a dg1 g1 w1 H|dg1 g1 w1 H|w1|e w1 N].
    - destruct (p a w1) as [[[|]|e] w2].
      + constructor. apply CIH. assumption.
      + constructor. apply CIH. assumption.
      + exns e.
    - constructor. apply CIH. assumption.
    - constructor.
    - over e N.
  Qed.
  Lemma skip_fits : forall c k i dg (g : gen W A), fits k dg g -> fits (S k) (d_skip_loop c i dg) (Seq.skip_loop c i g).
  Proof.
    intros c. cofix CIH. intros k i dg g [H]. constructor. intros d w D. destruct d as [|d]; [exfalso; lia|]. assert (D1 : k <= d) by lia. specialize (H d w D1).
    unf. destruct H as [a dg1 g1 w1 H|dg1 g1 w1 H|w1|e w1 N].
    - destruct (Z.leb c i); constructor; apply CIH; assumption.
    - constructor. apply CIH. assumption.
    - constructor.
    - over e N.
  Qed.
  Lemma take_fits : forall c k o i dg (g : gen W A), fits k dg g -> fits (S k) (d_take_loop c o i dg) (Seq.take_loop c o i g).
  Proof.
    intros c. cofix CIH. intros k o i dg g H. constructor. intros d w D. destruct d as [|d]; [exfalso; lia|]. assert (D1 : k <= d) by lia.
    destruct o as [j|]; unf.
    - destruct (Z.eqb j (c - 1)); constructor. apply CIH. assumption.
    - destruct H as [H]. specialize (H d w D1). destruct H as [a dg1 g1 w1 H|dg1 g1 w1 H|w1|e w1 N].
      + constructor. apply CIH. assumption.
      + constructor. apply CIH. assumption.
      + constructor.
      + over e N.
  Qed.
End Fits.
Lemma ret_fits : forall W A k (dg : dgen W A) g, fits k dg g -> fits_it k (ret dg) (ret g).
Proof. intros W A k dg g F w. split; [reflexivity|exact F]. Qed.
Definition fits_made {W A} (k : nat) (m : M W (diterable W A)) (n : M W (iterable W A)) : Prop :=
  forall w, match m w, n w with
            | (Ret di, w1), (Ret it, w2) => w1 = w2 /\ fits_it k di it
            | (Raise e, w1), (Raise e2, w2) => e = e2 /\ w1 = w2
            | _, _ => False
            end.
Definition rise {W A B} (s : stage W A B) : nat := match s with SFilter _ => 0 | _ => 2 end.
Lemma stage_fits : forall W A B (s : stage W A B) k di it, 1 <= k -> fits_it k di it -> fits_made (rise s + k) (d_stage s di) (seq_stage s it).
Proof.
  assert (T : forall W A (di : diterable W A) it k w, fits_it k di it ->
    match (ret di : M W _) w, (ret it : M W _) w with (Ret di, w1), (Ret it, w2) => w1 = w2 /\ fits_it k di it | (Raise e, w1), (Raise e2, w2) => e = e2 /\ w1 = w2 | _, _ => False end)
    by (intros W A di it k w F; split; [reflexivity|exact F]).
  intros W A B s k di it K F. destruct s; cbn [rise Nat.add]; intros w; cbn [d_stage seq_stage].
  - apply T, ret_fits, wrap_fits, opening_fits; [exact F|]. intros dg g. apply map_fits.
  - specialize (F w). unfold Seq.filter, bind. destruct (di w) as [[dg|e] w1], (it w) as [[g|e2] w2]; try contradiction; [|exact F].
    destruct F as [E F]. cbn. split; [exact E|]. apply ret_fits, filter_fits, F.
  - apply T, ret_fits, wrap_fits, opening_fits; [exact F|]. intros dg g H. apply collect_fits; [|exact H|exact Logic.I].
    intros x w1. unfold bind. destruct (m x w1) as [[o|e] w2]; [|now split]. split; [reflexivity|]. apply ret_fits. apply (fits_le 1); [|exact K]. apply wrap_fits, list_fits.
  - apply T, ret_fits, wrap_fits, opening_fits; [exact F|]. intros dg g H. apply collect_fits; [|exact H|exact Logic.I].
    intros x w1. unfold bind. destruct (m x w1) as [[o|e] w2]; [|now split]. split; [reflexivity|]. apply ret_fits, list_fits.
  - apply T, ret_fits, wrap_fits, concat_fits; [|exact Logic.I]. constructor; [exact F|]. constructor; [|constructor]. apply ret_fits, list_fits.
  - apply T, ret_fits, wrap_fits, opening_fits; [exact F|]. intros dg g. apply skip_fits.
  - apply T. unfold Seq.take. destruct (Z.ltb 0 z); [|apply ret_fits, wrap_fits, (fits_le 0); [apply list_fits|lia]].
    apply ret_fits, wrap_fits, opening_fits; [exact F|]. intros dg g. apply take_fits.
  - apply T, ret_fits, wrap_fits, opening_fits; [exact F|]. intros dg g. apply skip_fits.
Qed.
Lemma chain_fits : forall W A B (c : chain W A B) k di it, 1 <= k -> fits_it k di it -> fits_made (2 * generators c + k) (d_on_seq c di) (on_seq c it).
Proof.
  induction c as [A|A B C s c IH]; intros k di it K F w; cbn [d_on_seq on_seq].
  - cbn. split; [reflexivity|exact F].
  - unfold bind. pose proof (stage_fits _ _ _ s k di it K F w) as H.
    destruct (d_stage s di w) as [[di1|e] w1], (seq_stage s it w) as [[it1|e2] w2]; try contradiction; destruct H as [E H]; [|subst; now split].
    subst w2. specialize (IH (rise s + k) di1 it1 ltac:(lia) H w1).
    assert (Q : 2 * generators (Next s c) + k = 2 * generators c + (rise s + k)) by (destruct s; cbn; lia). rewrite Q. exact IH.
Qed.
Lemma drain_eq : forall W A fuel d k (dg : dgen W A) g acc, k <= d -> fits k dg g ->
  d_drain fuel d dg acc ==m (do r <- for_gen fuel g acc (fun acc x => ret (inl (acc ++ [x]))); match r with inl acc => ret acc | inr v => match v : Empty_set with end end).
Proof.
  intros W A fuel d k. induction fuel as [|fuel IH]; intros dg g acc D F w; [reflexivity|]. cbn. unfold bind at 1 2 3. destruct F as [F]. specialize (F d w D).
  destruct F as [a dg1 g1 w1 F|dg1 g1 w1 F|w1|e w1 N].
  - cbn. apply (IH dg1 g1 (acc ++ [a]) D F w1).
  - apply (IH dg1 g1 acc D F w1).
  - reflexivity.
  - reflexivity.
Qed.
Lemma chain_list : forall W A B (c : chain W A B) xs d fuel, 2 * generators c < d ->
  (do it <- d_on_seq c (d_of_list xs); d_to_list fuel d it) ==m (do it <- on_seq c (of_list xs); to_list fuel it).
Proof.
  intros W A B c xs d fuel D w. unfold bind at 1 2.
  pose proof (chain_fits _ _ _ c 1 (d_of_list xs) (of_list xs) ltac:(lia) (ret_fits _ _ _ _ _ (list_fits 1 xs)) w) as H.
  destruct (d_on_seq c (d_of_list xs) w) as [[di|e] w1], (on_seq c (of_list xs) w) as [[it|e2] w2]; try contradiction; destruct H as [E H]; [|subst; reflexivity].
  subst w2. unfold d_to_list, to_list, bind at 1 2. specialize (H w1). destruct (di w1) as [[dg|e] w3], (it w1) as [[g|e2] w4]; try contradiction; destruct H as [E H]; [|subst; reflexivity].
  subst w4. assert (D1 : 2 * generators c + 1 <= d) by lia. apply (drain_eq _ _ _ _ _ _ _ _ D1 H).
Qed.

(** ** with fewer frames nothing but RecursionError *)
Inductive overflows {W A} (d : nat) (w : W) : dgen W A -> Prop :=
| ov_now : forall g, dstep d g w = (Raise RecursionError, w) -> overflows d w g
| ov_skip : forall g g1, dstep d g w = (Ret (Skip g1), w) -> overflows d w g1 -> overflows d w g.
Definition over {W A} (k : nat) (g : dgen W A) : Prop := forall d w, d < k -> overflows d w g.
Definition over_it {W A} (k : nat) (di : diterable W A) : Prop := exists g, (forall w, di w = (Ret g, w)) /\ over k g.
Section Over.
  Context {W A B : Type}.
  Lemma loop_over : forall (loop : dgen W A -> dgen W B) k,
    (forall d w g, dstep d g w = (Raise RecursionError, w) -> dstep (S d) (loop g) w = (Raise RecursionError, w)) ->
    (forall d w g g1, dstep d g w = (Ret (Skip g1), w) -> dstep (S d) (loop g) w = (Ret (Skip (loop g1)), w)) ->
    (forall w g, dstep 0 (loop g) w = (Raise RecursionError, w)) ->
    forall g, over k g -> over (S k) (loop g).
  Proof.
    intros loop k H1 H2 H3 g O d w D. destruct d as [|d]; [apply ov_now, H3|]. assert (D1 : d < k) by lia. specialize (O d w D1).
    induction O as [g O|g g1 O _ IH]; [apply ov_now, H1, O|]. eapply ov_skip; [apply H2, O|exact IH].
  Qed.
  Lemma wrap_over : forall k (g : dgen W A), over k g -> over (S k) (d_wrap g).
  Proof.
    intros k g O d w D. destruct d as [|d]; [apply ov_now; reflexivity|]. assert (D1 : d < k) by lia. specialize (O d w D1).
    induction O as [g O|g g1 O _ IH]; [apply ov_now|eapply ov_skip; [|exact IH]]; unfold dstep at 1; cbn; unfold bind; rewrite O; reflexivity.
  Qed.
  Lemma opening_over : forall k (di : diterable W A) (loop : dgen W A -> dgen W B), over_it k di -> (forall g, over k g -> over (S k) (loop g)) -> over (S k) (d_opening di loop).
  Proof.
    intros k di loop (g & E & O) L d w D. destruct d as [|d]; [apply ov_now; reflexivity|]. eapply ov_skip; [|apply (L g O); lia].
    unfold dstep. cbn. unfold bind, in_generator. rewrite E. reflexivity.
  Qed.
End Over.
Lemma ret_over : forall W A k (g : dgen W A), over k g -> over_it k (ret g).
Proof. intros W A k g O. exists g. split; [reflexivity|exact O]. Qed.
Ltac lo := intros; apply loop_over;
  [intros d w h E; unfold dstep at 1; cbn; unfold bind; rewrite E; reflexivity|intros d w h h1 E; unfold dstep at 1; cbn; unfold bind; rewrite E; reflexivity|reflexivity|assumption].
Lemma stage_over : forall W A B (s : stage W A B) k di, match s with STake n => (0 < n)%Z | _ => True end -> over_it k di ->
  exists di1, (forall w, d_stage s di w = (Ret di1, w)) /\ over_it (rise s + k) di1.
Proof.
  intros W A B s k di. destruct s; cbn [rise Nat.add d_stage]; intros P O; try (eexists; split; [reflexivity|]; apply ret_over, wrap_over).
  - apply opening_over; [exact O|]. lo.
  - destruct O as (g & E & O). exists (ret (d_filter_loop m g)). split; [intros w; unfold bind; now rewrite E|]. apply ret_over. clear E. intros d w D. specialize (O d w D).
    induction O as [g1 O|g1 g2 O _ IH]; [apply ov_now|eapply ov_skip; [|exact IH]]; unfold dstep at 1; cbn; unfold bind; rewrite O; reflexivity.
  - apply opening_over; [exact O|]. lo.
  - apply opening_over; [exact O|]. lo.
  - destruct O as (g & E & O). intros d w D. destruct d as [|d]; [apply ov_now; reflexivity|].
    eapply ov_skip; [unfold dstep; cbn; unfold bind, in_generator; rewrite E; reflexivity|]. assert (D1 : d < k) by lia. clear E. specialize (O d w D1).
    induction O as [g1 O|g1 g2 O _ IH]; [apply ov_now|eapply ov_skip; [|exact IH]]; unfold dstep at 1; cbn; unfold bind; rewrite O; reflexivity.
  - apply opening_over; [exact O|]. lo.
  - assert (L : Z.ltb 0 z = true) by now apply Z.ltb_lt. rewrite L. apply opening_over; [exact O|]. lo.
  - apply opening_over; [exact O|]. lo.
Qed.
Lemma chain_over : forall W A B (c : chain W A B) k di, all_ask c -> over_it k di ->
  exists di1, (forall w, d_on_seq c di w = (Ret di1, w)) /\ over_it (2 * generators c + k) di1.
Proof.
  induction c as [A|A B C s c IH]; intros k di P O; [exists di; split; [reflexivity|exact O]|].
  destruct P as [P1 P]. destruct (stage_over _ _ _ s k di P1 O) as (di1 & E1 & O1). destruct (IH (rise s + k) di1 P O1) as (di2 & E2 & O2).
  exists di2. split.
  - intros w. cbn [d_on_seq]. unfold bind. now rewrite E1.
  - assert (Q : 2 * generators (Next s c) + k = 2 * generators c + (rise s + k)) by (destruct s; cbn; lia). rewrite Q. exact O2.
Qed.
Lemma overflows_drain : forall W A d w (g : dgen W A), overflows d w g -> exists n, forall fuel, n <= fuel -> d_drain fuel d g [] w = (Raise RecursionError, w).
Proof.
  intros W A d w g O. induction O as [g O|g g1 O _ [n IH]].
  - exists 1. intros fuel L. destruct fuel as [|fuel]; [lia|]. cbn. unfold bind. now rewrite O.
  - exists (S n). intros fuel L. destruct fuel as [|fuel]; [lia|]. cbn. unfold bind. rewrite O. apply IH. lia.
Qed.
Lemma chain_overflow : forall W A B (c : chain W A B) xs d (w : W), all_ask c -> d < 2 * generators c ->
  exists n, forall fuel, n <= fuel -> (do it <- d_on_seq c (d_of_list xs); d_to_list fuel d it) w = (Raise RecursionError, w).
Proof.
  intros W A B c xs d w P D. assert (O : over_it (W := W) 0 (d_of_list xs)) by (apply ret_over; intros d1 w1 L; lia).
  destruct (chain_over _ _ _ c 0 _ P O) as (di & E & g & E2 & O2). assert (D1 : d < 2 * generators c + 0) by lia.
  destruct (overflows_drain _ _ _ _ _ (O2 d w D1)) as [n H]. exists n. intros fuel L. unfold bind, d_to_list. rewrite E. unfold bind. rewrite E2. now apply H.
Qed.
