(** The builders in expression/effect/. *)
From Coq Require Import List Bool Lia PeanoNat.
From Verif.Model Require Import Base OptionResult Builder.
From Verif.Spec Require Import ListM BuilderSpec.
From Verif.Proofs Require Import BuilderFacts.
Import ListNotations.
Local Open Scope py_scope.

Section Det.
  Context {W A Mo St : Type} (resume : St -> pyopt A -> W -> node (pyopt A) Mo St * W).
  Lemma call_gen_mono : forall (b : builder (pyopt A) Mo) fuel value result s r s1,
    loop b resume fuel value result s = (r, s1) -> r <> Raise OutOfFuel -> forall fuel', fuel <= fuel' ->
    loop b resume fuel' value result s = (r, s1).
  Proof.
    intros b. induction fuel as [|fuel IH]; intros value result s r s1 L N fuel' Le.
    - injection L; intros; subst; congruence.
    - destruct fuel' as [|fuel']; [lia|]. cbn [loop] in *. destruct (bw_done s); auto.
      destruct (b_bind b value (binder b resume) s) as [[m|e] s2]; auto. apply IH; auto; lia.
  Qed.
End Det.

Section OptionB.
  Context {W A St : Type} (resume : St -> pyopt A -> W -> node (pyopt A) (option (pyopt A)) St * W).
  Notation V := (pyopt A).
  Notation b := (@option_builder A).
  Let bl : forall (value : option V) u (f : V -> M (@bworld W A St) (option V)) s, value = Some u ->
    b_bind b value f s = match f u s with (Ret m, s1) => (Ret m, s1) | (Raise e, s1) => (Raise e, s1) end.
  Proof. intros value u f s ->. cbn. destruct (f u s) as [[]]; reflexivity. Qed.
  Lemma opt_gather : forall vs r v, gather b (fun x => x) (Some v) vs = r -> r = fold_left (fun _ v => Some v) vs (Some v).
  Proof. induction vs as [|u vs IH]; intros r v G; cbn in *; auto. Qed.
  Lemma opt_gather_some : forall vs v, exists u, gather b (fun x => x) (Some v) vs = Some u.
  Proof. induction vs as [|u vs IH]; intros v; cbn in *; [eauto|apply (IH u)]. Qed.
  Lemma opt_whole : forall vs e, whole b (fun x => x) vs e = expression_value None Some vs e.
  Proof.
    intros [|v vs] [[|x]|e|m]; cbn; try reflexivity; destruct (opt_gather_some vs v) as [u E]; rewrite ?E; try reflexivity.
    erewrite <- opt_gather; [|reflexivity]. rewrite E. reflexivity.
  Qed.
  Lemma option_complete : forall s w vs e w1, body_gives resume s PyNone w vs e w1 ->
    settles (fun fuel => call_gen b resume fuel s w) (expression_value None Some vs e, w1).
  Proof.
    intros s w vs e w1 B. rewrite <- opt_whole. eapply (call_complete b resume (fun m u => m = Some u) (fun x => x)); auto.
  Qed.
  Lemma option_sound : forall fuel s w r w1, call_gen b resume fuel s w = (r, w1) -> r <> Raise OutOfFuel ->
    exists vs e, body_gives resume s PyNone w vs e w1 /\ r = expression_value None Some vs e.
  Proof.
    intros fuel s w r w1 C N.
    destruct (call_sound b resume (fun m u => m = Some u) (fun x => x) bl (fun _ => eq_refl) (fun _ => eq_refl) (fun _ => eq_refl) _ _ _ _ _ C N)
      as (vs & e & B & ->). exists vs, e. split; auto. apply opt_whole.
  Qed.
End OptionB.

Section ResultB.
  Context {W A E St : Type} (resume : St -> pyopt A -> W -> node (pyopt A) (result (pyopt A) E) St * W).
  Notation V := (pyopt A).
  Notation b := (@result_builder A E).
  Let bl : forall (value : result V E) u (f : V -> M (@bworld W A St) (result V E)) s, value = Ok u ->
    b_bind b value f s = match f u s with (Ret m, s1) => (Ret m, s1) | (Raise e, s1) => (Raise e, s1) end.
  Proof. intros value u f s ->. cbn. destruct (f u s) as [[]]; reflexivity. Qed.
  Lemma res_gather : forall vs r v, gather b (fun x => x) (Ok v) vs = r -> r = fold_left (fun _ v => Ok v) vs (Ok v).
  Proof. induction vs as [|u vs IH]; intros r v G; cbn in *; auto. Qed.
  Lemma res_gather_ok : forall vs v, exists u, gather b (fun x => x) (Ok v) vs = Ok u.
  Proof. induction vs as [|u vs IH]; intros v; cbn in *; [eauto|apply (IH u)]. Qed.
  Lemma res_whole : forall vs e, whole b (fun x => x) vs e = expression_value (Ok PyNone) Ok vs e.
  Proof.
    intros [|v vs] [[|x]|e|m]; cbn; try reflexivity; destruct (res_gather_ok vs v) as [u H]; rewrite ?H; try reflexivity.
    erewrite <- res_gather; [|reflexivity]. rewrite H. reflexivity.
  Qed.
  Lemma result_complete : forall s w vs e w1, body_gives resume s PyNone w vs e w1 ->
    settles (fun fuel => call_gen b resume fuel s w) (expression_value (Ok PyNone) Ok vs e, w1).
  Proof.
    intros s w vs e w1 B. rewrite <- res_whole. eapply (call_complete b resume (fun m u => m = Ok u) (fun x => x)); auto.
  Qed.
  Lemma result_sound : forall fuel s w r w1, call_gen b resume fuel s w = (r, w1) -> r <> Raise OutOfFuel ->
    exists vs e, body_gives resume s PyNone w vs e w1 /\ r = expression_value (Ok PyNone) Ok vs e.
  Proof.
    intros fuel s w r w1 C N.
    destruct (call_sound b resume (fun m u => m = Ok u) (fun x => x) bl (fun _ => eq_refl) (fun _ => eq_refl) (fun _ => eq_refl) _ _ _ _ _ C N)
      as (vs & e & B & ->). exists vs, e. split; auto. apply res_whole.
  Qed.
End ResultB.

(** ** do-notation *)
Section Trees.
  Context {W A N : Type} (from : N -> (pyopt A -> tree W (pyopt A) N) -> node (pyopt A) N (pyopt A -> tree W (pyopt A) N))
    (view : N -> option (pyopt A)) (pure : pyopt A -> N) (bind : N -> (pyopt A -> M W N) -> M W N) (zero : N).
  Hypothesis from_law : forall m k, from m k = match view m with Some v => NYield v k | None => NFail m end.
  Hypothesis bind_view : forall m f w, bind m f w = match view m with Some v => f v w | None => ret m w end.
  Hypothesis view_pure : forall v, view (pure v) = Some v.
  Lemma never_none : forall k v w vs e w1, body_gives (tree_resume from) k v w vs e w1 -> (forall x, returns_value (k x)) ->
    e <> EReturn PyNone.
  Proof.
    assert (G : forall t0 w0, returns_value t0 -> forall w1, tree_step from t0 w0 <> (NReturn PyNone, w1)).
    { induction t0; intros w0 R0 w2; inversion R0; subst; cbn; try discriminate; auto.
      rewrite from_law. destruct (view m); discriminate. }
    assert (G2 : forall t0 w0 u0 k0 w1, returns_value t0 -> tree_step from t0 w0 = (NYield u0 k0, w1) -> forall x, returns_value (k0 x)).
    { induction t0; intros w0 u0 k0 w2 R0 T; inversion R0; subst; cbn in T; try discriminate; eauto.
      - injection T; intros; subst; auto.
      - rewrite from_law in T. destruct (view m); [injection T; intros; subst; auto|discriminate]. }
    assert (G3 : forall t0 w0, (forall u0 us k0 w1, tree_step from t0 w0 <> (NFromSeq u0 us k0, w1)) /\
                               (forall u0 us k0 w1, tree_step from t0 w0 <> (NFromList u0 us k0, w1))).
    { induction t0; intros w0; cbn; try (split; discriminate); auto. rewrite from_law. destruct (view m); split; discriminate. }
    intros k v w vs e w1 B R. induction B; unfold tree_resume in *; try discriminate.
    - intros Q; injection Q; intros; subst. eapply G; [|eassumption]. auto.
    - apply IHB. eapply G2; [|eassumption]. auto.
    - exfalso; eapply (proj1 (G3 _ _)); eassumption.
    - exfalso; eapply (proj2 (G3 _ _)); eassumption.
  Qed.
  Lemma value_of_cons : forall e u vs, e <> EReturn PyNone -> expression_value zero pure (u :: vs) e = expression_value zero pure vs e.
  Proof. intros [[|x]|e|m] u vs N0; try reflexivity. congruence. Qed.
  Lemma do_gives : forall t, returns_value t -> forall w k v, tree_step from (k v) w = tree_step from t w ->
    exists vs e w1, body_gives (tree_resume from) k v w vs e w1 /\ do_notation bind pure t w = (expression_value zero pure vs e, w1).
  Proof.
    induction 1 as [x|e|u f R IH|m f R IH|g f R IH]; intros w k v Ek; cbn in Ek.
    - exists [], (EReturn (PyVal x)), w. split; [constructor; exact Ek|reflexivity].
    - eexists [], (EThrow _), w. split; [constructor; exact Ek|]. reflexivity.
    - destruct (IH u w f u eq_refl) as (vs & e & w1 & B & D). exists (u :: vs), e, w1. split; [eapply bg_yield; eauto|].
      cbn [do_notation]. rewrite bind_view, view_pure, D, value_of_cons; auto. eapply never_none; eauto.
    - rewrite from_law in Ek. destruct (view m) as [u|] eqn:Em.
      + destruct (IH u w f u eq_refl) as (vs & e & w1 & B & D). exists (u :: vs), e, w1. split; [eapply bg_yield; eauto|].
        cbn [do_notation]. rewrite bind_view, Em, D, value_of_cons; auto. eapply never_none; eauto.
      + exists [], (EFail m), w. split; [constructor; exact Ek|]. cbn [do_notation]. rewrite bind_view, Em. reflexivity.
    - destruct (IH w (g w) (fun _ => f w) v eq_refl) as (vs & e & w1 & B & D). exists vs, e, w1. split; [|exact D].
      clear -B Ek. inversion B; subst;
        repeat match goal with H : tree_resume _ (fun _ => _) _ _ = _ |- _ => unfold tree_resume in H; rewrite <- Ek in H end;
        [eapply bg_return|eapply bg_throw|eapply bg_fail|eapply bg_yield|eapply bg_from_seq|eapply bg_from_list|eapply bg_from_list_value]; eauto.
  Qed.
End Trees.

Lemma C47_option_pf : forall W A (t : tree W (pyopt A) (option (pyopt A))) w, returns_value t ->
  settles (fun fuel => call_gen option_builder (tree_resume yield_from_option) fuel (fun _ => t) w) (do_notation opt_bind Some t w).
Proof.
  intros W A t w R.
  destruct (do_gives (W := W) (A := A) yield_from_option (fun m => m) Some opt_bind None) with (t := t) (w := w) (k := fun _ : pyopt A => t) (v := @PyNone A)
    as (vs & e & w1 & B & D); auto.
  - intros [v|] k; reflexivity.
  - intros [v|] f w0; reflexivity.
  - rewrite D. apply option_complete; exact B.
Qed.
Lemma C47_result_pf : forall W A E (t : tree W (pyopt A) (result (pyopt A) E)) w, returns_value t ->
  settles (fun fuel => call_gen result_builder (tree_resume yield_from_result) fuel (fun _ => t) w) (do_notation res_bind Ok t w).
Proof.
  intros W A E t w R.
  destruct (do_gives (W := W) (A := A) yield_from_result (fun m : result (pyopt A) E => match m with Ok v => Some v | Err _ => None end) Ok res_bind (Ok PyNone))
    with (t := t) (w := w) (k := fun _ : pyopt A => t) (v := @PyNone A) as (vs & e & w1 & B & D); auto.
  - intros [v|] k; reflexivity.
  - intros [v|] f w0; reflexivity.
  - rewrite D. apply result_complete; exact B.
Qed.

(** ** seq *)
Section SeqB.
  Context {W A St : Type} (resume : St -> pyopt A -> W -> node (pyopt A) (sq A) St * W).
  Notation V := (pyopt A).
  Notation b := (@seq_builder A).
  Notation norm := (fun m : sq A => SqList (sq_elems m ++ [])).
  Let bl : forall (value : sq A) u (f : V -> M (@bworld W A St) (sq A)) s, sq_elems value = [u] ->
    b_bind b value f s = match f u s with (Ret m, s1) => (Ret (norm m), s1) | (Raise e, s1) => (Raise e, s1) end.
  Proof. intros value u f s Q. cbn. rewrite Q. cbn. unfold bind. destruct (f u s) as [[]]; reflexivity. Qed.
  Lemma sq_gather : forall vs r, sq_elems (gather b norm r vs) = sq_elems r ++ vs.
  Proof. induction vs as [|v vs IH]; intros r; [cbn; rewrite app_nil_r; reflexivity|].
    change (gather b norm r (v :: vs)) with (gather b norm (SqConcat r (SqList [v])) vs). rewrite IH. cbn. rewrite <- app_assoc. reflexivity. Qed.
  Lemma sq_whole : forall vs e, rmap sq_elems (whole b norm vs e) = sequence_value sq_elems vs e.
  Proof. intros [|v vs] [[|x]|e|m]; cbn -[gather]; try reflexivity; rewrite sq_gather; cbn; rewrite ?app_nil_r; reflexivity. Qed.
  Lemma sq_gather_frames : forall vs r, sq_frames (gather b norm r vs) = 2 * length vs + sq_frames r.
  Proof. induction vs as [|v vs IH]; intros r; [reflexivity|].
    change (gather b norm r (v :: vs)) with (gather b norm (SqConcat r (SqList [v])) vs). rewrite IH. cbn. lia. Qed.
  Lemma seq_complete : forall s w vs e w1, body_gives resume s PyNone w vs e w1 ->
    settles (fun fuel => call_gen b resume fuel s w) (whole b norm vs e, w1).
  Proof. intros s w vs e w1 B. eapply (call_complete b resume (fun m u => sq_elems m = [u]) norm); auto. Qed.
  Lemma seq_sound : forall fuel s w r w1, call_gen b resume fuel s w = (r, w1) -> r <> Raise OutOfFuel ->
    exists vs e, body_gives resume s PyNone w vs e w1 /\ r = whole b norm vs e.
  Proof.
    intros fuel s w r w1 C N.
    exact (call_sound b resume (fun m u => sq_elems m = [u]) norm bl (fun _ => eq_refl) (fun _ => eq_refl) (fun _ => eq_refl) _ _ _ _ _ C N).
  Qed.
End SeqB.

Lemma C50_bind_pf : forall W A (xs : sq A) (fn : pyopt A -> M W (sq A)),
  b_bind seq_builder xs fn ==m (do rs <- ListM.mapM fn (sq_elems xs); ret (SqList (concat (map sq_elems rs))))%py.
Proof.
  intros W A xs fn w. cbn [b_bind seq_builder].
  assert (E : forall l w, sq_bind_list l fn w = (do rs <- ListM.mapM fn l; ret (concat (map sq_elems rs)))%py w).
  { induction l as [|x l IH]; intros v; [reflexivity|]. cbn [sq_bind_list ListM.mapM]. unfold bind. destruct (fn x v) as [[y|e] v1]; [|reflexivity].
    rewrite IH. unfold bind. destruct (ListM.mapM fn l v1) as [[ys|e] v2]; reflexivity. }
  unfold bind at 1. rewrite E. unfold bind. destruct (ListM.mapM fn (sq_elems xs) w) as [[]]; reflexivity.
Qed.

(** ** asynchronous builders *)
Section Async.
  Context {W A Mo St : Type} (ab b : builder (pyopt A) Mo) (resume : St -> pyopt A -> W -> node (pyopt A) Mo St * W).
  Hypothesis body : async_body resume.
  Hypothesis same_return : b_return ab = b_return b.
  Hypothesis same_return_from : b_return_from ab = b_return_from b.
  Hypothesis same_combine : b_combine ab = b_combine b.
  Hypothesis same_zero : b_zero ab = b_zero b.
  Hypothesis same_run : b_run ab = b_run b.
  Hypothesis delay_a : forall (f : unit -> M (@bworld W A St) Mo), b_delay ab f = f tt.
  Hypothesis delay_s : forall (f : unit -> M (@bworld W A St) Mo), b_delay b f = f tt.
  Hypothesis same_bind : forall m (f : pyopt A -> M (@bworld W A St) Mo) s, b_bind ab m f s = b_bind b m f s.
  (** binding is calling the function on the one value or not at all *)
  Hypothesis bind_cases : forall m, (exists v, forall (f : pyopt A -> M (@bworld W A St) Mo) s, b_bind b m f s = f v s) \/
                                    (forall (f : pyopt A -> M (@bworld W A St) Mo) s, b_bind b m f s = (Ret m, s)).
  Definition in_body (g : gstate A St) : Prop := match g with GBody _ | GDone => True | _ => False end.
  Lemma asend_bsend : forall v s, in_body (bw_gen s) ->
    (exists m s1, abinder ab resume v s = (Ret m, s1) /\ binder b resume v s = (Ret m, s1) /\ in_body (bw_gen s1)) \/
    (exists e s1 s2, abinder ab resume v s = (Raise e, s1) /\ binder b resume v s = (Raise e, s2) /\ bw s1 = bw s2).
  Proof.
    intros v [w g d] I. cbn in I. unfold abinder, binder, bind, asend, bsend. cbn [bw bw_gen bw_done].
    destruct g as [s| | |]; try contradiction; cbn [send].
    - unfold run_body. pose proof (body s v w) as Bd. destruct (resume s v w) as [[[|x]|e|m|u s1|u us s1|u us s1] w1]; cbn in Bd; try contradiction.
      + right. do 3 eexists. repeat split.
      + right. do 3 eexists. repeat split.
      + left. rewrite delay_a, delay_s, same_return_from. do 2 eexists. repeat split.
      + left. rewrite delay_a, delay_s, same_return. do 2 eexists. repeat split.
    - right. do 3 eexists. repeat split.
  Qed.
  Lemma aloop_loop : forall fuel value result s, in_body (bw_gen s) ->
    (exists r s1 s2, aloop ab resume fuel value result s = (r, s1) /\ loop b resume fuel value result s = (r, s2) /\ bw s1 = bw s2).
  Proof.
    induction fuel as [|fuel IH]; intros value result s I.
    - do 3 eexists. repeat split.
    - cbn [aloop loop]. destruct (bw_done s); [do 3 eexists; repeat split|].
      rewrite same_bind, same_combine. destruct (bind_cases value) as [[v Hb]|Hb]; rewrite !Hb.
      + destruct (asend_bsend v s I) as [(m & s1 & -> & -> & I1)|(e & s1 & s2 & -> & -> & Ew)].
        * apply IH; exact I1.
        * destruct e; do 3 eexists; repeat split; exact Ew.
      + apply IH; exact I.
  Qed.
  Lemma acall_call : forall fuel s w, acall_gen ab resume fuel s w = call_gen b resume fuel s w.
  Proof.
    intros fuel s w. unfold acall_gen, call_gen.
    destruct (asend_bsend PyNone (BW w (GBody s) false) I) as [(m & s1 & -> & -> & I1)|(e & s1 & s2 & -> & -> & Ew)].
    - destruct (aloop_loop fuel m m s1 I1) as ([r|e] & s3 & s4 & -> & -> & Ew); rewrite Ew, ?same_run; reflexivity.
    - destruct e; rewrite Ew, ?same_run, ?same_zero; reflexivity.
  Qed.
End Async.

Lemma C51_option_pf : forall W A St (resume : St -> pyopt A -> W -> node (pyopt A) (option (pyopt A)) St * W), async_body resume ->
  forall fuel s w, acall_gen async_option_builder resume fuel s w = call_gen option_builder resume fuel s w.
Proof.
  intros W A St resume B. apply acall_call; auto. intros [v|]; [left; exists v|right]; intros; reflexivity.
Qed.
Lemma C51_result_pf : forall W A E St (resume : St -> pyopt A -> W -> node (pyopt A) (result (pyopt A) E) St * W), async_body resume ->
  forall fuel s w, acall_gen async_result_builder resume fuel s w = call_gen result_builder resume fuel s w.
Proof.
  intros W A E St resume B. apply acall_call; auto. intros [v|]; [left; exists v|right]; intros; reflexivity.
Qed.

(** ** the properties *)
Section Pf.
  Context {W A E St : Type}.
  Notation V := (pyopt A).
  Lemma C47_option_body_pf : forall (resume : St -> V -> W -> node V (option V) St * W) s w r w1, r <> Raise OutOfFuel ->
    (settles (fun fuel => call_gen option_builder resume fuel s w) (r, w1) <->
     exists vs e, body_gives resume s PyNone w vs e w1 /\ r = expression_value None Some vs e).
  Proof.
    intros resume s w r w1 N. split.
    - intros [n Hn]. eapply option_sound; [apply (Hn n); lia|exact N].
    - intros (vs & e & B & ->). apply option_complete; exact B.
  Qed.
  Lemma C47_result_body_pf : forall (resume : St -> V -> W -> node V (result V E) St * W) s w r w1, r <> Raise OutOfFuel ->
    (settles (fun fuel => call_gen result_builder resume fuel s w) (r, w1) <->
     exists vs e, body_gives resume s PyNone w vs e w1 /\ r = expression_value (Ok PyNone) Ok vs e).
  Proof.
    intros resume s w r w1 N. split.
    - intros [n Hn]. eapply result_sound; [apply (Hn n); lia|exact N].
    - intros (vs & e & B & ->). apply result_complete; exact B.
  Qed.
  Lemma fuel_dec : forall X (r : res X), {r = Raise OutOfFuel} + {r <> Raise OutOfFuel}.
  Proof. intros X [x|e]; [right; discriminate|]. destruct e; try (right; discriminate). left; reflexivity. Qed.
  Lemma C47_diverge_pf :
    (forall (resume : St -> V -> W -> node V (option V) St * W) s w, (forall vs e w1, ~ body_gives resume s PyNone w vs e w1) ->
       forall fuel, fst (call_gen option_builder resume fuel s w) = Raise OutOfFuel) /\
    (forall (resume : St -> V -> W -> node V (result V E) St * W) s w, (forall vs e w1, ~ body_gives resume s PyNone w vs e w1) ->
       forall fuel, fst (call_gen result_builder resume fuel s w) = Raise OutOfFuel).
  Proof.
    split; intros resume s w H fuel.
    - destruct (call_gen option_builder resume fuel s w) as [r w1] eqn:C. cbn. destruct (fuel_dec _ r) as [|N]; auto.
      exfalso. destruct (option_sound _ _ _ _ _ _ C N) as (vs & e & B & _). exact (H _ _ _ B).
    - destruct (call_gen result_builder resume fuel s w) as [r w1] eqn:C. cbn. destruct (fuel_dec _ r) as [|N]; auto.
      exfalso. destruct (result_sound _ _ _ _ _ _ C N) as (vs & e & B & _). exact (H _ _ _ B).
  Qed.

  Lemma last_of_snoc : forall Mo (zero : Mo) (pure : V -> Mo) vs v, last_of zero pure (vs ++ [v]) = pure v.
  Proof. intros. unfold last_of. rewrite fold_left_app. reflexivity. Qed.

  Lemma sq_value : forall vs e x, whole (@seq_builder A) (fun m : sq A => SqList (sq_elems m ++ [])) vs e = Ret x ->
    sequence_value sq_elems vs e = Ret (sq_elems x).
  Proof. intros vs e x Q. rewrite <- sq_whole, Q. reflexivity. Qed.
  Lemma C50_pf : forall (resume : St -> V -> W -> node V (sq A) St * W) s w r w1, r <> Raise OutOfFuel ->
    (settles (fun fuel => (rmap sq_elems (fst (call_gen seq_builder resume fuel s w)), snd (call_gen seq_builder resume fuel s w))) (r, w1) <->
     exists vs e, body_gives resume s PyNone w vs e w1 /\ r = sequence_value sq_elems vs e).
  Proof.
    intros resume s w r w1 N. split.
    - intros [n Hn]. specialize (Hn n (le_n n)). destruct (call_gen seq_builder resume n s w) as [r0 w0] eqn:C. cbn in Hn.
      injection Hn; intros; subst. assert (N0 : r0 <> Raise OutOfFuel) by (intros ->; apply N; reflexivity).
      destruct (seq_sound _ _ _ _ _ _ C N0) as (vs & e & B & ->). exists vs, e. split; auto. apply sq_whole.
    - intros (vs & e & B & ->). destruct (seq_complete _ _ _ _ _ _ B) as [n Hn]. exists n. intros fuel L. rewrite (Hn fuel L). cbn [fst snd].
      rewrite sq_whole. reflexivity.
  Qed.
  Lemma C50_iterate_pf : forall (resume : St -> V -> W -> node V (sq A) St * W) s w vs v w1 limit,
    body_gives resume s PyNone w vs (EReturn v) w1 -> 2 * length vs + 1 <= limit ->
    exists x, settles (fun fuel => call_gen seq_builder resume fuel s w) (Ret x, w1) /\
      sq_iterate limit x = Ret (vs ++ match v with PyNone => [] | PyVal _ => [v] end).
  Proof.
    intros resume s w vs v w1 limit B L. pose proof (seq_complete _ _ _ _ _ _ B) as C.
    assert (Wh : exists x, whole seq_builder (fun m : sq A => SqList (sq_elems m ++ [])) vs (EReturn v) = Ret x /\ sq_frames x <= 2 * length vs + 1).
    { destruct vs as [|u vs]; destruct v as [|v]; cbn -[gather]; eexists; (split; [reflexivity|]); cbn -[gather]; try lia; rewrite sq_gather_frames; cbn; lia. }
    destruct Wh as (x & Ex & Fx). rewrite Ex in C. exists x. split; [exact C|].
    pose proof (sq_value _ _ _ Ex) as Q. unfold sq_iterate.
    replace (Nat.leb (sq_frames x) limit) with true by (symmetry; apply Nat.leb_le; lia).
    destruct v; cbn in Q; injection Q; intros <-; rewrite ?app_nil_r; reflexivity.
  Qed.
End Pf.

(** the body [yield n; yield n-1; ...; yield 1] *)
Definition countdown {Mo W} (s : nat) (v : pyopt nat) (w : W) : node (pyopt nat) Mo nat * W :=
  match s with 0 => (NReturn PyNone, w) | S s' => (NYield (PyVal s) s', w) end.
Fixpoint down (n : nat) : list (pyopt nat) := match n with 0 => [] | S m => PyVal n :: down m end.
Lemma countdown_gives : forall Mo W n v (w : W), body_gives (countdown (Mo := Mo)) n v w (down n) (EReturn PyNone) w.
Proof. induction n as [|n IH]; intros v w; [constructor; reflexivity|]. eapply bg_yield; [reflexivity|apply IH]. Qed.
Lemma down_length : forall n, length (down n) = n.
Proof. induction n; cbn; auto. Qed.
Lemma C50_recursion_pf : forall limit, exists n x, settles (fun fuel => call_gen seq_builder countdown fuel n tt) (Ret x, tt) /\
  sq_elems x = down n /\ sq_iterate limit x = Raise RecursionError.
Proof.
  intros limit. exists (S limit). pose proof (seq_complete _ _ _ _ _ _ (countdown_gives (sq nat) unit (S limit) PyNone tt)) as C.
  set (N := fun m : sq nat => SqList (sq_elems m ++ [])) in *.
  assert (Q : whole seq_builder N (down (S limit)) (EReturn PyNone) = Ret (gather seq_builder N (SqSeq [PyVal (S limit)]) (down limit))) by reflexivity.
  rewrite Q in C. eexists. split; [exact C|]. split; [unfold N; rewrite sq_gather; reflexivity|].
  unfold sq_iterate. unfold N. rewrite sq_gather_frames, down_length. cbn [sq_frames].
  destruct (Nat.leb_spec (2 * limit + 1) limit); [lia|reflexivity].
Qed.
