(** Computation expressions that mix Options and Results. *)
From Coq Require Import List Bool Lia.
From Verif.Model Require Import Base OptionResult Builder Mixed.
From Verif.Spec Require Import BuilderSpec CustomBuilderSpec MixedSpec.
From Verif.Proofs Require Import BuilderFacts BuilderFacts2 CustomBuilderFacts.
Import ListNotations.
Local Open Scope py_scope.

Section Values.
  Context {A Mo : Type}.
  Notation V := (pyopt A).
  Notation U := Mo.

  (** A combine that keeps the second when the first is [pure]. *)
  Lemma last_wins : forall (b : builder V U) (pure : V -> U),
    (forall v, b_return b v = pure v) -> (forall v y, b_combine b (pure v) y = y) ->
    forall vs v ms, fold_left (b_combine b) (List.map (b_return b) vs ++ ms) (pure v) =
                    fold_left (b_combine b) ms (last_of (pure v) pure vs).
  Proof.
    intros b pure R C. induction vs as [|u vs IH]; intros v ms; cbn; [reflexivity|]. rewrite R, C. apply IH.
  Qed.
  Lemma last_pure : forall (pure : V -> U) vs v, exists u, last_of (pure v) pure vs = pure u.
  Proof.
    intros pure vs. unfold last_of. induction vs as [|u vs IH]; intros v; cbn; [exists v; reflexivity|apply IH].
  Qed.
  Lemma mixed_value : forall (b : builder V U) (pure : V -> U),
    (forall v, b_return b v = pure v) -> (forall v y, b_combine b (pure v) y = y) ->
    (forall m, b_return_from b m = m) -> (forall m, b_run b m = m) ->
    forall vs e, custom_value b vs e = expression_value (b_zero b) pure vs e.
  Proof.
    intros b pure R C F N vs e. unfold custom_value, expression_value, combined, statements.
    destruct vs as [|v vs].
    - destruct e as [[|x]|e|m]; cbn; rewrite ?N, ?R, ?F; reflexivity.
    - destruct (last_pure pure vs v) as [u L]. cbn [List.map app]. rewrite R.
      destruct e as [[|x]|e|m]; try reflexivity; rewrite N, (last_wins b pure R C), ?L; cbn [fold_left last_of].
      + unfold last_of in L. rewrite <- L. reflexivity.
      + rewrite C, R. reflexivity.
      + rewrite C, F. reflexivity.
  Qed.
End Values.

Section Bodies.
  Context {W A E St : Type} (resume : St -> pyopt A -> W -> node (pyopt A) (outcome A E) St * W).
  Notation V := (pyopt A).
  Notation U := (outcome A E).
  Lemma mixed_option_pf : forall s w r w1, r <> Raise OutOfFuel ->
    (settles (fun fuel => call_gen mixed_option_builder resume fuel s w) (r, w1) <->
     exists vs e, body_gives resume s PyNone w vs e w1 /\ r = expression_value (UOpt None) (fun v => UOpt (Some v)) vs e).
  Proof.
    intros s w r w1 N. rewrite (custom_call_pf mixed_option_builder resume) by (exact N || (intros ? ? ? ?; reflexivity) || (intros ? ?; reflexivity)).
    split; intros (vs & e & B & ->); exists vs, e; (split; [exact B|]); [|symmetry];
      apply (mixed_value mixed_option_builder (fun v => UOpt (Some v))); reflexivity.
  Qed.
  Lemma mixed_result_pf : forall s w r w1, r <> Raise OutOfFuel ->
    (settles (fun fuel => call_gen mixed_result_builder resume fuel s w) (r, w1) <->
     exists vs e, body_gives resume s PyNone w vs e w1 /\ r = expression_value (URes (Ok PyNone)) (fun v => URes (Ok v)) vs e).
  Proof.
    intros s w r w1 N. rewrite (custom_call_pf mixed_result_builder resume) by (exact N || (intros ? ? ? ?; reflexivity) || (intros ? ?; reflexivity)).
    split; intros (vs & e & B & ->); exists vs, e; (split; [exact B|]); [|symmetry];
      apply (mixed_value mixed_result_builder (fun v => URes (Ok v))); reflexivity.
  Qed.
  Hypothesis body : async_body resume.
  Lemma mixed_async_option_pf : forall s w r w1, r <> Raise OutOfFuel ->
    (settles (fun fuel => acall_gen mixed_async_option_builder resume fuel s w) (r, w1) <->
     settles (fun fuel => call_gen mixed_option_builder resume fuel s w) (r, w1)).
  Proof.
    intros s w r w1 N. rewrite mixed_option_pf by exact N.
    assert (L : left_unit (@mixed_async_option_builder A E)) by (intros ? ? ? ?; reflexivity).
    assert (D : eager_delay (@mixed_async_option_builder A E)) by (intros ? ?; reflexivity).
    transitivity (settles (fun fuel => call_gen mixed_async_option_builder resume fuel s w) (r, w1)).
    - unfold settles. split; intros [n H]; exists n; intros fuel F; rewrite <- (H fuel F); [symmetry|];
        apply custom_acall; assumption.
    - rewrite (custom_call_pf mixed_async_option_builder resume L D) by exact N.
      split; intros (vs & e & B & ->); exists vs, e; (split; [exact B|]); [|symmetry];
        apply (mixed_value mixed_async_option_builder (fun v => UOpt (Some v))); reflexivity.
  Qed.
  Lemma mixed_async_result_pf : forall s w r w1, r <> Raise OutOfFuel ->
    (settles (fun fuel => acall_gen mixed_async_result_builder resume fuel s w) (r, w1) <->
     settles (fun fuel => call_gen mixed_result_builder resume fuel s w) (r, w1)).
  Proof.
    intros s w r w1 N. rewrite mixed_result_pf by exact N.
    assert (L : left_unit (@mixed_async_result_builder A E)) by (intros ? ? ? ?; reflexivity).
    assert (D : eager_delay (@mixed_async_result_builder A E)) by (intros ? ?; reflexivity).
    transitivity (settles (fun fuel => call_gen mixed_async_result_builder resume fuel s w) (r, w1)).
    - unfold settles. split; intros [n H]; exists n; intros fuel F; rewrite <- (H fuel F); [symmetry|];
        apply custom_acall; assumption.
    - rewrite (custom_call_pf mixed_async_result_builder resume L D) by exact N.
      split; intros (vs & e & B & ->); exists vs, e; (split; [exact B|]); [|symmetry];
        apply (mixed_value mixed_async_result_builder (fun v => URes (Ok v))); reflexivity.
  Qed.
End Bodies.

(** The kind of the outcome. *)
Lemma fails_only : forall W A E St (resume : St -> pyopt A -> W -> node (pyopt A) (outcome A E) St * W) bad,
  never_fails bad resume -> forall s v w vs e w1, body_gives resume s v w vs e w1 -> forall u, e = EFail u -> ~ bad u.
Proof.
  intros W A E St resume bad N s v w vs e w1 B. induction B; intros u0 Q; try discriminate Q; auto.
  injection Q as ->. eapply N. rewrite H. reflexivity.
Qed.
Lemma value_kind : forall A E (P : outcome A E -> Prop) zero (pure : pyopt A -> outcome A E) vs e u, P zero -> (forall v, P (pure v)) ->
  (forall m, e = EFail m -> P m) -> expression_value zero pure vs e = Ret u -> P u.
Proof.
  intros A E P zero pure vs e u Z Pu F H. destruct e as [[|x]|e|m]; cbn in H; try discriminate; injection H as <-; auto.
  unfold last_of. revert Z. generalize zero. induction vs as [|v vs IH]; intros z Z; cbn; auto.
Qed.
Lemma not_option : forall A E (u : outcome A E), ~ is_result u -> is_option u.
Proof. intros A E [o|r] H; [exists o; reflexivity|exfalso; apply H; exists r; reflexivity]. Qed.
Lemma not_result : forall A E (u : outcome A E), ~ is_option u -> is_result u.
Proof. intros A E [o|r] H; [exfalso; apply H; exists o; reflexivity|exists r; reflexivity]. Qed.

(** do-notation *)
Lemma mixed_do_option_pf : forall W A E (t : tree W (pyopt A) (outcome A E)) w, returns_value t ->
  settles (fun fuel => call_gen mixed_option_builder (tree_resume yield_from) fuel (fun _ => t) w)
          (do_notation either_bind (fun v => UOpt (Some v)) t w).
Proof.
  intros W A E t w R.
  destruct (do_gives (W := W) (A := A) yield_from (@inside A E) (fun v => UOpt (Some v)) either_bind (UOpt None))
    with (t := t) (w := w) (k := fun _ : pyopt A => t) (v := @PyNone A) as (vs & e & w1 & B & D); auto.
  - intros [[v|]|[v|er]] k; reflexivity.
  - intros m f w0. unfold either_bind. destruct (inside m); reflexivity.
  - rewrite D. assert (X : custom_value (@mixed_option_builder A E) vs e = expression_value (UOpt None) (fun v => UOpt (Some v)) vs e)
      by (apply (mixed_value mixed_option_builder (fun v => UOpt (Some v))); reflexivity).
    rewrite <- X. apply custom_complete; [intros ? ? ? ?; reflexivity|intros ? ?; reflexivity|exact B].
Qed.
Lemma mixed_do_result_pf : forall W A E (t : tree W (pyopt A) (outcome A E)) w, returns_value t ->
  settles (fun fuel => call_gen mixed_result_builder (tree_resume yield_from) fuel (fun _ => t) w)
          (do_notation either_bind (fun v => URes (Ok v)) t w).
Proof.
  intros W A E t w R.
  destruct (do_gives (W := W) (A := A) yield_from (@inside A E) (fun v => URes (Ok v)) either_bind (URes (Ok PyNone)))
    with (t := t) (w := w) (k := fun _ : pyopt A => t) (v := @PyNone A) as (vs & e & w1 & B & D); auto.
  - intros [[v|]|[v|er]] k; reflexivity.
  - intros m f w0. unfold either_bind. destruct (inside m); reflexivity.
  - rewrite D. assert (X : custom_value (@mixed_result_builder A E) vs e = expression_value (URes (Ok PyNone)) (fun v => URes (Ok v)) vs e)
      by (apply (mixed_value mixed_result_builder (fun v => URes (Ok v))); reflexivity).
    rewrite <- X. apply custom_complete; [intros ? ? ? ?; reflexivity|intros ? ?; reflexivity|exact B].
Qed.

(** seq *)
Section Seqs.
  Context {W A E St : Type} (resume : St -> pyopt A -> W -> node (pyopt A) (mseq A E) St * W).
  Notation V := (pyopt A).
  Notation b := (@mixed_seq_builder A E).
  Notation BW := (@BW W A St).
  Lemma mseq_bind_one : forall (value : mseq A E) v (f : V -> M (@bworld W A St) (mseq A E)) s, elements value = ([v], None) ->
    b_bind b value f s = match f v s with
                         | (Ret m, s1) => match elements m with (ys, None) => (Ret (QList (ys ++ [])), s1) | (_, Some e) => (Raise e, s1) end
                         | (Raise e, s1) => (Raise e, s1)
                         end.
  Proof.
    intros value v f s P. cbn. unfold mseq_bind, bind at 1. rewrite P. cbn. unfold bind at 1.
    destruct (f v s) as [[m|e] s1]; [|reflexivity]. destruct (elements m) as [ys [e|]]; reflexivity.
  Qed.
  Lemma seq_binder : forall v w g, binder b resume v (BW w g false) =
    match send resume g v w with
    | (SYield u, g1, w1) => (Ret (QSeq [u]), BW w1 g1 false)
    | (SFail m, g1, w1) => (Ret m, BW w1 g1 true)
    | (SStop (PyVal x), g1, w1) => (Ret (QSeq [PyVal x]), BW w1 g1 true)
    | (SStop PyNone, g1, w1) => (Raise StopIterationExn, BW w1 g1 true)
    | (SRaise e, g1, w1) => (Raise e, BW w1 g1 false)
    end.
  Proof. intros. apply (binder_send b resume (fun f => eq_refl)). Qed.
  Lemma concat_elements : forall (x y : mseq A E) vs us, elements x = (vs, None) -> elements y = (us, None) ->
    elements (QConcat x y) = (vs ++ us, None).
  Proof. intros x y vs us X Y. cbn. rewrite X, Y. reflexivity. Qed.

  Lemma seq_loop_fail : forall g v w vs e w1, sends resume g v w vs e w1 -> forall u, fails_with e u ->
    forall value result, elements value = ([v], None) ->
    exists n, forall fuel, n <= fuel -> exists s1, loop b resume fuel value result (BW w g false) = (Raise EffectErrorExn, s1) /\ bw s1 = w1.
  Proof.
    induction 1 as [g v w x g1 w1 Q|g v w m g1 w1 Q|g v w e g1 w1 Q|g v w u0 g1 w1 vs e w2 Q S IH];
      intros u [F I] value result P; try discriminate F.
    - injection F as ->. exists 1. intros [|fuel] L; [lia|]. cbn [loop bw_done]. rewrite (mseq_bind_one _ v) by exact P.
      rewrite seq_binder, Q. assert (X : elements (QOut u) = ([], Some EffectErrorExn)) by (destruct u as [[]|[]]; try discriminate I; reflexivity).
      rewrite X. eexists; split; reflexivity.
    - destruct (IH u (conj F I) (QList ([u0] ++ [])) (QConcat result (QList ([u0] ++ []))) eq_refl) as [n Hn].
      exists (Datatypes.S n). intros [|fuel] L; [lia|]. destruct (Hn fuel) as (s1 & E1 & W1); [lia|].
      cbn [loop bw_done]. rewrite (mseq_bind_one _ v) by exact P. rewrite seq_binder, Q. exists s1. split; auto.
  Qed.
  Lemma seq_loop_value : forall g v w vs e w1, sends resume g v w vs e w1 -> no_failure e ->
    forall value result us, elements value = ([v], None) -> elements result = (us, None) ->
    exists n r, (forall fuel, n <= fuel -> exists s1, loop b resume fuel value result (BW w g false) = (r, s1) /\ bw s1 = w1) /\
      match e with EThrow x => r = Raise x | _ => exists x, r = Ret x /\ elements x = (us ++ all_values vs e, None) end.
  Proof.
    induction 1 as [g v w x g1 w1 Q|g v w m g1 w1 Q|g v w e g1 w1 Q|g v w u0 g1 w1 vs e w2 Q S IH];
      intros F value result us P R; try contradiction F.
    - destruct x as [|x].
      + exists 1, (Ret result). split; [|exists result; rewrite app_nil_r; auto].
        intros [|fuel] L; [lia|]. cbn [loop bw_done]. rewrite (mseq_bind_one _ v) by exact P. rewrite seq_binder, Q. eexists; split; reflexivity.
      + exists 2, (Ret (QConcat result (QList [PyVal x]))). split; [|eexists; split; [reflexivity|apply concat_elements; auto]].
        intros [|[|fuel]] L; try lia. cbn [loop bw_done]. rewrite (mseq_bind_one _ v) by exact P. rewrite seq_binder, Q. eexists; split; reflexivity.
    - exists 1, (Raise e). split; [|reflexivity]. intros [|fuel] L; [lia|]. cbn [loop bw_done]. rewrite (mseq_bind_one _ v) by exact P.
      rewrite seq_binder, Q. apply send_not_stop in Q. eexists. split; [destruct e; try congruence; reflexivity|reflexivity].
    - destruct (IH F (QList ([u0] ++ [])) (QConcat result (QList ([u0] ++ []))) (us ++ [u0]) eq_refl (concat_elements result (QList [u0]) us [u0] R eq_refl)) as (n & r & Hn & Hr).
      exists (Datatypes.S n), r. split.
      + intros [|fuel] L; [lia|]. destruct (Hn fuel) as (s1 & E1 & W1); [lia|].
        cbn [loop bw_done]. rewrite (mseq_bind_one _ v) by exact P. rewrite seq_binder, Q. exists s1. split; auto.
      + destruct e as [x|x|m]; [|exact Hr|contradiction]. destruct Hr as (y & -> & Y). exists y. split; auto. rewrite Y, <- app_assoc. reflexivity.
  Qed.

  Lemma seq_first_failure_pf : forall s w e w1 u, body_gives resume s PyNone w [] e w1 -> fails_with e u ->
    settles (fun fuel => call_gen b resume fuel s w) (Ret (QOut u), w1).
  Proof.
    intros s w e w1 u B [-> I]. apply sends_body in B. inversion B; subst. exists 1. intros [|fuel] L; [lia|].
    unfold call_gen. rewrite seq_binder. match goal with Q : send _ _ _ _ = _ |- _ => rewrite Q end. reflexivity.
  Qed.
  Lemma seq_later_failure_pf : forall s w v vs e w1 u, body_gives resume s PyNone w (v :: vs) e w1 -> fails_with e u ->
    settles (fun fuel => call_gen b resume fuel s w) (Raise EffectErrorExn, w1).
  Proof.
    intros s w v vs e w1 u B F. apply sends_body in B. inversion B; subst.
    match goal with Q : send _ _ _ _ = _, S : sends _ _ _ _ _ _ _ |- _ =>
      destruct (seq_loop_fail _ _ _ _ _ _ S u F (QSeq [v]) (QSeq [v]) eq_refl) as [n Hn]; rename Q into QQ end.
    exists n. intros fuel L. destruct (Hn fuel L) as (s2 & E2 & <-). unfold call_gen. rewrite seq_binder, QQ, E2. reflexivity.
  Qed.
  Lemma seq_no_failure_pf : forall s w vs e w1, body_gives resume s PyNone w vs e w1 -> no_failure e ->
    exists r, settles (fun fuel => call_gen b resume fuel s w) (r, w1) /\
      match e with EThrow x => r = Raise x | _ => exists x, r = Ret x /\ elements x = (all_values vs e, None) end.
  Proof.
    intros s w vs e w1 B F. apply sends_body in B. inversion B as [? ? ? x ? ? Q|? ? ? m ? ? Q|? ? ? x ? ? Q|? ? ? u ? ? vs0 ? ? Q S]; subst.
    - destruct x as [|x].
      + exists (Ret (QSeq [])). split; [|eexists; split; reflexivity]. exists 0. intros fuel _. unfold call_gen. rewrite seq_binder, Q. reflexivity.
      + exists (Ret (QSeq [PyVal x])). split; [|eexists; split; reflexivity]. exists 1. intros [|fuel] L; [lia|]. unfold call_gen. rewrite seq_binder, Q. reflexivity.
    - contradiction F.
    - exists (Raise x). split; [|reflexivity]. exists 0. intros fuel _. unfold call_gen. rewrite seq_binder, Q. apply send_not_stop in Q. destruct x; try congruence; reflexivity.
    - destruct (seq_loop_value _ _ _ _ _ _ S F (QSeq [u]) (QSeq [u]) [u] eq_refl eq_refl) as (n & r & Hn & Hr).
      exists r. split; [|exact Hr]. exists n. intros fuel L. destruct (Hn fuel L) as (s2 & E2 & <-). unfold call_gen. rewrite seq_binder, Q, E2.
      destruct r; reflexivity.
  Qed.
End Seqs.
