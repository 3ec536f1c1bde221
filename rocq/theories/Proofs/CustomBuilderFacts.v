(** A user's own builder. *)
From Coq Require Import List Bool Lia PeanoNat.
From Verif.Model Require Import Base OptionResult Builder.
From Verif.Spec Require Import BuilderSpec CustomBuilderSpec.
From Verif.Proofs Require Import BuilderFacts BuilderFacts2.
Import ListNotations.
Local Open Scope py_scope.

Section Custom.
  Context {W A Mo St : Type} (b : builder (pyopt A) Mo) (resume : St -> pyopt A -> W -> node (pyopt A) Mo St * W).
  Notation V := (pyopt A).
  Hypothesis unit_law : left_unit b.
  Hypothesis delay_law : eager_delay b.
  Let pure (m : Mo) (v : V) : Prop := m = b_return b v.
  Let bl : forall value u (f : V -> M (@bworld W A St) Mo) s, pure value u ->
    b_bind b value f s = match f u s with (Ret m, s1) => (Ret m, s1) | (Raise e, s1) => (Raise e, s1) end.
  Proof. intros value u f s ->. rewrite unit_law. destruct (f u s) as [[]]; reflexivity. Qed.
  Lemma gather_fold : forall vs r, gather b (fun x => x) r vs = fold_left (b_combine b) (List.map (b_return b) vs) r.
  Proof. induction vs as [|v vs IH]; intros r; cbn; [reflexivity|apply IH]. Qed.
  Lemma custom_whole : forall vs e, whole b (fun x => x) vs e = custom_value b vs e.
  Proof.
    intros [|v vs] [[|x]|e|m]; cbn; try reflexivity; rewrite ?fold_left_app, ?gather_fold, ?app_nil_r; reflexivity.
  Qed.
  Lemma custom_complete : forall s w vs e w1, body_gives resume s PyNone w vs e w1 ->
    settles (fun fuel => call_gen b resume fuel s w) (custom_value b vs e, w1).
  Proof.
    intros s w vs e w1 B. rewrite <- custom_whole.
    apply (call_complete b resume pure (fun x => x) bl (fun _ => eq_refl) (fun _ => eq_refl) (delay_law _)); exact B.
  Qed.
  Lemma custom_sound : forall fuel s w r w1, call_gen b resume fuel s w = (r, w1) -> r <> Raise OutOfFuel ->
    exists vs e, body_gives resume s PyNone w vs e w1 /\ r = custom_value b vs e.
  Proof.
    intros fuel s w r w1 C N.
    destruct (call_sound b resume pure (fun x => x) bl (fun _ => eq_refl) (fun _ => eq_refl) (delay_law _) _ _ _ _ _ C N)
      as (vs & e & B & ->). exists vs, e. split; auto. apply custom_whole.
  Qed.
  Lemma custom_call_pf : forall s w r w1, r <> Raise OutOfFuel ->
    (settles (fun fuel => call_gen b resume fuel s w) (r, w1) <->
     exists vs e, body_gives resume s PyNone w vs e w1 /\ r = custom_value b vs e).
  Proof.
    intros s w r w1 N. split.
    - intros [n S]. exact (custom_sound n s w r w1 (S n (le_n n)) N).
    - intros (vs & e & B & ->). apply custom_complete; exact B.
  Qed.
  Lemma custom_diverge : forall s w, (forall vs e w1, ~ body_gives resume s PyNone w vs e w1) ->
    forall fuel, fst (call_gen b resume fuel s w) = Raise OutOfFuel.
  Proof.
    intros s w D fuel. destruct (call_gen b resume fuel s w) as [r w1] eqn:C.
    assert (H : r = Raise OutOfFuel \/ r <> Raise OutOfFuel) by (destruct r as [|[]]; first [left; reflexivity|right; discriminate]).
    destruct H as [->|N]; [reflexivity|]. destruct (custom_sound _ _ _ _ _ C N) as (vs & e & B & _). exfalso. exact (D _ _ _ B).
  Qed.

  (** asynchronous: the same *)
  Hypothesis body : async_body resume.
  Lemma custom_aloop : forall fuel value v result s, in_body (bw_gen s) -> pure value v \/ bw_done s = true ->
    (exists r s1 s2, aloop b resume fuel value result s = (r, s1) /\ loop b resume fuel value result s = (r, s2) /\ bw s1 = bw s2).
  Proof.
    induction fuel as [|fuel IH]; intros value v result s I P.
    - do 3 eexists. repeat split.
    - cbn [aloop loop]. destruct (bw_done s) eqn:D; [do 3 eexists; repeat split|].
      destruct P as [P|P]; [|discriminate]. rewrite (bl _ v) by exact P. rewrite (bl _ v (binder b resume)) by exact P.
      destruct s as [w g d]. cbn in D, I. subst d. unfold abinder, binder, bind, asend, bsend. cbn [bw bw_gen bw_done].
      destruct g as [s| | |]; try contradiction; cbn [send].
      + unfold run_body. pose proof (body s v w) as Bd. destruct (resume s v w) as [[[|x]|e|m|u s1|u us s1|u us s1] w1]; cbn in Bd; try contradiction.
        * do 3 eexists; repeat split.
        * destruct e; do 3 eexists; repeat split.
        * rewrite !delay_law. cbn. apply (IH _ v); [exact Logic.I|right; reflexivity].
        * rewrite !delay_law. cbn. apply (IH _ u); [exact Logic.I|left; reflexivity].
      + do 3 eexists; repeat split.
  Qed.
  Lemma custom_acall : forall fuel s w, acall_gen b resume fuel s w = call_gen b resume fuel s w.
  Proof.
    intros fuel s w. unfold acall_gen, call_gen, abinder, binder, bind, asend, bsend. cbn [bw bw_gen bw_done send].
    unfold run_body. pose proof (body s PyNone w) as Bd.
    destruct (resume s PyNone w) as [[[|x]|e|m|u s1|u us s1|u us s1] w1]; cbn in Bd; try contradiction.
    - reflexivity.
    - destruct e; reflexivity.
    - rewrite !delay_law. destruct fuel; reflexivity.
    - rewrite !delay_law. cbn.
      destruct (custom_aloop fuel (b_return b u) u (b_return b u) (BW w1 (GBody s1) false) Logic.I (or_introl eq_refl)) as ([r|e] & s3 & s4 & -> & -> & Ew);
        rewrite Ew; reflexivity.
  Qed.
End Custom.

(** A bind that does not call the function: the loop never ends. *)
Lemma lazy_loop : forall W A Mo St (b : builder (pyopt A) Mo) (resume : St -> pyopt A -> W -> node (pyopt A) Mo St * W), lazy_bind b ->
  forall fuel value result s, bw_done s = false -> loop b resume fuel value result s = (Raise OutOfFuel, s).
Proof.
  intros W A Mo St b resume L. induction fuel as [|fuel IH]; intros value result s D; [reflexivity|].
  cbn [loop]. rewrite D. destruct (L value) as [m1 H]. rewrite H. apply IH; exact D.
Qed.
Lemma lazy_call_pf : forall W A Mo St (b : builder (pyopt A) Mo) (resume : St -> pyopt A -> W -> node (pyopt A) Mo St * W) s w v s1 w1,
  lazy_bind b -> eager_delay b -> resume s PyNone w = (NYield v s1, w1) ->
  forall fuel, call_gen b resume fuel s w = (Raise OutOfFuel, w1).
Proof.
  intros W A Mo St b resume s w v s1 w1 L D E fuel. unfold call_gen, binder, bind, bsend. cbn [bw bw_gen bw_done send].
  unfold run_body. rewrite E, D. cbn [ret]. unfold ret. rewrite lazy_loop by (exact L || reflexivity). reflexivity.
Qed.
