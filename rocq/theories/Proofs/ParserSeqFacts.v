(** Facts about parsers run one behind the other. *)
From Coq Require Import List Arith Lia.
From Verif.Model Require Import Base PyList OptionResult Block Parser ParserStar.
From Verif.Spec Require Import ParserSeqSpec.
Import ListNotations.
Local Open Scope list_scope.

Section Facts.
  Context {W A : Type}.
  Implicit Types (ps : list (parser W A)) (w : W).

  Lemma lift_cons : forall (p : parser W A) q i w, lift2 (fun h => ret (fun t => ret (Block.cons t h))) p q i w =
    match p i w with
    | (Ret (Ok (v, i1)), w1) => match q i1 w1 with (Ret (Ok (vs, i2)), w2) => (Ret (Ok (v :: vs, i2)), w2) | (Ret (Err e), w2) => (Ret (Err e), w2) | (Raise e, w2) => (Raise e, w2) end
    | (Ret (Err e), w1) => (Ret (Err e), w1)
    | (Raise e, w1) => (Raise e, w1)
    end.
  Proof.
    intros p q i w. unfold lift2, apply, Parser.map, and_then, preturn, Base.bind, ret. destruct (p i w) as [[[[v i1]|e]|e] w1]; cbn; try reflexivity.
    destruct (q i1 w1) as [[[[vs i2]|e]|e] w2]; reflexivity.
  Qed.
  Lemma sequence_long : forall limit ps, limit <= List.length ps -> sequence limit ps = Raise RecursionError.
  Proof. induction limit as [|n IH]; intros [|p ps] L; cbn in *; try reflexivity; [lia|]. rewrite IH; [reflexivity|lia]. Qed.
  Lemma sequence_each : forall limit ps, List.length ps < limit -> exists p, sequence limit ps = Ret p /\ forall i w, each ps i w (fst (p i w)) (snd (p i w)).
  Proof.
    induction limit as [|n IH]; intros [|p ps] L; cbn in *; try lia.
    - exists (preturn []). split; [reflexivity|]. intros i w. apply each_end.
    - destruct (IH ps ltac:(lia)) as (q & E & Q). rewrite E. eexists. split; [reflexivity|]. intros i w. rewrite lift_cons. destruct (p i w) as [[[[v i1]|e]|e] w1] eqn:P; cbn; [|eapply each_stop; [exact P|reflexivity]..].
      specialize (Q i1 w1). destruct (q i1 w1) as [[[[vs i2]|e]|e] w2]; cbn in *; [eapply each_more; eassumption|eapply each_later; [exact P|exact Q|exact I]..].
  Qed.
  Lemma each_unique : forall ps i w r1 w1, each ps i w r1 w1 -> forall r2 w2, each ps i w r2 w2 -> r1 = r2 /\ w1 = w2.
  Proof.
    assert (F : forall (r : res (presult A)) (q1 q2 : res (presult (list A))), failed_as r q1 -> failed_as r q2 -> q1 = q2).
    { intros [[?|?]|?] [[?|?]|?] [[?|?]|?]; cbn; intros; try tauto; subst; reflexivity. }
    induction 1 as [i w|p ps i w r q w1 P N|p ps i w v i1 w1 r w2 P _ IH U|p ps i w v i1 w1 vs i2 w2 P _ IH]; intros r2 w9 H; inversion H as [|? ? ? ? r' ? ? P1 N1|? ? ? ? ? ? ? ? ? P1 H1 U1|? ? ? ? ? ? ? ? ? ? P1 H1]; subst;
      try (rewrite P in P1; injection P1; intros; subst).
    - auto.
    - split; [eapply F; eassumption|reflexivity].
    - destruct r2 as [[?|?]|?]; cbn in N; tauto.
    - destruct N.
    - destruct r2 as [[?|?]|?]; cbn in N1; tauto.
    - exact (IH _ _ H1).
    - destruct (IH _ _ H1) as [-> _]. destruct U.
    - destruct N1.
    - destruct (IH _ _ H1) as [<- _]. destruct U1.
    - destruct (IH _ _ H1) as [E ->]. injection E as <- <-. auto.
  Qed.
  Lemma each_app : forall ps qs i w vs i1 w1 r2 w2, each ps i w (Ret (Ok (vs, i1))) w1 -> each qs i1 w1 r2 w2 -> each (ps ++ qs) i w (behind vs r2) w2.
  Proof.
    intros ps qs i w vs i1 w1 r2 w2 H. remember (Ret (Ok (vs, i1))) as r eqn:E. revert vs i1 E. induction H as [i w|p ps i w r q w1 P N|p ps i w v i1 w1 r w2' P _ IH U|p ps i w v i1 w1 vs i2' w2' P _ IH]; intros vs0 i0 E Q; subst.
    - injection E as <- <-. destruct r2 as [[[us i2]|e]|e]; exact Q.
    - destruct r as [[?|?]|?]; destruct N.
    - destruct U.
    - injection E as <- <-. specialize (IH _ _ eq_refl Q). destruct r2 as [[[us i2]|e]|e]; cbn in *; [eapply each_more; eassumption|eapply each_later; [exact P|exact IH|exact I]..].
  Qed.
  Lemma each_app_stop : forall ps qs i w r w1, each ps i w r w1 -> unmatched r -> each (ps ++ qs) i w r w1.
  Proof.
    intros ps qs i w r w1 H. induction H as [i w|p ps i w r q w1 P N|p ps i w v i1 w1 r w2' P _ IH U|p ps i w v i1 w1 vs i2' w2' P _ IH]; intros N1; try destruct N1.
    - eapply each_stop; eassumption.
    - eapply each_later; [exact P|exact (IH N1)|exact N1].
  Qed.
  Lemma each_length : forall ps i w vs i1 w1, each ps i w (Ret (Ok (vs, i1))) w1 -> List.length vs = List.length ps.
  Proof.
    intros ps i w vs i1 w1 H. remember (Ret (Ok (vs, i1))) as r eqn:E. revert vs i1 E. induction H as [i w|p ps i w r q w1 P N|p ps i w v i1 w1 r w2' P _ IH U|p ps i w v i1 w1 vs i2' w2' P _ IH]; intros vs0 i0 E; subst.
    - injection E as <- <-. reflexivity.
    - destruct r as [[?|?]|?]; destruct N.
    - destruct U.
    - injection E as <- <-. cbn. f_equal. exact (IH _ _ eq_refl).
  Qed.
  Lemma star_eq : forall C (f : list A -> M W C) p i w, starmap_args f (unpackable p) i w = with_all f (fst (p i w)) (snd (p i w)).
  Proof.
    intros C f p i w. unfold starmap_args, unpackable, Parser.map, Base.bind, ret. destruct (p i w) as [[[[vs i1]|e]|e] w1]; reflexivity.
  Qed.
End Facts.
