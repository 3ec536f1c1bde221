(** Lemmas about AsyncSeq. *)
From Coq Require Import List ZArith Bool Lia.
From Verif.Model Require Import Base PyList Gen AsyncSeq.
From Verif.Model Require Seq.
From Verif.Spec Require Import ListM AsyncSeqSpec.
From Verif.Proofs Require Import SeqFacts SeqFacts2 SeqFacts3.
Import ListNotations.
Local Open Scope py_scope.

Lemma in_async_ret : forall W X (m : M W X) w x w1, m w = (Ret x, w1) -> in_async m w = (Ret x, w1).
Proof. intros W X m w x w1 E. unfold in_async. rewrite E. reflexivity. Qed.
Lemma in_async_raise : forall W X (m : M W X) w e w1, m w = (Raise e, w1) -> in_async m w = (leaving (Raise e), w1).
Proof. intros W X m w e w1 E. unfold in_async. rewrite E. destruct e; reflexivity. Qed.
Lemma in_async_outside : forall W X (m : M W X), in_async m ==m outside m.
Proof. intros W X m w. unfold in_async, outside. destruct (m w) as [[x|e] w1]; [reflexivity|destruct e; reflexivity]. Qed.
Lemma leaving_twice : forall X (r : res X), leaving (leaving r) = leaving r.
Proof. intros X [x|e]; [reflexivity|destruct e; reflexivity]. Qed.
Lemma leaving_raise : forall X Y e, exists e1, leaving (Raise e : res X) = Raise e1 /\ leaving (Raise e : res Y) = Raise e1.
Proof. intros X Y e. destruct e; eexists; split; reflexivity. Qed.

Ltac stp_ret E := cbn; unfold bind; cbn; erewrite in_async_ret by exact E; cbn; try reflexivity.
Lemma step_raise : forall W A B (m : M W A) (k : A -> M W B) w e w1 X, m w = (Raise e, w1) -> exists e1, (bind (in_async m) k w = (Raise e1, w1) /\ e1 <> StopIterationExn) /\ leaving (Raise e : res X) = Raise e1.
Proof.
  intros W A B m k w e w1 X E. destruct (leaving_raise A X e) as (e1 & H1 & H2). exists e1. split; [split|exact H2].
  - unfold bind. rewrite (in_async_raise _ _ _ _ _ _ E), H1. reflexivity.
  - intros ->. destruct e; discriminate.
Qed.
Lemma raw_raise' : forall W A (g : gen W A) w e w1, match g with Gen n => n w end = (Raise e, w1) /\ e <> StopIterationExn -> produces g w [] (Raise e) w1.
Proof. intros W A [n] w e w1 [E N]. apply pr_raise. cbn. rewrite E. destruct e; try reflexivity. now contradiction N. Qed.
Lemma produces_raise : forall W A B (g : gen W B) (m : M W A) k w e w1, m w = (Raise e, w1) -> match g with Gen n => n w end = bind (in_async m) k w -> produces g w [] (leaving (Raise e)) w1.
Proof. intros W A B g m k w e w1 E H. destruct (step_raise W A _ m k w e w1 unit E) as (e1 & H1 & ->). apply raw_raise'. rewrite H. exact H1. Qed.

Section Each.
  Context {W A B S : Type}.
  Implicit Types g : gen W A.
  Variable F : S -> A -> turn S B.
  Fixpoint outs (s : S) (l : list A) : list B :=
    match l with [] => [] | x :: l => match F s x with Give y s => y :: outs s l | Drop s => outs s l | Leave => [] end end.
  Fixpoint goes (s : S) (l : list A) : Prop :=
    match l with [] => True | x :: l => match F s x with Give _ s => goes s l | Drop s => goes s l | Leave => False end end.
  Fixpoint after (s : S) (l : list A) : S :=
    match l with [] => s | x :: l => match F s x with Give _ s => after s l | Drop s => after s l | Leave => s end end.

  Lemma each_produces : forall g w l r w1, produces g w l r w1 -> forall s, goes s l ->
    produces (each (fun s x => ret (F s x)) s g) w (outs s l) (leaving r) w1.
  Proof.
    induction 1 as [g w w1 E|g w e w1 E|g w g1 w1 l r w2 E P IH|g w x g1 w1 l r w2 E P IH]; intros s G; cbn [outs goes] in *.
    - apply pr_stop. stp_ret E.
    - eapply produces_raise; [exact E|reflexivity].
    - eapply pr_skip; [stp_ret E|auto].
    - destruct (F s x) as [y s1|s1|] eqn:X; [eapply pr_yield|eapply pr_skip|contradiction]; [|auto| |auto]; stp_ret E; rewrite X; reflexivity.
  Qed.
  Lemma each_pulled : forall g w l g1 w1, pulled g w l g1 w1 -> forall s, goes s l ->
    l = [] \/ (exists l0 x y s1, l = l0 ++ [x] /\ F (after s l0) x = Give y s1) ->
    pulled (each (fun s x => ret (F s x)) s g) w (outs s l) (each (fun s x => ret (F s x)) (after s l) g1) w1.
  Proof.
    induction 1 as [g w|g w g1 w1 x l g2 w2 E P IH|g w x g1 w1 l g2 w2 E P IH]; intros s G L.
    - cbn. apply pu_none.
    - specialize (IH s G L). destruct (outs s (x :: l)) as [|b bs] eqn:O.
      + exfalso. destruct L as [L|(l0 & z & y & s1 & L & H)]; [discriminate|]. clear - L G O H. rewrite L in *. clear L x l. revert s G O H. induction l0 as [|a l0 IH]; intros s G O H; cbn in *; [rewrite H in O; discriminate|].
        destruct (F s a); [discriminate|eauto|contradiction].
      + eapply pu_skip; [stp_ret E|exact IH].
    - assert (L' : l = [] \/ exists l0 z y s1, l = l0 ++ [z] /\ F (after (after s [x]) l0) z = Give y s1).
      { destruct L as [L|(l0 & z & y & s1 & L & H)]; [discriminate|]. destruct l0 as [|a l0]; cbn in L; injection L as -> ->; [left; reflexivity|right]. exists l0, z, y, s1. split; [reflexivity|]. cbn in *. destruct (F s a); [exact H|exact H|contradiction]. }
      cbn [goes outs after] in *. destruct (F s x) as [y s1|s1|] eqn:X; [|  |contradiction].
      + eapply pu_yield; [|apply IH; auto]. stp_ret E. rewrite X. reflexivity.
      + destruct L' as [->|L']; [exfalso; destruct L as [L|(l0 & z & y & s2 & L & H)]; [discriminate|]; destruct l0 as [|a [|b l0]]; try discriminate; injection L as ->; cbn in H; congruence|].
        specialize (IH s1 G (or_intror L')). destruct (outs s1 l) as [|b bs] eqn:O.
        * exfalso. destruct L' as (l0 & z & y & s2 & Q & H). clear - Q G O H. rewrite Q in *. clear Q l. revert s1 G O H. induction l0 as [|a l0 IH]; intros s G O H; cbn in *; [rewrite H in O; discriminate|]. destruct (F s a); [discriminate|eauto|contradiction].
        * eapply pu_skip; [|exact IH]. stp_ret E. rewrite X. reflexivity.
  Qed.
  Lemma each_leaves : forall g w l0 g1 w1, pulled g w l0 g1 w1 -> forall l x s, l0 = l ++ [x] -> goes s l -> F (after s l) x = Leave ->
    produces (each (fun s x => ret (F s x)) s g) w (outs s l) (Ret tt) w1.
  Proof.
    induction 1 as [g w|g w g1 w1 y l0 g2 w2 E P IH|g w y g1 w1 l0 g2 w2 E P IH]; intros l x s Q G H.
    - destruct l; discriminate.
    - eapply pr_skip; [stp_ret E|eauto].
    - destruct l as [|z l]; cbn in Q; injection Q as -> Q.
      + subst l0. cbn in H. inversion P; subst. apply pr_stop. stp_ret E. rewrite H. reflexivity.
      + cbn [goes outs after] in *. destruct (F s z) as [b s1|s1|] eqn:X; [eapply pr_yield|eapply pr_skip|contradiction]; try (eapply IH; eassumption); stp_ret E; rewrite X; reflexivity.
  Qed.
End Each.

Section Script.
  Context {W A B S : Type}.
  Variable body : S -> A -> M W (turn S B).
  Fixpoint each_emit (s : S) (ms : list (M W A)) (w : W) : list B * res unit * W :=
    match ms with
    | [] => ([], Ret tt, w)
    | m :: ms =>
        match (do x <- m; body s x) w with
        | (Ret (Give y s), w1) => let '(l, r, w2) := each_emit s ms w1 in (y :: l, r, w2)
        | (Ret (Drop s), w1) => each_emit s ms w1
        | (Ret Leave, w1) => ([], Ret tt, w1)
        | (Raise e, w1) => ([], Raise e, w1)
        end
    end.
  Lemma each_script : forall ms s w, Forall no_stop ms -> let '(l, r, w1) := each_emit s ms w in produces (each body s (script_gen ms)) w l (leaving r) w1.
  Proof.
    induction ms as [|m ms IH]; intros s w N; cbn [each_emit].
    - apply pr_stop. reflexivity.
    - inversion N as [|? ? N1 N2]; subst. specialize (N1 w). unfold bind at 1. destruct (m w) as [[x|e] w1] eqn:E.
      + pose proof (script_step _ _ m ms w x w1 E) as E1. destruct (body s x w1) as [[t|e] w2] eqn:Bx.
        * assert (St : step (each body s (script_gen (m :: ms))) w = (Ret match t with Give y s => Yield y (each body s (script_gen ms)) | Drop s => Skip (each body s (script_gen ms)) | Leave => Stop end, w2)).
          { revert E1. generalize (script_gen (m :: ms)). intros g0 E1. stp_ret E1. unfold bind. erewrite in_async_ret by exact Bx. reflexivity. }
          destruct t as [y s1|s1|].
          -- specialize (IH s1 w2 N2). destruct (each_emit s1 ms w2) as [[l r] w3]. eapply pr_yield; eassumption.
          -- specialize (IH s1 w2 N2). destruct (each_emit s1 ms w2) as [[l r] w3]. eapply pr_skip; eassumption.
          -- apply pr_stop, St.
        * destruct (step_raise W _ _ (body s x) (fun t => ret match t with Give y s => Yield y (each body s (script_gen ms)) | Drop s => Skip (each body s (script_gen ms)) | Leave => Stop end) w1 e w2 unit Bx) as (e1 & H1 & ->).
          apply raw_raise'. revert E1. generalize (script_gen (m :: ms)). intros g0 E1. stp_ret E1. exact H1.
      + eapply (produces_raise _ _ _ _ (step (script_gen (m :: ms)))); [apply script_step_raise; [exact E|cbn in N1; congruence]|reflexivity].
  Qed.
End Script.

Section Started.
  Context {W A B : Type}.
  Lemma started_ret : forall (src : iterable W A) (k : gen W A -> gen W B) w g w1 l r w2, src w = (Ret g, w1) -> produces (k g) w1 l r w2 -> produces (started src k) w l r w2.
  Proof. intros src k w g w1 l r w2 E P. eapply pr_skip; [stp_ret E|exact P]. Qed.
  Lemma started_raise : forall (src : iterable W A) (k : gen W A -> gen W B) w e w1, src w = (Raise e, w1) -> produces (started src k) w [] (leaving (Raise e)) w1.
  Proof. intros src k w e w1 E. eapply produces_raise; [exact E|reflexivity]. Qed.
  Lemma started_iterates : forall (src : iterable W A) (k : gen W A -> gen W B) (L : list A -> list B) w l r w2, L [] = [] ->
    (forall g w1, produces g w1 l r w2 -> produces (k g) w1 (L l) (leaving r) w2) -> iterates src w l r w2 -> produces (started src k) w (L l) (leaving r) w2.
  Proof.
    intros src k L w l r w2 L0 H [(g & w1 & E & P)|(e & E & -> & ->)]; [eapply started_ret; eauto|]. rewrite L0. apply started_raise, E.
  Qed.
  Lemma started_pulled : forall (src : iterable W A) (k : gen W A -> gen W B) w g w1 x l g2 w2, src w = (Ret g, w1) -> pulled (k g) w1 (x :: l) g2 w2 -> pulled (started src k) w (x :: l) g2 w2.
  Proof. intros src k w g w1 x l g2 w2 E P. eapply pu_skip; [stp_ret E|exact P]. Qed.
End Started.
