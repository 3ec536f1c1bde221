(** Lemmas for C112. *)
From Coq Require Import List Bool ZArith Lia Arith.
From Verif.Model Require Import Base PyList OptionResult Block Parser ParserDepth.
From Verif.Spec Require Import ParserSpec DepthSpec.
From Verif.Proofs Require Import ParserFacts ParserFacts2.
Import ListNotations.
Local Open Scope list_scope.
Local Open Scope py_scope.

Section Facts.
  Context {W : Type}.
  Implicit Types (w : W) (d : nat) (input : remaining).

  Lemma run_same : forall A (dp : dparser W A) p, same_or_overflow dp p ->
    forall d input w, d_run dp d input w = p input w \/ fst (d_run dp d input w) = Raise RecursionError.
  Proof. intros A dp p H [|d] input w; [right; reflexivity|apply H]. Qed.

  (* what follows a run that agrees or overflows *)
  Lemma bind_same : forall A B (m m' : M W A) (k k' : A -> M W B) w,
    (m w = m' w \/ fst (m w) = Raise RecursionError) ->
    (forall x w1, k x w1 = k' x w1 \/ fst (k x w1) = Raise RecursionError) ->
    Base.bind m k w = Base.bind m' k' w \/ fst (Base.bind m k w) = Raise RecursionError.
  Proof.
    intros A B m m' k k' w [E|E] K; unfold Base.bind.
    - rewrite E. destruct (m' w) as [[x|e] w1]; [apply K|left; reflexivity].
    - right. destruct (m w) as [[x|e] w1]; cbn in E; [discriminate|]. cbn. congruence.
  Qed.
  Lemma framed_same : forall A d (k : nat -> M W A) m w, (forall d, k d w = m w \/ fst (k d w) = Raise RecursionError) ->
    framed d k w = m w \/ fst (framed d k w) = Raise RecursionError.
  Proof. intros A [|d] k m w H; [right; reflexivity|apply H]. Qed.

  Lemma nested_same : forall n A (dp : dparser W A) p, nested W n A dp p -> same_or_overflow dp p.
  Proof.
    induction 1; intros d input w.
    - apply framed_same. auto.
    - apply framed_same. auto.
    - apply framed_same. auto.
    - apply framed_same. intros d1. apply bind_same; [now apply run_same|].
      intros [[v i1]|e] w1; [|auto]. apply bind_same; [now apply run_same|]. intros [[v2 i2]|e] w2; auto.
    - apply framed_same. intros d1. apply bind_same; [now apply run_same|].
      intros [[v i1]|e] w1; [auto|]. now apply run_same.
    - apply framed_same. intros d1. apply bind_same; [now apply run_same|].
      intros [[v i1]|e] w1; [|auto]. apply bind_same; [|auto]. apply framed_same. auto.
    - apply framed_same. intros d1. apply bind_same; [now apply run_same|].
      intros [[v i1]|e] w1; [|auto]. unfold framed, Base.bind. destruct d1 as [|d1]; [right; reflexivity|].
      specialize (H0 v w1). specialize (H1 v w1).
      destruct (g v w1) as [[r|e] w2] eqn:E; cbn; [|auto]. eapply H1. reflexivity.
  Qed.

  Lemma run_enough : forall A n (dp : dparser W A) p, enough n dp p -> forall d input w, n < d -> d_run dp d input w = p input w.
  Proof. intros A n dp p H [|d] input w L; [lia|]. apply H. lia. Qed.

  Lemma bind_enough : forall A B (m m' : M W A) (k k' : A -> M W B) w,
    m w = m' w -> (forall x w1, k x w1 = k' x w1) -> Base.bind m k w = Base.bind m' k' w.
  Proof. intros A B m m' k k' w E K. unfold Base.bind. rewrite E. destruct (m' w) as [[x|e] w1]; [apply K|reflexivity]. Qed.
  Lemma enough_le : forall A n m (dp : dparser W A) p, enough n dp p -> n <= m -> enough m dp p.
  Proof. intros A n m dp p H L d input w L1. apply H. lia. Qed.

  Lemma nested_enough : forall n A (dp : dparser W A) p, nested W n A dp p -> enough (2 * n + 1) dp p.
  Proof.
    induction 1; intros d input w L; (destruct d as [|d]; [lia|]).
    - reflexivity.
    - reflexivity.
    - reflexivity.
    - apply (enough_le _ _ (2 * Nat.max n m + 1)) in IHnested1; [|lia]. apply (enough_le _ _ (2 * Nat.max n m + 1)) in IHnested2; [|lia].
      apply bind_enough; [eapply run_enough; [eassumption|lia]|].
      intros [[v i1]|e] w1; [|auto]. apply bind_enough; [eapply run_enough; [eassumption|lia]|]. reflexivity.
    - apply (enough_le _ _ (2 * Nat.max n m + 1)) in IHnested1; [|lia]. apply (enough_le _ _ (2 * Nat.max n m + 1)) in IHnested2; [|lia].
      apply bind_enough; [eapply run_enough; [eassumption|lia]|].
      intros [[v i1]|e] w1; [auto|]. eapply run_enough; [eassumption|lia].
    - apply bind_enough; [eapply run_enough; [eassumption|lia]|].
      intros [[v i1]|e] w1; [|auto]. destruct d as [|d]; [lia|]. reflexivity.
    - apply (enough_le _ _ (2 * Nat.max n m + 1)) in IHnested; [|lia].
      apply bind_enough; [eapply run_enough; [eassumption|lia]|].
      intros [[v i1]|e] w1; [|auto]. destruct d as [|d]; [lia|]. cbn [framed]. unfold Base.bind.
      specialize (H1 v w1). destruct (g v w1) as [[r|e] w2] eqn:E; cbn; [|reflexivity].
      specialize (H1 r w2 eq_refl). apply (enough_le _ _ (2 * Nat.max n m + 1)) in H1; [|lia].
      apply H1. lia.
  Qed.

  (* below the need *)
  Lemma run_little : forall A n (dp : dparser W A), too_little n dp -> forall d input w, d <= n -> fst (d_run dp d input w) = Raise RecursionError.
  Proof. intros A n dp H [|d] input w L; [reflexivity|]. apply H. lia. Qed.
  Lemma bind_raises : forall A B (m : M W A) (k : A -> M W B) w e, fst (m w) = Raise e -> fst (Base.bind m k w) = Raise e.
  Proof. intros A B m k w e E. unfold Base.bind. destruct (m w) as [[x|e'] w1]; cbn in *; congruence. Qed.

  (* alternatives nest to the left *)
  Fixpoint alternatives {A} (p : dparser W A) (ps : list (dparser W A)) : dparser W A :=
    match ps with [] => p | q :: ps => alternatives (d_or_else p q) ps end.
  Lemma choice_alternatives : forall A (p : dparser W A) ps, d_choice (p :: ps) = Ret (alternatives p ps).
  Proof. intros A p ps. unfold d_choice, reduce. cbn. revert p. induction ps as [|q ps IH]; intros p; cbn; [reflexivity|]. apply IH. Qed.
  Lemma alternatives_little : forall A ps (p : dparser W A) n, too_little n p -> too_little (n + 2 * List.length ps) (alternatives p ps).
  Proof.
    intros A. induction ps as [|q ps IH]; intros p n H; cbn [alternatives List.length].
    - intros d input w L. apply H. lia.
    - replace (n + 2 * S (List.length ps)) with ((n + 2) + 2 * List.length ps) by lia. apply IH.
      intros [|d] input w L; [reflexivity|]. unfold d_or_else. cbn [framed]. apply bind_raises. eapply run_little; [eassumption|lia].
  Qed.

  Lemma bind_ok : forall A B (m : M W A) (k : A -> M W B) w x w1, m w = (Ret x, w1) -> Base.bind m k w = k x w1.
  Proof. intros A B m k w x w1 E. unfold Base.bind. now rewrite E. Qed.

  Lemma lift2_little : forall A B C (fn : A -> M W (B -> M W C)) dp dq, too_little 9 (d_lift2 fn dp dq).
  Proof. intros A B C fn dp dq d input w L. do 9 (destruct d as [|d]; [reflexivity|]). lia. Qed.
  Lemma lift2_second_little : forall A B C (fn : A -> M W (B -> M W C)) dp p dq n input w x i1 w1 g w2,
    enough 1 dp p -> p input w = (Ret (Ok (x, i1)), w1) -> fn x w1 = (Ret g, w2) ->
    (forall d, d < n -> fst (dq d i1 w2) = Raise RecursionError) ->
    forall d, d < n + 4 -> fst (d_lift2 fn dp dq d input w) = Raise RecursionError.
  Proof.
    intros A B C fn dp p dq n input w x i1 w1 g w2 En E Ef L d Ld.
    destruct (Nat.lt_ge_cases d 9) as [H|H]; [now apply lift2_little|].
    do 9 (destruct d as [|d]; [lia|]). unfold d_lift2, d_apply at 1, d_map. cbn [framed].
    apply bind_raises. unfold d_run. cbn [framed]. unfold d_and_then at 1. cbn [framed].
    assert (X : d_run (d_apply (d_preturn fn) dp) (6 + d) input w = (Ret (Ok (g, i1)), w2)).
    { unfold d_apply, d_map, d_and_then, d_run, d_preturn, preturn, ret. cbn [framed Nat.add].
      unfold Base.bind. rewrite En by lia. rewrite E. cbn. now rewrite Ef. }
    erewrite bind_ok by exact X. apply bind_raises. apply L. lia.
  Qed.

  Lemma nested_lift2 : forall n m A B C (fn : A -> M W (B -> M W C)) dp p dq q,
    nested W n A dp p -> nested W m B dq q -> nested W (Nat.max (n + 4) (m + 2)) _ (d_lift2 fn dp dq) (lift2 fn p q).
  Proof.
    intros n m A B C fn dp p dq q Hp Hq.
    replace (Nat.max (n + 4) (m + 2)) with (S (S (Nat.max (S (S (Nat.max 0 n))) m))) by lia.
    unfold d_lift2, lift2, d_apply, apply. repeat first [apply n_map | apply n_and_then | apply n_preturn | assumption].
  Qed.
  Lemma sequence_nested : forall cs limit q, sequence limit (List.map (fun c => pchar (W := W) [c]) cs) = Ret q ->
    exists h, nested W h _ (d_sequence (List.map (fun c => d_pchar [c]) cs)) q /\ h <= 2 * List.length cs + 2.
  Proof.
    induction cs as [|c cs IH]; intros [|limit] q E; cbn [List.map sequence] in E; try discriminate.
    - injection E as <-. exists 0. split; [constructor|lia].
    - destruct (sequence limit _) as [t|] eqn:Et; [|discriminate]. cbn in E. injection E as <-.
      destruct (IH limit t Et) as (h & N & L). eexists. split.
      + cbn [List.map d_sequence]. apply nested_lift2; [constructor|exact N].
      + cbn [List.length]. lia.
  Qed.
  Lemma pstring_enough : forall s limit q, pstring (W := W) limit s = Ret q -> enough (4 * List.length s + 7) (d_pstring s) q.
  Proof.
    intros s limit q E. unfold pstring in E. destruct (sequence limit _) as [t|] eqn:Et; [|discriminate]. cbn in E. injection E as <-.
    destruct (sequence_nested s limit t Et) as (h & N & L).
    eapply enough_le; [apply nested_enough; apply n_map; exact N|]. lia.
  Qed.
  Lemma rest_of_next : forall t pos c cs, (0 <= pos)%Z -> rest_of (t, pos) = c :: cs -> rest_of (t, (pos + 1)%Z) = cs.
  Proof.
    intros t pos c cs L E. unfold rest_of in *. cbn [fst snd] in *. replace (Z.to_nat (pos + 1)) with (S (Z.to_nat pos)) by lia.
    revert E. generalize (Z.to_nat pos). induction t as [|x t IH]; intros [|n] E; cbn in *; try discriminate; [congruence|].
    apply IH. exact E.
  Qed.
  Lemma sequence_little : forall cs c t pos rest w d, (0 <= pos)%Z -> rest_of (t, pos) = (c :: cs) ++ rest ->
    d < 4 * List.length cs + 9 -> fst (d_sequence (List.map (fun c => d_pchar [c]) (c :: cs)) d (t, pos) w) = Raise RecursionError.
  Proof.
    induction cs as [|c1 cs IH]; intros c t pos rest w d P E L.
    - cbn [List.map d_sequence]. apply lift2_little. cbn in L. lia.
    - change (d_sequence (List.map (fun c => d_pchar [c]) (c :: c1 :: cs))) with
        (d_lift2 (fun h => ret (fun t => ret (Block.cons t h))) (d_pchar (W := W) [c]) (d_sequence (List.map (fun c => d_pchar [c]) (c1 :: cs)))).
      eapply lift2_second_little with (n := 4 * List.length cs + 9) (p := pchar [c]).
      + intros [|d1] input w1 L1; [lia|reflexivity].
      + rewrite pchar_text by exact P. unfold rest_of in E. cbn [fst snd] in E. rewrite E. cbn [app].
        unfold str_eqb. destruct (list_eq_dec Nat.eq_dec [c] [c]); [reflexivity|congruence].
      + reflexivity.
      + intros d1 L1. eapply IH with (rest := rest); [lia| |exact L1].
        apply (rest_of_next t pos c); [exact P|exact E].
      + cbn [List.length] in L. lia.
  Qed.
  Lemma pstring_little : forall s t pos rest w d, (0 <= pos)%Z -> s <> [] -> rest_of (t, pos) = s ++ rest ->
    d < 4 * List.length s + 7 -> fst (d_pstring s d (t, pos) w) = Raise RecursionError.
  Proof.
    intros [|c cs] t pos rest w d P Ne E L; [congruence|]. unfold d_pstring, d_map.
    destruct d as [|d]; [reflexivity|]. cbn [framed]. apply bind_raises. destruct d as [|d]; [reflexivity|].
    unfold d_run. cbn [framed]. eapply sequence_little; [exact P|exact E|]. cbn [List.length] in L. lia.
  Qed.

  (* repetition *)
  Lemma zero_or_more_enough : forall A (dp : dparser W A) p n, enough n dp p ->
    forall i w vs i1 w1, repeats p i w vs i1 w1 -> forall d, List.length vs + n + 2 <= d -> d_zero_or_more dp d i w = (Ret (vs, i1), w1).
  Proof.
    intros A dp p n En i w vs i1 w1 R. induction R as [i w e w1 E|i w v i1 w1 vs i2 w2 E R IH]; intros [|d] L; try (cbn in L; lia); cbn [d_zero_or_more].
    - erewrite bind_ok by (rewrite (run_enough _ n dp p En) by (cbn in L; lia); exact E). reflexivity.
    - erewrite bind_ok by (rewrite (run_enough _ n dp p En) by (cbn in L; lia); exact E).
      cbv beta iota. erewrite bind_ok by (apply IH; cbn in L; lia). reflexivity.
  Qed.
  Lemma zero_or_more_little : forall A (dp : dparser W A) p n, same_or_overflow dp p -> too_little n dp ->
    forall i w vs i1 w1, repeats p i w vs i1 w1 -> forall d, d < List.length vs + n + 2 -> fst (d_zero_or_more dp d i w) = Raise RecursionError.
  Proof.
    intros A dp p n Sm En i w vs i1 w1 R. induction R as [i w e w1 E|i w v i1 w1 vs i2 w2 E R IH]; intros [|d] L; try reflexivity; cbn [d_zero_or_more].
    - apply bind_raises. eapply run_little; [exact En|cbn in L; lia].
    - destruct (run_same _ dp p Sm d i w) as [Q|Q]; [|now apply bind_raises].
      erewrite bind_ok by (rewrite Q; exact E). cbv beta iota. apply bind_raises. apply IH. cbn in L. lia.
  Qed.

  Lemma nested_little : forall n A (dp : dparser W A) p, nested W n A dp p -> too_little 1 dp.
  Proof. intros n A dp p N d input w L. replace d with 0 by lia. destruct N; reflexivity. Qed.

  Lemma many_depth : forall A (dp : dparser W A) p n i w vs i1 w1, same_or_overflow dp p -> enough n dp p -> too_little n dp ->
    repeats p i w vs i1 w1 -> forall d,
    (List.length vs + n + 3 <= d -> d_many dp d i w = (Ret (Ok (vs, i1)), w1)) /\
    (d < List.length vs + n + 3 -> fst (d_many dp d i w) = Raise RecursionError).
  Proof.
    intros A dp p n i w vs i1 w1 Sm En Lt R [|d]; (split; intros L; [try lia|]); unfold d_many; cbn [framed]; try reflexivity.
    - erewrite bind_ok by (eapply zero_or_more_enough; [exact En|exact R|lia]). reflexivity.
    - apply bind_raises. eapply zero_or_more_little; [exact Sm|exact Lt|exact R|lia].
  Qed.
  Lemma many1_depth : forall A (dp : dparser W A) p n i w v vs i1 w1, same_or_overflow dp p -> enough n dp p -> too_little n dp ->
    repeats p i w (v :: vs) i1 w1 -> forall d,
    (List.length (v :: vs) + n + 2 <= d -> d_many1 dp d i w = (Ret (Ok (v :: vs, i1)), w1)) /\
    (d < List.length (v :: vs) + n + 2 -> fst (d_many1 dp d i w) = Raise RecursionError).
  Proof.
    intros A dp p n i w v vs i1 w1 Sm En Lt R d. inversion R; subst.
    destruct d as [|d]; (split; intros L; [try (cbn in L; lia)|]); unfold d_many1; cbn [framed]; try reflexivity.
    - erewrite bind_ok by (rewrite (run_enough _ n dp p En) by (cbn in L; lia); eassumption). cbv beta iota.
      erewrite bind_ok by (eapply zero_or_more_enough; [exact En|eassumption|cbn in L; lia]). reflexivity.
    - destruct (run_same _ dp p Sm d i w) as [Q|Q]; [|now apply bind_raises].
      erewrite bind_ok by (rewrite Q; eassumption). cbv beta iota. apply bind_raises.
      eapply zero_or_more_little; [exact Sm|exact Lt|eassumption|cbn in L; lia].
  Qed.
  Lemma choice_little : forall A n (dp : dparser W A) p dps q, nested W n A dp p -> d_choice (dp :: dps) = Ret q ->
    too_little (1 + 2 * List.length dps) q.
  Proof.
    intros A n dp p dps q N E. rewrite choice_alternatives in E. injection E as <-. apply alternatives_little. eapply nested_little, N.
  Qed.
  Lemma choice_nested : forall A dps ps n m (dp : dparser W A) p, nested W n A dp p -> Forall2 (fun dq q => exists k, k <= m /\ nested W k A dq q) dps ps ->
    m <= n -> exists dq q, d_choice (dp :: dps) = Ret dq /\ choice (p :: ps) = Ret q /\ nested W (n + List.length dps) A dq q.
  Proof.
    intros A dps ps n m dp p N F L. exists (alternatives dp dps), (fold_left or_else ps p). split; [apply choice_alternatives|]. split.
    - unfold choice, reduce. cbn. clear. revert p. induction ps as [|q ps IH]; intros p; cbn; [reflexivity|apply IH].
    - revert n dp p N L. induction F as [|dq q dqs qs (k & Lk & Nk) F IH]; intros n dp p N L; cbn [alternatives fold_left List.length].
      + now rewrite Nat.add_0_r.
      + replace (n + S (List.length dqs)) with (S (Nat.max n k) + List.length dqs) by lia. apply IH; [now constructor|lia].
  Qed.
  Lemma call_pstring_depth : forall s rest limit q w d, s <> [] -> pstring (W := W) limit s = Ret q ->
    (4 * List.length s + 8 <= d -> d_call (d_pstring s) d (s ++ rest) w = (Ret (Ok s), w)) /\
    (d < 4 * List.length s + 8 -> fst (d_call (d_pstring s) d (s ++ rest) w) = Raise RecursionError).
  Proof.
    intros s rest limit q w d Ne E.
    assert (Lim : List.length s < limit).
    { destruct (Nat.lt_ge_cases (List.length s) limit) as [|G]; [assumption|]. rewrite (pstring_long s limit G) in E. discriminate. }
    destruct d as [|d]; (split; intros L; [try lia|]); unfold d_call; cbn [framed]; try reflexivity.
    - destruct (pstring_pf (W := W) s limit Lim) as (q' & E' & Q). rewrite E in E'. injection E' as <-.
      erewrite bind_ok; [|rewrite (pstring_enough s limit q E) by lia; apply Q; lia].
      unfold rest_of. cbn [fst snd Z.to_nat skipn]. rewrite (proj2 (mismatch_none s (s ++ rest))) by eauto. reflexivity.
    - apply bind_raises. apply pstring_little with (rest := rest); [lia|exact Ne|reflexivity|lia].
  Qed.
End Facts.
