(** Facts about C143: well-formed grammars come to an end on every text. *)
From Coq Require Import List Bool ZArith Lia Wf_nat.
From Verif.Model Require Import Base OptionResult Parser.
From Verif.Proofs Require Import PegFacts.
From Verif.Spec Require Import PegSpec.
Import ListNotations.
Local Open Scope list_scope.

Section Facts.
  Context {W : Type} (rules : nat -> gram W).
  Notation peg := (peg rules).
  Notation pegs := (pegs rules).
  Notation eats := (eats rules).
  Notation well_formed := (well_formed rules).
  Implicit Types (w : W) (g a b : gram W) (s : str).
  Lemma left_le : forall g s w v s1 w1, peg g s w (Ret (Some (v, s1))) w1 -> List.length s1 <= List.length s.
  Proof. intros g s w v s1 w1 P. destruct (proj1 (peg_suffix rules) _ _ _ _ _ P _ _ eq_refl) as [u ->]. rewrite app_length. lia. Qed.
  Lemma lefts_le : forall g s w vs s1 w1, pegs g s w (Ret (vs, s1)) w1 -> List.length s1 <= List.length s.
  Proof. intros g s w vs s1 w1 P. destruct (proj2 (peg_suffix rules) _ _ _ _ _ P _ _ eq_refl) as [u ->]. rewrite app_length. lia. Qed.
  Lemma with_value_inv : forall f (r : outcome) v s, with_value f r = Ret (Some (v, s)) -> exists v1, r = Ret (Some (v1, s)).
  Proof. intros f [[[v1 s1]|]|e] v s E; try discriminate. injection E as <- <-. eauto. Qed.
  Lemma eats_less : forall g s w r w1, peg g s w r w1 -> eats g -> forall v s1, r = Ret (Some (v, s1)) -> List.length s1 < List.length s.
  Proof.
    assert (X : (forall g s w r w1, peg g s w r w1 -> eats g -> forall v s1, r = Ret (Some (v, s1)) -> List.length s1 < List.length s) /\ (forall g s w r w1, pegs g s w r w1 -> True)); [|apply X].
    apply peg_ind2.
    - intros c s w EA v s1 E; injection E as <- <-; cbn; lia.
    - discriminate.
    - intros v s w EA; inversion EA.
    - discriminate.
    - intros k a b s w r w1 _ IH N EA v s1 ->; destruct N.
    - intros k a b s w v s1 w1 r w2 P1 IH1 P2 IH2 EA v2 s2 E; destruct (with_value_inv _ _ _ _ E) as [v3 ->]; pose proof (left_le _ _ _ _ _ _ P1); pose proof (left_le _ _ _ _ _ _ P2); inversion EA; subst; [specialize (IH1 ltac:(assumption) _ _ eq_refl)|specialize (IH2 ltac:(assumption) _ _ eq_refl)]; lia.
    - intros a b s w r w1 _ IH N EA; inversion EA; subst; eapply IH; assumption.
    - intros a b s w w1 r w2 _ _ _ IH EA; inversion EA; subst; eapply IH; assumption.
    - intros f g s w r w1 r2 w2 _ IH A EA v s1 ->; inversion EA; subst; destruct r as [[[v3 s3]|]|e]; try discriminate; cbn in A; destruct (f v3 w1) as [[y|e] w3]; try discriminate; injection A as <- <- <-; eapply IH; [assumption|reflexivity].
    - intros f g s w r w1 _ IH N EA v s1 ->; destruct N.
    - intros f g s w v s1 w1 r w2 P1 IH1 P2 IH2 EA v2 s2 ->; pose proof (left_le _ _ _ _ _ _ P1); pose proof (left_le _ _ _ _ _ _ P2); inversion EA as [| | | | | |? ? EA1|? ? EA1| | | | |]; subst; [specialize (IH1 EA1 _ _ eq_refl)|specialize (IH2 (EA1 v) _ _ eq_refl)]; lia.
    - intros g s w r w1 _ _ EA; inversion EA.
    - intros g s w r w1 _ IH N EA v s1 ->; destruct N.
    - intros g s w v s1 w1 r w2 P1 IH1 P2 _ EA v2 s2 E; inversion EA; subst; destruct r as [[vs s3]|e]; try discriminate; injection E as <- <-; pose proof (lefts_le _ _ _ _ _ _ P2); specialize (IH1 ltac:(assumption) _ _ eq_refl); lia.
    - intros g s w r w1 _ _ N EA; inversion EA.
    - intros g s w w1 _ _ EA; inversion EA.
    - intros g h s w w1 _ _ EA; inversion EA.
    - discriminate.
    - intros g h s w v s1 w1 r w2 _ _ _ _ EA; inversion EA.
    - intros a b g s w r w1 _ IH EA; inversion EA; subst; eapply IH; assumption.
    - intros n s w r w1 _ IH EA; inversion EA; subst; eapply IH; assumption.
    - intros u s w EA v s1 E; injection E as <- <-; inversion EA as [| | | | | | | | | | |? NE|]; subst; rewrite app_length; destruct u; [destruct (NE eq_refl)|cbn; lia].
    - discriminate.
    - intros c cs d s w _ EA v s1 E; injection E as <- <-; cbn; lia.
    - discriminate.
    - intros; exact I.
    - intros; exact I.
    - intros; exact I.
  Qed.

  Definition total (N : nat) g : Prop := forall s w, List.length s <= N -> exists r w1, peg g s w r w1.
  Lemma repeat_total : forall N g, eats g -> total N g -> forall s w, List.length s <= N -> exists r w1, pegs g s w r w1.
  Proof.
    intros N g EA T s. remember (List.length s) as n eqn:En. revert s En. induction n as [n IH] using lt_wf_ind. intros s -> w L. destruct (T s w L) as ([[[v s1]|]|e] & w1 & P).
    - pose proof (eats_less _ _ _ _ _ P EA _ _ eq_refl) as D. destruct (IH _ D s1 eq_refl w1 ltac:(lia)) as (r & w2 & Q). do 2 eexists. eapply ps_more; eassumption.
    - do 2 eexists. eapply ps_end; eassumption.
    - do 2 eexists. eapply ps_raise; eassumption.
  Qed.
  Variable rank : nat -> nat.
  Lemma wf_total : forall N l, (forall M, M < N -> forall g, well_formed rank None g -> total M g) -> (forall n, match l with Some m => rank n < m | None => True end -> total N (rules n)) ->
    forall g, well_formed rank l g -> total N g.
  Proof.
    intros N l SH RU g WF.
    assert (AND : forall k a b, total N a -> (forall s w v s1 w1, List.length s <= N -> peg a s w (Ret (Some (v, s1))) w1 -> exists r w2, peg b s1 w1 r w2) -> total N (GAnd k a b)).
    { intros k a b A B s w L. destruct (A s w L) as ([[[v s1]|]|e] & w1 & P); [|do 2 eexists; apply p_and_stop; [exact P|exact I]..]. destruct (B _ _ _ _ _ L P) as (r & w2 & Q). do 2 eexists. eapply p_and; eassumption. }
    assert (BIND : forall f a, total N a -> (forall s w v s1 w1, List.length s <= N -> peg a s w (Ret (Some (v, s1))) w1 -> exists r w2, peg (f v) s1 w1 r w2) -> total N (GBind f a)).
    { intros f a A B s w L. destruct (A s w L) as ([[[v s1]|]|e] & w1 & P); [|do 2 eexists; apply p_bind_stop; [exact P|exact I]..]. destruct (B _ _ _ _ _ L P) as (r & w2 & Q). do 2 eexists. eapply p_bind; eassumption. }
    assert (SHORT : forall a b s w v s1 w1, eats a -> well_formed rank None b -> List.length s <= N -> peg a s w (Ret (Some (v, s1))) w1 -> exists r w2, peg b s1 w1 r w2).
    { intros a b s w v s1 w1 EA WB L P. pose proof (eats_less _ _ _ _ _ P EA _ _ eq_refl) as D. apply (SH (List.length s1) ltac:(lia) b WB); lia. }
    assert (LONG : forall a b s w v s1 w1, total N b -> List.length s <= N -> peg a s w (Ret (Some (v, s1))) w1 -> exists r w2, peg b s1 w1 r w2).
    { intros a b s w v s1 w1 TB L P. pose proof (left_le _ _ _ _ _ _ P). apply TB. lia. }
    revert RU. induction WF as [l c|l v|l m|l k a b W1 IHa W2 IHb|l k a b W1 IHa EA WB IHb|l a b W1 IHa W2 IHb|l f g W1 IH|l f g W1 IH W2 IHf|l f g W1 IH EA WB IHf|l g W1 IH EA|l g W1 IH EA|l g W1 IH|l g h W1 IH|l a b g W1 IH|l n Hn|l u|l c cs]; intros RU;
      try (specialize (IHa RU)); try (specialize (IHb RU)); try (specialize (IH RU)); try (pose proof (fun v => IHf v RU) as IHv).
    - intros s w _. destruct s as [|d s]; [do 2 eexists; apply p_no_char; exact I|]. destruct (Nat.eq_dec d c) as [->|D]; do 2 eexists; [apply p_char|apply p_no_char; exact D].
    - intros s w _. do 2 eexists. apply p_return.
    - intros s w _. do 2 eexists. apply p_fail.
    - apply AND; [exact IHa|]. intros. eapply LONG; eassumption.
    - apply AND; [auto|]. intros. eapply SHORT; eassumption.
    - intros s w L. destruct (IHa s w L) as ([[[v s1]|]|e] & w1 & P); [do 2 eexists; eapply p_or_first; [exact P|discriminate]| |do 2 eexists; eapply p_or_first; [exact P|discriminate]]. destruct (IHb s w1 L) as (r & w2 & Q). do 2 eexists. eapply p_or_second; eassumption.
    - intros s w L. destruct (IH s w L) as (r & w1 & P). destruct (applied f r w1) as [r2 w2] eqn:A. do 2 eexists. eapply p_map; eassumption.
    - apply BIND; [exact IH|]. intros s w v s1 w1 L P. eapply LONG; [apply IHv|eassumption..].
    - apply BIND; [auto|]. intros s w v s1 w1 L P. eapply SHORT; [exact EA|apply WB|eassumption..].
    - intros s w L. destruct (repeat_total N g EA (ltac:(auto)) s w L) as (r & w1 & P). do 2 eexists. eapply p_many; eassumption.
    - intros s w L. destruct (IH s w L) as ([[[v s1]|]|e] & w1 & P); [|do 2 eexists; apply p_many1_stop; [exact P|exact I]..]. pose proof (left_le _ _ _ _ _ _ P).
      destruct (repeat_total N g EA (ltac:(auto)) s1 w1 ltac:(lia)) as (r & w2 & Q). do 2 eexists. eapply p_many1; eassumption.
    - intros s w L. destruct (IH s w L) as ([[[v s1]|]|e] & w1 & P); do 2 eexists; [eapply p_opt_some; [exact P|discriminate]|eapply p_opt_none; exact P|eapply p_opt_some; [exact P|discriminate]].
    - intros s w L. destruct (IH s w L) as (r & w1 & P). inversion P as [| | | |k a b s0 w0 r0 w3 P1 NV|k a b s0 w0 v s1 w3 r0 w4 P1 P2| | | | | | | | | | | | | | | | | | |]; subst.
      + destruct r as [[x|]|e]; [destruct NV| |]; do 2 eexists; [eapply p_sep_none|eapply p_sep_raise]; eassumption.
      + inversion P2; subst. do 2 eexists. eapply p_sep; eassumption.
    - intros s w L. destruct (IH s w L) as (r & w1 & P). do 2 eexists. eapply p_between. exact P.
    - intros s w L. destruct (RU n Hn s w L) as (r & w1 & P). do 2 eexists. eapply p_call. exact P.
    - intros s w _. destruct (string_dec u s) as [[t ->]|NS]; do 2 eexists; [apply p_string|apply p_no_string; exact NS].
    - intros s w _. destruct s as [|d s]; [do 2 eexists; apply p_no_any; exact I|]. destruct (in_dec Nat.eq_dec d (c :: cs)) as [ID|ND]; do 2 eexists; [apply p_any; exact ID|apply p_no_any; exact ND].
  Qed.
  Hypothesis RULES : forall n, well_formed rank (Some (rank n)) (rules n).
  Lemma all_total : forall N g l, well_formed rank l g -> total N g.
  Proof.
    intros N. induction N as [N IH] using lt_wf_ind.
    assert (R : forall k n, rank n < k -> total N (rules n)).
    { induction k as [|k IHk]; intros n L; [lia|]. apply (wf_total N (Some (rank n))).
      - intros M LM g G. exact (IH M LM g None G).
      - intros i Li. apply IHk. lia.
      - apply RULES. }
    intros g l G. apply (wf_total N l); [|intros n _; apply (R (S (rank n))); lia|exact G]. intros M LM g1 G1. exact (IH M LM g1 None G1).
  Qed.
End Facts.
