(** Parsers made of the combinators are parsing expression grammars. *)
From Coq Require Import List Bool ZArith Arith Lia.
From Verif.Model Require Import Base OptionResult Parser.
From Verif.Proofs Require Import ParserFacts ParserFacts2 GrammarFacts.
From Verif.Spec Require Import ParserSpec PegSpec.
Import ListNotations.
Local Open Scope list_scope.

Section Facts.
  Context {W : Type} (rules : nat -> gram W).
  Notation compile := (compile rules).
  Notation peg := (peg rules).
  Notation pegs := (pegs rules).
  Notation starts_with := (PegSpec.starts_with rules).
  Implicit Types (w : W) (g a b : gram W).
  Scheme peg_mut := Minimality for PegSpec.peg Sort Prop
    with pegs_mut := Minimality for PegSpec.pegs Sort Prop.
  Combined Scheme peg_ind2 from peg_mut, pegs_mut.

  Lemma compile_eq : forall limit depth g, compile limit depth g =
    match g with
    | GChar c => map (fun s => ret (VStr s)) (pchar [c])
    | GReturn v => preturn v
    | GFail message => fail message
    | GAnd Both a b => map (fun ab => ret (VPair (fst ab) (snd ab))) (and_then (compile limit depth a) (compile limit depth b))
    | GAnd First a b => then_ignore (compile limit depth a) (compile limit depth b)
    | GAnd Second a b => ignore_then (compile limit depth a) (compile limit depth b)
    | GOr a b => or_else (compile limit depth a) (compile limit depth b)
    | GMap f g => map f (compile limit depth g)
    | GBind f g => Parser.bind (fun v => ret (compile limit depth (f v))) (compile limit depth g)
    | GMany g => map (fun vs => ret (VList vs)) (many limit (compile limit depth g))
    | GMany1 g => map (fun vs => ret (VList vs)) (many1 limit (compile limit depth g))
    | GOpt g => map (fun o => ret (match o with Some v => VSome v | None => VNone end)) (opt (compile limit depth g))
    | GSepBy g sep => map (fun vs => ret (VList vs)) (sep_by limit (compile limit depth g) (compile limit depth sep))
    | GBetween a b g => between (compile limit depth a) (compile limit depth b) (compile limit depth g)
    | GCall n => match depth with 0 => fun _ => raise RecursionError | S depth => compile limit depth (rules n) end
    | GString u => map (fun s => ret (VStr s)) (imported (pstring limit u))
    | GAnyOf c cs => map (fun s => ret (VStr s)) (imported (any_of (c :: cs)))
    end.
  Proof. intros limit [|depth] []; try destruct k; reflexivity. Qed.

  (** A parser that does what a grammar says, but for limits. *)
  Definition good (p : parser W val) g : Prop := forall (text : str) pos w x w1, (0 <= pos)%Z -> p (text, pos) w = (x, w1) ->
    x = Raise RecursionError \/ exists r, peg g (rest_of (text, pos)) w r w1 /\ same text x r.
  Lemma good_and : forall k (f : val * val -> val) p q a b, (forall u v, f (u, v) = keep k u v) -> good p a -> good q b -> good (map (fun ab => ret (f ab)) (and_then p q)) (GAnd k a b).
  Proof.
    intros k f p q a b F P Q text pos w x w1 L E. unfold map, and_then, Base.bind in E. destruct (p (text, pos) w) as [x1 w2] eqn:E1. destruct (P _ _ _ _ _ L E1) as [->|(r1 & R1 & S1)]; [injection E as <- <-; auto|].
    destruct S1 as [v pos1 L1|e|e].
    - destruct (q (text, pos1) w2) as [x2 w3] eqn:E2. destruct (Q _ _ _ _ _ L1 E2) as [->|(r2 & R2 & S2)]; [injection E as <- <-; auto|]. right. exists (with_value (keep k v) r2).
      destruct S2 as [v2 pos2 L2|e|e]; cbn in E; injection E as <- <-; (split; [eapply p_and; eassumption|]); [rewrite F; constructor; exact L2|constructor|constructor].
    - cbn in E. injection E as <- <-. right. eexists. split; [eapply p_and_stop; [exact R1|exact I]|constructor].
    - injection E as <- <-. right. eexists. split; [eapply p_and_stop; [exact R1|exact I]|constructor].
  Qed.
  Lemma good_first : forall p q a b, good p a -> good q b -> good (then_ignore p q) (GAnd First a b).
  Proof. intros p q a b. apply (good_and First fst). reflexivity. Qed.
  Lemma good_second : forall p q a b, good p a -> good q b -> good (ignore_then p q) (GAnd Second a b).
  Proof. intros p q a b. apply (good_and Second snd). reflexivity. Qed.
  Lemma good_or : forall p q a b, good p a -> good q b -> good (or_else p q) (GOr a b).
  Proof.
    intros p q a b P Q text pos w x w1 L E. unfold or_else, Base.bind in E. destruct (p (text, pos) w) as [x1 w2] eqn:E1. destruct (P _ _ _ _ _ L E1) as [->|(r1 & R1 & S1)]; [injection E as <- <-; auto|].
    destruct S1 as [v pos1 L1|e|e]; try (injection E as <- <-; right; eexists; split; [eapply p_or_first; [exact R1|discriminate]|constructor; assumption]).
    destruct (Q _ _ _ _ _ L E) as [->|(r2 & R2 & S2)]; [auto|]. right. exists r2. split; [eapply p_or_second; eassumption|exact S2].
  Qed.
  Lemma good_map : forall f p g, good p g -> good (map f p) (GMap f g).
  Proof.
    intros f p g P text pos w x w1 L E. unfold map, Base.bind in E. destruct (p (text, pos) w) as [x1 w2] eqn:E1. destruct (P _ _ _ _ _ L E1) as [->|(r1 & R1 & S1)]; [injection E as <- <-; auto|].
    right. destruct (applied f r1 w2) as [r2 w3] eqn:A. destruct S1 as [v pos1 L1|e|e]; cbn in E, A.
    - destruct (f v w2) as [[y|e] w4] eqn:FV; cbn in E; injection E as <- <-; injection A as <- <-; eexists; (split; [eapply p_map; [exact R1|cbn; rewrite FV; reflexivity]|constructor]); exact L1.
    - injection E as <- <-. injection A as <- <-. eexists. split; [eapply p_map; [exact R1|reflexivity]|constructor].
    - injection E as <- <-. injection A as <- <-. eexists. split; [eapply p_map; [exact R1|reflexivity]|constructor].
  Qed.
  Lemma good_bind : forall f (q : val -> parser W val) p g, good p g -> (forall v, good (q v) (f v)) -> good (Parser.bind (fun v => ret (q v)) p) (GBind f g).
  Proof.
    intros f q p g P Q text pos w x w1 L E. unfold Parser.bind, Base.bind in E. destruct (p (text, pos) w) as [x1 w2] eqn:E1. destruct (P _ _ _ _ _ L E1) as [->|(r1 & R1 & S1)]; [injection E as <- <-; auto|].
    destruct S1 as [v pos1 L1|e|e]; cbn in E.
    - destruct (Q _ _ _ _ _ _ L1 E) as [->|(r2 & R2 & S2)]; [auto|]. right. exists r2. split; [eapply p_bind; eassumption|exact S2].
    - injection E as <- <-. right. eexists. split; [eapply p_bind_stop; [exact R1|exact I]|constructor].
    - injection E as <- <-. right. eexists. split; [eapply p_bind_stop; [exact R1|exact I]|constructor].
  Qed.
  (** Lists of values and where they end. *)
  Definition same_list (text : str) (x : res (list val * remaining)) (r : res (list val * str)) : Prop :=
    match r with Ret (vs, s) => exists pos, x = Ret (vs, (text, pos)) /\ (0 <= pos)%Z /\ rest_of (text, pos) = s | Raise e => x = Raise e end.
  Lemma good_zero : forall p g, good p g -> forall m (text : str) pos w x w1, (0 <= pos)%Z -> parse_zero_or_more m p (text, pos) w = (x, w1) ->
    x = Raise RecursionError \/ exists r, pegs g (rest_of (text, pos)) w r w1 /\ same_list text x r.
  Proof.
    intros p g P. induction m as [|m IH]; intros text pos w x w1 L E; [injection E as <- <-; auto|]. cbn [parse_zero_or_more] in E. unfold Base.bind in E.
    destruct (p (text, pos) w) as [x1 w2] eqn:E1. destruct (P _ _ _ _ _ L E1) as [->|(r1 & R1 & S1)]; [injection E as <- <-; auto|]. destruct S1 as [v pos1 L1|e|e].
    - destruct (parse_zero_or_more m p (text, pos1) w2) as [x2 w3] eqn:E2. destruct (IH _ _ _ _ _ L1 E2) as [->|(r2 & R2 & S2)]; [injection E as <- <-; auto|]. right. exists (one_more v r2).
      destruct r2 as [[vs s2]|e]; cbn in S2; [destruct S2 as (pos2 & -> & L2 & Q)|subst x2]; cbn in E; injection E as <- <-; (split; [eapply ps_more; eassumption|]); cbn; [exists pos2; auto|reflexivity].
    - cbn in E. injection E as <- <-. right. eexists. split; [eapply ps_end; exact R1|]. cbn. exists pos. auto.
    - injection E as <- <-. right. eexists. split; [eapply ps_raise; exact R1|reflexivity].
  Qed.
  Lemma good_many : forall limit p g, good p g -> good (map (fun vs => ret (VList vs)) (many limit p)) (GMany g).
  Proof.
    intros limit p g P text pos w x w1 L E. unfold map, many, Base.bind in E. destruct (parse_zero_or_more limit p (text, pos) w) as [x1 w2] eqn:E1. destruct (good_zero _ _ P _ _ _ _ _ _ L E1) as [->|(r1 & R1 & S1)]; [injection E as <- <-; auto|]. right. exists (listed [] r1).
    destruct r1 as [[vs s2]|e]; cbn in S1; [destruct S1 as (pos2 & -> & L2 & <-)|subst x1]; cbn in E; injection E as <- <-; (split; [apply p_many; exact R1|constructor]); exact L2.
  Qed.
  Lemma good_many1 : forall limit p g, good p g -> good (map (fun vs => ret (VList vs)) (many1 limit p)) (GMany1 g).
  Proof.
    intros limit p g P text pos w x w1 L E. unfold map, many1, Base.bind in E. destruct (p (text, pos) w) as [x1 w2] eqn:E1. destruct (P _ _ _ _ _ L E1) as [->|(r1 & R1 & S1)]; [injection E as <- <-; auto|].
    destruct S1 as [v pos1 L1|e|e].
    - destruct (parse_zero_or_more limit p (text, pos1) w2) as [x2 w3] eqn:E2. destruct (good_zero _ _ P _ _ _ _ _ _ L1 E2) as [->|(r2 & R2 & S2)]; [injection E as <- <-; auto|]. right. exists (listed [v] r2).
      destruct r2 as [[vs s2]|e]; cbn in S2; [destruct S2 as (pos2 & -> & L2 & <-)|subst x2]; cbn in E; injection E as <- <-; (split; [eapply p_many1; eassumption|constructor]); exact L2.
    - cbn in E. injection E as <- <-. right. eexists. split; [eapply p_many1_stop; [exact R1|exact I]|constructor].
    - injection E as <- <-. right. eexists. split; [eapply p_many1_stop; [exact R1|exact I]|constructor].
  Qed.
  Lemma good_opt : forall p g, good p g -> good (map (fun o => ret (match o with Some v => VSome v | None => VNone end)) (opt p)) (GOpt g).
  Proof.
    intros p g P text pos w x w1 L E. unfold opt, or_else, map, preturn, Base.bind in E. destruct (p (text, pos) w) as [x1 w2] eqn:E1. destruct (P _ _ _ _ _ L E1) as [->|(r1 & R1 & S1)]; [injection E as <- <-; auto|]. right.
    destruct S1 as [v pos1 L1|e|e]; cbn in E; injection E as <- <-.
    - eexists. split; [eapply p_opt_some; [exact R1|discriminate]|constructor; exact L1].
    - eexists. split; [eapply p_opt_none; exact R1|constructor; exact L].
    - eexists. split; [eapply p_opt_some; [exact R1|discriminate]|constructor].
  Qed.
  Lemma good_sep : forall limit p q g h, good p g -> good q h -> good (map (fun vs => ret (VList vs)) (sep_by limit p q)) (GSepBy g h).
  Proof.
    intros limit p q g h P Q text pos w x w1 L E. unfold sep_by, or_else, sep_by1, starmap, map, and_then, many, preturn, Base.bind in E. destruct (p (text, pos) w) as [x1 w2] eqn:E1. destruct (P _ _ _ _ _ L E1) as [->|(r1 & R1 & S1)]; [injection E as <- <-; auto|].
    destruct S1 as [v pos1 L1|e|e]; cbn [ret] in E.
    - destruct (parse_zero_or_more limit (ignore_then q p) (text, pos1) w2) as [x2 w3] eqn:E2. destruct (good_zero _ _ (good_second _ _ _ _ Q P) _ _ _ _ _ _ L1 E2) as [->|(r2 & R2 & S2)]; [injection E as <- <-; auto|]. right. exists (listed [v] r2).
      destruct r2 as [[vs s2]|e]; cbn in S2; [destruct S2 as (pos2 & -> & L2 & <-)|subst x2]; cbn in E; injection E as <- <-; (split; [eapply p_sep; eassumption|constructor]); exact L2.
    - cbn in E. injection E as <- <-. right. eexists. split; [eapply p_sep_none; exact R1|constructor; exact L].
    - injection E as <- <-. right. eexists. split; [eapply p_sep_raise; exact R1|constructor].
  Qed.
  (** pstring and any_of *)
  Lemma string_yes : forall u limit (text : str) pos w s, List.length u < limit -> (0 <= pos)%Z -> rest_of (text, pos) = u ++ s ->
    imported (pstring limit u) (text, pos) w = (Ret (Ok (u, (text, (pos + Z.of_nat (List.length u))%Z))), w) /\ rest_of (text, (pos + Z.of_nat (List.length u))%Z) = s.
  Proof.
    intros u limit text pos w s LL L K. split; [|exact (rest_add text pos u s L K)]. destruct (pstring_pf (W := W) u limit LL) as (q & E & Q). rewrite E. cbn [imported]. rewrite (Q text pos w L). rewrite (proj2 (mismatch_none u (rest_of (text, pos)))); [reflexivity|eauto].
  Qed.
  Lemma string_no : forall u limit (text : str) pos w, List.length u < limit -> (0 <= pos)%Z -> (forall t, rest_of (text, pos) <> u ++ t) -> exists e, imported (pstring limit u) (text, pos) w = (Ret (Err e), w).
  Proof.
    intros u limit text pos w LL L N. destruct (pstring_pf (W := W) u limit LL) as (q & E & Q). rewrite E. cbn [imported]. rewrite (Q text pos w L). destruct (mismatch u (rest_of (text, pos))) as [e|] eqn:X; [eauto|]. apply mismatch_none in X. destruct X as [t X]. destruct (N t X).
  Qed.
  Lemma string_long : forall u limit, limit <= List.length u -> pstring (W := W) limit u = Raise RecursionError.
  Proof. intros u limit L. unfold pstring. rewrite sequence_long; [reflexivity|]. rewrite map_length. exact L. Qed.
  Lemma string_dec : forall u s : str, (exists t, s = u ++ t) \/ (forall t, s <> u ++ t).
  Proof.
    induction u as [|c u IH]; intros s; [left; exists s; reflexivity|]. destruct s as [|d s]; [right; discriminate|]. destruct (Nat.eq_dec d c) as [->|D]; [|right; intros t E; injection E as E _; contradiction].
    destruct (IH s) as [[t ->]|N]; [left; exists t; reflexivity|right]. intros t E. injection E as E. exact (N t E).
  Qed.
  Lemma any_yes : forall c cs d (text : str) pos w s, (0 <= pos)%Z -> rest_of (text, pos) = d :: s -> In d (c :: cs) ->
    imported (any_of (c :: cs)) (text, pos) w = (Ret (Ok ([d], (text, (pos + 1)%Z))), w) /\ rest_of (text, (pos + 1)%Z) = s.
  Proof.
    intros c cs d text pos w s L K I. split; [|pose proof (rest_add text pos [d] s L K) as K1; cbn [List.length] in K1; exact K1]. destruct (any_of_pf (W := W) c cs) as (q & E & Q). rewrite E. cbn [imported]. specialize (Q text pos w L). rewrite K in Q.
    destruct (existsb (Nat.eqb d) (c :: cs)) eqn:X; [exact Q|]. assert (Y : existsb (Nat.eqb d) (c :: cs) = true) by (apply existsb_exists; exists d; split; [exact I|apply Nat.eqb_refl]). rewrite Y in X. discriminate.
  Qed.
  Lemma any_no : forall c cs (text : str) pos w, (0 <= pos)%Z -> match rest_of (text, pos) with d :: _ => ~ In d (c :: cs) | [] => True end -> exists e, imported (any_of (c :: cs)) (text, pos) w = (Ret (Err e), w).
  Proof.
    intros c cs text pos w L N. destruct (any_of_pf (W := W) c cs) as (q & E & Q). rewrite E. cbn [imported]. specialize (Q text pos w L). destruct (rest_of (text, pos)) as [|d s]; [exact Q|].
    destruct (existsb (Nat.eqb d) (c :: cs)) eqn:X; [|exact Q]. apply existsb_exists in X. destruct X as (y & I & E1). apply Nat.eqb_eq in E1. subst y. destruct (N I).
  Qed.
  Lemma sound_peg : forall limit depth g, good (compile limit depth g) g.
  Proof.
    intros limit. induction depth as [depth IHd] using (well_founded_induction lt_wf). induction g as [c|v|m|k a IHa b IHb|a IHa b IHb|f g IH|f IHf g IH|g IH|g IH|g IH|g IH h IHh|a IHa b IHb g IH|n|u|c cs]; rewrite compile_eq.
    - intros text pos w x w1 L E. unfold map, Base.bind in E. right. destruct (rest_of (text, pos)) as [|d r] eqn:K.
      + destruct (char_no c text pos w L) as [e C]; [rewrite K; exact I|]. rewrite C in E. cbn in E. injection E as <- <-. eexists. split; [apply p_no_char; exact I|constructor].
      + destruct (Nat.eq_dec d c) as [->|NE].
        * rewrite (char_yes c text pos w r L K) in E. cbv beta iota in E. cbn in E. injection E as <- <-. eexists. split; [apply p_char|].
          pose proof (rest_add text pos [c] r L K) as K1. cbn [List.length] in K1. change (Z.of_nat 1) with 1%Z in K1. rewrite <- K1. constructor. lia.
        * destruct (char_no c text pos w L) as [e C]; [rewrite K; exact NE|]. rewrite C in E. cbn in E. injection E as <- <-. eexists. split; [apply p_no_char; exact NE|constructor].
    - intros text pos w x w1 L E. injection E as <- <-. right. eexists. split; [apply p_return|constructor; exact L].
    - intros text pos w x w1 L E. injection E as <- <-. right. eexists. split; [apply p_fail|constructor].
    - destruct k; [apply (good_and Both (fun ab => VPair (fst ab) (snd ab))); [reflexivity| |]|apply good_first|apply good_second]; assumption.
    - apply good_or; assumption.
    - apply good_map; assumption.
    - apply good_bind; assumption.
    - apply good_many; assumption.
    - apply good_many1; assumption.
    - apply good_opt; assumption.
    - apply good_sep; assumption.
    - intros text pos w x w1 L E. destruct (good_first _ _ _ _ (good_second _ _ _ _ IHa IH) IHb _ _ _ _ _ L E) as [->|(r & R & S)]; [auto|]. right. exists r. split; [apply p_between; exact R|exact S].
    - destruct depth as [|depth]; [intros text pos w x w1 L E; injection E as <- <-; auto|]. intros text pos w x w1 L E. destruct (IHd depth (Nat.lt_succ_diag_r depth) (rules n) _ _ _ _ _ L E) as [->|(r & R & S)]; [auto|]. right. exists r. split; [apply p_call; exact R|exact S].
    - intros text pos w x w1 L E. unfold map, Base.bind in E. destruct (le_lt_dec limit (List.length u)) as [LL|LL]; [rewrite (string_long u limit LL) in E; cbn in E; injection E as <- <-; auto|]. right. destruct (string_dec u (rest_of (text, pos))) as [[s K]|N].
      + destruct (string_yes u limit text pos w s LL L K) as [Y K1]. rewrite Y in E. cbn in E. injection E as <- <-. eexists. split; [rewrite K; apply p_string|]. rewrite <- K1. constructor. lia.
      + destruct (string_no u limit text pos w LL L N) as [e Y]. rewrite Y in E. cbn in E. injection E as <- <-. eexists. split; [apply p_no_string; exact N|constructor].
    - intros text pos w x w1 L E. unfold map, Base.bind in E. right.
      assert (D : (exists d s, rest_of (text, pos) = d :: s /\ In d (c :: cs)) \/ match rest_of (text, pos) with d :: _ => ~ In d (c :: cs) | [] => True end).
      { destruct (rest_of (text, pos)) as [|d s]; [right; exact I|]. destruct (in_dec Nat.eq_dec d (c :: cs)); [left; eauto|right; assumption]. }
      destruct D as [(d & s & K & I)|N].
      + destruct (any_yes c cs d text pos w s L K I) as [Y K1]. rewrite Y in E. cbn in E. injection E as <- <-. eexists. split; [rewrite K; apply p_any; exact I|]. rewrite <- K1. constructor. lia.
      + destruct (any_no c cs text pos w L N) as [e Y]. rewrite Y in E. cbn in E. injection E as <- <-. eexists. split; [apply p_no_any; exact N|constructor].
  Qed.

  (** Complete: with room enough the parser does what the grammar says. *)
  Definition does g (s : str) w (r : outcome) w1 : Prop := exists n, forall limit depth, n <= limit -> n <= depth -> forall (text : str) pos, (0 <= pos)%Z -> rest_of (text, pos) = s ->
    exists x, compile limit depth g (text, pos) w = (x, w1) /\ same text x r.
  Definition does_all g (s : str) w (r : res (list val * str)) w1 : Prop := exists n, forall limit depth, n <= limit -> n <= depth -> forall m, n <= m -> forall (text : str) pos, (0 <= pos)%Z -> rest_of (text, pos) = s ->
    exists x, parse_zero_or_more m (compile limit depth g) (text, pos) w = (x, w1) /\ same_list text x r.
  Lemma same_inv : forall text x v s, same text x (Ret (Some (v, s))) -> exists pos, x = Ret (Ok (v, (text, pos))) /\ (0 <= pos)%Z /\ rest_of (text, pos) = s.
  Proof. intros text x v s S. inversion S; subst; eauto. Qed.
  Lemma and_of : forall limit depth k a b, exists f, (forall u v, f (u, v) = keep k u v) /\ compile limit depth (GAnd k a b) = map (fun ab => ret (f ab)) (and_then (compile limit depth a) (compile limit depth b)).
  Proof. intros limit depth k a b. rewrite compile_eq. destruct k; [exists (fun ab => VPair (fst ab) (snd ab))|exists fst|exists snd]; split; reflexivity. Qed.
  Lemma complete_peg : (forall g s w r w1, peg g s w r w1 -> does g s w r w1) /\ (forall g s w r w1, pegs g s w r w1 -> does_all g s w r w1).
  Proof.
    apply peg_ind2; unfold does, does_all.
    - intros c s w. exists 0. intros limit depth _ _ text pos L K. rewrite compile_eq. unfold map, Base.bind. rewrite (char_yes c text pos w s L K). cbv beta iota. eexists. split; [reflexivity|].
      pose proof (rest_add text pos [c] s L K) as K1. cbn [List.length] in K1. change (Z.of_nat 1) with 1%Z in K1. rewrite <- K1. constructor. lia.
    - intros c s w N. exists 0. intros limit depth _ _ text pos L K. rewrite compile_eq. unfold map, Base.bind. destruct (char_no c text pos w L) as [e C]; [rewrite K; exact N|]. rewrite C. eexists. split; [reflexivity|constructor].
    - intros v s w. exists 0. intros limit depth _ _ text pos L <-. rewrite compile_eq. eexists. split; [reflexivity|constructor; exact L].
    - intros m s w. exists 0. intros limit depth _ _ text pos L K. rewrite compile_eq. eexists. split; [reflexivity|constructor].
    - intros k a b s w r w1 _ [n IH] N. exists n. intros limit depth L1 L2 text pos L K. destruct (and_of limit depth k a b) as (f & _ & ->). destruct (IH limit depth L1 L2 text pos L K) as (x & E & S).
      unfold map, and_then, Base.bind. rewrite E. destruct S; [destruct N| |]; (eexists; split; [reflexivity|constructor]).
    - intros k a b s w v s1 w1 r w2 _ [n1 IH1] _ [n2 IH2]. exists (Nat.max n1 n2). intros limit depth L1 L2 text pos L K. destruct (and_of limit depth k a b) as (f & F & ->). destruct (IH1 limit depth ltac:(lia) ltac:(lia) text pos L K) as (x & E & S).
      apply same_inv in S. destruct S as (pos1 & -> & P1 & K1). destruct (IH2 limit depth ltac:(lia) ltac:(lia) text pos1 P1 K1) as (x2 & E2 & S2). unfold map, and_then, Base.bind. rewrite E. cbv beta iota. rewrite E2.
      destruct S2; (eexists; split; [reflexivity|]); cbn; [rewrite F; constructor; assumption|constructor|constructor].
    - intros a b s w r w1 _ [n IH] N. exists n. intros limit depth L1 L2 text pos L K. rewrite compile_eq. destruct (IH limit depth L1 L2 text pos L K) as (x & E & S). unfold or_else, Base.bind. rewrite E. destruct S; [|destruct (N eq_refl)|]; (eexists; split; [reflexivity|constructor; assumption]).
    - intros a b s w w1 r w2 _ [n1 IH1] _ [n2 IH2]. exists (Nat.max n1 n2). intros limit depth L1 L2 text pos L K. rewrite compile_eq. destruct (IH1 limit depth ltac:(lia) ltac:(lia) text pos L K) as (x & E & S). inversion S; subst x.
      unfold or_else, Base.bind. rewrite E. exact (IH2 limit depth ltac:(lia) ltac:(lia) text pos L K).
    - intros f g s w r w1 r2 w2 _ [n IH] A. exists n. intros limit depth L1 L2 text pos L K. rewrite compile_eq. destruct (IH limit depth L1 L2 text pos L K) as (x & E & S). unfold map, Base.bind. rewrite E. destruct S; cbn in A; [|injection A as <- <-; eexists; split; [reflexivity|constructor]..].
      destruct (f v w1) as [[y|e] w3]; injection A as <- <-; (eexists; split; [reflexivity|constructor; assumption]).
    - intros f g s w r w1 _ [n IH] N. exists n. intros limit depth L1 L2 text pos L K. rewrite compile_eq. destruct (IH limit depth L1 L2 text pos L K) as (x & E & S). unfold Parser.bind, Base.bind. rewrite E. destruct S; [destruct N| |]; (eexists; split; [reflexivity|constructor]).
    - intros f g s w v s1 w1 r w2 _ [n1 IH1] _ [n2 IH2]. exists (Nat.max n1 n2). intros limit depth L1 L2 text pos L K. rewrite compile_eq. destruct (IH1 limit depth ltac:(lia) ltac:(lia) text pos L K) as (x & E & S).
      apply same_inv in S. destruct S as (pos1 & -> & P1 & K1). unfold Parser.bind, Base.bind. rewrite E. unfold ret at 1. cbv beta iota. exact (IH2 limit depth ltac:(lia) ltac:(lia) text pos1 P1 K1).
    - intros g s w r w1 _ [n IH]. exists n. intros limit depth L1 L2 text pos L K. rewrite compile_eq. destruct (IH limit depth L1 L2 limit L1 text pos L K) as (x & E & S). unfold map, many, Base.bind. rewrite E.
      destruct r as [[vs s2]|e]; cbn in S; [destruct S as (pos2 & -> & L3 & <-)|subst x]; (eexists; split; [reflexivity|constructor; assumption]).
    - intros g s w r w1 _ [n IH] N. exists n. intros limit depth L1 L2 text pos L K. rewrite compile_eq. destruct (IH limit depth L1 L2 text pos L K) as (x & E & S). unfold map, many1, Base.bind. rewrite E. destruct S; [destruct N| |]; (eexists; split; [reflexivity|constructor]).
    - intros g s w v s1 w1 r w2 _ [n1 IH1] _ [n2 IH2]. exists (Nat.max n1 n2). intros limit depth L1 L2 text pos L K. rewrite compile_eq. destruct (IH1 limit depth ltac:(lia) ltac:(lia) text pos L K) as (x & E & S).
      apply same_inv in S. destruct S as (pos1 & -> & P1 & K1). destruct (IH2 limit depth ltac:(lia) ltac:(lia) limit ltac:(lia) text pos1 P1 K1) as (x2 & E2 & S2). unfold map, many1, Base.bind. rewrite E. cbv beta iota. rewrite E2.
      destruct r as [[vs s2]|e]; cbn in S2; [destruct S2 as (pos2 & -> & L3 & <-)|subst x2]; (eexists; split; [reflexivity|constructor; assumption]).
    - intros g s w r w1 _ [n IH] N. exists n. intros limit depth L1 L2 text pos L K. rewrite compile_eq. destruct (IH limit depth L1 L2 text pos L K) as (x & E & S). unfold opt, or_else, map, Base.bind. rewrite E. destruct S; [|destruct (N eq_refl)|]; (eexists; split; [reflexivity|constructor; assumption]).
    - intros g s w w1 _ [n IH]. exists n. intros limit depth L1 L2 text pos L K. rewrite compile_eq. destruct (IH limit depth L1 L2 text pos L K) as (x & E & S). inversion S; subst x. unfold opt, or_else, map, preturn, Base.bind. rewrite E. eexists. split; [reflexivity|]. rewrite <- K. constructor. exact L.
    - intros g h s w w1 _ [n IH]. exists n. intros limit depth L1 L2 text pos L K. rewrite compile_eq. destruct (IH limit depth L1 L2 text pos L K) as (x & E & S). inversion S; subst x. unfold sep_by, or_else, sep_by1, starmap, map, and_then, preturn, Base.bind. rewrite E. eexists. split; [reflexivity|]. rewrite <- K. constructor. exact L.
    - intros g h s w e w1 _ [n IH]. exists n. intros limit depth L1 L2 text pos L K. rewrite compile_eq. destruct (IH limit depth L1 L2 text pos L K) as (x & E & S). inversion S; subst. unfold sep_by, or_else, sep_by1, starmap, map, and_then, Base.bind. rewrite E. eexists. split; [reflexivity|constructor].
    - intros g h s w v s1 w1 r w2 _ [n1 IH1] _ [n2 IH2]. exists (Nat.max n1 n2). intros limit depth L1 L2 text pos L K. rewrite compile_eq. destruct (IH1 limit depth ltac:(lia) ltac:(lia) text pos L K) as (x & E & S).
      apply same_inv in S. destruct S as (pos1 & -> & P1 & K1). destruct (IH2 limit depth ltac:(lia) ltac:(lia) limit ltac:(lia) text pos1 P1 K1) as (x2 & E2 & S2). rewrite compile_eq in E2. unfold sep_by, or_else, sep_by1, starmap, map, and_then, many, Base.bind. rewrite E. cbv beta iota. rewrite E2.
      destruct r as [[vs s2]|e]; cbn in S2; [destruct S2 as (pos2 & -> & L3 & <-)|subst x2]; (eexists; split; [reflexivity|constructor; assumption]).
    - intros a b g s w r w1 _ [n IH]. exists n. intros limit depth L1 L2 text pos L K. destruct (IH limit depth L1 L2 text pos L K) as (x & E & S). exists x. split; [|exact S]. rewrite compile_eq in E |- *. rewrite compile_eq in E. exact E.
    - intros i s w r w1 _ [n IH]. exists (S n). intros limit depth L1 L2 text pos L K. rewrite compile_eq. destruct depth as [|depth]; [lia|]. exact (IH limit depth ltac:(lia) ltac:(lia) text pos L K).
    - intros u s w. exists (S (List.length u)). intros limit depth L1 L2 text pos L K. rewrite compile_eq. unfold map, Base.bind. destruct (string_yes u limit text pos w s ltac:(lia) L K) as [Y K1]. rewrite Y. eexists. split; [reflexivity|]. rewrite <- K1. constructor. lia.
    - intros u s w N. exists (S (List.length u)). intros limit depth L1 L2 text pos L K. rewrite compile_eq. unfold map, Base.bind. destruct (string_no u limit text pos w ltac:(lia) L) as [e Y]; [rewrite K; exact N|]. rewrite Y. eexists. split; [reflexivity|constructor].
    - intros c cs d s w I. exists 0. intros limit depth L1 L2 text pos L K. rewrite compile_eq. unfold map, Base.bind. destruct (any_yes c cs d text pos w s L K I) as [Y K1]. rewrite Y. eexists. split; [reflexivity|]. rewrite <- K1. constructor. lia.
    - intros c cs s w N. exists 0. intros limit depth L1 L2 text pos L K. rewrite compile_eq. unfold map, Base.bind. destruct (any_no c cs text pos w L) as [e Y]; [rewrite K; exact N|]. rewrite Y. eexists. split; [reflexivity|constructor].
    - intros g s w w1 _ [n IH]. exists (S n). intros limit depth L1 L2 m L3 text pos L K. destruct m as [|m]; [lia|]. destruct (IH limit depth ltac:(lia) ltac:(lia) text pos L K) as (x & E & S). inversion S; subst x. cbn [parse_zero_or_more]. unfold Base.bind. rewrite E. eexists. split; [reflexivity|]. cbn. eauto.
    - intros g s w e w1 _ [n IH]. exists (S n). intros limit depth L1 L2 m L3 text pos L K. destruct m as [|m]; [lia|]. destruct (IH limit depth ltac:(lia) ltac:(lia) text pos L K) as (x & E & S). inversion S; subst. cbn [parse_zero_or_more]. unfold Base.bind. rewrite E. eexists. split; reflexivity.
    - intros g s w v s1 w1 r w2 _ [n1 IH1] _ [n2 IH2]. exists (S (Nat.max n1 n2)). intros limit depth L1 L2 m L3 text pos L K. destruct m as [|m]; [lia|]. destruct (IH1 limit depth ltac:(lia) ltac:(lia) text pos L K) as (x & E & S).
      apply same_inv in S. destruct S as (pos1 & -> & P1 & K1). destruct (IH2 limit depth ltac:(lia) ltac:(lia) m ltac:(lia) text pos1 P1 K1) as (x2 & E2 & S2). cbn [parse_zero_or_more]. unfold Base.bind. rewrite E. cbv beta iota. rewrite E2.
      destruct r as [[vs s2]|e]; cbn in S2; [destruct S2 as (pos2 & -> & L4 & <-)|subst x2]; (eexists; split; [reflexivity|]); cbn; eauto.
  Qed.
  Lemma same_unique : forall text x r1 r2, same text x r1 -> same text x r2 -> r1 = r2.
  Proof. intros text x r1 r2 A B. destruct A; inversion B; subst; reflexivity. Qed.
  Lemma peg_unique : forall g s w r1 w1 r2 w2, peg g s w r1 w1 -> peg g s w r2 w2 -> r1 = r2 /\ w1 = w2.
  Proof.
    intros g s w r1 w1 r2 w2 A B. destruct (proj1 complete_peg _ _ _ _ _ A) as [n1 H1]. destruct (proj1 complete_peg _ _ _ _ _ B) as [n2 H2].
    destruct (H1 (Nat.max n1 n2) (Nat.max n1 n2) ltac:(lia) ltac:(lia) s 0%Z (Z.le_refl 0) eq_refl) as (x1 & E1 & S1). destruct (H2 (Nat.max n1 n2) (Nat.max n1 n2) ltac:(lia) ltac:(lia) s 0%Z (Z.le_refl 0) eq_refl) as (x2 & E2 & S2).
    rewrite E1 in E2. injection E2 as <- <-. split; [eapply same_unique; eassumption|reflexivity].
  Qed.
  (** The text that is left is an end of the text. *)
  Lemma peg_suffix : (forall g s w r w1, peg g s w r w1 -> forall v s1, r = Ret (Some (v, s1)) -> exists u, s = u ++ s1) /\
    (forall g s w r w1, pegs g s w r w1 -> forall vs s1, r = Ret (vs, s1) -> exists u, s = u ++ s1).
  Proof.
    assert (T : forall (s u1 s1 : str), s = u1 ++ s1 -> forall s2, (exists u, s1 = u ++ s2) -> exists u, s = u ++ s2) by (intros s u1 s1 -> s2 [u ->]; exists (u1 ++ u); apply app_assoc).
    apply peg_ind2.
    - intros c s w v s1 E. injection E as <- <-. exists [c]. reflexivity.
    - discriminate.
    - intros v s w v1 s1 E. injection E as <- <-. exists []. reflexivity.
    - discriminate.
    - intros k a b s w r w1 _ IH N. exact IH.
    - intros k a b s w v s1 w1 r w2 _ IH1 _ IH2 v2 s2 E. destruct (IH1 _ _ eq_refl) as [u U]. eapply T; [exact U|]. destruct r as [[[v3 s3]|]|e]; try discriminate. injection E as <- <-. eapply IH2. reflexivity.
    - intros a b s w r w1 _ IH N. exact IH.
    - intros a b s w w1 r w2 _ _ _ IH. exact IH.
    - intros f g s w r w1 r2 w2 _ IH A v s1 ->. destruct r as [[[v3 s3]|]|e]; try discriminate. cbn in A. destruct (f v3 w1) as [[y|e] w3]; try discriminate. injection A as <- <- <-. eapply IH. reflexivity.
    - intros f g s w r w1 _ IH N. exact IH.
    - intros f g s w v s1 w1 r w2 _ IH1 _ IH2 v2 s2 E. destruct (IH1 _ _ eq_refl) as [u U]. eapply T; [exact U|]. eapply IH2. exact E.
    - intros g s w r w1 _ IH v s1 E. destruct r as [[vs s2]|e]; try discriminate. injection E as <- <-. eapply IH. reflexivity.
    - intros g s w r w1 _ IH N. exact IH.
    - intros g s w v s1 w1 r w2 _ IH1 _ IH2 v2 s2 E. destruct (IH1 _ _ eq_refl) as [u U]. eapply T; [exact U|]. destruct r as [[vs s3]|e]; try discriminate. injection E as <- <-. eapply IH2. reflexivity.
    - intros g s w r w1 _ IH N v s1 E. destruct r as [[[v3 s3]|]|e]; try discriminate. injection E as <- <-. eapply IH. reflexivity.
    - intros g s w w1 _ _ v s1 E. injection E as <- <-. exists []. reflexivity.
    - intros g h s w w1 _ _ v s1 E. injection E as <- <-. exists []. reflexivity.
    - discriminate.
    - intros g h s w v s1 w1 r w2 _ IH1 _ IH2 v2 s2 E. destruct (IH1 _ _ eq_refl) as [u U]. eapply T; [exact U|]. destruct r as [[vs s3]|e]; try discriminate. injection E as <- <-. eapply IH2. reflexivity.
    - intros a b g s w r w1 _ IH. exact IH.
    - intros n s w r w1 _ IH. exact IH.
    - intros u s w v s1 E. injection E as <- <-. exists u. reflexivity.
    - discriminate.
    - intros c cs d s w _ v s1 E. injection E as <- <-. exists [d]. reflexivity.
    - discriminate.
    - intros g s w w1 _ _ vs s1 E. injection E as <- <-. exists []. reflexivity.
    - discriminate.
    - intros g s w v s1 w1 r w2 _ IH1 _ IH2 vs s2 E. destruct (IH1 _ _ eq_refl) as [u U]. eapply T; [exact U|]. destruct r as [[vs1 s3]|e]; try discriminate. injection E as <- <-. eapply IH2. reflexivity.
  Qed.
  (** A grammar without derivation: with whatever room, the parser runs out of it. *)
  Lemma no_derivation : forall g s w, (forall r w1, ~ peg g s w r w1) -> forall limit depth (text : str) pos, (0 <= pos)%Z -> rest_of (text, pos) = s -> fst (compile limit depth g (text, pos) w) = Raise RecursionError.
  Proof.
    intros g s w N limit depth text pos L K. destruct (compile limit depth g (text, pos) w) as [x w1] eqn:E. pose proof (sound_peg limit depth g text pos w x w1 L E) as [X|(r & P & _)]; [exact X|]. rewrite K in P. destruct (N _ _ P).
  Qed.
  Lemma left_recursion : forall n, starts_with n (rules n) -> forall limit depth g, starts_with n g -> forall (text : str) pos w, compile limit depth g (text, pos) w = (Raise RecursionError, w).
  Proof.
    intros n SW limit depth. induction depth as [|depth IH]; intros g SG text pos w;
      (induction SG as [|m S1 IHs|k a b S1 IHs|a b S1 IHs|f g S1 IHs|f g S1 IHs|g S1 IHs|g S1 IHs|g S1 IHs|g h S1 IHs|a b g S1 IHs];
       [rewrite compile_eq; try reflexivity; apply IH; assumption
       |rewrite compile_eq; try reflexivity; apply IH; assumption
       |edestruct and_of as (f & _ & ->); unfold map, and_then, Base.bind; rewrite IHs; reflexivity
       |rewrite compile_eq; unfold or_else, Base.bind; rewrite IHs; reflexivity
       |rewrite compile_eq; unfold map, Base.bind; rewrite IHs; reflexivity
       |rewrite compile_eq; unfold Parser.bind, Base.bind; rewrite IHs; reflexivity
       |rewrite compile_eq; unfold map, many, Base.bind; destruct limit; cbn [parse_zero_or_more]; [reflexivity|]; unfold Base.bind; rewrite IHs; reflexivity
       |rewrite compile_eq; unfold map, many1, Base.bind; rewrite IHs; reflexivity
       |rewrite compile_eq; unfold opt, or_else, map, Base.bind; rewrite IHs; reflexivity
       |rewrite compile_eq; unfold sep_by, or_else, sep_by1, starmap, map, and_then, Base.bind; rewrite IHs; reflexivity
       |rewrite compile_eq; unfold between, then_ignore, ignore_then, map, and_then, Base.bind; rewrite IHs; reflexivity]).
  Qed.
  Scheme pegs_only := Minimality for PegSpec.pegs Sort Prop.
  (** Repeating what always succeeds and reads nothing. *)
  Lemma many_idle_aux : forall g s, (forall w r w1, peg g s w r w1 -> exists v, r = Ret (Some (v, s))) -> forall h t w r w1, pegs h t w r w1 -> h = g -> t = s -> False.
  Proof.
    intros g s N. apply (pegs_only W rules (fun h t w r w1 => h = g -> t = s -> False)).
    - intros h t w w1 P -> ->. destruct (N _ _ _ P). discriminate.
    - intros h t w e w1 P -> ->. destruct (N _ _ _ P). discriminate.
    - intros h t w v s1 w1 r w2 P _ IH -> ->. destruct (N _ _ _ P) as [u U]. injection U as _ ->. apply IH; reflexivity.
  Qed.
  Lemma many_idle : forall g s, (forall w r w1, peg g s w r w1 -> exists v, r = Ret (Some (v, s))) -> forall limit depth (text : str) pos w, (0 <= pos)%Z -> rest_of (text, pos) = s -> fst (compile limit depth (GMany g) (text, pos) w) = Raise RecursionError.
  Proof.
    intros g s N limit depth text pos w L K. apply no_derivation with (s := s); auto. intros r w1 P. inversion P; subst. eapply many_idle_aux; eauto.
  Qed.
End Facts.
