(** Lemmas about the errors of parsers. *)
From Coq Require Import String List Bool ZArith Lia.
From Verif.Model Require Import Base PyList OptionResult Block Parser.
From Verif.Spec Require Import ParserSpec ParserErrorSpec.
From Verif.Proofs Require Import ParserFacts.
Import ListNotations.
Local Open Scope list_scope.

Section Facts.
  Context {W : Type}.
  (** The position stays within the text, and errors are true of it. *)
  Definition honest (char own : str -> Prop) {A} (p : parser W A) : Prop := forall (text : str) (pos : nat) (w : W), pos <= List.length text ->
    match p (text, Z.of_nat pos) w with
    | (Ret (Ok (_, i)), _) => exists n, i = (text, Z.of_nat n) /\ pos <= n <= List.length text
    | (Ret (Err e), _) => own e \/ exists q c, pos <= q <= List.length text /\ char c /\ says text q c e
    | (Raise _, _) => True
    end.
  Lemma pchar_at : forall c (text : str) pos (w : W), pos <= List.length text ->
    pchar c (text, Z.of_nat pos) w =
    match nth_error text pos with
    | None => (Ret (Err (lit "no more input"%string)), w)
    | Some d => if str_eqb [d] c then (Ret (Ok (c, (text, Z.of_nat (S pos)))), w) else (Ret (Err (expecting c d)), w)
    end.
  Proof.
    intros c text pos w L. unfold pchar. destruct (Z.leb_spec (Z.of_nat (List.length text)) (Z.of_nat pos)) as [H|H].
    - replace (nth_error text pos) with (@None nat) by (symmetry; apply nth_error_None; lia). reflexivity.
    - destruct (nth_error text pos) as [d|] eqn:E; [|apply nth_error_None in E; lia].
      assert (I : index text (Z.of_nat pos) = Ret d).
      { unfold index. destruct (Z.ltb_spec (Z.of_nat pos) 0); [lia|]. destruct (Z.ltb_spec (Z.of_nat pos) 0); try lia. rewrite ?Nat2Z.id. cbn. now rewrite E. }
      rewrite I. unfold Base.bind, lift. cbv beta iota. destruct (str_eqb [d] c); [|reflexivity]. replace (Z.of_nat (S pos)) with (Z.of_nat pos + 1)%Z by lia. reflexivity.
  Qed.
  Lemma str_eqb_eq : forall a b, str_eqb a b = true <-> a = b.
  Proof. intros a b. unfold str_eqb. destruct (list_eq_dec Nat.eq_dec a b); split; congruence. Qed.
  Lemma honest_zero : forall char own A (p : parser W A), honest char own p -> forall limit (text : str) pos (w : W), pos <= List.length text ->
    match parse_zero_or_more limit p (text, Z.of_nat pos) w with
    | (Ret (_, i), _) => exists n, i = (text, Z.of_nat n) /\ pos <= n <= List.length text
    | (Raise _, _) => True
    end.
  Proof.
    intros char own A p P. induction limit as [|limit IH]; intros text pos w L; [exact I|].
    cbn [parse_zero_or_more]. unfold Base.bind. specialize (P text pos w L). destruct (p (text, Z.of_nat pos) w) as [[[[x i]|e]|e] w1]; cbn; auto.
    - destruct P as (n & -> & B). specialize (IH text n w1 ltac:(lia)). destruct (parse_zero_or_more limit p (text, Z.of_nat n) w1) as [[[ys i]|e] w2]; cbn; auto.
      destruct IH as (n1 & -> & B1). exists n1. split; [reflexivity|lia].
    - exists pos. split; [reflexivity|lia].
  Qed.
  Lemma made_honest : forall char own A (p : parser W A), made char own A p -> honest char own p.
  Proof.
    intros char own A p D. induction D as [c C|A x|A e O|A B p q _ P _ Q|A p q _ P _ Q|A B f p _ P|A B f p _ P _ F|A limit p _ P|A limit p _ P]; intros text pos w L.
    - rewrite pchar_at by exact L. destruct (nth_error text pos) as [d|] eqn:E.
      + assert (pos < List.length text) by (apply nth_error_Some; congruence).
        destruct (str_eqb [d] c) eqn:Q.
        * exists (S pos). split; [reflexivity|lia].
        * right. exists pos, c. split; [lia|]. split; [exact C|]. right. exists d. split; [exact E|]. split; [|reflexivity].
          intros ->. assert (str_eqb [d] [d] = true) by (apply str_eqb_eq; reflexivity). congruence.
      + apply nth_error_None in E. right. exists pos, c. split; [lia|]. split; [exact C|]. left. split; [lia|reflexivity].
    - exists pos. split; [reflexivity|lia].
    - left. exact O.
    - unfold and_then, Base.bind. specialize (P text pos w L). destruct (p (text, Z.of_nat pos) w) as [[[[x i]|e]|e] w1]; cbn; auto.
      destruct P as (n & -> & R). specialize (Q text n w1 ltac:(lia)). destruct (q (text, Z.of_nat n) w1) as [[[[y i]|e]|e] w2]; cbn; auto.
      + destruct Q as (n1 & -> & R1). exists n1. split; [reflexivity|lia].
      + destruct Q as [O|(q0 & c & R1 & C & S)]; [now left|right]. exists q0, c. repeat split; try lia; auto.
    - unfold or_else, Base.bind. specialize (P text pos w L). destruct (p (text, Z.of_nat pos) w) as [[[[x i]|e]|e] w1]; cbn; auto. apply Q; exact L.
    - unfold map, Base.bind. specialize (P text pos w L). destruct (p (text, Z.of_nat pos) w) as [[[[x i]|e]|e] w1]; cbn; auto.
      destruct (f x w1) as [[y|e] w2]; cbn; auto.
    - unfold bind, Base.bind. specialize (P text pos w L). destruct (p (text, Z.of_nat pos) w) as [[[[x i]|e]|e] w1]; cbn; auto.
      destruct P as (n & -> & R). destruct (f x w1) as [[q|e] w2] eqn:E; cbn; auto. specialize (F _ _ _ _ E text n w2 ltac:(lia)).
      destruct (q (text, Z.of_nat n) w2) as [[[[y i]|e]|e] w3]; cbn; auto.
      + destruct F as (n1 & -> & R1). exists n1. split; [reflexivity|lia].
      + destruct F as [O|(q0 & c & R1 & C & S)]; [now left|right]. exists q0, c. repeat split; try lia; auto.
    - unfold many, Base.bind. assert (H := honest_zero _ _ _ _ P limit text pos w L).
      destruct (parse_zero_or_more limit p (text, Z.of_nat pos) w) as [[[ys i]|e] w1]; cbn; auto.
    - unfold many1, Base.bind. specialize (P text pos w L) as P1. destruct (p (text, Z.of_nat pos) w) as [[[[x i]|e]|e] w1]; cbn; auto.
      destruct P1 as (n & -> & R). assert (H := honest_zero _ _ _ _ P limit text n w1 ltac:(lia)).
      destruct (parse_zero_or_more limit p (text, Z.of_nat n) w1) as [[[ys i]|e] w2]; cbn; auto.
      destruct H as (n1 & -> & R1). exists n1. split; [reflexivity|lia].
  Qed.
  (** ** Parsers without alternatives *)
  Lemma agree_nth : forall n text text1 i, agree n text text1 -> i < n -> nth_error text i = nth_error text1 i.
  Proof.
    intros n text text1 i (_ & _ & E) L. rewrite <- (firstn_skipn n text), <- (firstn_skipn n text1) at 1.
    assert (G : forall t : str, nth_error t i = nth_error (firstn n t) i).
    { clear - L. intros t. revert i t L. induction n as [|n IH]; intros i t L; [lia|]. destruct t as [|x t]; [now destruct i|].
      destruct i as [|i]; [reflexivity|]. cbn. apply IH. lia. }
    rewrite !firstn_skipn. rewrite (G text), (G text1), E. reflexivity.
  Qed.
  Lemma agree_less : forall n m text text1, agree n text text1 -> m <= n -> agree m text text1.
  Proof.
    intros n m text text1 (A & B & E) L. repeat split; try lia.
    rewrite <- (Nat.min_l m n L), <- (firstn_firstn text), <- (firstn_firstn text1), E. reflexivity.
  Qed.
  Lemma straight_first : forall k A (p : parser W A), straight k A p -> forall (text : str) pos (w : W), pos <= List.length text ->
    match p (text, Z.of_nat pos) w with
    | (Ret (Ok (_, i)), _) => i = (text, Z.of_nat (pos + k)) /\ pos + k <= List.length text
    | (Ret (Err e), _) => exists q c, pos <= q /\ says text q c e /\
        forall text1 w1 n x w2, p (text1, Z.of_nat pos) w1 = (Ret (Ok x), w2) -> agree n text text1 -> n <= q
    | (Raise _, _) => True
    end.
  Proof.
    intros k A p D. induction D as [c|A x|A B k1 k2 p q _ P _ Q|A B k f p _ P]; intros text pos w L.
    - rewrite pchar_at by exact L. destruct (nth_error text pos) as [d|] eqn:E.
      + assert (LT : pos < List.length text) by (apply nth_error_Some; congruence). destruct (str_eqb [d] c) eqn:Q.
        * split; [do 2 f_equal; lia|lia].
        * exists pos, c. split; [lia|]. split.
          { right. exists d. split; [exact E|]. split; [|reflexivity].
            intros ->. assert (str_eqb [d] [d] = true) by (apply str_eqb_eq; reflexivity). congruence. }
          intros text1 w1 n x w2 H G. destruct (Nat.le_gt_cases n pos) as [U|U]; [exact U|].
          pose proof (agree_nth _ _ _ pos G U) as N. destruct G as (_ & L1 & _). rewrite pchar_at in H by lia. rewrite <- N, E, Q in H. discriminate.
      + apply nth_error_None in E. exists pos, c. split; [lia|]. split; [left; split; [lia|reflexivity]|].
        intros text1 w1 n x w2 _ (L1 & _). lia.
    - split; [do 2 f_equal; lia|lia].
    - unfold and_then, Base.bind. specialize (P text pos) as P1. specialize (P1 w L). destruct (p (text, Z.of_nat pos) w) as [[[[x i]|e]|e] w1]; cbn; auto.
      + destruct P1 as (-> & R). specialize (Q text (pos + k1)) as Q1. specialize (Q1 w1 ltac:(lia)).
        destruct (q (text, Z.of_nat (pos + k1)) w1) as [[[[y i]|e]|e] w2]; cbn; auto.
        * destruct Q1 as (-> & R1). split; [do 2 f_equal; lia|lia].
        * destruct Q1 as (q0 & c & R1 & S & T). exists q0, c. split; [lia|]. split; [exact S|].
          intros text1 w3 n v w4 H G. destruct (Nat.le_gt_cases n (pos + k1)) as [U|U]; [lia|].
          assert (L1 : pos <= List.length text1) by (destruct G as (_ & G & _); lia). specialize (P text1 pos w3 L1).
          destruct (p (text1, Z.of_nat pos) w3) as [[[[x1 i1]|e1]|e1] w5]; try discriminate. destruct P as (-> & R2). cbn in H.
          destruct (q (text1, Z.of_nat (pos + k1)) w5) as [[[y1|e1]|e1] w6] eqn:E; try discriminate. eapply T; eauto.
      + destruct P1 as (q0 & c & R1 & S & T). exists q0, c. split; [lia|]. split; [exact S|].
        intros text1 w3 n v w4 H G. destruct (p (text1, Z.of_nat pos) w3) as [[[y1|e1]|e1] w5] eqn:E; try discriminate. eapply T; eauto.
    - unfold map, Base.bind. specialize (P text pos w L). destruct (p (text, Z.of_nat pos) w) as [[[[x i]|e]|e] w1]; cbn; auto.
      + destruct (f x w1) as [[y|e] w2]; cbn; auto.
      + destruct P as (q0 & c & R1 & S & T). exists q0, c. split; [lia|]. split; [exact S|].
        intros text1 w3 n v w4 H G. destruct (p (text1, Z.of_nat pos) w3) as [[[y1|e1]|e1] w5] eqn:E; try discriminate. eapply T; eauto.
  Qed.
  Lemma straight_lift2 : forall A B C k1 k2 (f : A -> M W (B -> M W C)) p q, straight k1 A p -> straight k2 B q -> straight (k1 + k2) C (lift2 f p q).
  Proof.
    intros A B C k1 k2 f p q P Q. unfold lift2, apply. apply s_map. apply s_and_then; [|exact Q]. apply s_map. change k1 with (0 + k1).
    apply s_and_then; [apply s_preturn|exact P].
  Qed.
  Lemma straight_sequence : forall A limit (ps : list (parser W A)) p, sequence limit ps = Ret p -> (forall q, In q ps -> exists k, straight k A q) ->
    exists k, straight k _ p.
  Proof.
    intros A. induction limit as [|limit IH]; intros ps p H D; [discriminate|]. destruct ps as [|q ps]; cbn in H.
    - injection H; intros; subst. exists 0. apply s_preturn.
    - destruct (sequence limit ps) as [p1|] eqn:E; [|discriminate]. cbn in H. injection H; intros; subst.
      destruct (IH _ _ E) as [k K]; [intros; apply D; now right|]. destruct (D q) as [k1 K1]; [now left|]. exists (k1 + k). now apply straight_lift2.
  Qed.
  Lemma straight_pstring : forall limit s (p : parser W str), pstring limit s = Ret p -> exists k, straight k _ p.
  Proof.
    intros limit s p H. unfold pstring in H. destruct (sequence limit (List.map (fun c => pchar [c]) s)) as [q|] eqn:E; [|discriminate].
    injection H; intros; subst. destruct (straight_sequence _ _ _ _ E) as [k K]; [|exists k; now apply s_map].
    intros q0 I. apply in_map_iff in I. destruct I as (c & <- & _). exists 1. apply s_pchar.
  Qed.
  (** ** The derived parsers *)
  Lemma made_lift2 : forall char own A B C (f : A -> M W (B -> M W C)) p q, made char own A p -> made char own B q -> made char own C (lift2 f p q).
  Proof. intros. unfold lift2, apply. apply m_map, m_and_then; auto. apply m_map, m_and_then; auto. apply m_preturn. Qed.
  Lemma made_sequence : forall char own A limit (ps : list (parser W A)) p, sequence limit ps = Ret p -> (forall q, In q ps -> made char own A q) ->
    made char own _ p.
  Proof.
    intros char own A. induction limit as [|limit IH]; intros ps p H D; [discriminate|]. destruct ps as [|q ps]; cbn in H.
    - injection H; intros; subst. apply m_preturn.
    - destruct (sequence limit ps) as [p1|] eqn:E; [|discriminate]. cbn in H. injection H; intros; subst.
      apply made_lift2; [apply D; now left|]. apply (IH _ _ E). intros; apply D; now right.
  Qed.
  Lemma made_pstring : forall (char own : str -> Prop) limit s (p : parser W str), pstring limit s = Ret p -> (forall c, In c s -> char [c]) -> made char own _ p.
  Proof.
    intros char own limit s p H D. unfold pstring in H. destruct (sequence limit (List.map (fun c => pchar [c]) s)) as [q|] eqn:E; [|discriminate].
    injection H; intros; subst. apply m_map. apply (made_sequence _ _ _ _ _ _ E). intros q0 I. apply in_map_iff in I. destruct I as (c & <- & I). apply m_pchar, D, I.
  Qed.
  Lemma made_fold : forall char own A (ps : list (parser W A)) p, made char own A p -> (forall q, In q ps -> made char own A q) ->
    made char own A (fold_left or_else ps p).
  Proof. intros char own A ps. induction ps as [|q ps IH]; intros p P D; [exact P|]. cbn. apply IH; [apply m_or_else; [exact P|apply D; now left]|intros; apply D; now right]. Qed.
  Lemma made_choice : forall char own A (ps : list (parser W A)) q, choice ps = Ret q -> (forall p, In p ps -> made char own A p) -> made char own A q.
  Proof.
    intros char own A [|p ps] q E D; [discriminate|]. rewrite choice_eq in E. injection E; intros; subst.
    apply made_fold; [apply D; now left|intros; apply D; now right].
  Qed.
  Lemma made_any_of : forall (char own : str -> Prop) cs (q : parser W str), any_of cs = Ret q -> (forall c, In c cs -> char [c]) -> made char own _ q.
  Proof.
    intros char own cs q E D. eapply made_choice; [exact E|]. intros p I. apply in_map_iff in I. destruct I as (c & <- & I). apply m_pchar, D, I.
  Qed.
  Lemma made_imported : forall (char own : str -> Prop) c cs, (forall d, In d (c :: cs) -> char [d]) ->
    made char own _ (imported (W := W) (any_of (c :: cs))).
  Proof.
    intros char own c cs D. destruct (any_of (W := W) (c :: cs)) as [q|e] eqn:E; [exact (made_any_of _ _ _ _ E D)|].
    unfold any_of in E. cbn [List.map] in E. rewrite choice_eq in E. discriminate.
  Qed.
  Definition number_char (c : str) : Prop := c = lit "-"%string \/ exists d, In d (lit "0123456789"%string) /\ c = [d].
  Lemma made_pint : forall own limit int_limit, made number_char own _ (pint (W := W) limit int_limit).
  Proof.
    intros own limit int_limit. unfold pint, starmap, opt, digits. apply m_map, m_and_then.
    - apply m_or_else; [apply m_map, m_pchar; now left|apply m_preturn].
    - apply m_many1. apply made_imported. intros d I. right. exists d. split; [exact I|reflexivity].
  Qed.
  Lemma true_pf : forall char own A (p : parser W A) text w e w1, made char own A p -> call p text w = (Ret (Err e), w1) ->
    own e \/ exists q c, q <= List.length text /\ char c /\ says text q c e.
  Proof.
    intros char own A p text w e w1 D H. pose proof (made_honest _ _ _ _ D text 0 w ltac:(lia)) as P. unfold call, Base.bind in H. change (Z.of_nat 0) with 0%Z in P.
    destruct (p (text, 0%Z) w) as [[[[x i]|e1]|e1] w2]; cbn in H; try discriminate.
    injection H; intros; subst. destruct P as [O|(q & c & R & C & S)]; [now left|right]. exists q, c. repeat split; try lia; auto.
  Qed.
  Lemma furthest_pf : forall k A (p : parser W A) text w e w1, straight k A p -> call p text w = (Ret (Err e), w1) ->
    exists q c, says text q c e /\ forall text1 w2 x w3 n, call p text1 w2 = (Ret (Ok x), w3) -> agree n text text1 -> n <= q.
  Proof.
    intros k A p text w e w1 D H. pose proof (straight_first _ _ _ D text 0 w ltac:(lia)) as P. unfold call, Base.bind in H. change (Z.of_nat 0) with 0%Z in P.
    destruct (p (text, 0%Z) w) as [[[[x i]|e1]|e1] w2]; cbn in H; try discriminate.
    injection H; intros; subst. destruct P as (q & c & _ & S & T). exists q, c. split; [exact S|].
    intros text1 w2 x w3 n H1 G. unfold call, Base.bind in H1. destruct (p (text1, 0%Z) w2) as [[[y|e1]|e1] w4] eqn:E; cbn in H1; try discriminate. eapply T; eauto.
  Qed.
  Lemma or_else_error_pf : forall A (p q : parser W A) i w e w1, or_else p q i w = (Ret (Err e), w1) ->
    exists e0 w0, p i w = (Ret (Err e0), w0) /\ q i w0 = (Ret (Err e), w1).
  Proof.
    intros A p q i w e w1 H. unfold or_else, Base.bind in H. destruct (p i w) as [[[x|e0]|e0] w0]; try discriminate. exists e0, w0. split; [reflexivity|exact H].
  Qed.
  Lemma any_of_error_pf : forall cs (p : parser W str) (text : str) pos w e w1, any_of cs = Ret p -> pos <= List.length text ->
    p (text, Z.of_nat pos) w = (Ret (Err e), w1) -> says text pos (last_char cs) e.
  Proof.
    intros cs. induction cs as [|a cs IH] using rev_ind; intros p text pos w e w1 E L H; [discriminate|].
    assert (X : says text pos (last_char (cs ++ [a])) e).
    { unfold last_char. rewrite last_last.
      assert (K : exists w0, pchar [a] (text, Z.of_nat pos) w0 = (Ret (Err e), w1)).
      { unfold any_of in E. rewrite map_app in E. destruct cs as [|b cs]; cbn [List.map app] in E; rewrite choice_eq in E; injection E; intros; subst.
        - exists w. exact H.
        - rewrite fold_left_app in H. cbn [fold_left] in H. apply or_else_error_pf in H. destruct H as (e0 & w0 & _ & H). exists w0. exact H. }
      destruct K as [w0 K]. rewrite pchar_at in K by exact L. destruct (nth_error text pos) as [d|] eqn:N.
      - destruct (str_eqb [d] [a]) eqn:Q; [discriminate|]. injection K; intros; subst. right. exists d. split; [exact N|]. split; [|reflexivity].
        intros Z. symmetry in Z. apply str_eqb_eq in Z. congruence.
      - injection K; intros; subst. left. split; [|reflexivity]. apply nth_error_None in N. lia. }
    exact X.
  Qed.
End Facts.
