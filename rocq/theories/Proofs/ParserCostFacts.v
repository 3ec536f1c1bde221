(** Lemmas about the number of looks at the input. *)
From Coq Require Import List Bool ZArith Arith Lia.
From Verif.Model Require Import Base PyList OptionResult Block Parser ParserCost.
From Verif.Spec Require Import ParserCostSpec.
Import ListNotations.
Local Open Scope nat_scope.
Local Open Scope py_scope.

Section Bounds.
  Context {W : Type}.
  Notation cparser := (parser (nat * W)).

  Lemma pchar_moves : forall (c : str) i (w : nat * W), proper i ->
    match pchar c i w with
    | (Ret (Ok (_, i')), w') => w' = w /\ proper i' /\ S (left i') = left i
    | (Ret (Err _), w') => w' = w
    | (Raise _, _) => False
    end.
  Proof.
    intros c [s pos] w [P1 P2]. unfold pchar. cbn [fst snd] in *. destruct (Z.leb_spec (Z.of_nat (length s)) pos); [reflexivity|].
    unfold Base.bind, lift. destruct (index s pos) as [x|e] eqn:E.
    - destruct (str_eqb [x] c); cbn; [|reflexivity]. split; [reflexivity|]. unfold proper, left. cbn [fst snd]. lia.
    - unfold index in E. cbv zeta in E. destruct (Z.ltb_spec pos 0); [lia|].
      destruct (Z.ltb_spec pos 0); [lia|]. destruct (nth_error s (Z.to_nat pos)) eqn:N; [discriminate|].
      apply nth_error_None in N. lia.
  Qed.

  Lemma c_pchar_bounded : forall c ok err exc, (forall l, 1 <= ok (S l) l) -> (forall l, 1 <= err l) -> bounded (W := W) ok err exc (c_pchar c).
  Proof.
    intros c ok err exc H1 H2 i n w P. unfold c_pchar, Base.bind, tick. cbn [fst snd]. pose proof (pchar_moves c i (S n, w) P) as Q.
    destruct (pchar c i (S n, w)) as [[[[x i']|e]|e] [n' w']]; [|injection Q as -> ->; specialize (H2 (left i)); lia|destruct Q].
    destruct Q as (Q & P' & L). injection Q as -> ->. split; [exact P'|]. split; [lia|]. rewrite <- L. specialize (H1 (left i')). lia.
  Qed.
  Lemma c_pchar_consuming : forall c, consuming (W := W) (c_pchar c).
  Proof.
    intros c i n w P. unfold c_pchar, Base.bind, tick. cbn [fst snd]. pose proof (pchar_moves c i (S n, w) P) as Q.
    destruct (pchar c i (S n, w)) as [[[[x i']|e]|e] [n' w']]; cbn [fst]; auto. destruct Q as (_ & _ & L). lia.
  Qed.

  Lemma preturn_bounded : forall A (x : A) ok err exc, bounded (W := W) ok err exc (preturn x).
  Proof. intros A x ok err exc i n w P. cbn. repeat split; auto; try apply P; lia. Qed.
  Lemma fail_bounded : forall A e ok err exc, bounded (W := W) (A := A) ok err exc (fail e).
  Proof. intros A e ok err exc i n w P. cbn. lia. Qed.

  Lemma bounded_more : forall A ok err exc ok' err' exc' (p : cparser A), bounded ok err exc p ->
    (forall l l1, l1 <= l -> ok l l1 <= ok' l l1) -> (forall l, err l <= err' l) -> (forall l, exc l <= exc' l) -> bounded ok' err' exc' p.
  Proof.
    intros A ok err exc ok' err' exc' p B H1 H2 H3 i n w P. specialize (B i n w P). destruct (p i (n, w)) as [[[[x i']|e]|e] [n' w']].
    - destruct B as (P' & L & B). repeat split; auto; try apply P'. specialize (H1 _ _ L). lia.
    - specialize (H2 (left i)). lia.
    - specialize (H3 (left i)). lia.
  Qed.

  Lemma and_then_bounded : forall A B ok1 err1 exc1 ok2 err2 exc2 ok err exc (p : cparser A) (q : cparser B),
    bounded ok1 err1 exc1 p -> bounded ok2 err2 exc2 q ->
    (forall l l1 l2, l2 <= l1 <= l -> ok1 l l1 + ok2 l1 l2 <= ok l l2) ->
    (forall l, err1 l <= err l) -> (forall l l1, l1 <= l -> ok1 l l1 + err2 l1 <= err l) ->
    (forall l, exc1 l <= exc l) -> (forall l l1, l1 <= l -> ok1 l l1 + exc2 l1 <= exc l) -> bounded ok err exc (and_then p q).
  Proof.
    intros A B ok1 err1 exc1 ok2 err2 exc2 ok err exc p q B1 B2 H1 H2 H3 H4 H5 i n w P. unfold and_then, Base.bind.
    specialize (B1 i n w P). destruct (p i (n, w)) as [[[[x i1]|e]|e] [n1 w1]].
    - destruct B1 as (P1 & L1 & B1). specialize (B2 i1 n1 w1 P1). destruct (q i1 (n1, w1)) as [[[[y i2]|e]|e] [n2 w2]]; cbn [ret].
      + destruct B2 as (P2 & L2 & B2). repeat split; try apply P2; [lia|]. specialize (H1 _ _ _ (conj L2 L1)). lia.
      + specialize (H3 _ _ L1). lia.
      + specialize (H5 _ _ L1). lia.
    - cbn [ret]. specialize (H2 (left i)). lia.
    - specialize (H4 (left i)). lia.
  Qed.
  Lemma or_else_bounded : forall A ok1 err1 exc1 ok2 err2 exc2 ok err exc (p q : cparser A),
    bounded ok1 err1 exc1 p -> bounded ok2 err2 exc2 q ->
    (forall l l1, l1 <= l -> ok1 l l1 <= ok l l1) -> (forall l l1, l1 <= l -> err1 l + ok2 l l1 <= ok l l1) ->
    (forall l, err1 l + err2 l <= err l) -> (forall l, exc1 l <= exc l) -> (forall l, err1 l + exc2 l <= exc l) -> bounded ok err exc (or_else p q).
  Proof.
    intros A ok1 err1 exc1 ok2 err2 exc2 ok err exc p q B1 B2 H1 H2 H3 H4 H5 i n w P. unfold or_else, Base.bind.
    specialize (B1 i n w P). destruct (p i (n, w)) as [[[[x i1]|e]|e] [n1 w1]]; cbn [ret].
    - destruct B1 as (P1 & L1 & B1). repeat split; try apply P1; [exact L1|]. specialize (H1 _ _ L1). lia.
    - specialize (B2 i n1 w1 P). destruct (q i (n1, w1)) as [[[[y i2]|e2]|e2] [n2 w2]].
      + destruct B2 as (P2 & L2 & B2). repeat split; try apply P2; [exact L2|]. specialize (H2 _ _ L2). lia.
      + specialize (H3 (left i)). lia.
      + specialize (H5 (left i)). lia.
    - specialize (H4 (left i)). lia.
  Qed.
  Lemma still_at : forall X B (f : X -> M (nat * W) B) x n w r n' w', still f -> f x (n, w) = (r, (n', w')) -> n' = n.
  Proof. intros X B f x n w r n' w' S E. specialize (S x (n, w)). rewrite E in S. exact S. Qed.
  Lemma map_bounded : forall A B ok err exc (f : A -> M (nat * W) B) (p : cparser A), still f -> bounded ok err exc p ->
    (forall l l1, l1 <= l -> ok l l1 <= exc l) -> bounded ok err exc (map f p).
  Proof.
    intros A B ok err exc f p S B1 H i n w P. unfold map, Base.bind. specialize (B1 i n w P). destruct (p i (n, w)) as [[[[x i1]|e]|e] [n1 w1]]; cbn [ret]; auto.
    destruct B1 as (P1 & L1 & B1). destruct (f x (n1, w1)) as [[y|e] [n2 w2]] eqn:E; apply still_at in E; auto; subst n2.
    - cbn [ret]. auto.
    - specialize (H _ _ L1). lia.
  Qed.
  Lemma bind_bounded : forall A B ok1 err1 exc1 ok2 err2 exc2 ok err exc (f : A -> M (nat * W) (cparser B)) (p : cparser A), still f ->
    bounded ok1 err1 exc1 p -> (forall x w q w', f x w = (Ret q, w') -> bounded ok2 err2 exc2 q) ->
    (forall l l1 l2, l2 <= l1 <= l -> ok1 l l1 + ok2 l1 l2 <= ok l l2) ->
    (forall l, err1 l <= err l) -> (forall l l1, l1 <= l -> ok1 l l1 + err2 l1 <= err l) ->
    (forall l, exc1 l <= exc l) -> (forall l l1, l1 <= l -> ok1 l l1 + exc2 l1 <= exc l) -> bounded ok err exc (bind f p).
  Proof.
    intros A B ok1 err1 exc1 ok2 err2 exc2 ok err exc f p S B1 B2 H1 H2 H3 H4 H5 i n w P. unfold bind, Base.bind.
    specialize (B1 i n w P). destruct (p i (n, w)) as [[[[x i1]|e]|e] [n1 w1]].
    - destruct B1 as (P1 & L1 & B1). destruct (f x (n1, w1)) as [[q|e] [n2 w2]] eqn:E.
      + specialize (B2 _ _ _ _ E). apply still_at in E; auto. subst n2.
        specialize (B2 i1 n1 w2 P1). destruct (q i1 (n1, w2)) as [[[[y i2]|e]|e] [n3 w3]].
        * destruct B2 as (P2 & L2 & B2). repeat split; try apply P2; [lia|]. specialize (H1 _ _ _ (conj L2 L1)). lia.
        * specialize (H3 _ _ L1). lia.
        * specialize (H5 _ _ L1). lia.
      + apply still_at in E; auto. subst n2. specialize (H5 _ _ L1). lia.
    - cbn [ret]. specialize (H2 (left i)). lia.
    - specialize (H4 (left i)). lia.
  Qed.
  Lemma lift2_bounded : forall A B C ok1 err1 exc1 ok2 err2 exc2 ok err exc (fn : A -> M (nat * W) (B -> M (nat * W) C)) (p : cparser A) (q : cparser B), still fn ->
    (forall x w g w', fn x w = (Ret g, w') -> still g) ->
    bounded ok1 err1 exc1 p -> bounded ok2 err2 exc2 q ->
    (forall l l1 l2, l2 <= l1 <= l -> ok1 l l1 + ok2 l1 l2 <= ok l l2) -> (forall l l1, l1 <= l -> ok l l1 <= exc l) ->
    (forall l, err1 l <= err l) -> (forall l l1, l1 <= l -> ok1 l l1 + err2 l1 <= err l) ->
    (forall l, exc1 l <= exc l) -> (forall l l1, l1 <= l -> ok1 l l1 + exc2 l1 <= exc l) -> bounded ok err exc (lift2 fn p q).
  Proof.
    intros A B C ok1 err1 exc1 ok2 err2 exc2 ok err exc fn p q S Sg B1 B2 H1 H1' H2 H3 H4 H5 i n w P.
    unfold lift2, apply, map, and_then, preturn, Base.bind. cbn [ret].
    specialize (B1 i n w P). destruct (p i (n, w)) as [[[[x i1]|e]|e] [n1 w1]]; cbn [ret fst snd].
    - destruct B1 as (P1 & L1 & B1). destruct (fn x (n1, w1)) as [[g|e] [n2 w2]] eqn:E.
      + pose proof (Sg _ _ _ _ E) as Gs. apply still_at in E; auto. subst n2. cbn [ret].
        specialize (B2 i1 n1 w2 P1). destruct (q i1 (n1, w2)) as [[[[y i2]|e]|e] [n3 w3]]; cbn [ret fst snd].
        * destruct B2 as (P2 & L2 & B2). specialize (H1 _ _ _ (conj L2 L1)).
          destruct (g y (n3, w3)) as [[z|e] [n4 w4]] eqn:Eg; apply still_at in Eg; auto; subst n4; cbn [ret].
          -- repeat split; try apply P2; lia.
          -- assert (L3 : left i2 <= left i) by lia. specialize (H1' _ _ L3). lia.
        * specialize (H3 _ _ L1). lia.
        * specialize (H5 _ _ L1). lia.
      + apply still_at in E; auto. subst n2. specialize (H5 _ _ L1). lia.
    - specialize (H2 (left i)). lia.
    - specialize (H4 (left i)). lia.
  Qed.

  (** parse_zero_or_more: [rep l l'] bounds all the runs from [l] to the end of the
      repetitions at [l'], [all l] all of them when one raises. *)
  Lemma zero_or_more_bounded : forall A ok err exc rep all (p : cparser A), bounded ok err exc p -> consuming p ->
    (forall l, err l <= rep l l) -> (forall l, exc l <= all l) ->
    (forall l l1 l2, l2 <= l1 -> l1 < l -> ok l l1 + rep l1 l2 <= rep l l2) ->
    (forall l l1, l1 < l -> ok l l1 + all l1 <= all l) ->
    forall limit i n w, proper i ->
      let '(r, (n', _)) := parse_zero_or_more limit p i (n, w) in
      match r with
      | Ret (_, i') => proper i' /\ left i' <= left i /\ n' <= n + rep (left i) (left i')
      | Raise _ => n' <= n + all (left i)
      end.
  Proof.
    intros A ok err exc rep all p B C H1 H2 H3 H4. induction limit as [|limit IH]; intros i n w P; cbn [parse_zero_or_more]; [cbn; lia|].
    unfold Base.bind. pose proof (B i n w P) as Bp. pose proof (C i n w P) as Cp. destruct (p i (n, w)) as [[[[x i1]|e]|e] [n1 w1]]; cbn [fst] in Cp.
    - destruct Bp as (P1 & L1 & Bp). specialize (IH i1 n1 w1 P1). destruct (parse_zero_or_more limit p i1 (n1, w1)) as [[[vs i2]|e] [n2 w2]]; cbn [ret].
      + destruct IH as (P2 & L2 & IH). repeat split; try apply P2; [lia|]. specialize (H3 _ _ _ L2 Cp). lia.
      + specialize (H4 _ _ Cp). lia.
    - cbn [ret]. repeat split; try apply P; [lia|]. specialize (H1 (left i)). lia.
    - specialize (H2 (left i)). lia.
  Qed.
  Lemma many_bounded : forall A ok err exc rep all err' (p : cparser A) limit, bounded ok err exc p -> consuming p ->
    (forall l, err l <= rep l l) -> (forall l, exc l <= all l) ->
    (forall l l1 l2, l2 <= l1 -> l1 < l -> ok l l1 + rep l1 l2 <= rep l l2) ->
    (forall l l1, l1 < l -> ok l l1 + all l1 <= all l) -> bounded rep err' all (many limit p).
  Proof.
    intros A ok err exc rep all err' p limit B C H1 H2 H3 H4 i n w P. pose proof (zero_or_more_bounded A ok err exc rep all p B C H1 H2 H3 H4 limit i n w P) as Z.
    unfold many, Base.bind. destruct (parse_zero_or_more limit p i (n, w)) as [[[vs i2]|e] [n2 w2]]; cbn [ret]; exact Z.
  Qed.
  Lemma many1_bounded : forall A ok err exc rep all ok' err' exc' (p : cparser A) limit, bounded ok err exc p -> consuming p ->
    (forall l, err l <= rep l l) -> (forall l, exc l <= all l) ->
    (forall l l1 l2, l2 <= l1 -> l1 < l -> ok l l1 + rep l1 l2 <= rep l l2) ->
    (forall l l1, l1 < l -> ok l l1 + all l1 <= all l) ->
    (forall l l1 l2, l2 <= l1 -> l1 < l -> ok l l1 + rep l1 l2 <= ok' l l2) -> (forall l, err l <= err' l) -> (forall l, exc l <= exc' l) ->
    (forall l l1, l1 < l -> ok l l1 + all l1 <= exc' l) -> bounded ok' err' exc' (many1 limit p).
  Proof.
    intros A ok err exc rep all ok' err' exc' p limit B C H1 H2 H3 H4 H5 H6 H7 H8 i n w P. unfold many1, Base.bind.
    pose proof (B i n w P) as Bp. pose proof (C i n w P) as Cp. destruct (p i (n, w)) as [[[[x i1]|e]|e] [n1 w1]]; cbn [fst] in Cp; cbn [ret].
    - destruct Bp as (P1 & L1 & Bp). pose proof (zero_or_more_bounded A ok err exc rep all p B C H1 H2 H3 H4 limit i1 n1 w1 P1) as Z.
      destruct (parse_zero_or_more limit p i1 (n1, w1)) as [[[vs i2]|e] [n2 w2]]; cbn [ret].
      + destruct Z as (P2 & L2 & Z). repeat split; try apply P2; [lia|]. specialize (H5 _ _ _ L2 Cp). lia.
      + specialize (H8 _ _ Cp). lia.
    - specialize (H6 (left i)). lia.
    - specialize (H7 (left i)). lia.
  Qed.

  (** ** all grammars *)
  Lemma pow_pos : forall l d, 1 <= (l + 2) ^ d.
  Proof. intros l d. pose proof (Nat.pow_nonzero (l + 2) d). lia. Qed.
  Lemma pow_l : forall l l1 d, l1 <= l -> (l1 + 2) ^ d <= (l + 2) ^ d.
  Proof. intros. apply Nat.pow_le_mono_l. lia. Qed.
  Lemma pow_d : forall l d d', d <= d' -> (l + 2) ^ d <= (l + 2) ^ d'.
  Proof. intros. apply Nat.pow_le_mono_r; lia. Qed.
  Lemma two_parts : forall b1 b2 d1 d2 l l1, l1 <= l -> b1 * (l + 2) ^ d1 + b2 * (l1 + 2) ^ d2 <= (b1 + b2) * (l + 2) ^ Nat.max d1 d2.
  Proof.
    intros b1 b2 d1 d2 l l1 L. pose proof (pow_l l l1 d2 L). pose proof (pow_d l d1 (Nat.max d1 d2) (Nat.le_max_l _ _)). pose proof (pow_d l d2 (Nat.max d1 d2) (Nat.le_max_r _ _)). nia.
  Qed.
  Lemma one_part : forall b1 b2 d1 d2 l, b1 * (l + 2) ^ d1 <= (b1 + b2) * (l + 2) ^ Nat.max d1 d2.
  Proof. intros. pose proof (two_parts b1 b2 d1 d2 l l (le_n l)). lia. Qed.

  Lemma reps_one : forall b d l, b * (l + 2) ^ d <= (l + 1) * (b * (l + 2) ^ d).
  Proof. intros. generalize (b * (l + 2) ^ d). intros. nia. Qed.
  Lemma reps_step : forall b d l l1, l1 < l -> b * (l + 2) ^ d + (l1 + 1) * (b * (l1 + 2) ^ d) <= (l + 1) * (b * (l + 2) ^ d).
  Proof.
    intros b d l l1 L. assert (Q : b * (l1 + 2) ^ d <= b * (l + 2) ^ d) by (apply Nat.mul_le_mono_l, pow_l; lia).
    revert Q. generalize (b * (l1 + 2) ^ d) (b * (l + 2) ^ d). intros x y Q. nia.
  Qed.
  Lemma reps_pow : forall b d l, (l + 1) * (b * (l + 2) ^ d) <= b * (l + 2) ^ S d.
  Proof. intros. rewrite Nat.pow_succ_r'. generalize ((l + 2) ^ d). intros. nia. Qed.

  Lemma grammar_bounded : forall b d A (p : cparser A), grammar b d A p -> polynomial b d p.
  Proof.
    unfold polynomial. induction 1 as [c|A x|A e|A B b1 d1 b2 d2 p q _ IH1 _ IH2|A b1 d1 b2 d2 p q _ IH1 _ IH2|A B b d f p S _ IH|A B b1 d1 b2 d2 f p S _ IH1 _ IH2
      |A B C b1 d1 b2 d2 fn p q S Sg _ IH1 _ IH2|A b d limit p _ IH C|A b d limit p _ IH C].
    - apply c_pchar_bounded; intros; cbn; lia.
    - apply preturn_bounded.
    - apply fail_bounded.
    - eapply and_then_bounded; [exact IH1|exact IH2|..]; intros; cbv beta; auto using two_parts, one_part. apply two_parts. lia.
    - eapply or_else_bounded; [exact IH1|exact IH2|..]; intros; cbv beta; auto using two_parts, one_part.
    - apply map_bounded; auto.
    - eapply bind_bounded; [exact S|exact IH1|exact IH2|..]; intros; cbv beta; auto using two_parts, one_part. apply two_parts. lia.
    - eapply lift2_bounded; [exact S|exact Sg|exact IH1|exact IH2|..]; intros; cbv beta; auto using two_parts, one_part. apply two_parts. lia.
    - eapply bounded_more.
      + eapply (many_bounded A _ _ _ (fun l _ => (l + 1) * (b * (l + 2) ^ d)) (fun l => (l + 1) * (b * (l + 2) ^ d)) (fun _ => 0));
          [exact IH|exact C|..]; intros; cbv beta; auto using reps_one, reps_step.
      + intros; cbv beta. apply reps_pow.
      + intros. apply Nat.le_0_l.
      + intros; cbv beta. apply reps_pow.
    - eapply (many1_bounded A _ _ _ (fun l _ => (l + 1) * (b * (l + 2) ^ d)) (fun l => (l + 1) * (b * (l + 2) ^ d)));
        [exact IH|exact C|..]; intros; cbv beta; auto using reps_one, reps_step;
        (eapply Nat.le_trans; [|apply reps_pow]); auto using reps_one, reps_step.
  Qed.
End Bounds.
