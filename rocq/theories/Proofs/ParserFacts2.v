(** Lemmas about number parsers. *)
From Coq Require Import String List Bool ZArith Lia Decimal DecimalZ DecimalPos DecimalFacts.
From Verif.Model Require Import Base PyList OptionResult Block Parser.
From Verif.Spec Require Import ListM ParserSpec.
From Verif.Proofs Require Import ParserFacts.
Import ListNotations.
Local Open Scope list_scope.

Definition digit (c : nat) : Prop := 48 <= c <= 57.
Definition single (c : nat) : str := [c].

(** [rewrite R] up to conversion, for a call of result_to_float *)
Ltac use R := match type of R with _ = ?y =>
  match goal with |- context [result_to_float ?a ?b ?c ?d ?e] => replace (result_to_float a b c d e) with y by (symmetry; exact R) end end.
Section Digits.
  Context {W : Type}.
  Implicit Types w : W.
  Lemma existsb_digit : forall d, existsb (Nat.eqb d) (lit "0123456789"%string) = true <-> digit d.
  Proof.
    intros d. unfold digit. split.
    - cbn. rewrite ?orb_true_iff, ?Nat.eqb_eq. lia.
    - intros H. assert (d = 48 \/ d = 49 \/ d = 50 \/ d = 51 \/ d = 52 \/ d = 53 \/ d = 54 \/ d = 55 \/ d = 56 \/ d = 57) by lia.
      repeat match goal with H : _ \/ _ |- _ => destruct H end; subst; reflexivity.
  Qed.
  Lemma parse_digit_yes : forall (t : str) pos w d text, (0 <= pos)%Z -> skipn (Z.to_nat pos) t = d :: text -> digit d ->
    parse_digit (t, pos) w = (Ret (Ok ([d], (t, (pos + 1)%Z))), w).
  Proof.
    intros t pos w d text L E D. unfold parse_digit.
    destruct (any_of_pf (W := W) 48 (tl (lit "0123456789"%string))) as (q & Q & H). change (48 :: _) with (lit "0123456789"%string) in *. rewrite Q. cbn.
    specialize (H t pos w L). unfold rest_of in H. cbn [fst snd] in H. rewrite E in H.
    rewrite (proj2 (existsb_digit d) D) in H. exact H.
  Qed.
  Lemma parse_digit_no : forall (t : str) pos w, (0 <= pos)%Z -> no_digit_next (skipn (Z.to_nat pos) t) ->
    exists e, parse_digit (t, pos) w = (Ret (Err e), w).
  Proof.
    intros t pos w L D. unfold parse_digit.
    destruct (any_of_pf (W := W) 48 (tl (lit "0123456789"%string))) as (q & Q & H). change (48 :: _) with (lit "0123456789"%string) in *. rewrite Q. cbn.
    specialize (H t pos w L). unfold rest_of in H. cbn [fst snd] in H. destruct (skipn (Z.to_nat pos) t) as [|d text]; [exact H|].
    destruct (existsb (Nat.eqb d) (lit "0123456789"%string)) eqn:X; [|exact H]. apply existsb_digit in X. contradiction.
  Qed.
  Lemma repeats_digits : forall ds rest (t : str) pos w, (0 <= pos)%Z -> skipn (Z.to_nat pos) t = ds ++ rest -> Forall digit ds -> no_digit_next rest ->
    repeats parse_digit (t, pos) w (List.map single ds) (t, (pos + Z.of_nat (List.length ds))%Z) w.
  Proof.
    induction ds as [|d ds IH]; intros rest t pos w L E D N.
    - cbn. rewrite Z.add_0_r. destruct (parse_digit_no t pos w L) as [e H]; [rewrite E; exact N|]. eapply rep_end; exact H.
    - inversion D; subst. eapply rep_more; [eapply parse_digit_yes; eauto; exact E|]. cbn [List.length].
      replace (pos + Z.of_nat (S (List.length ds)))%Z with (pos + 1 + Z.of_nat (List.length ds))%Z by lia.
      eapply IH; eauto; [lia|]. apply (rest_cons _ _ _ _ L E).
  Qed.
  Lemma digits_ok : forall limit ds rest (t : str) pos w, (0 <= pos)%Z -> skipn (Z.to_nat pos) t = ds ++ rest -> Forall digit ds -> no_digit_next rest ->
    ds <> [] -> List.length ds <= limit ->
    digits limit (t, pos) w = (Ret (Ok (List.map single ds, (t, (pos + Z.of_nat (List.length ds))%Z))), w).
  Proof.
    intros limit ds rest t pos w L E D N Ne Lim. unfold digits. apply many1_pf. right. destruct ds as [|d ds]; [congruence|].
    exists (single d), (List.map single ds), (t, (pos + Z.of_nat (List.length (d :: ds)))%Z). split; [reflexivity|]. split.
    - exact (repeats_digits (d :: ds) rest t pos w L E D N).
    - rewrite map_length. cbn in Lim. lia.
  Qed.
  Lemma digits_long : forall limit ds rest (t : str) pos w, (0 <= pos)%Z -> skipn (Z.to_nat pos) t = ds ++ rest -> Forall digit ds -> no_digit_next rest ->
    limit < List.length ds -> fst (digits limit (t, pos) w) = Raise RecursionError.
  Proof.
    intros limit ds rest t pos w L E D N Lim. pose proof (repeats_digits ds rest t pos w L E D N) as R.
    destruct ds as [|d ds]; [cbn in Lim; lia|]. inversion R; subst. unfold digits, many1, Base.bind.
    match goal with H : parse_digit (t, pos) w = _ |- _ => rewrite H end.
    match goal with H : repeats _ _ _ _ _ _ |- context [parse_zero_or_more limit ?p ?i ?u] =>
      match type of H with repeats _ i u _ _ _ => pose proof (zero_or_more_long _ _ _ _ _ _ H limit) as Z end end.
    rewrite map_length in Z. cbn in Lim. specialize (Z ltac:(lia)).
    match goal with |- context [parse_zero_or_more limit ?p ?i ?u] => destruct (parse_zero_or_more limit p i u) as [[x|e] w3] end; [discriminate|].
    injection Z; intros; subst; reflexivity.
  Qed.
  Lemma digits_none : forall limit (t : str) pos w, (0 <= pos)%Z -> no_digit_next (skipn (Z.to_nat pos) t) ->
    exists e, digits limit (t, pos) w = (Ret (Err e), w).
  Proof.
    intros limit t pos w L N. destruct (parse_digit_no t pos w L N) as [e H]. exists e. unfold digits. apply many1_pf. left; eauto.
  Qed.
  Lemma uint_digits : forall u, Forall digit (str_of_uint u).
  Proof. induction u; cbn; constructor; auto; unfold digit; lia. Qed.
  Lemma uint_nonnil : forall u, u <> Nil -> str_of_uint u <> [].
  Proof. intros [] H; cbn; congruence. Qed.
  Lemma concat_singles : forall ds, List.concat (List.map single ds) = ds.
  Proof. exact concat_single. Qed.
  Lemma skipn_add : forall (t : str) pos a b, (0 <= pos)%Z -> skipn (Z.to_nat pos) t = a ++ b ->
    skipn (Z.to_nat (pos + Z.of_nat (List.length a))) t = b.
  Proof.
    intros t pos a. revert pos. induction a as [|c a IH]; intros pos b L E.
    - cbn. rewrite Z.add_0_r. exact E.
    - cbn [List.length]. replace (pos + Z.of_nat (S (List.length a)))%Z with (pos + 1 + Z.of_nat (List.length a))%Z by lia.
      apply IH; [lia|]. apply (rest_cons _ _ _ _ L E).
  Qed.
  (** the optional sign *)
  Lemma sign_pf : forall neg rest (t : str) pos w, (0 <= pos)%Z -> skipn (Z.to_nat pos) t = minus neg ++ rest ->
    (neg = false -> forall r, rest <> 45 :: r) ->
    opt (pchar (lit "-"%string)) (t, pos) w =
    (Ret (Ok (if neg then Some [45] else None, (t, (pos + Z.of_nat (List.length (minus neg)))%Z))), w).
  Proof.
    intros neg rest t pos w L E N. rewrite opt_pf, pchar_text, E by exact L. destruct neg; cbn [minus Datatypes.app].
    - reflexivity.
    - cbn [List.length]. rewrite Z.add_0_r. destruct rest as [|d rest]; [reflexivity|]. change ([] ++ d :: rest) with (d :: rest). cbv iota beta.
      match goal with |- context [str_eqb ?a ?b] => destruct (str_eqb a b) eqn:Q end; [|reflexivity]. apply str_eqb_spec in Q. injection Q; intros; subst.
      destruct (N eq_refl rest); reflexivity.
  Qed.
  Lemma no_minus : forall neg u rest, u <> Nil -> neg = false -> forall r, str_of_uint u ++ rest <> 45 :: r.
  Proof. intros neg [] rest N _ r; cbn; congruence. Qed.
  (** value *)
  Definition val (acc : Z) (s : str) : Z := fold_left (fun acc c => (10 * acc + digit_value c)%Z) s acc.
  Lemma val_acc : forall u p, val (Zpos p) (str_of_uint u) = Zpos (Pos.of_uint_acc u p).
  Proof.
    induction u; intros p; cbn [str_of_uint val fold_left Pos.of_uint_acc]; [reflexivity|..];
      match goal with |- fold_left ?f ?s ?a = ?r => change (val a s = r) end; rewrite <- IHu; f_equal; unfold digit_value; lia.
  Qed.
  Lemma val_uint : forall u, val 0 (str_of_uint u) = Z.of_uint u.
  Proof.
    unfold Z.of_uint. induction u; cbn [str_of_uint val fold_left Pos.of_uint]; [reflexivity|exact IHu|..];
      match goal with |- fold_left ?f ?s ?a = ?r => change (val a s = r) end; unfold Z.of_N; rewrite <- val_acc; reflexivity.
  Qed.
  Lemma is_digit_all : forall s, Forall digit s -> forallb is_digit s = true.
  Proof.
    induction 1 as [|c s D F IH]; [reflexivity|]. cbn. rewrite IH. unfold is_digit, digit in *.
    rewrite (proj2 (Nat.leb_le 48 c)), (proj2 (Nat.leb_le c 57)) by lia. reflexivity.
  Qed.
  Lemma py_int_pf : forall int_limit u, u <> Nil ->
    py_int int_limit (str_of_uint u) = if Nat.leb (List.length (str_of_uint u)) int_limit then Ret (Z.of_uint u) else Raise ValueError.
  Proof.
    intros int_limit u N. unfold py_int. rewrite (is_digit_all _ (uint_digits u)).
    destruct (Nat.eqb_spec (List.length (str_of_uint u)) 0) as [Z|Z]; [apply length_zero_iff_nil in Z; destruct (uint_nonnil u N Z)|].
    cbn [negb orb]. rewrite Nat.leb_antisym. destruct (Nat.ltb int_limit _); cbn; [reflexivity|]. f_equal. apply val_uint.
  Qed.
  Lemma pint_pf : forall limit int_limit neg u rest (t : str) pos w, (0 <= pos)%Z ->
    rest_of (t, pos) = minus neg ++ str_of_uint u ++ rest -> u <> Nil -> no_digit_next rest ->
    List.length (str_of_uint u) <= limit ->
    pint limit int_limit (t, pos) w =
    (if Nat.leb (List.length (str_of_uint u)) int_limit
     then Ret (Ok ((if neg then - Z.of_uint u else Z.of_uint u)%Z, (t, (pos + Z.of_nat (List.length (minus neg ++ str_of_uint u)))%Z)))
     else Raise ValueError, w).
  Proof.
    intros limit int_limit neg u rest t pos w L E N D Lim. unfold rest_of in E. cbn [fst snd] in E.
    unfold pint, starmap, map, and_then. unfold Base.bind. rewrite (sign_pf neg _ t pos w L E (fun Q => no_minus neg u rest N Q)).
    rewrite (digits_ok limit (str_of_uint u) rest); auto using uint_digits, uint_nonnil; [|lia|apply (skipn_add _ _ _ _ L E)].
    unfold result_to_int. unb. cbn [fst snd]. rewrite concat_singles, py_int_pf by exact N.
    destruct (Nat.leb _ int_limit); [|reflexivity]. destruct neg; cbn [opt_is_some]; do 3 f_equal; f_equal; f_equal; rewrite ?app_length; try lia;
      f_equal; lia.
  Qed.
  Lemma pint_long_pf : forall limit int_limit neg u rest (t : str) pos w, (0 <= pos)%Z ->
    rest_of (t, pos) = minus neg ++ str_of_uint u ++ rest -> no_digit_next rest -> limit < List.length (str_of_uint u) ->
    fst (pint limit int_limit (t, pos) w) = Raise RecursionError.
  Proof.
    intros limit int_limit neg u rest t pos w L E D Lim. unfold rest_of in E. cbn [fst snd] in E.
    assert (N : u <> Nil) by (intros ->; cbn in Lim; lia).
    unfold pint, starmap, map, and_then. unfold Base.bind. rewrite (sign_pf neg _ t pos w L E (fun Q => no_minus neg u rest N Q)).
    pose proof (digits_long limit (str_of_uint u) rest t (pos + Z.of_nat (List.length (minus neg))) w) as H.
    specialize (H ltac:(lia) (skipn_add _ _ _ _ L E) (uint_digits u) D Lim).
    destruct (digits limit _ w) as [[x|e] w2]; [discriminate|]. injection H; intros; subst; reflexivity.
  Qed.
  Lemma pint_none_pf : forall limit int_limit neg rest (t : str) pos w, (0 <= pos)%Z ->
    rest_of (t, pos) = minus neg ++ rest -> no_digit_next rest -> (neg = false -> forall r, rest <> 45 :: r) ->
    exists e, pint limit int_limit (t, pos) w = (Ret (Err e), w).
  Proof.
    intros limit int_limit neg rest t pos w L E D N. unfold rest_of in E. cbn [fst snd] in E.
    destruct (digits_none limit t (pos + Z.of_nat (List.length (minus neg))) w) as [e H]; [lia|rewrite (skipn_add _ _ _ _ L E); exact D|].
    exists e. unfold pint, starmap, map, and_then. unfold Base.bind. rewrite (sign_pf neg _ t pos w L E N), H. reflexivity.
  Qed.
  Lemma str_of_Z_pf : forall z, exists neg u, str_of_Z z = minus neg ++ str_of_uint u /\ u <> Nil /\
    z = (if neg then - Z.of_uint u else Z.of_uint u)%Z.
  Proof.
    intros z. pose proof (DecimalZ.of_to z) as H. unfold str_of_Z. unfold Z.to_int in *. destruct z as [|p|p].
    - exists false, (D0 Nil). repeat split; congruence.
    - exists false, (Pos.to_uint p). split; [reflexivity|]. split; [apply DecimalPos.Unsigned.to_uint_nonnil|]. symmetry; exact H.
    - exists true, (Pos.to_uint p). split; [reflexivity|]. split; [apply DecimalPos.Unsigned.to_uint_nonnil|]. symmetry; exact H.
  Qed.
  Lemma pint_roundtrip_pf : forall limit int_limit z rest (t : str) pos w, (0 <= pos)%Z ->
    rest_of (t, pos) = str_of_Z z ++ rest -> no_digit_next rest ->
    List.length (str_of_Z (Z.abs z)) <= limit -> List.length (str_of_Z (Z.abs z)) <= int_limit ->
    pint limit int_limit (t, pos) w = (Ret (Ok (z, (t, (pos + Z.of_nat (List.length (str_of_Z z)))%Z))), w).
  Proof.
    intros limit int_limit z rest t pos w L E D L1 L2.
    assert (A : str_of_Z z = minus (Z.ltb z 0) ++ str_of_Z (Z.abs z)) by (destruct z; reflexivity).
    destruct (str_of_Z_pf (Z.abs z)) as (neg & u & Q & N & V). destruct neg.
    { exfalso. unfold Z.of_uint in V. assert (Z.abs z = 0)%Z by lia. destruct z; cbn in *; try lia. discriminate. }
    rewrite Q in *. cbn [minus Datatypes.app] in *. rewrite A in *. rewrite <- app_assoc in E.
    rewrite (pint_pf limit int_limit _ u rest t pos w L E N D L1), (proj2 (Nat.leb_le _ _) L2). rewrite <- V.
    replace (if Z.ltb z 0 then - Z.abs z else Z.abs z)%Z with z; [reflexivity|]. destruct (Z.ltb_spec z 0); lia.
  Qed.
  Definition ones (n : nat) : uint := Nat.iter n D1 Nil.
  Lemma ones_length : forall n, List.length (str_of_uint (ones n)) = n.
  Proof. induction n as [|n IH]; [reflexivity|]. change (S (List.length (str_of_uint (ones n))) = S n). rewrite IH. reflexivity. Qed.
  Lemma ones_str : forall n, str_of_Z (Z.of_uint (ones (S n))) = str_of_uint (ones (S n)).
  Proof.
    intros n. unfold str_of_Z. pose proof (DecimalZ.to_of (Decimal.Pos (ones (S n)))) as H. cbn [Z.of_int] in H. rewrite H.
    cbn. reflexivity.
  Qed.
  Lemma pint_refuted_pf : forall limit int_limit, exists z, forall w,
    fst (pint limit int_limit (str_of_Z z, 0%Z) w) = Raise RecursionError.
  Proof.
    intros limit int_limit. exists (Z.of_uint (ones (S limit))). intros w.
    apply (pint_long_pf limit int_limit false (ones (S limit)) []); [lia| |exact I|rewrite ones_length; lia].
    unfold rest_of. cbn [fst snd minus Datatypes.app]. rewrite List.app_nil_r. apply ones_str.
  Qed.
  (** long inputs and many *)
  Lemma many_long_pf : forall limit, exists t, forall w, fst (many limit parse_digit (t, 0%Z) w) = Raise RecursionError.
  Proof.
    intros limit. exists (str_of_uint (ones limit)). intros w. unfold many, Base.bind.
    pose proof (repeats_digits (str_of_uint (ones limit)) [] (str_of_uint (ones limit)) 0 w) as R. rewrite List.app_nil_r in R.
    specialize (R ltac:(lia) eq_refl (uint_digits _) I). pose proof (zero_or_more_long _ _ _ _ _ _ R limit) as H.
    rewrite map_length, ones_length in H. specialize (H (le_n _)).
    destruct (parse_zero_or_more limit parse_digit (str_of_uint (ones limit), 0%Z) w) as [[x|e] w3]; [discriminate|].
    injection H; intros; subst; reflexivity.
  Qed.
  Lemma digit_consumes_pf : consumes (parse_digit (W := W)).
  Proof.
    intros [t pos] w [L1 L2]. cbn [fst snd] in *. destruct (skipn (Z.to_nat pos) t) as [|d text] eqn:E.
    - destruct (parse_digit_no t pos w L1) as [e ->]; [rewrite E; exact I|exact I].
    - destruct (le_lt_dec 48 d), (le_lt_dec d 57); try (destruct (parse_digit_no t pos w L1) as [e ->]; [rewrite E; cbn; lia|exact I]).
      rewrite (parse_digit_yes t pos w d text L1 E) by (unfold digit; lia). destruct (rest_cons _ _ _ _ L1 E). unfold inside. cbn. repeat split; lia.
  Qed.
  (** ** pfloat *)
  Lemma pfloat_pf : forall F (to_float : str -> res F) negf limit neg u frac rest (t : str) pos w, (0 <= pos)%Z ->
    rest_of (t, pos) = minus neg ++ str_of_uint u ++ fraction frac ++ rest -> u <> Nil -> frac <> Some Nil ->
    no_digit_next rest -> (frac = None -> forall r, rest = 46 :: r -> no_digit_next r) ->
    List.length (str_of_uint u) <= limit -> List.length (fraction frac) <= S limit ->
    pfloat limit to_float negf (t, pos) w =
    (match to_float (str_of_uint u ++ fraction frac) with
     | Ret x => Ret (Ok ((if neg then negf x else x), (t, (pos + Z.of_nat (List.length (minus neg ++ str_of_uint u ++ fraction frac)))%Z)))
     | Raise e => Raise e end, w).
  Proof.
    intros F to_float negf limit neg u frac rest t pos w L E N Nf D Dr L1 L2. unfold rest_of in E. cbn [fst snd] in E.
    unfold pfloat, starmap. unfold map at 1, and_then at 1 2. unfold Base.bind.
    rewrite (sign_pf neg _ t pos w L E (fun Q => no_minus neg u _ N Q)).
    pose proof (skipn_add _ _ _ _ L E) as E1. set (pos1 := (pos + Z.of_nat (List.length (minus neg)))%Z) in *.
    assert (P1 : (0 <= pos1)%Z) by lia.
    rewrite (digits_ok limit (str_of_uint u) (fraction frac ++ rest)); auto using uint_digits, uint_nonnil;
      [|destruct frac; [cbn; lia|exact D]].
    unfold ret at 1. cbv iota beta. pose proof (skipn_add _ _ _ _ P1 E1) as E2. set (pos2 := (pos1 + Z.of_nat (List.length (str_of_uint u)))%Z) in *.
    assert (P2 : (0 <= pos2)%Z) by lia. rewrite opt_pf.
    unfold ignore_then, map, and_then. unfold Base.bind. rewrite pchar_text, E2 by exact P2.
    destruct frac as [v|]; cbn [fraction Datatypes.app].
    - change (str_eqb [46] (lit "."%string)) with true. cbn iota.
      assert (Nv : v <> Nil) by congruence. cbn [fraction Datatypes.app] in E2. destruct (rest_cons _ _ _ _ P2 E2) as [_ E3].
      rewrite (digits_ok limit (str_of_uint v) rest); auto using uint_digits, uint_nonnil; [|lia|cbn in L2; lia].
      unfold result_to_float. unb. cbn [fst snd]. unfold opt_value, rbind. rewrite concat_app. unfold Block.cons. cbn [List.concat].
      rewrite !concat_singles. change (lit "."%string) with [46]. cbn [Datatypes.app].
      set (y := to_float (str_of_uint u ++ 46 :: str_of_uint v)).
      destruct y as [x|e]; [|reflexivity]. unfold pos2, pos1.
      replace (pos + Z.of_nat (List.length (minus neg)) + Z.of_nat (List.length (str_of_uint u)) + 1 + Z.of_nat (List.length (str_of_uint v)))%Z
        with (pos + Z.of_nat (List.length (minus neg ++ str_of_uint u ++ 46%nat :: str_of_uint v)))%Z by (rewrite !app_length; cbn [List.length]; lia).
      destruct neg; reflexivity.
    - rewrite List.app_nil_r. replace (pos + Z.of_nat (List.length (minus neg ++ str_of_uint u)))%Z with pos2 by (unfold pos2, pos1; rewrite app_length; lia).
      assert (R : @result_to_float W F to_float negf (if neg then Some (lit "-"%string) else None, List.map single (str_of_uint u)) None w =
        match to_float (str_of_uint u) with Ret x => (Ret (if neg then negf x else x), w) | Raise e => (Raise e, w) end).
      { unfold result_to_float. unb. rewrite concat_singles. destruct neg, (to_float (str_of_uint u)); reflexivity. }
      cbn [fraction Datatypes.app] in E2. destruct rest as [|d rest].
      + unfold ret. cbv iota beta. cbn [fst snd]. use R. destruct (to_float (str_of_uint u)); reflexivity.
      + destruct (str_eqb [d] (lit "."%string)) eqn:Q.
        * apply str_eqb_spec in Q. injection Q; intros; subst d. specialize (Dr eq_refl rest eq_refl).
          destruct (rest_cons _ _ _ _ P2 E2) as [_ E3]. destruct (digits_none limit t (pos2 + 1)%Z w) as [e He]; [lia|rewrite E3; exact Dr|].
          rewrite He. unfold ret. cbv iota beta. cbn [fst snd]. use R. destruct (to_float (str_of_uint u)); reflexivity.
        * unfold ret. cbv iota beta. cbn [fst snd]. use R. destruct (to_float (str_of_uint u)); reflexivity.
  Qed.
  Lemma pfloat_none_pf : forall F (to_float : str -> res F) negf limit neg rest (t : str) pos w, (0 <= pos)%Z ->
    rest_of (t, pos) = minus neg ++ rest -> no_digit_next rest -> (neg = false -> forall r, rest <> 45 :: r) ->
    exists e, pfloat limit to_float negf (t, pos) w = (Ret (Err e), w).
  Proof.
    intros F to_float negf limit neg rest t pos w L E D N. unfold rest_of in E. cbn [fst snd] in E.
    destruct (digits_none limit t (pos + Z.of_nat (List.length (minus neg))) w) as [e H]; [lia|rewrite (skipn_add _ _ _ _ L E); exact D|].
    exists e. unfold pfloat, starmap. unfold map at 1, and_then at 1 2. unfold Base.bind. rewrite (sign_pf neg _ t pos w L E N), H. reflexivity.
  Qed.
  Lemma pfloat_refuted_pf : forall F (to_float : str -> res F) negf limit, exists u, u <> Nil /\ forall w,
    fst (pfloat limit to_float negf (str_of_uint u, 0%Z) w) = Raise RecursionError.
  Proof.
    intros F to_float negf limit. exists (ones (S limit)). split; [discriminate|]. intros w.
    assert (E : skipn (Z.to_nat 0) (str_of_uint (ones (S limit))) = minus false ++ str_of_uint (ones (S limit)) ++ []) by (rewrite List.app_nil_r; reflexivity).
    unfold pfloat, starmap. unfold map at 1, and_then at 1 2. unfold Base.bind.
    rewrite (sign_pf false _ (str_of_uint (ones (S limit))) 0 w ltac:(lia) E (fun Q => no_minus false (ones (S limit)) [] ltac:(discriminate) Q)).
    pose proof (digits_long limit (str_of_uint (ones (S limit))) [] (str_of_uint (ones (S limit))) (0 + Z.of_nat (List.length (minus false))) w) as H.
    specialize (H ltac:(lia) (skipn_add _ _ _ _ (Z.le_refl 0) E) (uint_digits _) I ltac:(rewrite ones_length; lia)).
    destruct (digits limit _ w) as [[x|e] w2]; [discriminate|]. injection H; intros; subst; reflexivity.
  Qed.
End Digits.

(** The longest run of characters of a class. *)
Lemma repeats_class : forall W class (q : parser W str), reads_one_of class q ->
  forall cs rest (t : str) pos (w : W), (0 <= pos)%Z -> skipn (Z.to_nat pos) t = cs ++ rest -> forallb class cs = true ->
  match rest with [] => True | c :: _ => class c = false end ->
  repeats q (t, pos) w (List.map single cs) (t, (pos + Z.of_nat (List.length cs))%Z) w.
Proof.
  intros W class q Q. induction cs as [|c cs IH]; intros rest t pos w L E F N.
  - cbn. rewrite Z.add_0_r. specialize (Q t pos w L). unfold rest_of in Q. cbn [fst snd] in Q. rewrite E in Q. cbn [List.app] in Q.
    destruct rest as [|c r]; [|rewrite N in Q]; destruct Q as [e Q]; eapply rep_end; exact Q.
  - cbn in F. apply andb_prop in F. destruct F as [F1 F2].
    eapply rep_more.
    + specialize (Q t pos w L). unfold rest_of in Q. cbn [fst snd] in Q. rewrite E in Q. cbn [List.app] in Q. rewrite F1 in Q. exact Q.
    + cbn [List.length]. replace (pos + Z.of_nat (S (List.length cs)))%Z with (pos + 1 + Z.of_nat (List.length cs))%Z by lia.
      eapply IH; eauto; [lia|]. apply (rest_cons _ _ _ _ L E).
Qed.
Lemma class_run_pf : forall W class (q : parser W str), reads_one_of class q ->
  forall limit cs rest (t : str) pos (w : W), (0 <= pos)%Z -> rest_of (t, pos) = cs ++ rest -> forallb class cs = true ->
  match rest with [] => True | c :: _ => class c = false end -> List.length cs < limit ->
  many limit q (t, pos) w = (Ret (Ok (List.map single cs, (t, (pos + Z.of_nat (List.length cs))%Z))), w) /\
  (cs <> [] -> many1 limit q (t, pos) w = (Ret (Ok (List.map single cs, (t, (pos + Z.of_nat (List.length cs))%Z))), w)) /\
  (cs = [] -> exists e, many1 limit q (t, pos) w = (Ret (Err e), w)).
Proof.
  intros W class q Q limit cs rest t pos w L E F N Lim. pose proof (repeats_class W class q Q cs rest t pos w L E F N) as R. repeat split.
  - apply many_ok_pf. do 2 eexists. split; [reflexivity|]. split; [exact R|]. now rewrite map_length.
  - intros Ne. apply many1_pf. right. destruct cs as [|c cs]; [congruence|].
    exists (single c), (List.map single cs), (t, (pos + Z.of_nat (List.length (c :: cs)))%Z). split; [reflexivity|]. split; [exact R|].
    rewrite map_length. cbn in Lim. lia.
  - intros ->. cbn in R. inversion R as [? ? e ? X|]; subst. exists e. apply many1_pf. left. eauto.
Qed.
