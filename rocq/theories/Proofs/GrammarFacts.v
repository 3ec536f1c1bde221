(** A recursive grammar. *)
From Coq Require Import String List Bool ZArith Decimal Lia.
From Verif.Model Require Import Base OptionResult Parser.
From Verif.Spec Require Import ParserSpec GrammarSpec.
From Verif.Proofs Require Import ParserFacts ParserFacts2.
Import ListNotations.
Local Open Scope list_scope.

Scheme says_mut := Minimality for says Sort Prop
  with says_all_mut := Minimality for says_all Sort Prop
  with says_more_mut := Minimality for says_more Sort Prop.
Combined Scheme says_ind3 from says_mut, says_all_mut, says_more_mut.

Lemma uint_length : forall u, u <> Nil -> 1 <= List.length (str_of_uint u).
Proof. intros []; cbn; intros; try congruence; lia. Qed.
Lemma says_lengths :
  (forall t s, says t s -> 1 <= List.length s) /\ (forall ts s, says_all ts s -> List.length ts <= List.length s) /\ (forall ts s, says_more ts s -> List.length ts <= List.length s).
Proof.
  apply says_ind3; intros; cbn; rewrite ?app_length; cbn; try lia. pose proof (uint_length u H). lia.
Qed.
Lemma nesting_lengths :
  (forall t s, says t s -> nesting t < List.length s) /\ (forall ts s, says_all ts s -> nesting (Lst ts) <= S (List.length s)) /\ (forall ts s, says_more ts s -> nesting (Lst ts) <= S (List.length s)).
Proof.
  apply says_ind3; intros; cbn [nesting fold_right List.length] in *; rewrite ?app_length in *; cbn [List.length] in *; try lia. pose proof (uint_length u H). lia.
Qed.
Lemma nesting_length : forall t s, says t s -> nesting t < List.length s.
Proof. exact (proj1 nesting_lengths). Qed.
Lemma more_next : forall ts s r, says_more ts s -> no_digit_next (s ++ 93 :: r).
Proof. intros ts s r []; cbn; lia. Qed.

Definition no_blank_next (s : str) : Prop := match s with c :: _ => c <> 32 | [] => True end.
Lemma says_next : forall t s r, says t s -> no_blank_next (s ++ r).
Proof.
  intros t s r [neg u U|ts s1 A]; [|cbn; lia]. destruct neg; [cbn; lia|]. cbn [minus List.app]. pose proof (uint_digits u) as F. pose proof (uint_length u U). destruct (str_of_uint u) as [|c q]; [cbn in *; lia|].
  apply Forall_inv in F. cbn. unfold digit in F. lia.
Qed.
Lemma blanks_split : forall s : str, exists n rest, s = repeat 32 n ++ rest /\ no_blank_next rest.
Proof.
  induction s as [|c s (n & rest & E & N)]; [exists 0, []; split; [reflexivity|exact Logic.I]|]. destruct (Nat.eqb_spec c 32) as [->|NE].
  - exists (S n), rest. rewrite E. auto.
  - exists 0, (c :: s). split; [reflexivity|exact NE].
Qed.

Section Value.
  Context {W : Type} (limit int_limit : nat).
  Notation value := (value (W := W) limit int_limit).
  Implicit Types w : W.
  Lemma char_yes : forall c (t : str) pos w rest, (0 <= pos)%Z -> rest_of (t, pos) = c :: rest -> pchar [c] (t, pos) w = (Ret (Ok ([c], (t, (pos + 1)%Z))), w).
  Proof.
    intros c t pos w rest L E. unfold rest_of in E. cbn in E. rewrite pchar_text by exact L. rewrite E. assert (X : str_eqb [c] [c] = true) by (apply str_eqb_spec; reflexivity). rewrite X. reflexivity.
  Qed.
  Lemma char_no : forall c (t : str) pos w, (0 <= pos)%Z -> match rest_of (t, pos) with d :: _ => d <> c | [] => True end -> exists e, pchar [c] (t, pos) w = (Ret (Err e), w).
  Proof.
    intros c t pos w L E. unfold rest_of in E. cbn in E. rewrite pchar_text by exact L. destruct (skipn (Z.to_nat pos) t) as [|d r]; [eauto|].
    destruct (str_eqb [d] [c]) eqn:X; [|eauto]. apply str_eqb_spec in X. congruence.
  Qed.
  Lemma char_inv : forall c (t : str) pos w r w1, (0 <= pos)%Z -> pchar [c] (t, pos) w = (Ret r, w1) ->
    w1 = w /\ forall x i1, r = Ok (x, i1) -> i1 = (t, (pos + 1)%Z) /\ rest_of (t, pos) = c :: rest_of i1.
  Proof.
    intros c t pos w r w1 L E. rewrite pchar_text in E by exact L. injection E as E ->. split; [reflexivity|]. intros x i1 ->.
    destruct (skipn (Z.to_nat pos) t) as [|d rr] eqn:K; [discriminate|]. destruct (str_eqb [d] [c]) eqn:X; [|discriminate]. injection E as <- <-. apply str_eqb_spec in X. injection X as ->. split; [reflexivity|].
    unfold rest_of. cbn [fst snd]. rewrite K. f_equal. symmetry. apply (skipn_add t pos [c] rr L K).
  Qed.
  Lemma rest_add : forall (t : str) pos a b, (0 <= pos)%Z -> rest_of (t, pos) = a ++ b -> rest_of (t, (pos + Z.of_nat (List.length a))%Z) = b.
  Proof. intros t pos a b L E. exact (skipn_add t pos a b L E). Qed.
  (** The separator. *)
  Lemma blanks_yes : forall n m (t : str) pos w rest, n < m -> (0 <= pos)%Z -> rest_of (t, pos) = repeat 32 n ++ rest -> no_blank_next rest ->
    exists vs, parse_zero_or_more m (pchar [32]) (t, pos) w = (Ret (vs, (t, (pos + Z.of_nat n)%Z)), w).
  Proof.
    induction n as [|n IH]; intros m t pos w rest LT L E N; (destruct m as [|m]; [lia|]); cbn [parse_zero_or_more]; unfold Base.bind.
    - destruct (char_no 32 t pos w L) as [e C]; [rewrite E; exact N|]. rewrite C. cbv beta iota. cbn. rewrite Z.add_0_r. eexists. reflexivity.
    - cbn [repeat List.app] in E. rewrite (char_yes 32 t pos w _ L E). cbv beta iota. pose proof (rest_add t pos [32] _ L E) as E1. cbn [List.length] in E1. change (Z.of_nat 1) with 1%Z in E1.
      destruct (IH m t (pos + 1)%Z w rest ltac:(lia) ltac:(lia) E1 N) as [vs V]. rewrite V. replace (pos + Z.of_nat (S n))%Z with (pos + 1 + Z.of_nat n)%Z by lia. eexists. reflexivity.
  Qed.
  Lemma blanks_inv : forall m (t : str) pos w vs i1 w1, (0 <= pos)%Z -> parse_zero_or_more m (pchar [32]) (t, pos) w = (Ret (vs, i1), w1) ->
    w1 = w /\ exists n, i1 = (t, (pos + Z.of_nat n)%Z) /\ rest_of (t, pos) = repeat 32 n ++ rest_of i1.
  Proof.
    induction m as [|m IH]; intros t pos w vs i1 w1 L E; [discriminate|]. cbn [parse_zero_or_more] in E. unfold Base.bind in E.
    destruct (pchar [32] (t, pos) w) as [[[[c i2]|e]|x] w2] eqn:C; [| |discriminate].
    - destruct (char_inv _ _ _ _ _ _ L C) as [-> K]. destruct (K _ _ eq_refl) as [-> E1]. destruct (parse_zero_or_more m (pchar [32]) (t, (pos + 1)%Z) w) as [[[vs2 i3]|x] w3] eqn:V; [|discriminate].
      injection E as <- <- <-. destruct (IH t (pos + 1)%Z _ _ _ _ ltac:(lia) V) as [-> (n & -> & E2)]. split; [reflexivity|]. exists (S n). replace (pos + Z.of_nat (S n))%Z with (pos + 1 + Z.of_nat n)%Z by lia. split; [reflexivity|]. cbn [repeat List.app]. rewrite <- E2. exact E1.
    - destruct (char_inv _ _ _ _ _ _ L C) as [-> _]. injection E as <- <- <-. split; [reflexivity|]. exists 0. split; [cbn; rewrite Z.add_0_r; reflexivity|reflexivity].
  Qed.
  Lemma comma_yes : forall n (t : str) pos w rest, (0 <= pos)%Z -> rest_of (t, pos) = 44 :: repeat 32 n ++ rest -> no_blank_next rest -> n < limit ->
    comma limit (t, pos) w = (Ret (Ok ([44], (t, (pos + 1 + Z.of_nat n)%Z))), w).
  Proof.
    intros n t pos w rest L E N LT. pose proof (rest_add t pos [44] _ L E) as E1. cbn [List.length] in E1. change (Z.of_nat 1) with 1%Z in E1. destruct (blanks_yes n limit t (pos + 1)%Z w rest LT ltac:(lia) E1 N) as [vs V].
    unfold comma, then_ignore, map, and_then, many, Base.bind. rewrite (char_yes 44 t pos w _ L E). unfold ret. cbv beta iota. rewrite V. reflexivity.
  Qed.
  Lemma comma_no : forall (t : str) pos w, (0 <= pos)%Z -> match rest_of (t, pos) with d :: _ => d <> 44 | [] => True end -> exists e, comma limit (t, pos) w = (Ret (Err e), w).
  Proof. intros t pos w L E. destruct (char_no 44 t pos w L E) as [e C]. exists e. unfold comma, then_ignore, map, and_then, Base.bind. rewrite C. reflexivity. Qed.
  Lemma comma_inv : forall (t : str) pos w r w1, (0 <= pos)%Z -> comma limit (t, pos) w = (Ret r, w1) ->
    w1 = w /\ forall x i1, r = Ok (x, i1) -> exists n, i1 = (t, (pos + 1 + Z.of_nat n)%Z) /\ rest_of (t, pos) = 44 :: repeat 32 n ++ rest_of i1.
  Proof.
    intros t pos w r w1 L E. unfold comma, then_ignore, map, and_then, many, Base.bind in E. destruct (pchar [44] (t, pos) w) as [[[[c i2]|e]|x] w2] eqn:C; [| |discriminate].
    - destruct (char_inv _ _ _ _ _ _ L C) as [-> K]. destruct (K _ _ eq_refl) as [-> E1]. destruct (parse_zero_or_more limit (pchar [32]) (t, (pos + 1)%Z) w) as [[[vs2 i3]|x] w3] eqn:V; [|discriminate].
      destruct (blanks_inv _ t (pos + 1)%Z _ _ _ _ ltac:(lia) V) as [-> (n & -> & E2)]. cbn in E. injection E as <- <-. split; [reflexivity|]. intros x i1 H. injection H as <- <-. exists n. split; [reflexivity|]. rewrite <- E2. exact E1.
    - destruct (char_inv _ _ _ _ _ _ L C) as [-> _]. cbn in E. injection E as <- <-. split; [reflexivity|discriminate].
  Qed.
  (** Where no tree begins. *)
  Lemma value_none : forall d (t : str) pos w rest, (0 <= pos)%Z -> rest_of (t, pos) = 93 :: rest -> exists e, value (S d) (t, pos) w = (Ret (Err e), w).
  Proof.
    intros d t pos w rest L E. cbn [GrammarSpec.value]. destruct (pint_none_pf limit int_limit false (93 :: rest) t pos w L E) as [e1 P]; [cbn; lia|discriminate|].
    destruct (char_no 91 t pos w L) as [e2 C]; [rewrite E; discriminate|]. exists e2. unfold or_else, map, between, then_ignore, ignore_then, and_then, map, Base.bind. rewrite P. unfold ret. cbv beta iota. rewrite C. reflexivity.
  Qed.
  (** Complete: what has the form of a tree is read. *)
  Lemma complete_pf :
    (forall t s, says t s -> forall d rest (text : str) pos w, (0 <= pos)%Z -> rest_of (text, pos) = s ++ rest -> match t with Num _ => no_digit_next rest | Lst _ => True end ->
       List.length s <= limit -> List.length s <= int_limit -> nesting t < d -> value d (text, pos) w = (Ret (Ok (t, (text, (pos + Z.of_nat (List.length s))%Z))), w)) /\
    (forall ts s, says_all ts s -> forall d rest (text : str) pos w, (0 <= pos)%Z -> rest_of (text, pos) = s ++ 93 :: rest ->
       List.length s <= limit -> List.length s <= int_limit -> nesting (Lst ts) <= d -> sep_by limit (value d) (comma limit) (text, pos) w = (Ret (Ok (ts, (text, (pos + Z.of_nat (List.length s))%Z))), w)) /\
    (forall ts s, says_more ts s -> forall d rest (text : str) pos w, (0 <= pos)%Z -> rest_of (text, pos) = s ++ 93 :: rest ->
       List.length s <= limit -> List.length s <= int_limit -> nesting (Lst ts) <= d -> more_items (value d) (comma limit) (text, pos) w ts (text, (pos + Z.of_nat (List.length s))%Z) w).
  Proof.
    apply says_ind3.
    - intros neg u N d rest text pos w L E D L1 L2 NE. destruct d as [|d]; [lia|]. rewrite <- app_assoc in E. rewrite app_length in L1, L2.
      pose proof (pint_pf limit int_limit neg u rest text pos w L E N D ltac:(lia)) as P. assert (B : Nat.leb (List.length (str_of_uint u)) int_limit = true) by (apply Nat.leb_le; lia). rewrite B in P.
      cbn [GrammarSpec.value]. unfold or_else, map, Base.bind. rewrite P. reflexivity.
    - intros ts s A IH d rest text pos w L E D L1 L2 NE. destruct d as [|d]; [lia|]. cbn [List.length] in L1, L2. rewrite app_length in L1, L2. cbn [List.length] in L1, L2. cbn [List.app] in E. rewrite <- app_assoc in E. cbn [List.app] in E.
      cbn [GrammarSpec.value]. destruct (pint_none_pf limit int_limit false (91 :: s ++ 93 :: rest) text pos w L E) as [e1 P]; [cbn; lia|discriminate|].
      pose proof (rest_add text pos [91] (s ++ 93 :: rest) L E) as E1. cbn [List.length] in E1. change (Z.of_nat 1) with 1%Z in E1.
      pose proof (IH d rest text (pos + 1)%Z w ltac:(lia) E1 ltac:(lia) ltac:(lia) ltac:(lia)) as S1. pose proof (rest_add text (pos + 1)%Z s (93 :: rest) ltac:(lia) E1) as E2.
      unfold or_else, map, between, then_ignore, ignore_then, and_then, map, Base.bind. rewrite P. unfold ret. cbv beta iota. rewrite (char_yes 91 text pos w _ L E). cbv beta iota. rewrite S1. cbv beta iota. rewrite (char_yes 93 text (pos + 1 + Z.of_nat (List.length s))%Z w rest ltac:(lia) E2). cbv beta iota.
      replace (pos + 1 + Z.of_nat (List.length s) + 1)%Z with (pos + Z.of_nat (List.length (91%nat :: s ++ [93%nat])))%Z by (cbn [List.length]; rewrite app_length; cbn [List.length]; lia). reflexivity.
    - intros d rest text pos w L E L1 L2 NE. cbn in NE. destruct d as [|d]; [lia|]. destruct (value_none d text pos w rest L E) as [e V].
      apply sep_by_pf. left. exists e. split; [exact V|]. cbn. rewrite Z.add_0_r. reflexivity.
    - intros t ts s1 s2 S1 IH1 M2 IH2 d rest text pos w L E L1 L2 NE. rewrite app_length in L1, L2. rewrite <- app_assoc in E. cbn in NE.
      pose proof (rest_add text pos s1 _ L E) as E1. apply sep_by_pf. right. exists (t :: ts), (text, (pos + Z.of_nat (List.length (s1 ++ s2)))%Z). split; [reflexivity|]. split.
      + eapply sep_items.
        * apply (IH1 d (s2 ++ 93 :: rest)); [exact L|exact E|destruct t; [eapply more_next, M2|exact Logic.I]|lia|lia|lia].
        * rewrite app_length, Nat2Z.inj_add, Z.add_assoc. apply (IH2 d rest); [lia|exact E1|lia|lia|cbn; lia].
      + pose proof (proj1 says_lengths _ _ S1). pose proof (proj2 (proj2 says_lengths) _ _ M2). cbn. lia.
    - intros d rest text pos w L E L1 L2 NE. cbn. rewrite Z.add_0_r. destruct (comma_no text pos w L) as [e C]; [rewrite E; discriminate|]. eapply mi_no_sep, C.
    - intros n t ts s1 s2 S1 IH1 M2 IH2 d rest text pos w L E L1 L2 NE. cbn [List.length List.app] in *. rewrite !app_length, repeat_length in L1, L2. rewrite <- !app_assoc in E. cbn in NE.
      pose proof (proj1 says_lengths _ _ S1) as LS. pose proof (rest_add text pos (44 :: repeat 32 n) _ L E) as E0. cbn [List.length] in E0. rewrite repeat_length in E0. replace (pos + Z.of_nat (S n))%Z with (pos + 1 + Z.of_nat n)%Z in E0 by lia.
      pose proof (rest_add text (pos + 1 + Z.of_nat n)%Z s1 _ ltac:(lia) E0) as E1. eapply mi_item.
      + eapply (comma_yes n); [exact L|exact E|eapply says_next, S1|lia].
      + apply (IH1 d (s2 ++ 93 :: rest)); [lia|exact E0|destruct t; [eapply more_next, M2|exact Logic.I]|lia|lia|lia].
      + replace (pos + Z.of_nat (S (List.length (repeat 32%nat n ++ s1 ++ s2))))%Z with (pos + 1 + Z.of_nat n + Z.of_nat (List.length s1) + Z.of_nat (List.length s2))%Z by (rewrite !app_length, repeat_length; lia).
        apply (IH2 d rest); [lia|exact E1|lia|lia|cbn; lia].
  Qed.
  (** Any text begins with a sign or not, digits or not, and goes on otherwise. *)
  Lemma digits_split : forall s : str, exists u rest, s = str_of_uint u ++ rest /\ no_digit_next rest.
  Proof.
    induction s as [|c s (u & rest & E & N)]; [exists Nil, []; split; [reflexivity|exact Logic.I]|].
    destruct (Nat.leb_spec 48 c) as [A|A]; [destruct (Nat.leb_spec c 57) as [B|B]|].
    - assert (X : exists u1, str_of_uint u1 = c :: str_of_uint u).
      { assert (C : c = 48 \/ c = 49 \/ c = 50 \/ c = 51 \/ c = 52 \/ c = 53 \/ c = 54 \/ c = 55 \/ c = 56 \/ c = 57) by lia.
        destruct C as [->|[->|[->|[->|[->|[->|[->|[->|[->| ->]]]]]]]]]; [exists (D0 u)|exists (D1 u)|exists (D2 u)|exists (D3 u)|exists (D4 u)|exists (D5 u)|exists (D6 u)|exists (D7 u)|exists (D8 u)|exists (D9 u)]; reflexivity. }
      destruct X as [u1 X]. exists u1, rest. rewrite X, E. auto.
    - exists Nil, (c :: s). split; [reflexivity|cbn; lia].
    - exists Nil, (c :: s). split; [reflexivity|cbn; lia].
  Qed.
  Lemma sign_split : forall s0 : str, exists neg u rest, s0 = minus neg ++ str_of_uint u ++ rest /\ no_digit_next rest /\ (u = Nil -> neg = false -> forall q, rest <> 45 :: q).
  Proof.
    intros [|c s].
    - exists false, Nil, []. split; [reflexivity|]. split; [exact Logic.I|discriminate].
    - destruct (Nat.eqb_spec c 45) as [->|NE].
      + destruct (digits_split s) as (u & rest & -> & D). exists true, u, rest. split; [reflexivity|]. split; [exact D|discriminate].
      + destruct (digits_split (c :: s)) as (u & rest & Q & D). exists false, u, rest. split; [exact Q|]. split; [exact D|]. intros -> _ q ->. cbn in Q. congruence.
  Qed.
  Lemma pint_inv : forall (text : str) pos w r w1, (0 <= pos)%Z -> pint limit int_limit (text, pos) w = (Ret r, w1) ->
    w1 = w /\ forall z i1, r = Ok (z, i1) -> exists s, says (Num z) s /\ i1 = (text, (pos + Z.of_nat (List.length s))%Z) /\ rest_of (text, pos) = s ++ rest_of i1.
  Proof.
    intros text pos w r w1 L E.
    destruct (sign_split (rest_of (text, pos))) as (neg & u & rest & K & D & N).
    assert (U : u = Nil \/ u <> Nil) by (destruct u; (left; reflexivity) || (right; discriminate)). destruct U as [->|U].
    - destruct (pint_none_pf limit int_limit neg rest text pos w L K D (N eq_refl)) as [e P]. rewrite P in E. injection E as <- <-. split; [reflexivity|discriminate].
    - destruct (Nat.le_gt_cases (List.length (str_of_uint u)) limit) as [Q|Q].
      + rewrite (pint_pf limit int_limit neg u rest text pos w L K U D Q) in E. destruct (Nat.leb _ int_limit); [|discriminate]. injection E as <- <-. split; [reflexivity|]. intros z i1 H. injection H as <- <-.
        exists (minus neg ++ str_of_uint u). split; [apply says_num, U|]. split; [reflexivity|]. rewrite app_assoc in K. rewrite (rest_add _ _ _ _ L K). exact K.
      + pose proof (pint_long_pf limit int_limit neg u rest text pos w L K D Q) as P. rewrite E in P. discriminate.
  Qed.
  (** Sound: what is read has the form of a tree, this one. *)
  Definition reads (p : parser W tree) : Prop := forall (text : str) pos w r w1, (0 <= pos)%Z -> p (text, pos) w = (Ret r, w1) ->
    w1 = w /\ forall t i1, r = Ok (t, i1) -> exists s, says t s /\ i1 = (text, (pos + Z.of_nat (List.length s))%Z) /\ rest_of (text, pos) = s ++ rest_of i1.
  Lemma more_inv : forall p i w ts i1 w1, more_items p (comma limit) i w ts i1 w1 -> reads p -> (0 <= snd i)%Z ->
    w1 = w /\ exists s, says_more ts s /\ i1 = (fst i, (snd i + Z.of_nat (List.length s))%Z) /\ rest_of i = s ++ rest_of i1.
  Proof.
    intros p i w ts i1 w1 M R. induction M as [[text pos] w e w1 H|[text pos] w x [text1 pos1] w1 e w2 H1 H2|[text pos] w x i1 w1 t i2 w2 ts i3 w3 H1 H2 M IH]; cbn [fst snd]; intros L.
    - destruct (comma_inv _ _ _ _ _ L H) as [-> _]. split; [reflexivity|]. exists []. split; [constructor|]. split; [cbn; rewrite Z.add_0_r; reflexivity|reflexivity].
    - destruct (comma_inv _ _ _ _ _ L H1) as [-> C]. destruct (C _ _ eq_refl) as (n & E & _). injection E as -> ->. destruct (R text (pos + 1 + Z.of_nat n)%Z _ _ _ ltac:(lia) H2) as [-> _]. split; [reflexivity|]. exists []. split; [constructor|]. split; [cbn; rewrite Z.add_0_r; reflexivity|reflexivity].
    - destruct (comma_inv _ _ _ _ _ L H1) as [-> C]. destruct (C _ _ eq_refl) as (n & -> & E1). destruct (R text (pos + 1 + Z.of_nat n)%Z _ _ _ ltac:(lia) H2) as [-> V]. destruct (V _ _ eq_refl) as (s1 & S1 & -> & E2). cbn [fst snd] in IH.
      destruct IH as [-> (s2 & S2 & -> & E3)]; [lia|]. split; [reflexivity|]. exists (44 :: repeat 32 n ++ s1 ++ s2). split; [constructor; assumption|].
      assert (P : (pos + 1 + Z.of_nat n + Z.of_nat (List.length s1) + Z.of_nat (List.length s2) = pos + Z.of_nat (List.length (44%nat :: repeat 32%nat n ++ s1 ++ s2)))%Z) by (cbn [List.length]; rewrite !app_length, repeat_length; lia).
      split; [rewrite P; reflexivity|]. cbn [List.app]. rewrite <- !app_assoc, <- E3, <- E2. exact E1.
  Qed.
  Lemma sep_inv : forall p (text : str) pos w r w1, reads p -> (0 <= pos)%Z -> sep_by limit p (comma limit) (text, pos) w = (Ret r, w1) ->
    w1 = w /\ forall ts i1, r = Ok (ts, i1) -> exists s, says_all ts s /\ i1 = (text, (pos + Z.of_nat (List.length s))%Z) /\ rest_of (text, pos) = s ++ rest_of i1.
  Proof.
    intros p text pos w r w1 R L E. apply sep_by_pf in E. destruct E as [(e & H & ->)|(vs & i & -> & H & _)].
    - destruct (R _ _ _ _ _ L H) as [-> _]. split; [reflexivity|]. intros ts i1 Q. injection Q as <- <-. exists []. split; [constructor|]. split; [cbn; rewrite Z.add_0_r; reflexivity|reflexivity].
    - inversion H as [i0 w0 v [text1 pos1] w2 vs1 i2 w3 H1 H2]; subst. destruct (R _ _ _ _ _ L H1) as [-> V]. destruct (V _ _ eq_refl) as (s1 & S1 & E & E1). injection E as -> ->.
      destruct (more_inv _ _ _ _ _ _ H2 R) as [-> (s2 & S2 & -> & E2)]; [cbn; lia|]. split; [reflexivity|]. intros ts i1 Q. injection Q as <- <-. cbn [fst snd] in *. exists (s1 ++ s2). split; [constructor; assumption|].
      assert (P : (pos + Z.of_nat (List.length s1) + Z.of_nat (List.length s2) = pos + Z.of_nat (List.length (s1 ++ s2)))%Z) by (rewrite app_length; lia).
      split; [rewrite P; reflexivity|]. rewrite <- app_assoc, <- E2. exact E1.
  Qed.
  Lemma sound_pf : forall d, reads (value d).
  Proof.
    induction d as [|d IH]; intros text pos w r w1 L E; [discriminate|]. cbn [GrammarSpec.value] in E.
    unfold or_else, map, between, then_ignore, ignore_then, and_then, map, Base.bind in E.
    destruct (pint limit int_limit (text, pos) w) as [[[[z i1]|e1]|x] w2] eqn:P; [| |discriminate].
    - destruct (pint_inv _ _ _ _ _ L P) as [-> V]. destruct (V _ _ eq_refl) as (s & S & -> & Q). injection E as <- <-. split; [reflexivity|]. intros t i1 H. injection H as <- <-. eauto.
    - destruct (pint_inv _ _ _ _ _ L P) as [-> _]. cbn [ret] in E.
      destruct (pchar [91] (text, pos) w) as [[[[c i1]|e2]|x] w2] eqn:C; [| |discriminate].
      + destruct (char_inv _ _ _ _ _ _ L C) as [-> K]. destruct (K _ _ eq_refl) as [-> E1].
        destruct (sep_by limit (value d) (comma limit) (text, (pos + 1)%Z) w) as [[[[ts i2]|e3]|x] w3] eqn:S; [| |discriminate].
        * destruct (sep_inv _ text (pos + 1)%Z _ _ _ IH ltac:(lia) S) as [-> V]. destruct (V _ _ eq_refl) as (s & A & -> & E2). cbn [ret snd] in E.
          destruct (pchar [93] (text, (pos + 1 + Z.of_nat (List.length s))%Z) w) as [[[[c2 i3]|e4]|x] w4] eqn:C2; [| |discriminate].
          -- destruct (char_inv _ text (pos + 1 + Z.of_nat (List.length s))%Z _ _ _ ltac:(lia) C2) as [-> K2]. destruct (K2 _ _ eq_refl) as [-> E3]. cbn in E. injection E as <- <-. split; [reflexivity|]. intros t i1 H. injection H as <- <-.
             exists (91 :: s ++ [93]). split; [constructor; exact A|].
             assert (Q : (pos + 1 + Z.of_nat (List.length s) + 1 = pos + Z.of_nat (List.length (91%nat :: s ++ [93%nat])))%Z) by (cbn [List.length]; rewrite app_length; cbn [List.length]; lia).
             split; [rewrite Q; reflexivity|]. cbn [List.app]. rewrite <- app_assoc. cbn [List.app]. rewrite <- E3, <- E2. exact E1.
          -- destruct (char_inv _ text (pos + 1 + Z.of_nat (List.length s))%Z _ _ _ ltac:(lia) C2) as [-> _]. cbn in E. injection E as <- <-. split; [reflexivity|discriminate].
        * destruct (sep_inv _ text (pos + 1)%Z _ _ _ IH ltac:(lia) S) as [-> _]. cbn in E. injection E as <- <-. split; [reflexivity|discriminate].
      + destruct (char_inv _ _ _ _ _ _ L C) as [-> _]. cbn in E. injection E as <- <-. split; [reflexivity|discriminate].
  Qed.
  (** It always returns, when the text is not longer than the limits. *)
  Lemma pint_total : forall (text : str) pos w, (0 <= pos)%Z -> List.length (rest_of (text, pos)) <= limit -> List.length (rest_of (text, pos)) <= int_limit -> exists r, pint limit int_limit (text, pos) w = (Ret r, w).
  Proof.
    intros text pos w L L1 L2. destruct (pint limit int_limit (text, pos) w) as [[r|x] w1] eqn:E; [destruct (pint_inv _ _ _ _ _ L E) as [-> _]; eauto|]. exfalso.
    assert (X : exists neg u rest, rest_of (text, pos) = minus neg ++ str_of_uint u ++ rest /\ no_digit_next rest /\ (u = Nil -> neg = false -> forall q, rest <> 45 :: q)) by apply sign_split.
    destruct X as (neg & u & rest & K & D & N).
    assert (U : u = Nil \/ u <> Nil) by (destruct u; (left; reflexivity) || (right; discriminate)). destruct U as [->|U].
    - destruct (pint_none_pf limit int_limit neg rest text pos w L K D (N eq_refl)) as [e P]. rewrite P in E. discriminate.
    - rewrite K in L1, L2. rewrite !app_length in L1, L2. rewrite (pint_pf limit int_limit neg u rest text pos w L K U D ltac:(lia)) in E.
      assert (B : Nat.leb (List.length (str_of_uint u)) int_limit = true) by (apply Nat.leb_le; lia). rewrite B in E. discriminate.
  Qed.
  Lemma more_total : forall p m, reads p -> (forall (text : str) pos w, (0 <= pos)%Z -> List.length (rest_of (text, pos)) <= m -> exists r, p (text, pos) w = (Ret r, w)) ->
    forall n (text : str) pos w, n <= m -> m <= limit -> (0 <= pos)%Z -> List.length (rest_of (text, pos)) <= n -> exists ts i1, more_items p (comma limit) (text, pos) w ts i1 w.
  Proof.
    intros p m R T. induction n as [n IH] using (well_founded_induction lt_wf). intros text pos w LE ML L LR.
    destruct (rest_of (text, pos)) as [|c r] eqn:K.
    - destruct (comma_no text pos w L) as [e C]; [rewrite K; exact Logic.I|]. eexists [], _. eapply mi_no_sep, C.
    - destruct (Nat.eqb_spec c 44) as [->|NE].
      + destruct (blanks_split r) as (k & r1 & -> & N). cbn [List.length] in LR. rewrite app_length, repeat_length in LR. pose proof (comma_yes k text pos w r1 L K N ltac:(lia)) as C.
        pose proof (rest_add text pos (44 :: repeat 32 k) r1 L K) as K1. cbn [List.length] in K1. rewrite repeat_length in K1. replace (pos + Z.of_nat (S k))%Z with (pos + 1 + Z.of_nat k)%Z in K1 by lia.
        destruct (T text (pos + 1 + Z.of_nat k)%Z w ltac:(lia) ltac:(rewrite K1; lia)) as [[[t i1]|e] V].
        * destruct (R text (pos + 1 + Z.of_nat k)%Z _ _ _ ltac:(lia) V) as [_ S]. destruct (S _ _ eq_refl) as (s & A & -> & K2). rewrite K1 in K2. assert (LS : List.length r1 = List.length s + List.length (rest_of (text, (pos + 1 + Z.of_nat k + Z.of_nat (List.length s))%Z))) by (rewrite K2 at 1; apply app_length).
          pose proof (proj1 says_lengths _ _ A). destruct (IH (List.length (rest_of (text, (pos + 1 + Z.of_nat k + Z.of_nat (List.length s))%Z))) ltac:(lia) text (pos + 1 + Z.of_nat k + Z.of_nat (List.length s))%Z w ltac:(lia) ML ltac:(lia) (le_n _)) as (ts & i3 & M).
          eexists (t :: ts), i3. eapply mi_item; [exact C|exact V|exact M].
        * eexists [], _. eapply mi_no_item; [exact C|exact V].
      + destruct (comma_no text pos w L) as [e C]; [rewrite K; exact NE|]. eexists [], _. eapply mi_no_sep, C.
  Qed.
  Lemma total_pf : forall d (text : str) pos w, (0 <= pos)%Z -> List.length (rest_of (text, pos)) <= limit -> List.length (rest_of (text, pos)) <= int_limit -> List.length (rest_of (text, pos)) < d ->
    exists r, value d (text, pos) w = (Ret r, w).
  Proof.
    induction d as [|d IH]; intros text pos w L L1 L2 L3; [lia|]. destruct (value (S d) (text, pos) w) as [[r|x] w1] eqn:E; [destruct (sound_pf _ _ _ _ _ _ L E) as [-> _]; eauto|]. exfalso. revert E.
    cbn [GrammarSpec.value]. unfold or_else, map, between, then_ignore, ignore_then, and_then, map, Base.bind. destruct (pint_total text pos w L L1 L2) as [[[z i1]|e] P]; rewrite P; unfold ret; cbv beta iota; [discriminate|].
    rewrite (pchar_text [91] text pos w L). destruct (skipn (Z.to_nat pos) text) as [|c r] eqn:K; cbv beta iota; [discriminate|]. destruct (str_eqb [c] [91]) eqn:X; cbv beta iota; [|discriminate]. apply str_eqb_spec in X. injection X as ->.
    assert (K0 : rest_of (text, pos) = 91 :: r) by exact K. pose proof (rest_add text pos [91] r L K0) as K1. cbn [List.length] in K1. change (Z.of_nat 1) with 1%Z in K1. rewrite K0 in L1, L2, L3. cbn [List.length] in L1, L2, L3.
    assert (T : forall (t : str) p v, (0 <= p)%Z -> List.length (rest_of (t, p)) <= List.length r -> exists q, value d (t, p) v = (Ret q, v)) by (intros t p v Q1 Q2; apply IH; lia).
    assert (S : exists q, sep_by limit (value d) (comma limit) (text, (pos + 1)%Z) w = (Ret q, w)).
    { destruct (T text (pos + 1)%Z w ltac:(lia) ltac:(rewrite K1; lia)) as [[[t i1]|e1] V]; [|eexists; apply sep_by_pf; left; eauto].
      destruct (sound_pf d text (pos + 1)%Z _ _ _ ltac:(lia) V) as [_ S]. destruct (S _ _ eq_refl) as (s & A & -> & K2). rewrite K1 in K2. assert (LS : List.length r = List.length s + List.length (rest_of (text, (pos + 1 + Z.of_nat (List.length s))%Z))) by (rewrite K2 at 1; apply app_length).
      destruct (more_total (value d) (List.length r) (sound_pf d) T (List.length (rest_of (text, (pos + 1 + Z.of_nat (List.length s))%Z))) text (pos + 1 + Z.of_nat (List.length s))%Z w ltac:(lia) ltac:(lia) ltac:(lia) (le_n _)) as (ts & i3 & M).
      destruct (more_inv _ _ _ _ _ _ M (sound_pf d)) as [_ (s2 & S2 & -> & K3)]; [cbn; lia|]. cbn [fst snd] in *.
      eexists. apply sep_by_pf. right. exists (t :: ts), (text, (pos + 1 + Z.of_nat (List.length s) + Z.of_nat (List.length s2))%Z). split; [reflexivity|]. split; [econstructor; eassumption|].
      pose proof (proj1 says_lengths _ _ A). pose proof (proj2 (proj2 says_lengths) _ _ S2). rewrite K3, app_length in LS. cbn [List.length]. lia. }
    destruct S as [[[ts i2]|e3] S]; rewrite S; cbv beta iota; [|discriminate].
    destruct (sep_inv _ text (pos + 1)%Z _ _ _ (sound_pf d) ltac:(lia) S) as [_ V]. destruct (V _ _ eq_refl) as (s & _ & -> & _). rewrite pchar_text by lia.
    destruct (skipn (Z.to_nat (pos + 1 + Z.of_nat (List.length s))) text) as [|c2 r2]; cbv beta iota; [discriminate|]. destruct (str_eqb [c2] [93]); discriminate.
  Qed.
  (** Then it fails only where no tree begins. *)
  Lemma err_pf : forall d (text : str) pos w e w1, (0 <= pos)%Z -> List.length (rest_of (text, pos)) <= limit -> List.length (rest_of (text, pos)) <= int_limit -> List.length (rest_of (text, pos)) < d ->
    value d (text, pos) w = (Ret (Err e), w1) -> forall t s rest, rest_of (text, pos) = s ++ rest -> ~ says t s.
  Proof.
    intros d text pos w e w1 L L1 L2 L3 E t s rest K A. destruct t as [z|ts].
    - inversion A as [neg u U Q1 Q2|]; subst. destruct (digits_split (str_of_uint u ++ rest)) as (u1 & rest1 & Q & D). rewrite <- app_assoc, Q in K. rewrite K, !app_length in L1, L2, L3.
      assert (U1 : u1 <> Nil). { intros ->. cbn in Q. subst rest1. pose proof (uint_digits u) as F. pose proof (uint_length u U). destruct (str_of_uint u) as [|c r]; [cbn in *; lia|]. apply Forall_inv in F. cbn in D. exact (D F). }
      rewrite app_assoc in K. rewrite (proj1 complete_pf _ _ (says_num neg u1 U1) d rest1 text pos w L K D) in E; [discriminate|rewrite app_length; lia|rewrite app_length; lia|cbn; lia].
    - pose proof (nesting_length _ _ A) as NL. rewrite K, app_length in L1, L2, L3. rewrite (proj1 complete_pf _ _ A d rest text pos w L K Logic.I) in E; [discriminate|lia|lia|lia].
  Qed.
  (** Brackets deeper than the stack. *)
  Lemma deep_pf : forall d (text : str) pos w rest, (0 <= pos)%Z -> rest_of (text, pos) = repeat 91 d ++ rest -> value d (text, pos) w = (Raise RecursionError, w).
  Proof.
    induction d as [|d IH]; intros text pos w rest L E; [reflexivity|]. cbn [repeat List.app] in E. destruct (pint_none_pf limit int_limit false (91 :: repeat 91 d ++ rest) text pos w L E) as [e P]; [cbn; lia|discriminate|].
    pose proof (rest_add text pos [91] _ L E) as E1. cbn [List.length] in E1. change (Z.of_nat 1) with 1%Z in E1.
    cbn [GrammarSpec.value]. unfold or_else, map, between, then_ignore, ignore_then, and_then, map, Base.bind. rewrite P. unfold ret. cbv beta iota. rewrite (char_yes 91 text pos w _ L E). cbv beta iota.
    unfold sep_by, or_else, sep_by1, starmap, map, and_then, Base.bind. rewrite (IH text (pos + 1)%Z w rest ltac:(lia) E1). reflexivity.
  Qed.
End Value.

(** What is printed has the form of the tree. *)
Lemma tree_ind2 : forall P : tree -> Prop, (forall z, P (Num z)) -> (forall ts, Forall P ts -> P (Lst ts)) -> forall t, P t.
Proof.
  intros P H1 H2. fix IH 1. intros [z|ts]; [apply H1|]. apply H2. induction ts as [|t ts IHt]; constructor; [apply IH|exact IHt].
Qed.
Lemma show_says : forall t, says t (show t).
Proof.
  apply tree_ind2.
  - intros z. cbn. destruct (str_of_Z_pf z) as (neg & u & -> & U & ->). apply says_num, U.
  - intros [|t ts] F; [apply (says_list [] []); constructor|]. inversion F as [|t1 ts1 F1 F2]; subst. cbn [show]. rewrite app_assoc. apply says_list. constructor; [exact F1|].
    clear F F1. induction ts as [|x ts IH]; [constructor|]. inversion F2; subst. cbn [flat_map]. cbn [List.app]. apply (more_some 1); auto.
Qed.
