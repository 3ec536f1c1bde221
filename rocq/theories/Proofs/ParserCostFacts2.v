(** Parsers that take time in proportion to the text; what the counter counts. *)
From Coq Require Import String List Bool ZArith Arith Lia.
From Verif.Model Require Import Base PyList OptionResult Block Parser ParserCost.
From Verif.Spec Require Import ParserSpec ParserCostSpec.
From Verif.Proofs Require Import ParserFacts ParserCostFacts.
Import ListNotations.
Local Open Scope list_scope.
Local Open Scope nat_scope.
Local Open Scope py_scope.

(** ** numbers *)
Lemma pc_le : forall b b' l l1, b <= b' -> per_consumed b l l1 <= per_consumed b' l l1.
Proof. intros. unfold per_consumed. nia. Qed.
Lemma pl_le : forall b b' l, b <= b' -> per_left b l <= per_left b' l.
Proof. intros. unfold per_left. nia. Qed.
Lemma b_pl : forall b l, b <= per_left b l.
Proof. intros. unfold per_left. nia. Qed.
Lemma pc_pl : forall b l l1, l1 <= l -> per_consumed b l l1 <= per_left b l.
Proof. intros. unfold per_consumed, per_left. assert (l - l1 <= l) by lia. nia. Qed.
Lemma pc_pc : forall b1 b2 l l1 l2, l2 <= l1 <= l -> per_consumed b1 l l1 + per_consumed b2 l1 l2 <= per_consumed (b1 + b2) l l2.
Proof. intros. unfold per_consumed. assert (l - l1 <= l - l2 /\ l1 - l2 <= l - l2) as [? ?] by lia. nia. Qed.
Lemma pl_pl : forall b1 b2 l l1, l1 <= l -> per_left b1 l + per_left b2 l1 <= per_left (b1 + b2) l.
Proof. intros. unfold per_left. nia. Qed.
Lemma pc_then_pl : forall b1 b2 l l1, l1 <= l -> per_consumed b1 l l1 + per_left b2 l1 <= per_left (b1 + b2) l.
Proof. intros. eapply Nat.le_trans; [|apply pl_pl; eassumption]. apply Nat.add_le_mono_r, pc_pl; auto. Qed.
Lemma b_pc : forall b1 b2 l l1, b1 + per_consumed b2 l l1 <= per_consumed (b1 + b2) l l1.
Proof. intros. unfold per_consumed. nia. Qed.
Lemma b_then_pl : forall b1 b2 l, b1 + per_left b2 l <= per_left (b1 + b2) l.
Proof. intros. unfold per_left. nia. Qed.
Lemma step_pc : forall b l l1 l2, l2 <= l1 -> l1 < l -> per_consumed b l l1 + per_consumed (2 * b) l1 l2 <= per_consumed (2 * b) l l2.
Proof. intros. unfold per_consumed. replace (l - l2) with ((l - l1) + (l1 - l2)) by lia. assert (1 <= l - l1) by lia. nia. Qed.
Lemma step_pl : forall b l l1, l1 < l -> per_consumed b l l1 + per_left (2 * b) l1 <= per_left (2 * b) l.
Proof. intros. unfold per_consumed, per_left. assert (l = (l - l1) + l1) by lia. assert (1 <= l - l1) by lia. nia. Qed.
Lemma b_pc2 : forall b l l1, b <= per_consumed (2 * b) l l1.
Proof. intros. unfold per_consumed. nia. Qed.
#[local] Hint Resolve pc_le pl_le b_pl pc_pl pc_pc pl_pl pc_then_pl b_pc b_then_pl step_pc step_pl b_pc2 : pcost.

Section Linear.
  Context {W : Type}.
  Notation cparser := (parser (nat * W)).

  Ltac num := intros; cbv beta; auto with pcost; try (apply pc_le; lia); try (apply pl_le; lia); try lia.

  Lemma pchar_predictive : forall c, predictive (W := W) 1 (c_pchar c).
  Proof. intros c. apply c_pchar_bounded; intros; unfold per_consumed; lia. Qed.
  Lemma predictive_linear : forall A b (p : cparser A), predictive b p -> linear b p.
  Proof. intros A b p H. eapply bounded_more; [exact H|..]; num. Qed.
  Lemma linear_total : forall A b (p : cparser A), linear b p -> total b p.
  Proof. intros A b p H. eapply bounded_more; [exact H|..]; num. Qed.
  Lemma preturn_predictive : forall A (x : A) b, predictive (W := W) b (preturn x).
  Proof. intros. apply preturn_bounded. Qed.
  Lemma fail_predictive : forall A e b, predictive (W := W) (A := A) b (fail e).
  Proof. intros. apply fail_bounded. Qed.

  Lemma or_else_predictive : forall A b1 b2 (p q : cparser A), predictive b1 p -> predictive b2 q -> predictive (b1 + b2) (or_else p q).
  Proof. intros A b1 b2 p q H1 H2. eapply or_else_bounded; [exact H1|exact H2|..]; num. Qed.
  Lemma or_else_linear : forall A b1 b2 (p q : cparser A), predictive b1 p -> linear b2 q -> linear (b1 + b2) (or_else p q).
  Proof.
    intros A b1 b2 p q H1 H2. eapply or_else_bounded; [exact H1|exact H2|..]; num.
  Qed.
  Lemma or_else_total : forall A b1 b2 (p q : cparser A), total b1 p -> total b2 q -> total (b1 + b2) (or_else p q).
  Proof. intros A b1 b2 p q H1 H2. eapply or_else_bounded; [exact H1|exact H2|..]; num. Qed.
  Lemma and_then_linear : forall A B b1 b2 (p : cparser A) (q : cparser B), linear b1 p -> linear b2 q -> linear (b1 + b2) (and_then p q).
  Proof. intros A B b1 b2 p q H1 H2. eapply and_then_bounded; [exact H1|exact H2|..]; num. Qed.
  Lemma and_then_total : forall A B b1 b2 (p : cparser A) (q : cparser B), total b1 p -> total b2 q -> total (b1 + b2) (and_then p q).
  Proof. intros A B b1 b2 p q H1 H2. eapply and_then_bounded; [exact H1|exact H2|..]; num. apply pl_pl. lia. Qed.
  Lemma map_predictive : forall A B b (f : A -> M (nat * W) B) (p : cparser A), still f -> predictive b p -> predictive b (map f p).
  Proof. intros. apply map_bounded; auto. num. Qed.
  Lemma map_linear : forall A B b (f : A -> M (nat * W) B) (p : cparser A), still f -> linear b p -> linear b (map f p).
  Proof. intros. apply map_bounded; auto. num. Qed.
  Lemma map_total : forall A B b (f : A -> M (nat * W) B) (p : cparser A), still f -> total b p -> total b (map f p).
  Proof. intros. apply map_bounded; auto. Qed.
  Lemma bind_linear : forall A B b1 b2 (f : A -> M (nat * W) (cparser B)) (p : cparser A), still f -> linear b1 p ->
    (forall x w q w', f x w = (Ret q, w') -> linear b2 q) -> linear (b1 + b2) (bind f p).
  Proof. intros A B b1 b2 f p S H1 H2. eapply bind_bounded; [exact S|exact H1|exact H2|..]; num. Qed.
  Lemma bind_total : forall A B b1 b2 (f : A -> M (nat * W) (cparser B)) (p : cparser A), still f -> total b1 p ->
    (forall x w q w', f x w = (Ret q, w') -> total b2 q) -> total (b1 + b2) (bind f p).
  Proof. intros A B b1 b2 f p S H1 H2. eapply bind_bounded; [exact S|exact H1|exact H2|..]; num. apply pl_pl. lia. Qed.
  Lemma lift2_linear : forall A B C b1 b2 (fn : A -> M (nat * W) (B -> M (nat * W) C)) (p : cparser A) (q : cparser B), still fn ->
    (forall x w g w', fn x w = (Ret g, w') -> still g) -> linear b1 p -> linear b2 q -> linear (b1 + b2) (lift2 fn p q).
  Proof. intros A B C b1 b2 fn p q S Sg H1 H2. eapply lift2_bounded; [exact S|exact Sg|exact H1|exact H2|..]; num. Qed.
  Lemma lift2_total : forall A B C b1 b2 (fn : A -> M (nat * W) (B -> M (nat * W) C)) (p : cparser A) (q : cparser B), still fn ->
    (forall x w g w', fn x w = (Ret g, w') -> still g) -> total b1 p -> total b2 q -> total (b1 + b2) (lift2 fn p q).
  Proof. intros A B C b1 b2 fn p q S Sg H1 H2. eapply lift2_bounded; [exact S|exact Sg|exact H1|exact H2|..]; num. apply pl_pl. lia. Qed.

  Lemma many_linear : forall A b limit (p : cparser A), predictive b p -> consuming p -> linear (2 * b) (many limit p).
  Proof. intros A b limit p H C. eapply many_bounded; [exact H|exact C|..]; num. Qed.
  Lemma many1_predictive : forall A b limit (p : cparser A), predictive b p -> consuming p -> predictive (2 * b) (many1 limit p).
  Proof.
    intros A b limit p H C. eapply (many1_bounded A _ _ _ (per_consumed (2 * b)) (per_left (2 * b))); [exact H|exact C|..]; num.
  Qed.
  Lemma many_total : forall A b limit (p : cparser A), linear b p -> consuming p -> total (2 * b) (many limit p).
  Proof. intros A b limit p H C. eapply many_bounded; [exact H|exact C|..]; num. Qed.
  Lemma many1_total : forall A b limit (p : cparser A), linear b p -> consuming p -> total (2 * b) (many1 limit p).
  Proof.
    intros A b limit p H C. eapply (many1_bounded A _ _ _ (fun l _ => per_left (2 * b) l) (per_left (2 * b))); [exact H|exact C|..]; num.
  Qed.

  Lemma first_then_consuming : forall A B (p : cparser A) (q : cparser B) ok err exc ok' err' exc', bounded ok err exc p -> bounded ok' err' exc' q ->
    consuming p \/ consuming q -> consuming (and_then p q).
  Proof.
    intros A B p q ok err exc ok' err' exc' B1 B2 C i n w P. unfold and_then, Base.bind. specialize (B1 i n w P).
    assert (C1 : consuming p -> match fst (p i (n, w)) with Ret (Ok (_, i')) => left i' < left i | _ => True end) by (intros Q; exact (Q i n w P)).
    destruct (p i (n, w)) as [[[[x i1]|e]|e] [n1 w1]]; cbn [fst ret]; auto. destruct B1 as (P1 & L1 & _). specialize (B2 i1 n1 w1 P1). cbn [fst] in C1.
    assert (C2 : consuming q -> match fst (q i1 (n1, w1)) with Ret (Ok (_, i')) => left i' < left i1 | _ => True end) by (intros Q; exact (Q i1 n1 w1 P1)).
    destruct (q i1 (n1, w1)) as [[[[y i2]|e]|e] [n2 w2]]; cbn [fst ret]; auto. destruct B2 as (P2 & L2 & _). cbn [fst] in C2.
    destruct C as [C|C]; [specialize (C1 C)|specialize (C2 C)]; lia.
  Qed.
  Lemma or_else_consuming : forall A (p q : cparser A), consuming p -> consuming q -> consuming (or_else p q).
  Proof.
    intros A p q C1 C2 i n w P. unfold or_else, Base.bind. specialize (C1 i n w P). destruct (p i (n, w)) as [[[[x i1]|e]|e] [n1 w1]]; cbn [fst ret] in *; auto. exact (C2 i n1 w1 P).
  Qed.
  Lemma map_consuming : forall A B (f : A -> M (nat * W) B) (p : cparser A), consuming p -> consuming (map f p).
  Proof.
    intros A B f p C1 i n w P. unfold map, Base.bind. specialize (C1 i n w P). destruct (p i (n, w)) as [[[[x i1]|e]|e] [n1 w1]]; cbn [fst ret] in *; auto.
    destruct (f x (n1, w1)) as [[y|e] w2]; cbn [fst ret]; auto.
  Qed.
  Lemma many1_consuming : forall A b limit (p : cparser A), linear b p -> consuming p -> consuming (many1 limit p).
  Proof.
    intros A b limit p H C i n w P. unfold many1, Base.bind. pose proof (H i n w P) as Bp. pose proof (C i n w P) as Cp.
    destruct (p i (n, w)) as [[[[x i1]|e]|e] [n1 w1]]; cbn [fst ret] in *; auto. destruct Bp as (P1 & L1 & _).
    assert (Z : let '(r, (n', _)) := parse_zero_or_more limit p i1 (n1, w1) in
                match r with Ret (_, i') => proper i' /\ left i' <= left i1 /\ n' <= n1 + per_left (2 * b) (left i1) | Raise _ => n' <= n1 + per_left (2 * b) (left i1) end).
    { eapply (zero_or_more_bounded A _ _ _ (fun l _ => per_left (2 * b) l) (per_left (2 * b)) p H C); [num|num|num|num|exact P1]. }
    destruct (parse_zero_or_more limit p i1 (n1, w1)) as [[[vs i2]|e] [n2 w2]]; cbn [fst ret]; auto. lia.
  Qed.

  (** ** the tokens of the library *)
  Lemma fold_or_predictive : forall (cs : str) b (p : cparser str), predictive b p -> consuming p ->
    predictive (b + List.length cs) (fold_left or_else (List.map (fun c => c_pchar [c]) cs) p) /\ consuming (fold_left or_else (List.map (fun c => c_pchar [c]) cs) p).
  Proof.
    induction cs as [|c cs IH]; intros b p H C; cbn [List.map fold_left length]; [rewrite Nat.add_0_r; auto|].
    replace (b + S (List.length cs)) with ((b + 1) + List.length cs) by lia. apply IH; [apply or_else_predictive; auto using pchar_predictive|].
    apply or_else_consuming; auto using c_pchar_consuming.
  Qed.
  Lemma any_of_predictive : forall cs p, c_any_of (W := W) cs = Ret p -> predictive (List.length cs) p /\ consuming p.
  Proof.
    intros [|c cs] p E; [discriminate|]. unfold c_any_of in E. cbn [List.map] in E. rewrite choice_eq in E. injection E as <-.
    apply (fold_or_predictive cs 1); auto using pchar_predictive, c_pchar_consuming.
  Qed.
  Lemma parse_digit_predictive : predictive (W := W) 10 c_parse_digit /\ consuming (W := W) c_parse_digit.
  Proof. apply (any_of_predictive (lit "0123456789"%string)). unfold c_parse_digit. reflexivity. Qed.
  Lemma digits_predictive : forall limit, predictive (W := W) 20 (c_digits limit).
  Proof. intros. apply (many1_predictive _ 10); apply parse_digit_predictive. Qed.
  Lemma still_ret : forall X B (g : X -> B), still (W := W) (fun x => ret (g x)).
  Proof. intros X B g x w. reflexivity. Qed.
  Lemma opt_predictive : forall A b (p : cparser A), predictive b p -> predictive b (opt p).
  Proof.
    intros A b p H. unfold opt. replace b with (b + 0) by lia. apply or_else_predictive; [apply map_predictive; auto using still_ret|apply preturn_predictive].
  Qed.
  Lemma opt_total : forall A b (p : cparser A), total b p -> total b (opt p).
  Proof.
    intros A b p H. unfold opt. replace b with (b + 0) by lia. apply or_else_total; [apply map_total; auto using still_ret|apply preturn_bounded].
  Qed.
  Lemma pint_linear : forall limit int_limit, linear (W := W) 21 (c_pint limit int_limit).
  Proof.
    intros. unfold c_pint, starmap. apply map_linear.
    - intros x w. unfold result_to_int, Base.bind, lift. destruct (py_int int_limit (List.concat (snd x))); reflexivity.
    - apply (and_then_linear _ _ 1 20); apply predictive_linear; [apply opt_predictive, pchar_predictive|apply digits_predictive].
  Qed.
  Lemma pfloat_total : forall limit F (to_float : str -> res F) neg, total (W := W) 42 (c_pfloat limit to_float neg).
  Proof.
    intros. unfold c_pfloat, starmap. apply map_total.
    - intros [[sign d1] d2] w. unfold result_to_float, Base.bind, lift. cbn [fst snd]. destruct d2 as [d2|]; cbn [opt_value rbind].
      + destruct (to_float _); reflexivity.
      + destruct (to_float _); reflexivity.
    - apply (and_then_total _ _ 21 21).
      + apply linear_total. apply (and_then_linear _ _ 1 20); apply predictive_linear; [apply opt_predictive, pchar_predictive|apply digits_predictive].
      + apply opt_total, map_total; [apply still_ret|]. apply linear_total. apply (and_then_linear _ _ 1 20); apply predictive_linear; [apply pchar_predictive|apply digits_predictive].
  Qed.
End Linear.

(** ** the counter only counts *)
Section Counts.
  Context {W : Type}.
  Notation cparser := (parser (nat * W)).

  Lemma pchar_world : forall c i w n, pchar (W := nat * W) c i (n, w) = (fst (pchar c i w), (n, snd (pchar c i w))).
  Proof.
    intros c [s pos] w n. unfold pchar, Base.bind, lift, ret. destruct (Z.leb _ pos); [reflexivity|]. destruct (index s pos); [|reflexivity]. destruct (str_eqb _ c); reflexivity.
  Qed.
  Lemma counts_pchar : forall c, counts (W := W) (c_pchar c) (pchar c).
  Proof.
    intros c i n w. exists 1. unfold c_pchar, Base.bind, tick. cbn [fst snd]. rewrite pchar_world. f_equal. f_equal. lia.
  Qed.
  Lemma counts_preturn : forall A (x : A), counts (W := W) (preturn x) (preturn x).
  Proof. intros A x i n w. exists 0. cbn. now rewrite Nat.add_0_r. Qed.
  Lemma counts_fail : forall A e, counts (W := W) (A := A) (fail e) (fail e).
  Proof. intros A e i n w. exists 0. cbn. now rewrite Nat.add_0_r. Qed.
  Lemma counts_and_then : forall A B (p : cparser A) (q : cparser B) p' q', counts p p' -> counts q q' -> counts (and_then p q) (and_then p' q').
  Proof.
    intros A B p q p' q' H1 H2 i n w. unfold and_then, Base.bind. destruct (H1 i n w) as [c1 ->]. destruct (p' i w) as [[[[x i1]|e]|e] w1]; cbn [fst snd ret].
    - destruct (H2 i1 (n + c1) w1) as [c2 ->]. exists (c1 + c2). rewrite Nat.add_assoc. destruct (q' i1 w1) as [[[[y i2]|e]|e] w2]; reflexivity.
    - exists c1. reflexivity.
    - exists c1. reflexivity.
  Qed.
  Lemma counts_or_else : forall A (p q : cparser A) p' q', counts p p' -> counts q q' -> counts (or_else p q) (or_else p' q').
  Proof.
    intros A p q p' q' H1 H2 i n w. unfold or_else, Base.bind. destruct (H1 i n w) as [c1 ->]. destruct (p' i w) as [[[[x i1]|e]|e] w1]; cbn [fst snd ret].
    - exists c1. reflexivity.
    - destruct (H2 i (n + c1) w1) as [c2 ->]. exists (c1 + c2). now rewrite Nat.add_assoc.
    - exists c1. reflexivity.
  Qed.
  Lemma counts_map : forall A B (f : A -> M (nat * W) B) g (p : cparser A) p', same_function f g -> counts p p' -> counts (map f p) (map g p').
  Proof.
    intros A B f g p p' F H1 i n w. unfold map, Base.bind. destruct (H1 i n w) as [c1 ->]. exists c1. destruct (p' i w) as [[[[x i1]|e]|e] w1]; cbn [fst snd ret]; try reflexivity.
    rewrite F. destruct (g x w1) as [[y|e] w2]; reflexivity.
  Qed.
  Lemma counts_bind : forall A B (f : A -> M (nat * W) (cparser B)) g (p : cparser A) p', same_parser_function f g -> counts p p' -> counts (bind f p) (bind g p').
  Proof.
    intros A B f g p p' F H1 i n w. unfold bind, Base.bind. destruct (H1 i n w) as [c1 ->]. destruct (p' i w) as [[[[x i1]|e]|e] w1]; cbn [fst snd ret]; try (exists c1; reflexivity).
    specialize (F x (n + c1) w1). destruct (g x w1) as [[q|e] w2].
    - destruct F as (q1 & -> & F). destruct (F i1 (n + c1) w2) as [c2 ->]. exists (c1 + c2). now rewrite Nat.add_assoc.
    - rewrite F. exists c1. reflexivity.
  Qed.
  Lemma counts_lift2 : forall A B C (f : A -> M (nat * W) (B -> M (nat * W) C)) g (p : cparser A) p' (q : cparser B) q',
    same_function2 f g -> counts p p' -> counts q q' -> counts (lift2 f p q) (lift2 g p' q').
  Proof.
    intros A B C f g p p' q q' F H1 H2 i n w. unfold lift2, apply, map, and_then, preturn, Base.bind. cbn [ret].
    destruct (H1 i n w) as [c1 ->]. destruct (p' i w) as [[[[x i1]|e]|e] w1]; cbn [fst snd ret]; try (exists c1; reflexivity).
    specialize (F x (n + c1) w1). destruct (g x w1) as [[h|e] w2].
    - destruct F as (k & -> & F). cbn [ret]. destruct (H2 i1 (n + c1) w2) as [c2 ->]. exists (c1 + c2). rewrite Nat.add_assoc.
      destruct (q' i1 w2) as [[[[y i2]|e]|e] w3]; cbn [fst snd ret]; try reflexivity. rewrite F. destruct (h y w3) as [[z|e] w4]; reflexivity.
    - rewrite F. exists c1. reflexivity.
  Qed.
  Lemma counts_zero_or_more : forall A (p : cparser A) p', counts p p' -> forall limit i n w,
    exists c, parse_zero_or_more limit p i (n, w) = (fst (parse_zero_or_more limit p' i w), (n + c, snd (parse_zero_or_more limit p' i w))).
  Proof.
    intros A p p' H. induction limit as [|limit IH]; intros i n w; cbn [parse_zero_or_more]; [exists 0; cbn; now rewrite Nat.add_0_r|].
    unfold Base.bind. destruct (H i n w) as [c1 ->]. destruct (p' i w) as [[[[x i1]|e]|e] w1]; cbn [fst snd ret]; try (exists c1; reflexivity).
    destruct (IH i1 (n + c1) w1) as [c2 ->]. exists (c1 + c2). rewrite Nat.add_assoc. destruct (parse_zero_or_more limit p' i1 w1) as [[[vs i2]|e] w2]; reflexivity.
  Qed.
  Lemma counts_many : forall A limit (p : cparser A) p', counts p p' -> counts (many limit p) (many limit p').
  Proof.
    intros A limit p p' H i n w. unfold many, Base.bind. destruct (counts_zero_or_more A p p' H limit i n w) as [c ->]. exists c.
    destruct (parse_zero_or_more limit p' i w) as [[vs|e] w1]; reflexivity.
  Qed.
  Lemma counts_many1 : forall A limit (p : cparser A) p', counts p p' -> counts (many1 limit p) (many1 limit p').
  Proof.
    intros A limit p p' H i n w. unfold many1, Base.bind. destruct (H i n w) as [c1 ->]. destruct (p' i w) as [[[[x i1]|e]|e] w1]; cbn [fst snd ret]; try (exists c1; reflexivity).
    destruct (counts_zero_or_more A p p' H limit i1 (n + c1) w1) as [c2 ->]. exists (c1 + c2). rewrite Nat.add_assoc.
    destruct (parse_zero_or_more limit p' i1 w1) as [[[vs i2]|e] w2]; reflexivity.
  Qed.
  Lemma counts_fold_or : forall A (ps : list (cparser A)) ps' p p', Forall2 counts ps ps' -> counts p p' -> counts (fold_left or_else ps p) (fold_left or_else ps' p').
  Proof. intros A ps ps' p p' H. revert p p'. induction H; intros p p' Hp; cbn; auto using counts_or_else. Qed.
  Lemma counts_choice : forall A (ps : list (cparser A)) ps', Forall2 counts ps ps' -> counts_made (choice ps) (choice ps').
  Proof. intros A ps ps' [|p p' ps1 ps1' H Hs]; [reflexivity|]. rewrite !choice_eq. now apply counts_fold_or. Qed.
  Lemma counts_sequence : forall A limit (ps : list (cparser A)) ps', Forall2 counts ps ps' -> counts_made (sequence limit ps) (sequence limit ps').
  Proof.
    intros A. induction limit as [|limit IH]; intros ps ps' H; [reflexivity|]. destruct H as [|p p' ps1 ps1' H Hs]; cbn [sequence]; [apply counts_preturn|].
    specialize (IH _ _ Hs). destruct (sequence limit ps1) as [t|e], (sequence limit ps1') as [t'|e']; cbn in IH |- *; try (destruct IH; fail); auto.
    apply counts_lift2; auto. intros x n w. cbn. eexists. split; [reflexivity|]. intros y m w'. reflexivity.
  Qed.
  Lemma counts_chars : forall cs, Forall2 (counts (W := W)) (List.map (fun c => c_pchar [c]) cs) (List.map (fun c => pchar [c]) cs).
  Proof. induction cs; cbn; auto using counts_pchar. Qed.
  Lemma counts_any_of : forall cs, counts_made (W := W) (c_any_of cs) (any_of cs).
  Proof. intros. apply counts_choice, counts_chars. Qed.
  Lemma counts_pstring : forall limit cs, counts_made (W := W) (c_pstring limit cs) (pstring limit cs).
  Proof.
    intros limit cs. unfold c_pstring, pstring. pose proof (counts_sequence _ limit _ _ (counts_chars cs)) as H.
    destruct (sequence limit (List.map _ cs)) as [t|e], (sequence limit (List.map (fun c => pchar [c]) cs)) as [t'|e']; cbn in H |- *; try (destruct H; fail); auto.
    apply counts_map; auto. intros x n w. reflexivity.
  Qed.
  Lemma counts_digit : counts (W := W) c_parse_digit parse_digit.
  Proof. exact (counts_any_of (lit "0123456789"%string)). Qed.
  Lemma counts_opt : forall A (p : cparser A) p', counts p p' -> counts (opt p) (opt p').
  Proof. intros. apply counts_or_else; [apply counts_map; auto; intros x n w; reflexivity|apply counts_preturn]. Qed.
  Lemma counts_pint : forall limit int_limit, counts (W := W) (c_pint limit int_limit) (pint limit int_limit).
  Proof.
    intros. unfold c_pint, pint, starmap. apply counts_map.
    - intros x n w. unfold result_to_int, Base.bind, lift. destruct (py_int int_limit (List.concat (snd x))); reflexivity.
    - apply counts_and_then; [apply counts_opt, counts_pchar|apply counts_many1, counts_digit].
  Qed.
  Lemma counts_pfloat : forall limit F (to_float : str -> res F) neg, counts (W := W) (c_pfloat limit to_float neg) (pfloat limit to_float neg).
  Proof.
    intros. unfold c_pfloat, pfloat, starmap. apply counts_map.
    - intros [[sign d1] d2] n w. unfold result_to_float, Base.bind, lift. cbn [fst snd]. destruct d2 as [d2|]; cbn [opt_value rbind]; destruct (to_float _); reflexivity.
    - apply counts_and_then; [apply counts_and_then; [apply counts_opt, counts_pchar|apply counts_many1, counts_digit]|].
      apply counts_opt, counts_map; [intros x n w; reflexivity|]. apply counts_and_then; [apply counts_pchar|apply counts_many1, counts_digit].
  Qed.
End Counts.
