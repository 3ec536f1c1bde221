(** C124: how often parsers look at the input. *)
From Coq Require Import String List Bool ZArith Arith Lia.
From Verif.Model Require Import Base PyList OptionResult Block Parser ParserCost.
From Verif.Spec Require Import ParserSpec ParserCostSpec.
From Verif.Proofs Require Import ParserCostFacts ParserCostFacts2 ParserCostFacts3.
Import ListNotations.
Local Open Scope list_scope.
Local Open Scope nat_scope.

(** The counter only counts: parsers with it do what the parsers of the library do. *)
Theorem C124_same : forall W,
  (forall c, counts (W := W) (c_pchar c) (pchar c)) /\
  (forall A (x : A), counts (W := W) (preturn x) (preturn x)) /\
  (forall A e, counts (W := W) (A := A) (fail e) (fail e)) /\
  (forall A B (p : parser (nat * W) A) (q : parser (nat * W) B) p' q', counts p p' -> counts q q' -> counts (and_then p q) (and_then p' q')) /\
  (forall A (p q : parser (nat * W) A) p' q', counts p p' -> counts q q' -> counts (or_else p q) (or_else p' q')) /\
  (forall A B (f : A -> M (nat * W) B) g p p', same_function f g -> counts p p' -> counts (map f p) (map g p')) /\
  (forall A B (f : A -> M (nat * W) (parser (nat * W) B)) g p p', same_parser_function f g -> counts p p' -> counts (bind f p) (bind g p')) /\
  (forall A B C (f : A -> M (nat * W) (B -> M (nat * W) C)) g p p' q q', same_function2 f g -> counts p p' -> counts q q' -> counts (lift2 f p q) (lift2 g p' q')) /\
  (forall A limit (p : parser (nat * W) A) p', counts p p' -> counts (many limit p) (many limit p')) /\
  (forall A limit (p : parser (nat * W) A) p', counts p p' -> counts (many1 limit p) (many1 limit p')) /\
  (forall A (ps : list (parser (nat * W) A)) ps', Forall2 counts ps ps' -> counts_made (choice ps) (choice ps')) /\
  (forall A limit (ps : list (parser (nat * W) A)) ps', Forall2 counts ps ps' -> counts_made (sequence limit ps) (sequence limit ps')).
Proof.
  intros W. repeat match goal with |- _ /\ _ => split end.
  - exact counts_pchar.
  - exact counts_preturn.
  - exact counts_fail.
  - exact counts_and_then.
  - exact counts_or_else.
  - intros. now apply counts_map.
  - intros. now apply counts_bind.
  - intros. now apply counts_lift2.
  - exact counts_many.
  - exact counts_many1.
  - exact counts_choice.
  - exact counts_sequence.
Qed.
Print Assumptions C124_same.

Theorem C124_same_tokens : forall W,
  (forall cs, counts_made (W := W) (c_any_of cs) (any_of cs)) /\
  (forall limit cs, counts_made (W := W) (c_pstring limit cs) (pstring limit cs)) /\
  counts (W := W) c_parse_digit parse_digit /\
  (forall limit int_limit, counts (W := W) (c_pint limit int_limit) (pint limit int_limit)) /\
  (forall limit F (to_float : str -> res F) neg, counts (W := W) (c_pfloat limit to_float neg) (pfloat limit to_float neg)).
Proof.
  intros W. repeat match goal with |- _ /\ _ => split end.
  - exact counts_any_of.
  - exact counts_pstring.
  - exact counts_digit.
  - exact counts_pint.
  - intros. apply counts_pfloat.
Qed.
Print Assumptions C124_same_tokens.
Example C124_same_case : snd (c_pint 9 9 (lit "-12x"%string, 0%Z) (5, tt)) = (21, tt) /\ fst (c_pint 9 9 (lit "-12x"%string, 0%Z) (5, tt)) = fst (pint 9 9 (lit "-12x"%string, 0%Z) tt).
Proof. split; vm_compute; reflexivity. Qed.

(** A literal is compared up to the first difference. *)
Theorem C124_literal : forall W limit (matched : str) x y (p : parser (nat * W) str) i w,
  c_pstring limit (matched ++ x) = Ret p -> proper i -> rest_of i = matched ++ y ->
  match x with [] => True | c :: _ => hd_error y <> Some c end ->
  looks p i w = List.length matched + match x with [] => 0 | _ :: _ => 1 end.
Proof. intros W. exact pstring_looks. Qed.
Print Assumptions C124_literal.
Example C124_literal_case : exists p, c_pstring (W := unit) 9 (lit "true"%string) = Ret p /\ looks p (lit "trip"%string, 0%Z) tt = 3.
Proof. eexists. split; [reflexivity|]. vm_compute. reflexivity. Qed.

(** Characters are tried from left to right up to the one that is there. *)
Theorem C124_any_of : forall W (cs : str) (p : parser (nat * W) str) i w, c_any_of cs = Ret p -> proper i ->
  (forall before c after text, cs = before ++ c :: after -> ~ In c before -> rest_of i = c :: text -> looks p i w = S (List.length before)) /\
  ((forall c, In c cs -> hd_error (rest_of i) <> Some c) -> looks p i w = List.length cs).
Proof.
  intros W cs p i w E P. split.
  - intros before c after text -> N H. exact (any_of_hit before c after text p i w E P N H).
  - exact (any_of_miss cs p i w E P).
Qed.
Print Assumptions C124_any_of.
Example C124_any_of_case : exists p, c_any_of (W := unit) (lit "+-*/"%string) = Ret p /\
  looks p (lit "*2"%string, 0%Z) tt = 3 /\ looks p (lit "2"%string, 0%Z) tt = 4 /\ looks p ([], 0%Z) tt = 4.
Proof. eexists. split; [reflexivity|]. repeat split; vm_compute; reflexivity. Qed.

(** Whatever the text: at most the number of pchars in the written-out grammar times the
    rest of the text to the power of the nesting of repetitions; without repetition each
    pchar runs at most once. *)
Theorem C124_grammar_partial : forall W b d A (p : parser (nat * W) A), grammar b d A p ->
  polynomial b d p /\ (d = 0 -> forall i w, proper i -> looks p i w <= b).
Proof.
  intros W b d A p G. pose proof (grammar_bounded b d A p G) as H. split; [exact H|]. intros -> i w P. specialize (H i 0 w P). unfold looks. cbn [Nat.pow] in H.
  destruct (p i (0, w)) as [[[[x i1]|e]|e] [n1 w1]]; cbn [fst snd]; lia.
Qed.
Print Assumptions C124_grammar_partial.
Example C124_grammar_case : grammar (W := unit) 2 1 (list (str * str)) (many 9 (and_then (c_pchar [97]) (c_pchar [98]))).
Proof.
  apply g_many; [apply (g_and_then str str 1 0 1 0); apply g_pchar|].
  eapply first_then_consuming; [apply pchar_predictive|apply pchar_predictive|]. left. apply c_pchar_consuming.
Qed.

(** Parsers whose alternatives are told apart by the first character take time in
    proportion to the text, and so do repetitions of them. *)
Theorem C124_linear_partial : forall W,
  (forall c, predictive (W := W) 1 (c_pchar c) /\ consuming (W := W) (c_pchar c)) /\
  (forall A (x : A), predictive (W := W) 0 (preturn x)) /\
  (forall A b (p : parser (nat * W) A), (predictive b p -> linear b p) /\ (linear b p -> total b p)) /\
  (forall A b1 b2 (p q : parser (nat * W) A),
     (predictive b1 p -> predictive b2 q -> predictive (b1 + b2) (or_else p q)) /\
     (predictive b1 p -> linear b2 q -> linear (b1 + b2) (or_else p q)) /\
     (total b1 p -> total b2 q -> total (b1 + b2) (or_else p q))) /\
  (forall A B b1 b2 (p : parser (nat * W) A) (q : parser (nat * W) B),
     (linear b1 p -> linear b2 q -> linear (b1 + b2) (and_then p q)) /\
     (total b1 p -> total b2 q -> total (b1 + b2) (and_then p q))) /\
  (forall A B b (f : A -> M (nat * W) B) p, still f ->
     (predictive b p -> predictive b (map f p)) /\ (linear b p -> linear b (map f p)) /\ (total b p -> total b (map f p))) /\
  (forall A B b1 b2 (f : A -> M (nat * W) (parser (nat * W) B)) p, still f ->
     (linear b1 p -> (forall x w q w', f x w = (Ret q, w') -> linear b2 q) -> linear (b1 + b2) (bind f p)) /\
     (total b1 p -> (forall x w q w', f x w = (Ret q, w') -> total b2 q) -> total (b1 + b2) (bind f p))) /\
  (forall A b limit (p : parser (nat * W) A), consuming p ->
     (predictive b p -> linear (2 * b) (many limit p) /\ predictive (2 * b) (many1 limit p)) /\
     (linear b p -> total (2 * b) (many limit p) /\ total (2 * b) (many1 limit p) /\ consuming (many1 limit p))).
Proof.
  intros W. repeat match goal with |- _ /\ _ => split end.
  - split; [apply pchar_predictive|apply c_pchar_consuming].
  - intros. apply preturn_predictive.
  - intros. split; [apply predictive_linear|apply linear_total].
  - intros. repeat split; [now apply or_else_predictive|now apply or_else_linear|now apply or_else_total].
  - intros. split; intros; [now apply and_then_linear|now apply and_then_total].
  - intros. repeat split; intros; [now apply map_predictive|now apply map_linear|now apply map_total].
  - intros. split; intros; [now apply bind_linear|now apply bind_total].
  - intros A b limit p C. split; intros H; repeat split; [now apply many_linear|now apply many1_predictive|now apply many_total|now apply many1_total|now apply (many1_consuming A b)].
Qed.
Print Assumptions C124_linear_partial.

(** The tokens of the library. *)
Theorem C124_tokens : forall W,
  (forall cs p, c_any_of (W := W) cs = Ret p -> predictive (List.length cs) p /\ consuming p) /\
  (forall limit, predictive (W := W) 20 (c_digits limit)) /\
  (forall limit int_limit, linear (W := W) 21 (c_pint limit int_limit)) /\
  (forall limit F (to_float : str -> res F) neg, total (W := W) 42 (c_pfloat limit to_float neg)).
Proof.
  intros W. repeat match goal with |- _ /\ _ => split end.
  - exact any_of_predictive.
  - exact digits_predictive.
  - exact pint_linear.
  - intros. apply pfloat_total.
Qed.
Print Assumptions C124_tokens.
Example C124_tokens_case : looks (W := unit) (c_pint 99 99) (lit "-1234567890"%string, 0%Z) tt = 66.
Proof. vm_compute. reflexivity. Qed.

(** A parser that calls itself in two alternatives that begin alike runs twice at each
    level: nothing is remembered. *)
Theorem C124_recursive_refuted : forall W k limit (w : W), k < limit ->
  List.length (parens k) = 2 * k + 1 /\
  fst (term limit (parens k, 0%Z) (0, w)) = Ret (Ok ([97], (parens k, Z.of_nat (2 * k + 1)))) /\
  2 ^ k <= looks (term limit) (parens k, 0%Z) w.
Proof.
  intros W k limit w K. split; [apply parens_length|].
  destruct (term_slow k limit (parens k) 0%Z [] 0 w K ltac:(lia)) as (c & C & E); [now rewrite app_nil_r|discriminate|].
  unfold looks. rewrite E. split; [reflexivity|exact C].
Qed.
Print Assumptions C124_recursive_refuted.
Example C124_recursive_case : looks (W := unit) (term 9) (parens 8, 0%Z) tt = 2043.
Proof. vm_compute. reflexivity. Qed.

(** Nor is a repetition in an alternative that fails late: no constant number of looks for
    each character is enough. *)
Theorem C124_repetition_refuted : forall W (w : W) b, exists text : str, forall limit, List.length text < limit ->
  (exists vs, fst (items limit (text, 0%Z) (0, w)) = Ret (Ok (vs, (text, Z.of_nat (List.length text))))) /\
  b * List.length text < looks (items limit) (text, 0%Z) w.
Proof.
  intros W w b. exists (repeat 97 (2 * b + 1) : str). rewrite repeat_length. intros limit K.
  destruct (items_slow (2 * b + 1) limit (repeat 97 (2 * b + 1)) 0%Z 0 w K ltac:(lia) eq_refl) as (c & C & E).
  unfold looks. rewrite E. split; [eexists; reflexivity|]. cbn [fst snd]. nia.
Qed.
Print Assumptions C124_repetition_refuted.
Example C124_repetition_case : looks (W := unit) (items 99) (repeat 97 20, 0%Z) tt = 273.
Proof. vm_compute. reflexivity. Qed.
