(** Property theorems C113 (names of parsers). *)
From Coq Require Import String List Bool ZArith Lia.
From Verif.Model Require Import Base OptionResult Block Parser ParserName.
From Verif.Spec Require Import NameSpec.
From Verif.Proofs Require Import NameFacts.
Import ListNotations.
Local Open Scope list_scope.

(** C113: the name of a parser in which no parser is used twice grows in proportion to the
    number of combinators; the rest of the claim is false. *)
Theorem C113_size_partial : forall h, List.length (how_name h) <= 21 * combinators h + leaf_text h.
Proof. exact length_how. Qed.
Print Assumptions C113_size_partial.
Example C113_size_case :
  how_name (Mapped (AndThen (Leaf (name_pchar (lit "a"%string))) (Many (Leaf (name_pchar (lit "b"%string)))))) =
  lit "map(A => B, and_then(many(pchar('b')), pchar('a'))"%string.
Proof. reflexivity. Qed.
(** The derived combinators are made of these. *)
Theorem C113_derived_partial : forall a b c fn,
  name_then_ignore (how_name a) (how_name b) = how_name (Mapped (AndThen a b)) /\
  name_ignore_then (how_name a) (how_name b) = how_name (Mapped (AndThen a b)) /\
  name_between (how_name a) (how_name b) (how_name c) = how_name (Mapped (AndThen (Mapped (AndThen a c)) b)) /\
  name_opt (how_name a) = how_name (OrElse (Mapped a) (Leaf (lit "preturn(Nothing)"%string))) /\
  name_sep_by1 (how_name a) (how_name b) = how_name (Mapped (AndThen a (Many (Mapped (AndThen b a))))) /\
  name_sep_by (how_name a) (how_name b) = how_name (OrElse (Mapped (AndThen a (Many (Mapped (AndThen b a))))) (Leaf (lit "preturn([])"%string))) /\
  name_lift2 fn (how_name a) (how_name b) = how_name (Mapped (AndThen (Mapped (AndThen (Leaf (name_preturn_of fn)) a)) b)) /\
  name_ignore (how_name a) = how_name (Mapped a).
Proof. intros a b c fn. repeat split. Qed.
Print Assumptions C113_derived_partial.
(** A literal: one level for each character. *)
Theorem C113_literal_partial : forall cons c s,
  name_pstring cons [] = name_map (name_preturn_of (lit "[]"%string)) /\
  exists t, name_pstring cons (c :: s) = name_map (name_lift2 cons (name_pchar [c]) t) /\ name_pstring cons s = name_map t.
Proof. intros cons c s. split; [reflexivity|]. eexists. split; reflexivity. Qed.
Print Assumptions C113_literal_partial.
(** Alternatives: the later ones are written first. *)
Theorem C113_choice_partial : forall p ps q, name_choice (ps ++ [p]) = Ret q -> ps <> [] ->
  exists t, name_choice ps = Ret t /\ q = name_or_else t p.
Proof.
  intros p [|p0 ps] q E N; [congruence|]. clear N. unfold name_choice, reduce in *. cbn in *. revert p0 E.
  induction ps as [|p1 ps IH]; intros p0 E; cbn in *; [injection E as <-; eauto|]. apply (IH (name_or_else p0 p1)). exact E.
Qed.
Print Assumptions C113_choice_partial.
Theorem C113_any_of_partial : forall c s q, name_any_of (s ++ [c]) = Ret q -> s <> [] ->
  exists t, name_any_of s = Ret t /\ q = lit "or_else(pchar('"%string ++ [c] ++ lit "'), "%string ++ t.
Proof.
  intros c s q E N. unfold name_any_of in *. rewrite map_app in E. cbn [List.map] in E.
  destruct (C113_choice_partial _ _ _ E) as (t & Et & ->); [destruct s; [congruence|discriminate]|]. exists t. split; [exact Et|].
  rewrite or_else_text. reflexivity.
Qed.
Print Assumptions C113_any_of_partial.
Example C113_choice_case :
  name_any_of (lit "abc"%string) = Ret (lit "or_else(pchar('c'), or_else(pchar('b'), pchar('a')"%string).
Proof. reflexivity. Qed.

(** A grammar of k levels, each a list of the level below: its name has at least 2^k
    times the length, although every level adds five combinators. *)
Theorem C113_sharing_refuted : forall sep p k,
  2 ^ k * List.length p <= List.length (Nat.iter k (fun p => name_sep_by1 p sep) p).
Proof. exact length_levels. Qed.
Print Assumptions C113_sharing_refuted.
(** Names do not tell how a parser was built: many1 is called many. *)
Theorem C113_many1_refuted : forall W p (w : W), name_many p = name_many1 p /\ exists input,
  fst (many 9 parse_digit input w) = Ret (Ok ([], input)) /\ exists e, fst (many1 9 parse_digit input w) = Ret (Err e).
Proof. intros W p w. split; [reflexivity|]. exists (lit "a"%string, 0%Z). split; [reflexivity|]. eexists. reflexivity. Qed.
Print Assumptions C113_many1_refuted.
(** Every and_then, or_else and bind leaves a parenthesis open. *)
Theorem C113_parentheses_refuted : forall h, leaves_balanced h -> unclosed (how_name h) = sequencers h.
Proof. exact unclosed_how. Qed.
Print Assumptions C113_parentheses_refuted.
Example C113_parentheses_case : leaves_balanced (Bound (Leaf (name_pchar (lit "a"%string)))) /\
  unclosed (how_name (Bound (Leaf (name_pchar (lit "a"%string))))) = 1%Z.
Proof. split; reflexivity. Qed.
(** preturn formats its value when the parser is built: what that raises comes out of
    preturn. *)
Theorem C113_preturn_refuted : forall W (text : M W str) w e w1, text w = (Raise e, w1) -> name_preturn text w = (Raise e, w1).
Proof. intros W text w e w1 E. unfold name_preturn, Base.bind. now rewrite E. Qed.
Print Assumptions C113_preturn_refuted.
Theorem C113_preturn_partial : forall W (text : M W str) w t w1, text w = (Ret t, w1) ->
  name_preturn text w = (Ret (lit "preturn("%string ++ t ++ lit ")"%string), w1).
Proof. intros W text w t w1 E. unfold name_preturn, Base.bind. now rewrite E. Qed.
Print Assumptions C113_preturn_partial.
(** Parsers made by the user carry the name they were given, if it is not empty. *)
Theorem C113_own_names : forall name, name <> [] -> name_init (Some name) = name /\ name_init (Some []) = lit "parser"%string /\ name_init None = lit "parser"%string.
Proof. intros [|c name] N; [congruence|]. repeat split. Qed.
Print Assumptions C113_own_names.
Theorem C113_leaves : forall c, name_pchar c = lit "pchar('"%string ++ c ++ lit "')"%string /\ name_fail c = lit "fail("""%string ++ c ++ lit """)"%string.
Proof. intros c. split; reflexivity. Qed.
Print Assumptions C113_leaves.
