(** C126: what the error of a failed parse says. *)
From Coq Require Import String List Bool ZArith Lia.
From Verif.Model Require Import Base OptionResult Block Parser.
From Verif.Spec Require Import ParserErrorSpec.
From Verif.Proofs Require Import ParserErrorFacts.
Import ListNotations.
Local Open Scope list_scope.

(** The error is the message of a [fail] of the grammar, or names a character of the grammar and
    what the text has at some place instead. *)
Theorem C126_true : forall W (char own : str -> Prop) A (p : parser W A) text w e w1, made char own A p -> call p text w = (Ret (Err e), w1) ->
  own e \/ exists q c, q <= List.length text /\ char c /\ says text q c e.
Proof. exact (@true_pf). Qed.
Print Assumptions C126_true.
(** The other functions make such parsers, of their characters. *)
Theorem C126_derived : forall W (char own : str -> Prop),
  (forall limit s (p : parser W str), pstring limit s = Ret p -> (forall c, In c s -> char [c]) -> made char own _ p) /\
  (forall cs (p : parser W str), any_of cs = Ret p -> (forall c, In c cs -> char [c]) -> made char own _ p) /\
  (forall A (ps : list (parser W A)) q, choice ps = Ret q -> (forall p, In p ps -> made char own A p) -> made char own A q) /\
  (forall A limit (ps : list (parser W A)) q, sequence limit ps = Ret q -> (forall p, In p ps -> made char own A p) -> made char own _ q).
Proof.
  intros W char own. split; [exact (made_pstring char own)|]. split; [exact (made_any_of char own)|]. split; [exact (made_choice char own)|].
  intros A limit ps q. exact (made_sequence char own A limit ps q).
Qed.
Print Assumptions C126_derived.
(** Numbers: the error speaks of a digit or the minus sign. *)
Theorem C126_number : forall W limit int_limit text (w : W) e w1, call (pint limit int_limit) text w = (Ret (Err e), w1) ->
  exists q c, q <= List.length text /\ (c = lit "-"%string \/ exists d, In d (lit "0123456789"%string) /\ c = [d]) /\ says text q c e.
Proof.
  intros W limit int_limit text w e w1 H. destruct (true_pf _ _ _ _ _ _ _ _ (made_pint (fun _ => False) limit int_limit) H) as [[]|X]. exact X.
Qed.
Print Assumptions C126_number.
(** Without alternatives and repetitions: no text that the parser accepts is the same for longer
    than the place that the error speaks of. *)
Theorem C126_furthest : forall W k A (p : parser W A) text w e w1, straight k A p -> call p text w = (Ret (Err e), w1) ->
  exists q c, says text q c e /\ forall text1 w2 x w3 n, call p text1 w2 = (Ret (Ok x), w3) -> agree n text text1 -> n <= q.
Proof. exact (@furthest_pf). Qed.
Print Assumptions C126_furthest.
Theorem C126_furthest_string : forall W limit s (p : parser W str) text w e w1, pstring limit s = Ret p -> call p text w = (Ret (Err e), w1) ->
  exists q c, says text q c e /\ forall text1 w2 x w3 n, call p text1 w2 = (Ret (Ok x), w3) -> agree n text text1 -> n <= q.
Proof. intros W limit s p text w e w1 E H. destruct (straight_pstring _ _ _ E) as [k K]. exact (furthest_pf _ _ _ _ _ _ _ K H). Qed.
Print Assumptions C126_furthest_string.
(** Alternatives: the error is that of the last one, whatever the others reached. *)
Theorem C126_last_alternative : forall W A (p q : parser W A) i w e w1, or_else p q i w = (Ret (Err e), w1) ->
  exists e0 w0, p i w = (Ret (Err e0), w0) /\ q i w0 = (Ret (Err e), w1).
Proof. exact (@or_else_error_pf). Qed.
Print Assumptions C126_last_alternative.
Theorem C126_last_character : forall W cs (p : parser W str) (text : str) pos w e w1, any_of cs = Ret p -> pos <= List.length text ->
  p (text, Z.of_nat pos) w = (Ret (Err e), w1) -> says text pos (last_char cs) e.
Proof. exact (@any_of_error_pf). Qed.
Print Assumptions C126_last_character.

(** "ab" or "x" of "ac": the error speaks of place 0, though "ab" is accepted and the same up to place 1. *)
Theorem C126_furthest_refuted : ~ (forall W (char own : str -> Prop) A (p : parser W A) text w e w1, made char own A p -> call p text w = (Ret (Err e), w1) ->
  ~ own e -> exists q c, says text q c e /\ forall text1 w2 x w3 n, call p text1 w2 = (Ret (Ok x), w3) -> agree n text text1 -> n <= q).
Proof.
  intros H. pose (ab := match pstring (W := unit) 9 (lit "ab"%string) with Ret p => p | Raise _ => fail [] end).
  assert (D : made (fun _ => True) (fun _ => False) _ (or_else ab (pchar (lit "x"%string)))).
  { apply m_or_else; [|apply m_pchar; exact I]. eapply (made_pstring _ _ 9 (lit "ab"%string)); [reflexivity|]. intros; exact I. }
  destruct (H unit _ _ _ _ (lit "ac"%string) tt _ tt D eq_refl (fun F => F)) as (q & c & S & T).
  assert (L : 1 <= q). { apply (T (lit "ab"%string) tt _ tt 1 eq_refl). repeat split; cbn; lia. }
  destruct S as [[-> E]|(d & N & C & E)]; [discriminate|].
  destruct q as [|[|q]]; [lia| |destruct q; discriminate]. injection N; intros; subst d.
  apply (f_equal (fun s => nth_error (rev s) 1)) in E. unfold expecting in E. rewrite !rev_app_distr in E. discriminate.
Qed.
Print Assumptions C126_furthest_refuted.

Definition date : parser unit (str * str) := and_then (pchar (lit "1"%string)) (pchar (lit "-"%string)).
Example C126_true_case : made (fun c => c = lit "a"%string) (fun e => e = lit "no"%string) _ (or_else (W := unit) (pchar (lit "a"%string)) (fail (lit "no"%string))) /\
  call (or_else (pchar (lit "a"%string)) (fail (lit "no"%string))) (lit "b"%string) tt = (Ret (Err (lit "no"%string)), tt).
Proof. split; [apply m_or_else; [apply m_pchar|apply m_fail]; reflexivity|reflexivity]. Qed.
Example C126_number_case : call (pint (W := unit) 9 9) (lit "-x"%string) tt = (Ret (Err (lit "Expecting '9'. Got 'x'"%string)), tt).
Proof. reflexivity. Qed.
Example C126_furthest_case : straight 2 _ date /\ call date (lit "1/"%string) tt = (Ret (Err (lit "Expecting '-'. Got '/'"%string)), tt) /\
  call date (lit "1-"%string) tt = (Ret (Ok (lit "1"%string, lit "-"%string)), tt) /\ agree 1 (lit "1/"%string) (lit "1-"%string).
Proof. split; [exact (s_and_then _ _ 1 1 _ _ (s_pchar _) (s_pchar _))|]. repeat split; cbn; lia. Qed.
Example C126_last_case : exists p : parser unit str, any_of (lit "ab"%string) = Ret p /\
  call p (lit "c"%string) tt = (Ret (Err (lit "Expecting 'b'. Got 'c'"%string)), tt) /\ call p [] tt = (Ret (Err (lit "no more input"%string)), tt).
Proof. eexists. repeat split. Qed.
