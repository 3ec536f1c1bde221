(** Property theorems C112 (how deep a stack parsers need).  [d] is the number of frames
    the interpreter's recursion limit still allows. *)
From Coq Require Import String List Bool ZArith Lia.
From Verif.Model Require Import Base OptionResult Block Parser ParserDepth.
From Verif.Spec Require Import ParserSpec DepthSpec.
From Verif.Proofs Require Import DepthFacts.
Import ListNotations.
Local Open Scope list_scope.

(** C112: two frames for each level of nested combinators are enough, and with less a
    parser does the same or raises RecursionError. *)
Theorem C112_nesting_partial : forall W n A dp p, nested W n A dp p -> enough (2 * n + 1) dp p /\ same_or_overflow dp p.
Proof. intros W n A dp p N. split; [eapply nested_enough, N|eapply nested_same, N]. Qed.
Print Assumptions C112_nesting_partial.
Example C112_nesting_case :
  nested unit 2 _ (d_map (fun x => ret (fst x)) (d_and_then (d_pchar (lit "a"%string)) (d_pchar (lit "b"%string))))
                  (map (fun x => ret (fst x)) (and_then (pchar (lit "a"%string)) (pchar (lit "b"%string)))) /\
  d_map (fun x => ret (fst x)) (d_and_then (d_pchar (lit "a"%string)) (d_pchar (lit "b"%string))) 5 (lit "ab"%string, 0%Z) tt =
    (Ret (Ok (lit "a"%string, (lit "ab"%string, 2%Z))), tt).
Proof. split; [|reflexivity]. apply n_map. apply (n_and_then unit 0 0); constructor. Qed.

(** Literals: the combinators nest once more for every character.  Exactly 4 frames for
    each character and 8 more are needed to recognise a literal. *)
Theorem C112_literal_partial : forall W s rest limit q (w : W) d, s <> [] -> pstring (W := W) limit s = Ret q ->
  4 * List.length s + 8 <= d -> d_call (d_pstring s) d (s ++ rest) w = (Ret (Ok s), w).
Proof. intros W s rest limit q w d Ne E. exact (proj1 (call_pstring_depth s rest limit q w d Ne E)). Qed.
Print Assumptions C112_literal_partial.
Theorem C112_literal_anywhere_partial : forall W s limit q, pstring (W := W) limit s = Ret q -> enough (4 * List.length s + 7) (d_pstring s) q.
Proof. intros W. exact (@pstring_enough W). Qed.
Print Assumptions C112_literal_anywhere_partial.
Theorem C112_literal_refuted : forall W s rest limit q (w : W) d, s <> [] -> pstring (W := W) limit s = Ret q ->
  d < 4 * List.length s + 8 -> fst (d_call (d_pstring s) d (s ++ rest) w) = Raise RecursionError.
Proof. intros W s rest limit q w d Ne E. exact (proj2 (call_pstring_depth s rest limit q w d Ne E)). Qed.
Print Assumptions C112_literal_refuted.
Example C112_literal_case :
  d_call (d_pstring (lit "let"%string)) 20 (lit "let x"%string) tt = (Ret (Ok (lit "let"%string)), tt) /\
  fst (d_call (d_pstring (lit "let"%string)) 19 (lit "let x"%string) tt) = Raise RecursionError.
Proof. split; reflexivity. Qed.

(** Alternatives: the first alternative is the deepest, so that also where it matches at
    once two frames for every other alternative are needed. *)
Theorem C112_alternatives_refuted : forall W A n dp p dps q, nested W n A dp p -> d_choice (dp :: dps) = Ret q ->
  too_little (1 + 2 * List.length dps) q.
Proof. intros W A. exact (@choice_little W A). Qed.
Print Assumptions C112_alternatives_refuted.
Theorem C112_any_of_refuted : forall W c cs rest d (w : W), d <= 1 + 2 * List.length cs -> exists q,
  d_any_of (c :: cs) = Ret q /\ fst (d_call q d (c :: rest) w) = Raise RecursionError.
Proof.
  intros W c cs rest d w L. unfold d_any_of. cbn [List.map]. eexists. split; [apply choice_alternatives|].
  destruct d as [|d]; [reflexivity|]. unfold d_call. cbn [framed]. apply bind_raises.
  eapply (choice_little _ 0 (d_pchar [c]) (pchar [c])); [constructor|apply choice_alternatives|]. rewrite map_length. lia.
Qed.
Print Assumptions C112_any_of_refuted.
Theorem C112_alternatives_partial : forall W A dps ps n m dp p, nested W n A dp p ->
  Forall2 (fun dq q => exists k, k <= m /\ nested W k A dq q) dps ps -> m <= n ->
  exists dq q, d_choice (dp :: dps) = Ret dq /\ choice (p :: ps) = Ret q /\ enough (2 * (n + List.length dps) + 1) dq q.
Proof.
  intros W A dps ps n m dp p N F L. destruct (choice_nested A dps ps n m dp p N F L) as (dq & q & E1 & E2 & E3).
  exists dq, q. split; [exact E1|]. split; [exact E2|]. eapply nested_enough, E3.
Qed.
Print Assumptions C112_alternatives_partial.
Example C112_alternatives_case : exists q, d_any_of (lit "abc"%string) = Ret q /\
  d_call q 6 (lit "a"%string) tt = (Ret (Ok (lit "a"%string)), tt) /\ fst (d_call q 5 (lit "a"%string) tt) = Raise RecursionError.
Proof. eexists. repeat split; reflexivity. Qed.

(** Repetition: one frame for every repetition, beside what one element needs. *)
Theorem C112_many_partial : forall W A (dp : dparser W A) p n i w vs i1 w1, same_or_overflow dp p -> enough n dp p -> too_little n dp ->
  repeats p i w vs i1 w1 -> forall d, List.length vs + n + 3 <= d -> d_many dp d i w = (Ret (Ok (vs, i1)), w1).
Proof. intros W A dp p n i w vs i1 w1 Sm En Lt R d. exact (proj1 (many_depth A dp p n i w vs i1 w1 Sm En Lt R d)). Qed.
Print Assumptions C112_many_partial.
Theorem C112_many_refuted : forall W A (dp : dparser W A) p n i w vs i1 w1, same_or_overflow dp p -> enough n dp p -> too_little n dp ->
  repeats p i w vs i1 w1 -> forall d, d < List.length vs + n + 3 -> fst (d_many dp d i w) = Raise RecursionError.
Proof. intros W A dp p n i w vs i1 w1 Sm En Lt R d. exact (proj2 (many_depth A dp p n i w vs i1 w1 Sm En Lt R d)). Qed.
Print Assumptions C112_many_refuted.
Theorem C112_many1_partial : forall W A (dp : dparser W A) p n i w v vs i1 w1, same_or_overflow dp p -> enough n dp p -> too_little n dp ->
  repeats p i w (v :: vs) i1 w1 -> forall d,
  (List.length (v :: vs) + n + 2 <= d -> d_many1 dp d i w = (Ret (Ok (v :: vs, i1)), w1)) /\
  (d < List.length (v :: vs) + n + 2 -> fst (d_many1 dp d i w) = Raise RecursionError).
Proof. intros W A. exact (@many1_depth W A). Qed.
Print Assumptions C112_many1_partial.
Example C112_many_case :
  same_or_overflow (W := unit) (d_pchar (lit "a"%string)) (pchar (lit "a"%string)) /\ enough (W := unit) 1 (d_pchar (lit "a"%string)) (pchar (lit "a"%string)) /\
  too_little (W := unit) 1 (d_pchar (lit "a"%string)) /\
  repeats (pchar (lit "a"%string)) (lit "aab"%string, 0%Z) tt [lit "a"%string; lit "a"%string] (lit "aab"%string, 2%Z) tt /\
  d_many (d_pchar (lit "a"%string)) 6 (lit "aab"%string, 0%Z) tt = (Ret (Ok ([lit "a"%string; lit "a"%string], (lit "aab"%string, 2%Z))), tt) /\
  fst (d_many (d_pchar (lit "a"%string)) 5 (lit "aab"%string, 0%Z) tt) = Raise RecursionError.
Proof.
  split; [eapply nested_same; constructor|]. split; [exact (nested_enough 0 _ _ _ (n_pchar unit _))|]. split; [eapply nested_little; constructor|].
  split; [|split; reflexivity].
  eapply rep_more; [reflexivity|]. eapply rep_more; [reflexivity|]. eapply rep_end. reflexivity.
Qed.
