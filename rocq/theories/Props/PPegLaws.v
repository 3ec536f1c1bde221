(** C145: grammars may be rewritten by laws. *)
From Coq Require Import List Bool ZArith Lia.
From Verif.Model Require Import Base OptionResult Parser.
From Verif.Proofs Require Import PegFacts PegLaws.
From Verif.Spec Require Import PegSpec PegLawsSpec.
Import ListNotations.
Local Open Scope list_scope.

(** Grammars that agree make parsers that agree: with room enough the second returns the same
    value at the same place, with the same effects, or fails or raises alike. *)
Theorem C145_parsers : forall W (rules : nat -> gram W) g1 g2, agrees rules g1 g2 -> forall (text : str) pos (w : W) limit depth x w1, (0 <= pos)%Z ->
  compile rules limit depth g1 (text, pos) w = (x, w1) -> x <> Raise RecursionError ->
  exists n r, same text x r /\ forall limit2 depth2, n <= limit2 -> n <= depth2 -> exists x2, compile rules limit2 depth2 g2 (text, pos) w = (x2, w1) /\ same text x2 r.
Proof.
  intros W rules g1 g2 A text pos w limit depth x w1 L E N. destruct (sound_peg rules limit depth g1 text pos w x w1 L E) as [X|(r & P & S)]; [destruct (N X)|]. apply A in P.
  destruct (proj1 (complete_peg rules) _ _ _ _ _ P) as [n H]. exists n, r. split; [exact S|]. intros limit2 depth2 L1 L2. apply H; auto.
Qed.
Print Assumptions C145_parsers.

(** Agreement is an equivalence, and parts may be replaced anywhere inside. *)
Theorem C145_equivalence : forall W (rules : nat -> gram W), (forall g, agrees rules g g) /\ (forall a b, agrees rules a b -> agrees rules b a) /\ (forall a b c, agrees rules a b -> agrees rules b c -> agrees rules a c).
Proof. intros W rules. split; [apply agrees_refl|]. split; [apply agrees_sym|apply agrees_trans]. Qed.
Print Assumptions C145_equivalence.
Theorem C145_inside : forall W (rules : nat -> gram W) a a1 b b1 g g1, agrees rules a a1 -> agrees rules b b1 -> agrees rules g g1 ->
  (forall k, agrees rules (GAnd k a b) (GAnd k a1 b1)) /\ agrees rules (GOr a b) (GOr a1 b1) /\ (forall f, agrees rules (GMap f g) (GMap f g1)) /\
  (forall f f1, (forall v, agrees rules (f v) (f1 v)) -> agrees rules (GBind f g) (GBind f1 g1)) /\ agrees rules (GMany g) (GMany g1) /\ agrees rules (GMany1 g) (GMany1 g1) /\
  agrees rules (GOpt g) (GOpt g1) /\ agrees rules (GSepBy g a) (GSepBy g1 a1) /\ agrees rules (GBetween a b g) (GBetween a1 b1 g1).
Proof.
  intros W rules a a1 b b1 g g1 A B G. repeat match goal with |- _ /\ _ => split end.
  - intros k. apply cong_and; assumption.
  - apply cong_or; assumption.
  - intros f. apply cong_map; assumption.
  - intros f f1 F. apply cong_bind; assumption.
  - apply cong_many; assumption.
  - apply cong_many1; assumption.
  - apply cong_opt; assumption.
  - apply cong_sep; assumption.
  - apply cong_between; assumption.
Qed.
Print Assumptions C145_inside.

(** Laws that hold whatever the functions do. *)
Theorem C145_choice : forall W (rules : nat -> gram W) a b c m, agrees rules (GOr (GOr a b) c) (GOr a (GOr b c)) /\ agrees rules (GOr (GFail m) a) a /\ agrees rules (GOr a (GFail m)) a.
Proof. intros W rules a b c m. split; [apply or_assoc|]. split; [apply or_fail_left|apply or_fail_right]. Qed.
Print Assumptions C145_choice.
Theorem C145_sequence : forall W (rules : nat -> gram W) a b c v, agrees rules (GAnd Second (GAnd Second a b) c) (GAnd Second a (GAnd Second b c)) /\
  agrees rules (GAnd Second (GReturn v) a) a /\ agrees rules (GAnd First a (GReturn v)) a.
Proof. intros W rules a b c v. split; [apply and_assoc|]. split; [apply return_left|apply return_right]. Qed.
Print Assumptions C145_sequence.
(** many, opt and between are what they are made of. *)
Theorem C145_unfold : forall W (rules : nat -> gram W) a b g, agrees rules (GMany g) (GOr (GMap (fun v => ret (cons_pair v)) (GAnd Both g (GMany g))) (GReturn (VList []))) /\
  agrees rules (GOpt g) (GOr (GMap (fun v => ret (VSome v)) g) (GReturn VNone)) /\ agrees rules (GBetween a b g) (GAnd First (GAnd Second a g) b).
Proof. intros W rules a b g. split; [apply many_unfold|]. split; [apply opt_eq|apply between_eq]. Qed.
Print Assumptions C145_unfold.

(** Laws for grammars whose functions have no effects: a common beginning may be taken out, a
    choice between the same is no choice, and choices of which at most one matches may be swapped. *)
Theorem C145_quiet : forall W (rules : nat -> gram W), (forall n, plain (rules n)) -> forall g, plain g -> quiet rules g.
Proof. intros W rules PL g G s w r w1 P. exact (proj1 (plain_quiet rules PL) _ _ _ _ _ P G). Qed.
Print Assumptions C145_quiet.
Theorem C145_factor : forall W (rules : nat -> gram W) k a b c, quiet rules a -> agrees rules (GOr (GAnd k a b) (GAnd k a c)) (GAnd k a (GOr b c)) /\ agrees rules (GOr a a) a.
Proof. intros W rules k a b c Q. split; [apply factor_left; exact Q|apply or_same; exact Q]. Qed.
Print Assumptions C145_factor.
Theorem C145_swap : forall W (rules : nat -> gram W) a b, quiet rules a -> quiet rules b -> apart rules a b -> agrees rules (GOr a b) (GOr b a).
Proof. intros W rules. apply or_swap. Qed.
Print Assumptions C145_swap.

(** Rules whose bodies are replaced by ones that agree give no other answers; but they may give
    none any more. *)
Theorem C145_rules : forall W (rules1 rules2 : nat -> gram W), (forall n, agrees rules1 (rules1 n) (rules2 n)) -> forall g s w r w1, peg rules2 g s w r w1 -> peg rules1 g s w r w1.
Proof. intros W rules1 rules2 A. exact (proj1 (rewrite_rules W rules1 rules2 A)). Qed.
Print Assumptions C145_rules.
Theorem C145_rules_refuted : ~ (forall W (rules1 rules2 : nat -> gram W), (forall n, agrees rules1 (rules1 n) (rules2 n)) -> forall g s w r w1, peg rules1 g s w r w1 -> peg rules2 g s w r w1).
Proof.
  intros H. assert (P : peg (fun n => GCall n) (GCall 0) [97] tt (Ret (Some (VStr [97], []))) tt).
  { apply (H unit (fun _ => GChar 97) (fun n => GCall n)).
    - intros n s w r w1. split; intros P; [apply p_call; exact P|apply peg_inv in P; exact P].
    - apply p_call. apply p_char. }
  destruct (proj1 (complete_peg _) _ _ _ _ _ P) as [n C]. destruct (C n n (le_n n) (le_n n) [97] 0%Z (Z.le_refl 0) eq_refl) as (x & E & S).
  rewrite (left_recursion (fun n => GCall n) 0 (sw_call _ 0) n n (GCall 0) (sw_call _ 0)) in E. injection E as <-. inversion S.
Qed.
Print Assumptions C145_rules_refuted.

(** A common end may not be taken out: [a c | ab c] reads "abc", [(a | ab) c] does not. *)
Definition ends_inside : gram unit := GOr (GAnd Both (GChar 97) (GChar 99)) (GAnd Both (GAnd First (GChar 97) (GChar 98)) (GChar 99)).
Definition end_outside : gram unit := GAnd Both (GOr (GChar 97) (GAnd First (GChar 97) (GChar 98))) (GChar 99).
Theorem C145_factor_right_refuted : forall rules, ~ agrees rules ends_inside end_outside.
Proof.
  intros rules A. assert (P1 : peg rules ends_inside [97; 98; 99] tt (Ret (Some (VPair (VStr [97]) (VStr [99]), []))) tt).
  { eapply p_or_second.
    - apply (p_and rules Both _ _ _ _ (VStr [97]) [98; 99] tt (Ret None) tt); [apply p_char|apply p_no_char; discriminate].
    - apply (p_and rules Both _ _ _ _ (VStr [97]) [99] tt (Ret (Some (VStr [99], []))) tt); [|apply p_char].
      apply (p_and rules First _ _ _ _ (VStr [97]) [98; 99] tt (Ret (Some (VStr [98], [99]))) tt); apply p_char. }
  assert (P2 : peg rules end_outside [97; 98; 99] tt (Ret None) tt).
  { apply (p_and rules Both _ _ _ _ (VStr [97]) [98; 99] tt (Ret None) tt); [apply p_or_first; [apply p_char|discriminate]|apply p_no_char; discriminate]. }
  apply A in P1. destruct (peg_unique rules _ _ _ _ _ _ _ P1 P2) as [X _]. discriminate X.
Qed.
Print Assumptions C145_factor_right_refuted.
(** Choices that may both match may not be swapped. *)
Theorem C145_swap_refuted : forall rules : nat -> gram unit, ~ agrees rules (GOr (GChar 97) (GString [97; 98])) (GOr (GString [97; 98]) (GChar 97)).
Proof.
  intros rules A. assert (P1 : peg rules (GOr (GChar 97) (GString [97; 98])) [97; 98] tt (Ret (Some (VStr [97], [98]))) tt) by (apply p_or_first; [apply p_char|discriminate]).
  assert (P2 : peg rules (GOr (GString [97; 98]) (GChar 97)) [97; 98] tt (Ret (Some (VStr [97; 98], []))) tt) by (apply p_or_first; [exact (p_string rules [97; 98] [] tt)|discriminate]).
  apply A in P1. destruct (peg_unique rules _ _ _ _ _ _ _ P1 P2) as [X _]. discriminate X.
Qed.
Print Assumptions C145_swap_refuted.
(** With effects not even a common beginning: its functions are called once more when the first
    choice fails behind it. *)
Definition counted : gram nat := GMap (fun v n => (Ret v, S n)) (GChar 97).
Theorem C145_factor_effects_refuted : forall rules, ~ agrees rules (GOr (GAnd Both counted (GChar 98)) (GAnd Both counted (GChar 99))) (GAnd Both counted (GOr (GChar 98) (GChar 99))).
Proof.
  intros rules A. assert (C : forall n s, peg rules counted (97 :: s) n (Ret (Some (VStr [97], s))) (S n)) by (intros n s; eapply p_map; [apply p_char|reflexivity]).
  assert (P1 : peg rules (GOr (GAnd Both counted (GChar 98)) (GAnd Both counted (GChar 99))) [97; 99] 0 (Ret (Some (VPair (VStr [97]) (VStr [99]), []))) 2).
  { eapply p_or_second.
    - apply (p_and rules Both _ _ _ _ (VStr [97]) [99] 1 (Ret None) 1); [apply C|apply p_no_char; discriminate].
    - apply (p_and rules Both _ _ _ _ (VStr [97]) [99] 2 (Ret (Some (VStr [99], []))) 2); [apply C|apply p_char]. }
  assert (P2 : peg rules (GAnd Both counted (GOr (GChar 98) (GChar 99))) [97; 99] 0 (Ret (Some (VPair (VStr [97]) (VStr [99]), []))) 1).
  { apply (p_and rules Both _ _ _ _ (VStr [97]) [99] 1 (Ret (Some (VStr [99], []))) 1); [apply C|]. eapply p_or_second; [apply p_no_char; discriminate|apply p_char]. }
  apply A in P1. destruct (peg_unique rules _ _ _ _ _ _ _ P1 P2) as [_ X]. discriminate X.
Qed.
Print Assumptions C145_factor_effects_refuted.

(** "let" name | "let" "*": the keyword is taken out; and the two choices may be swapped. *)
Example ex_factor : forall rules : nat -> gram unit, (forall n, plain (rules n)) ->
  agrees rules (GOr (GAnd Second (GString [108; 101; 116]) (GMany1 (GAnyOf 97 [98]))) (GAnd Second (GString [108; 101; 116]) (GChar 42)))
    (GAnd Second (GString [108; 101; 116]) (GOr (GMany1 (GAnyOf 97 [98])) (GChar 42))).
Proof. intros rules PL. apply C145_factor. apply C145_quiet; [exact PL|apply pl_string]. Qed.
Example ex_swap : forall rules : nat -> gram unit, (forall n, plain (rules n)) -> agrees rules (GOr (GChar 97) (GChar 98)) (GOr (GChar 98) (GChar 97)).
Proof.
  intros rules PL. apply C145_swap; [apply C145_quiet; [exact PL|apply pl_char]..|]. intros [|d s] w; [left; apply p_no_char; exact I|]. destruct (Nat.eq_dec d 97) as [->|D]; [right; apply p_no_char; discriminate|left; apply p_no_char; exact D].
Qed.
