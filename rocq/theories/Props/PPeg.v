(** C143: parsers made of the combinators are parsing expression grammars. *)
From Coq Require Import List Bool ZArith Lia.
From Verif.Model Require Import Base OptionResult Parser.
From Verif.Proofs Require Import ParserFacts PegFacts PegFacts2.
From Verif.Spec Require Import PegSpec.
Import ListNotations.
Local Open Scope list_scope.

(** Whatever the user builds with the combinators, with functions that have effects and may
    raise, and with rules that call themselves: what the parser returns, where it stands then,
    and the effects in their order are what the grammar says, or the interpreter's recursion
    limit was met. *)
Theorem C143_sound : forall W (rules : nat -> gram W) limit depth g (text : str) pos (w : W) x w1, (0 <= pos)%Z -> compile rules limit depth g (text, pos) w = (x, w1) ->
  x = Raise RecursionError \/ exists r, peg rules g (rest_of (text, pos)) w r w1 /\ same text x r.
Proof. intros W rules limit depth g text pos w x w1 L E. exact (sound_peg rules limit depth g text pos w x w1 L E). Qed.
Print Assumptions C143_sound.

(** What the grammar says is done as soon as the limits leave room for it; no larger limit
    changes anything. *)
Theorem C143_complete : forall W (rules : nat -> gram W) g s (w : W) r w1, peg rules g s w r w1 ->
  exists n, forall limit depth (text : str) pos, n <= limit -> n <= depth -> (0 <= pos)%Z -> rest_of (text, pos) = s ->
    exists x, compile rules limit depth g (text, pos) w = (x, w1) /\ same text x r.
Proof. intros W rules g s w r w1 P. destruct (proj1 (complete_peg rules) _ _ _ _ _ P) as [n H]. exists n. intros. apply H; assumption. Qed.
Print Assumptions C143_complete.

(** A grammar says one thing about a text: no ambiguity. *)
Theorem C143_deterministic : forall W (rules : nat -> gram W) g s (w : W) r1 w1 r2 w2, peg rules g s w r1 w1 -> peg rules g s w r2 w2 -> r1 = r2 /\ w1 = w2.
Proof. intros W rules. apply peg_unique. Qed.
Print Assumptions C143_deterministic.

(** The limits decide only whether there is an answer, not which. *)
Theorem C143_limits : forall W (rules : nat -> gram W) g (text : str) pos (w : W) limit1 depth1 x1 w1 limit2 depth2 x2 w2, (0 <= pos)%Z ->
  compile rules limit1 depth1 g (text, pos) w = (x1, w1) -> compile rules limit2 depth2 g (text, pos) w = (x2, w2) -> x1 <> Raise RecursionError -> x2 <> Raise RecursionError ->
  w1 = w2 /\ exists r, same text x1 r /\ same text x2 r.
Proof.
  intros W rules g text pos w limit1 depth1 x1 w1 limit2 depth2 x2 w2 L E1 E2 N1 N2. destruct (C143_sound _ _ _ _ _ _ _ _ _ _ L E1) as [X|(r1 & P1 & S1)]; [destruct (N1 X)|]. destruct (C143_sound _ _ _ _ _ _ _ _ _ _ L E2) as [X|(r2 & P2 & S2)]; [destruct (N2 X)|].
  destruct (C143_deterministic _ _ _ _ _ _ _ _ _ P1 P2) as [<- <-]. split; [reflexivity|]. exists r1. split; assumption.
Qed.
Print Assumptions C143_limits.

(** So two grammars that say the same may be put for one another. *)
Theorem C143_replace : forall W (rules : nat -> gram W) g1 g2, (forall s (w : W) r w1, peg rules g1 s w r w1 <-> peg rules g2 s w r w1) ->
  forall (text : str) pos (w : W) limit depth x w1, (0 <= pos)%Z -> compile rules limit depth g1 (text, pos) w = (x, w1) -> x <> Raise RecursionError ->
  exists n r, same text x r /\ forall limit2 depth2, n <= limit2 -> n <= depth2 -> exists x2, compile rules limit2 depth2 g2 (text, pos) w = (x2, w1) /\ same text x2 r.
Proof.
  intros W rules g1 g2 EQ text pos w limit depth x w1 L E N. destruct (C143_sound _ _ _ _ _ _ _ _ _ _ L E) as [X|(r & P & S)]; [destruct (N X)|]. apply EQ in P. destruct (C143_complete _ _ _ _ _ _ _ P) as [n H].
  exists n, r. split; [exact S|]. intros limit2 depth2 L1 L2. apply H; auto.
Qed.
Print Assumptions C143_replace.

(** No parser reads backwards or skips: it stands at an end of the text it was given. *)
Theorem C143_forward : forall W (rules : nat -> gram W) limit depth g (text : str) pos (w : W) v i w1, (0 <= pos)%Z -> compile rules limit depth g (text, pos) w = (Ret (Ok (v, i)), w1) ->
  fst i = text /\ exists read, rest_of (text, pos) = read ++ rest_of i.
Proof.
  intros W rules limit depth g text pos w v i w1 L E. destruct (C143_sound _ _ _ _ _ _ _ _ _ _ L E) as [X|(r & P & S)]; [discriminate|]. inversion S; subst. split; [reflexivity|]. exact (proj1 (peg_suffix rules) _ _ _ _ _ P _ _ eq_refl).
Qed.
Print Assumptions C143_forward.

(** A well-formed grammar (what is repeated reads something, and no rule comes back to itself
    before something is read) has an answer for every text, and the parser gives it when there is
    room. *)
Theorem C143_total : forall W (rules : nat -> gram W) (rank : nat -> nat), (forall n, well_formed rules rank (Some (rank n)) (rules n)) -> forall l g, well_formed rules rank l g -> forall s (w : W),
  exists n r w1, peg rules g s w r w1 /\ forall limit depth (text : str) pos, n <= limit -> n <= depth -> (0 <= pos)%Z -> rest_of (text, pos) = s -> exists x, compile rules limit depth g (text, pos) w = (x, w1) /\ same text x r.
Proof.
  intros W rules rank R l g G s w. destruct (all_total rules rank R (List.length s) g l G s w (le_n _)) as (r & w1 & P). destruct (C143_complete _ _ _ _ _ _ _ P) as [n H]. exists n, r, w1. split; [exact P|exact H].
Qed.
Print Assumptions C143_total.

(** choice is the choice of the first, then the second, and so on. *)
Theorem C143_choice : forall W (rules : nat -> gram W) limit depth g gs, choice (List.map (compile rules limit depth) (g :: gs)) = Ret (compile rules limit depth (fold_left GOr gs g)).
Proof.
  intros W rules limit depth g gs. cbn [List.map]. rewrite choice_eq. f_equal. revert g. induction gs as [|h gs IH]; intros g; [reflexivity|]. cbn [List.map fold_left]. rewrite <- IH. f_equal. symmetry. exact (compile_eq rules limit depth (GOr g h)).
Qed.
Print Assumptions C143_choice.

(** Left recursion: a rule that calls itself before it reads anything meets the recursion limit on
    every text, however large the limit is and even if another choice would match. *)
Theorem C143_left_recursion : forall W (rules : nat -> gram W) n, starts_with rules n (rules n) -> forall g, starts_with rules n g ->
  forall limit depth (text : str) pos (w : W), compile rules limit depth g (text, pos) w = (Raise RecursionError, w).
Proof. intros W rules n R g G limit depth text pos w. exact (left_recursion rules n R limit depth g G text pos w). Qed.
Print Assumptions C143_left_recursion.
(** many of something that matches without reading meets it as well. *)
Theorem C143_idle_loop : forall W (rules : nat -> gram W) g s, (forall (w : W) r w1, peg rules g s w r w1 -> exists v, r = Ret (Some (v, s))) ->
  forall limit depth (text : str) pos w, (0 <= pos)%Z -> rest_of (text, pos) = s -> fst (compile rules limit depth (GMany g) (text, pos) w) = Raise RecursionError.
Proof. intros W rules. apply many_idle. Qed.
Print Assumptions C143_idle_loop.

(** Sums written with the sum on the left: [sum = sum '+' digit or digit], here with the digit 1. *)
Definition left_sum (n : nat) : gram unit := GOr (GAnd First (GCall 0) (GAnd Second (GChar 43) (GChar 49))) (GChar 49).
Theorem C143_answers_refuted : ~ (forall (rules : nat -> gram unit) g (text : str), exists limit depth, fst (compile rules limit depth g (text, 0%Z) tt) <> Raise RecursionError).
Proof.
  intros H. destruct (H left_sum (GCall 0) [49]) as (limit & depth & N). apply N. rewrite (C143_left_recursion unit left_sum 0); [reflexivity|apply sw_or; apply sw_and; apply sw_call|apply sw_call].
Qed.
Print Assumptions C143_answers_refuted.
(** Choice is ordered, and what was chosen is not taken back: [(a | ab) c] does not read "abc",
    [(ab | a) c] does. *)
Definition short_first : gram unit := GAnd Both (GOr (GChar 97) (GAnd First (GChar 97) (GChar 98))) (GChar 99).
Definition long_first : gram unit := GAnd Both (GOr (GAnd First (GChar 97) (GChar 98)) (GChar 97)) (GChar 99).
Theorem C143_choice_refuted : forall rules, peg rules short_first [97; 98; 99] tt (Ret None) tt /\ peg rules long_first [97; 98; 99] tt (Ret (Some (VPair (VStr [97]) (VStr [99]), []))) tt.
Proof.
  intros rules. split.
  - apply (p_and rules Both _ _ _ _ (VStr [97]) [98; 99] tt (Ret None) tt).
    + apply p_or_first; [apply p_char|discriminate].
    + apply p_no_char. discriminate.
  - apply (p_and rules Both _ _ _ _ (VStr [97]) [99] tt (Ret (Some (VStr [99], []))) tt).
    + apply p_or_first; [|discriminate]. apply (p_and rules First _ _ _ _ (VStr [97]) [98; 99] tt (Ret (Some (VStr [98], [99]))) tt); apply p_char.
    + apply p_char.
Qed.
Print Assumptions C143_choice_refuted.
Example ex_choice : exists e, compile left_sum 9 9 short_first ([97; 98; 99], 0%Z) tt = (Ret (Err e), tt).
Proof. eexists. reflexivity. Qed.

(** Brackets that match, a rule that calls itself: well-formed, so every text has an answer. *)
Definition brackets (n : nat) : gram unit := GMany (GBetween (GChar 40) (GChar 41) (GCall 0)).
Example ex_brackets_wf : forall n, well_formed brackets (fun _ => 0) (Some 0) (brackets n).
Proof.
  intros n. apply wf_many.
  - apply wf_between. apply wf_and; [|apply wf_char]. apply wf_and_eats; [apply wf_char|apply e_char|apply wf_call; exact I].
  - apply e_between. apply e_and_right. apply e_char.
Qed.
(** "(()())" *)
Example ex_brackets : compile brackets 9 9 (GCall 0) ([40; 40; 41; 40; 41; 41], 0%Z) tt = (Ret (Ok (VList [VList [VList []; VList []]], ([40; 40; 41; 40; 41; 41], 6%Z))), tt).
Proof. reflexivity. Qed.
(** "())": the last bracket is left. *)
Example ex_brackets_left : compile brackets 9 9 (GCall 0) ([40; 41; 41], 0%Z) tt = (Ret (Ok (VList [VList []], ([40; 41; 41], 2%Z))), tt).
Proof. reflexivity. Qed.
Example ex_brackets_peg : exists n r w1, peg brackets (GCall 0) [40; 40; 41] tt r w1 /\ forall limit depth (text : str) pos, n <= limit -> n <= depth -> (0 <= pos)%Z -> rest_of (text, pos) = [40; 40; 41] ->
  exists x, compile brackets limit depth (GCall 0) (text, pos) tt = (x, w1) /\ same text x r.
Proof. apply (C143_total unit brackets (fun _ => 0) ex_brackets_wf None). apply wf_call. exact I. Qed.
(** Words of letters a and b, separated by ", ", one of the words being spelled out. *)
Definition words (n : nat) : gram unit := GSepBy (GOr (GString [98; 98; 98]) (GMany1 (GAnyOf 97 [98]))) (GString [44; 32]).
Example ex_words_wf : forall n, well_formed words (fun _ => 0) (Some 0) (words n).
Proof.
  intros n. apply wf_sep. apply wf_and; [|apply wf_many].
  - apply wf_or; [apply wf_string|apply wf_many1; [apply wf_any|apply e_any]].
  - apply wf_and; [apply wf_string|apply wf_or; [apply wf_string|apply wf_many1; [apply wf_any|apply e_any]]].
  - apply e_and_left. apply e_string. discriminate.
Qed.
(** "ab, bbb, c": the last separator is left. *)
Example ex_words : compile words 9 9 (GCall 0) ([97; 98; 44; 32; 98; 98; 98; 44; 32; 99], 0%Z) tt =
  (Ret (Ok (VList [VList [VStr [97]; VStr [98]]; VStr [98; 98; 98]], ([97; 98; 44; 32; 98; 98; 98; 44; 32; 99], 7%Z))), tt).
Proof. reflexivity. Qed.
(** many (opt 'a') never ends. *)
Example ex_idle : fst (compile left_sum 50 50 (GMany (GOpt (GChar 97))) ([98], 0%Z) tt) = Raise RecursionError.
Proof. apply (C143_idle_loop unit left_sum (GOpt (GChar 97)) [98]); [|lia|reflexivity]. intros w r w1 P. inversion P as [| | | | | | | | | | | | | |g s w0 r0 w2 P1 N|g s w0 w2 P1| | | | | | | | |]; subst; [|eexists; reflexivity]. inversion P1; subst. destruct (N eq_refl). Qed.
