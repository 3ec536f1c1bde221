(** C141: a recursive grammar (integers and nested lists) made of the combinators reads what
    belongs to it and nothing else. *)
From Coq Require Import String List Bool ZArith Decimal Lia.
From Verif.Model Require Import Base OptionResult Parser.
From Verif.Spec Require Import ParserSpec GrammarSpec.
From Verif.Proofs Require Import ParserFacts ParserFacts2 GrammarFacts.
Import ListNotations.
Local Open Scope list_scope.

(** What it reads is a text of the tree it returns, it stands behind that text, and it has no
    effects. This holds for every text and however small the limits are. *)
Theorem C141_sound : forall W limit int_limit depth (text : str) pos (w w1 : W) r, (0 <= pos)%Z -> value limit int_limit depth (text, pos) w = (Ret r, w1) ->
  w1 = w /\ forall t i, r = Ok (t, i) -> exists s, says t s /\ i = (text, (pos + Z.of_nat (List.length s))%Z) /\ rest_of (text, pos) = s ++ rest_of i.
Proof. intros W limit int_limit depth text pos w w1 r L E. exact (sound_pf limit int_limit depth text pos w r w1 L E). Qed.
Print Assumptions C141_sound.
Theorem C141_call_sound : forall W limit int_limit depth (text : str) (w w1 : W) t, call (value limit int_limit depth) text w = (Ret (Ok t), w1) -> w1 = w /\ exists s rest, text = s ++ rest /\ says t s.
Proof.
  intros W limit int_limit depth text w w1 t E. unfold call, Base.bind, res_map in E. destruct (value limit int_limit depth (text, 0%Z) w) as [[r|x] w2] eqn:V; [|discriminate].
  destruct (sound_pf limit int_limit depth text 0%Z w r w2 (Z.le_refl 0) V) as [-> S]. destruct r as [[t1 i]|e]; [|discriminate]. cbn in E. injection E as <- <-. split; [reflexivity|].
  destruct (S _ _ eq_refl) as (s & A & _ & K). exists s, (rest_of i). split; [exact K|exact A].
Qed.
Print Assumptions C141_call_sound.

(** Every text of a tree is read, all of it, when the limits leave room for it; a number has to
    end before a character that is no digit. *)
Theorem C141_reads_partial : forall W limit int_limit depth t s rest (text : str) pos (w : W), says t s -> (0 <= pos)%Z -> rest_of (text, pos) = s ++ rest ->
  (forall z, t = Num z -> no_digit_next rest) -> List.length s <= limit -> List.length s <= int_limit -> nesting t < depth ->
  value limit int_limit depth (text, pos) w = (Ret (Ok (t, (text, (pos + Z.of_nat (List.length s))%Z))), w).
Proof. intros W limit int_limit depth t s rest text pos w A L E N. apply (proj1 (complete_pf limit int_limit) t s A depth rest text pos w L E). destruct t; [eapply N; reflexivity|exact I]. Qed.
Print Assumptions C141_reads_partial.
(** In particular what Python prints for the tree is read back. *)
Theorem C141_round_trip_partial : forall W limit int_limit depth t (w : W), List.length (show t) <= limit -> List.length (show t) <= int_limit -> nesting t < depth ->
  call (value limit int_limit depth) (show t) w = (Ret (Ok t), w).
Proof.
  intros W limit int_limit depth t w L1 L2 L3. unfold call, Base.bind. rewrite (C141_reads_partial W limit int_limit depth t (show t) [] (show t) 0%Z w (show_says t)); [reflexivity|lia|symmetry; apply app_nil_r|intros; exact I|exact L1|exact L2|exact L3].
Qed.
Print Assumptions C141_round_trip_partial.

(** And it decides: on a text not longer than the limits it always returns, a tree whose text
    begins there, or an error, and then no text of any tree begins there. *)
Theorem C141_decides_partial : forall W limit int_limit depth (text : str) pos (w : W), (0 <= pos)%Z -> List.length (rest_of (text, pos)) <= limit ->
  List.length (rest_of (text, pos)) <= int_limit -> List.length (rest_of (text, pos)) < depth ->
  (exists t s rest, value limit int_limit depth (text, pos) w = (Ret (Ok (t, (text, (pos + Z.of_nat (List.length s))%Z))), w) /\ says t s /\ rest_of (text, pos) = s ++ rest) \/
  (exists e, value limit int_limit depth (text, pos) w = (Ret (Err e), w) /\ forall t s rest, rest_of (text, pos) = s ++ rest -> ~ says t s).
Proof.
  intros W limit int_limit depth text pos w L L1 L2 L3. destruct (total_pf limit int_limit depth text pos w L L1 L2 L3) as [[[t i]|e] V].
  - left. destruct (sound_pf limit int_limit depth text pos _ _ _ L V) as [_ S]. destruct (S _ _ eq_refl) as (s & A & -> & K). exists t, s, (rest_of (text, (pos + Z.of_nat (List.length s))%Z)). split; [exact V|]. split; [exact A|exact K].
  - right. exists e. split; [exact V|]. exact (err_pf limit int_limit depth text pos w e w L L1 L2 L3 V).
Qed.
Print Assumptions C141_decides_partial.

(** So the printed forms of two trees are different texts. *)
Theorem C141_show_injective : forall t1 t2, show t1 = show t2 -> t1 = t2.
Proof.
  intros t1 t2 E. set (n := Nat.max (List.length (show t1)) (Nat.max (nesting t1) (nesting t2))). assert (L2 : List.length (show t2) <= n) by (rewrite <- E; lia).
  assert (X1 := C141_round_trip_partial unit n n (S n) t1 tt ltac:(lia) ltac:(lia) ltac:(lia)). assert (X2 := C141_round_trip_partial unit n n (S n) t2 tt L2 L2 ltac:(lia)).
  rewrite E in X1. rewrite X1 in X2. injection X2 as ->. reflexivity.
Qed.
Print Assumptions C141_show_injective.

Definition some_tree : tree := Lst [Num 1; Lst [Num (-2); Lst []]; Num 30].
Example C141_show_case : show some_tree = lit "[1, [-2, []], 30]".
Proof. reflexivity. Qed.
Example C141_case : call (value 50 50 4) (lit "[1, [-2, []], 30]") tt = (Ret (Ok some_tree), tt) /\ call (value 50 50 4) (lit "[001,[-2,   []],30]") tt = (Ret (Ok some_tree), tt) /\
  nesting some_tree = 3 /\ List.length (show some_tree) = 17.
Proof. repeat split; vm_compute; reflexivity. Qed.
Example C141_decides_case : (exists e, call (value 50 50 10) (lit "[1,[2]") tt = (Ret (Err e), tt)) /\ (exists e, call (value 50 50 10) (lit "[1 ,2]") tt = (Ret (Err e), tt)) /\
  (exists e, call (value 50 50 10) (lit "[,]") tt = (Ret (Err e), tt)).
Proof. repeat split; eexists; vm_compute; reflexivity. Qed.

(** False that a text is refused when only its beginning is a tree. *)
Theorem C141_whole_refuted : exists (text : str) t, call (value 50 50 10) text tt = (Ret (Ok t), tt) /\ forall t1, ~ says t1 text.
Proof.
  exists (lit "[1]]"), (Lst [Num 1]). split; [vm_compute; reflexivity|]. intros t1 A.
  assert (X := C141_reads_partial unit 50 50 10 t1 (lit "[1]]") [] (lit "[1]]") 0%Z tt A (Z.le_refl 0) eq_refl (fun _ _ => I) ltac:(cbn; lia) ltac:(cbn; lia)). pose proof (nesting_length _ _ A) as N. cbn in N.
  specialize (X ltac:(lia)). vm_compute in X. discriminate.
Qed.
Print Assumptions C141_whole_refuted.
(** A trailing comma: refused inside of brackets; behind a number the text before it is read. *)
Example C141_trailing_case : (exists e, call (value 50 50 10) (lit "[1,2,]") tt = (Ret (Err e), tt)) /\ call (value 50 50 10) (lit "12,") tt = (Ret (Ok (Num 12)), tt).
Proof. split; [eexists|]; vm_compute; reflexivity. Qed.
(** False that every text of a tree is read: lists nested deeper than the stack, whatever its size. *)
Fixpoint nested (n : nat) : tree := match n with 0 => Num 0 | S n => Lst [nested n] end.
Lemma nested_show : forall n, exists rest, show (nested n) = repeat 91 n ++ rest.
Proof.
  induction n as [|n [rest IH]]; [eexists; reflexivity|]. exists (rest ++ [93]). cbn [nested show flat_map List.app repeat]. rewrite IH, <- app_assoc. reflexivity.
Qed.
Theorem C141_deep_refuted : forall W limit int_limit depth (w : W), exists t, says t (show t) /\ call (value limit int_limit depth) (show t) w = (Raise RecursionError, w).
Proof.
  intros W limit int_limit depth w. exists (nested depth). split; [apply show_says|]. destruct (nested_show depth) as [rest E]. unfold call, Base.bind.
  rewrite (deep_pf limit int_limit depth (show (nested depth)) 0%Z w rest (Z.le_refl 0) E). reflexivity.
Qed.
Print Assumptions C141_deep_refuted.
