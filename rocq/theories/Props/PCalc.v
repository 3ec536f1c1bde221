(** C146: a calculator made of parser combinators keeps precedence and associativity. *)
From Coq Require Import List Arith ZArith Lia.
From Verif.Model Require Import Base OptionResult Parser.
From Verif.Proofs Require Import PegFacts PegFacts2 CalcFacts.
From Verif.Spec Require Import PegSpec CalcSpec.
From Verif.Props Require Import PPeg.
Import ListNotations.
Local Open Scope list_scope.

(** An expression, however deep and with however many brackets, gives its value, and the parser
    stands behind it. *)
Theorem C146_computes : forall W e t, text 0 e t -> forall rest (w : W), stops 0 rest -> exists n, forall limit depth (whole : str) pos, n <= limit -> n <= depth -> (0 <= pos)%Z -> rest_of (whole, pos) = t ++ rest ->
  exists i, compile calculator limit depth (GCall 0) (whole, pos) w = (Ret (Ok (VInt (eval e), i)), w) /\ fst i = whole /\ rest_of i = rest.
Proof.
  intros W e t T rest w S. pose proof (proj1 (proj2 (complete_calc (W := W) 0 e t T)) rest w S) as P. destruct (C143_complete _ _ _ _ _ _ _ P) as [n H].
  exists n. intros limit depth whole pos L1 L2 L3 E. destruct (H limit depth whole pos L1 L2 L3 E) as (x & -> & SM). inversion SM; subst. eexists. split; [reflexivity|]. split; reflexivity.
Qed.
Print Assumptions C146_computes.

(** Whatever the parser answers on any text is the value of an expression that stands there, up to
    where the parser stopped. *)
Theorem C146_sound : forall W limit depth (whole : str) pos (w : W) v i w1, (0 <= pos)%Z -> compile calculator limit depth (GCall 0) (whole, pos) w = (Ret (Ok (v, i)), w1) ->
  exists e t, text 0 e t /\ v = VInt (eval e) /\ fst i = whole /\ rest_of (whole, pos) = t ++ rest_of i /\ w1 = w.
Proof.
  intros W limit depth whole pos w v i w1 L E. destruct (C143_sound _ _ _ _ _ _ _ _ _ _ L E) as [X|(r & P & S)]; [discriminate|]. inversion S; subst. destruct (sound_calc _ _ _ _ _ _ (le_n _) P) as (e & t & T & EQ & EV). exists e, t. repeat split; try assumption. exact (proj1 (calc_calm _ _ _ _ _ P)).
Qed.
Print Assumptions C146_sound.

(** Every text is answered when there is room: a value, or an Error if no expression begins there. *)
Theorem C146_total : forall W s (w : W), exists n, forall limit depth (whole : str) pos, n <= limit -> n <= depth -> (0 <= pos)%Z -> rest_of (whole, pos) = s ->
  exists x, compile calculator limit depth (GCall 0) (whole, pos) w = (Ret x, w) /\ match x with Ok _ => True | Err _ => forall e t rest, text 0 e t -> stops 0 rest -> s <> t ++ rest end.
Proof.
  intros W s w. destruct (C143_total W calculator (fun n => 2 - n) calc_wf None (GCall 0) ltac:(apply wf_call; exact I) s w) as (n & r & w1 & P & H). exists n. intros limit depth whole pos L1 L2 L3 E. destruct (H limit depth whole pos L1 L2 L3 E) as (x & C & SM).
  destruct (calc_calm _ _ _ _ _ P) as [-> NR]. inversion SM; subst.
  - eexists. split; [exact C|exact I].
  - eexists. split; [exact C|]. intros e0 t rest T S EQ. rewrite EQ in P. pose proof (proj1 (proj2 (complete_calc (W := W) 0 e0 t T)) rest w S) as Q. destruct (C143_deterministic _ _ _ _ _ _ _ _ _ P Q) as [X _]. discriminate.
  - destruct (NR _ eq_refl).
Qed.
Print Assumptions C146_total.

(** No text has two values, whatever way it is taken apart. *)
Theorem C146_unambiguous : forall e1 e2 t, text 0 e1 t -> text 0 e2 t -> eval e1 = eval e2.
Proof.
  intros e1 e2 t T1 T2. pose proof (proj1 (proj2 (complete_calc (W := unit) 0 e1 t T1)) [] tt I) as P1. pose proof (proj1 (proj2 (complete_calc (W := unit) 0 e2 t T2)) [] tt I) as P2. destruct (C143_deterministic _ _ _ _ _ _ _ _ _ P1 P2) as [E _]. injection E as E. exact E.
Qed.
Print Assumptions C146_unambiguous.

(** "10-2-3*(4-2)" is 2: differences from the left, products first. *)
Definition ex_text : str := [49; 48; 45; 50; 45; 51; 42; 40; 52; 45; 50; 41].
Definition ex_expr : expr := Op 45 (Op 45 (Num [49; 48]) (Num [50])) (Op 42 (Num [51]) (Op 45 (Num [52]) (Num [50]))).
Example ex_is_text : text 0 ex_expr ex_text.
Proof.
  assert (N : forall ds, ds <> [] -> Forall digit ds -> text 1 (Num ds) ds) by (intros; apply t_up; [lia|]; apply t_num; assumption).
  apply (t_op 0 45 _ _ [49; 48; 45; 50] [51; 42; 40; 52; 45; 50; 41]); [lia|right; left; reflexivity| |].
  - apply (t_op 0 45 _ _ [49; 48] [50]); [lia|right; left; reflexivity|apply t_up; [lia|]|]; apply N; try discriminate; repeat constructor; unfold digit; lia.
  - apply (t_op 1 42 _ _ [51] [40; 52; 45; 50; 41]); [lia|left; reflexivity| |].
    + apply N; [discriminate|repeat constructor; unfold digit; lia].
    + apply (t_brackets _ [52; 45; 50]). apply (t_op 0 45 _ _ [52] [50]); [lia|right; left; reflexivity|apply t_up; [lia|]|]; apply N; try discriminate; repeat constructor; unfold digit; lia.
Qed.
Example ex_value : eval ex_expr = 2%Z /\ compile calculator 9 12 (GCall 0) (ex_text, 0%Z) tt = (Ret (Ok (VInt 2, (ex_text, 12%Z))), tt).
Proof. split; reflexivity. Qed.
(** "2*3)" leaves the bracket; ")" is an Error. *)
Example ex_left : compile calculator 9 12 (GCall 0) ([50; 42; 51; 41], 0%Z) tt = (Ret (Ok (VInt 6, ([50; 42; 51; 41], 3%Z))), tt) /\ stops 0 [41].
Proof. split; [reflexivity|]. split; [unfold digit; lia|]. intros [|[|m]] _ M SM; unfold sign in SM; cbn in SM; lia. Qed.
Example ex_error : exists e, compile calculator 9 12 (GCall 0) ([41], 0%Z) tt = (Ret (Err e), tt).
Proof. eexists. reflexivity. Qed.
