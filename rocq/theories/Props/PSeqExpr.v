(** C50 again: iterating the result of a seq computation expression, with the generators
    that it is made of. *)
From Coq Require Import List Arith Lia.
From Verif.Model Require Import Base Gen OptionResult Builder ChainDepth SeqExpr.
From Verif.Spec Require Import BuilderSpec.
From Verif.Proofs Require Import BuilderFacts2 SeqExprFacts.
Import ListNotations.
Local Open Scope nat_scope.

(** The number of frames of C50_iteration_partial is what the generators need, exactly. *)
Theorem C50_frames_partial : forall W A (x : sq A) d (w : W), exists n, forall fuel, n <= fuel ->
  d_to_list fuel d (d_sq x) w = (if Nat.leb (sq_frames x) d then Ret (sq_elems x) else Raise RecursionError, w).
Proof. exact @C50_frames_pf. Qed.
Example C50_frames_example :
  let x := SqConcat (SqConcat (SqSeq [PyVal 1]) (SqList [PyVal 2])) (SqList [PyVal 3]) in
  sq_frames x = 5 /\ d_to_list 20 5 (d_sq x) tt = (Ret [PyVal 1; PyVal 2; PyVal 3], tt) /\ d_to_list 20 4 (d_sq x) tt = (Raise RecursionError, tt).
Proof. repeat split. Qed.
(** The concatenations inside of the result are asked (N + 4) (N - 1) / 2 times in all when
    its N elements are iterated. *)
Theorem C50_work_partial : forall W A St (resume : St -> pyopt A -> W -> node (pyopt A) (sq A) St * W) s w vs v w1,
  body_gives resume s PyNone w vs (EReturn v) w1 ->
  exists x m j, settles (fun fuel => call_gen seq_builder resume fuel s w) (Ret x, w1) /\
    let xs := vs ++ match v with PyNone => [] | PyVal _ => [v] end in
    2 * m = (List.length xs + 4) * (List.length xs - 1) /\
    forall fuel, j <= fuel -> forall w2 : W, exists w3, to_list fuel (work_sq x) (0, w2) = (Ret xs, (m, w3)).
Proof. exact @C50_work_pf. Qed.
Example C50_work_example : to_list 40 (work_sq (SqConcat (SqConcat (SqSeq [PyVal 1]) (SqList [PyVal 2])) (SqList [PyVal 3]))) (0, tt)
  = (Ret [PyVal 1; PyVal 2; PyVal 3], (7, tt)).
Proof. reflexivity. Qed.
(** False: the work is not proportional to the number of elements. *)
Theorem C50_work_refuted : forall k, exists n x m j,
  body_gives (countdown (Mo := sq nat)) n PyNone tt (down n) (EReturn PyNone) tt /\
  settles (fun fuel => call_gen seq_builder countdown fuel n tt) (Ret x, tt) /\
  (forall fuel, j <= fuel -> exists w, to_list fuel (work_sq x) (0, tt) = (Ret (down n), (m, w))) /\ k * List.length (down n) < m.
Proof.
  intros k. exists (2 * k + 2). pose proof (countdown_gives (sq nat) unit (2 * k + 2) PyNone tt) as B.
  destruct (C50_work_partial _ _ _ _ _ _ _ _ _ B) as (x & m & j & S & Q & D). cbn zeta in *. rewrite app_nil_r in *.
  exists x, m, j. rewrite down_length in *. split; [exact B|]. split; [exact S|]. split; [intros fuel L; now apply D|].
  replace (2 * k + 2 - 1) with (2 * k + 1) in Q by lia. nia.
Qed.
Print Assumptions C50_frames_partial.
Print Assumptions C50_work_partial.
Print Assumptions C50_work_refuted.
