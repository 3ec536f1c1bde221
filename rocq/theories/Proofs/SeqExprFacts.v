(** Lemmas for C50: iterating the result of a seq computation expression. *)
From Coq Require Import List Arith Lia Bool.
From Verif.Model Require Import Base Gen Seq OptionResult Builder MapDepth ChainDepth ChainWork SeqExpr.
From Verif.Spec Require Import BuilderSpec.
From Verif.Proofs Require Import BuilderFacts BuilderFacts2 ChainWorkFacts.
Import ListNotations.
Local Open Scope py_scope.
Local Open Scope nat_scope.

(** [g], asked with [d] frames left, hands out [xs] and then ends or overflows *)
Inductive drun {W A} (d : nat) (w : W) : dgen W A -> list A -> bool -> Prop :=
| dr_stop : forall g, dstep d g w = (Ret Stop, w) -> drun d w g [] true
| dr_over : forall g, dstep d g w = (Raise RecursionError, w) -> drun d w g [] false
| dr_skip : forall g g1 xs b, dstep d g w = (Ret (Skip g1), w) -> drun d w g1 xs b -> drun d w g xs b
| dr_yield : forall g g1 x xs b, dstep d g w = (Ret (Yield x g1), w) -> drun d w g1 xs b -> drun d w g (x :: xs) b.

Section Depth.
  Context {W A : Type}.
  Implicit Types g : dgen W A.
  Ltac one H := unfold dstep at 1; cbn; unfold bind, in_generator; rewrite H; reflexivity.
  Lemma drun_list : forall d (w : W) (xs : list A), drun d w (d_list xs) xs true.
  Proof. induction xs as [|x xs IH]; [apply dr_stop; reflexivity|]. eapply dr_yield; [reflexivity|exact IH]. Qed.
  Lemma drun_wrap : forall d (w : W) g xs b, drun d w g xs b -> drun (S d) w (d_wrap g) xs b.
  Proof. induction 1 as [g H|g H|g g1 xs b H _ IH|g g1 x xs b H _ IH]; [apply dr_stop|apply dr_over|eapply dr_skip; [|exact IH]|eapply dr_yield; [|exact IH]]; one H. Qed.
  Lemma drun_last : forall d (w : W) g xs its ys b, drun d w g xs true -> drun (S d) w (d_concat_loop None its) ys b -> drun (S d) w (d_concat_loop (Some g) its) (xs ++ ys) b.
  Proof.
    intros d w g xs its ys b R L. remember true as t eqn:T. induction R as [g H|g H|g g1 xs b1 H _ IH|g g1 x xs b1 H _ IH]; try discriminate.
    - eapply dr_skip; [one H|exact L].
    - eapply dr_skip; [one H|exact (IH T)].
    - cbn. eapply dr_yield; [one H|exact (IH T)].
  Qed.
  Lemma drun_broken : forall d (w : W) g xs its, drun d w g xs false -> drun (S d) w (d_concat_loop (Some g) its) xs false.
  Proof.
    intros d w g xs its R. remember false as t eqn:T. induction R as [g H|g H|g g1 xs b1 H _ IH|g g1 x xs b1 H _ IH]; try discriminate.
    - apply dr_over; one H.
    - eapply dr_skip; [one H|exact (IH T)].
    - eapply dr_yield; [one H|exact (IH T)].
  Qed.
  Lemma drun_next : forall d (w : W) (it : diterable W A) its g xs b, it w = (Ret g, w) -> drun (S d) w (d_concat_loop (Some g) its) xs b -> drun (S d) w (d_concat_loop None (it :: its)) xs b.
  Proof. intros d w it its g xs b H R. eapply dr_skip; [one H|exact R]. Qed.
End Depth.

Lemma drun_sq : forall W A (w : W) (x : sq A), exists g, d_sq x w = (Ret g, w) /\
  forall d, (sq_frames x <= d -> drun d w g (sq_elems x) true) /\ (d < sq_frames x -> exists xs, drun d w g xs false).
Proof.
  intros W A w. induction x as [vs|vs|x (g & Qg & IHx) y (h & Qh & IHy)].
  - eexists. split; [reflexivity|]. intros d. cbn [sq_frames sq_elems]. split; intros L; destruct d as [|d]; try lia.
    + apply drun_wrap, drun_list.
    + exists []. apply dr_over. reflexivity.
  - eexists. split; [reflexivity|]. intros d. cbn [sq_frames sq_elems]. split; intros L; [|lia]. apply drun_list.
  - eexists. split; [reflexivity|]. intros d. cbn [sq_frames sq_elems].
    destruct d as [|[|d]].
    { split; intros L; [lia|]. exists []. apply dr_over. reflexivity. }
    { split; intros L; [lia|]. exists []. apply dr_over. reflexivity. }
    destruct (IHx d) as [X1 X2], (IHy d) as [Y1 Y2]. split; intros L.
    + apply drun_wrap. apply (drun_next _ _ _ _ _ _ _ Qg). apply drun_last; [apply X1; lia|]. apply (drun_next _ _ _ _ _ _ _ Qh).
      rewrite <- (app_nil_r (sq_elems y)). apply drun_last; [apply Y1; lia|]. apply dr_stop. reflexivity.
    + destruct (le_lt_dec (sq_frames x) d) as [Lx|Lx].
      * destruct Y2 as [ys R]; [lia|]. exists (sq_elems x ++ ys). apply drun_wrap. apply (drun_next _ _ _ _ _ _ _ Qg).
        apply drun_last; [apply X1; lia|]. apply (drun_next _ _ _ _ _ _ _ Qh). apply drun_broken, R.
      * destruct X2 as [xs R]; [lia|]. exists xs. apply drun_wrap. apply (drun_next _ _ _ _ _ _ _ Qg). apply drun_broken, R.
Qed.
Lemma drun_drain : forall W A d (w : W) (g : dgen W A) xs b, drun d w g xs b -> exists n, forall fuel, n <= fuel -> forall acc,
  d_drain fuel d g acc w = (if b then Ret (acc ++ xs) else Raise RecursionError, w).
Proof.
  induction 1 as [g H|g H|g g1 xs b H _ [n IH]|g g1 x xs b H _ [n IH]]; [exists 1|exists 1|exists (S n)|exists (S n)]; intros [|fuel] L acc; try lia;
    cbn [d_drain]; unfold bind; rewrite H.
  - now rewrite app_nil_r.
  - reflexivity.
  - apply IH. lia.
  - rewrite IH by lia. now rewrite <- app_assoc.
Qed.
Lemma C50_frames_pf : forall W A (x : sq A) d (w : W), exists n, forall fuel, n <= fuel -> d_to_list fuel d (d_sq x) w = (sq_iterate d x, w).
Proof.
  intros W A x d w. destruct (drun_sq W A w x) as (g & Q & H). destruct (H d) as [H1 H2]. unfold sq_iterate. destruct (Nat.leb_spec (sq_frames x) d) as [L|L].
  - destruct (drun_drain _ _ _ _ _ _ _ (H1 L)) as [n R]. exists n. intros fuel F. unfold d_to_list, bind at 1. rewrite Q, R by exact F. reflexivity.
  - destruct (H2 L) as [xs B]. destruct (drun_drain _ _ _ _ _ _ _ B) as [n R]. exists n. intros fuel F. unfold d_to_list, bind at 1. rewrite Q, R by exact F. reflexivity.
Qed.

(** ** work *)
Fixpoint sq_work {A} (x : sq A) : nat :=
  match x with SqSeq _ | SqList _ => 0 | SqConcat x y => sq_work x + sq_work y + List.length (sq_elems x ++ sq_elems y) + 1 end.
Lemma work_opens : forall W A (x : sq A), opens (W := W) (work_sq x) (sq_elems x) (sq_work x).
Proof.
  intros W A. induction x as [vs|vs|x (g & Hg & Eg) y (h & Hh & Eh)]; try (apply now_opens, list_emits).
  cbn [work_sq sq_elems sq_work]. apply now_opens, counted_emits.
  apply (em_skip _ (concat_loop (Some g) [work_sq y]) _ 0 (sq_work x + sq_work y)).
  { intros c w. destruct (Hg c w) as [w1 Q]. exists w1. cbn. unfold bind, in_generator. rewrite Q. reflexivity. }
  apply concat_last; [exact Eg|]. apply (em_skip _ (concat_loop (Some h) []) _ 0 (sq_work y)).
  { intros c w. destruct (Hh c w) as [w1 Q]. exists w1. cbn. unfold bind, in_generator. rewrite Q. reflexivity. }
  rewrite <- (app_nil_r (sq_elems y)), <- (Nat.add_0_r (sq_work y)). apply concat_last; [exact Eh|]. apply em_stop. intros c w. exists w. reflexivity.
Qed.
Lemma work_list : forall W A (x : sq A), exists k, forall fuel, k <= fuel -> forall w : W, exists w1,
  to_list fuel (work_sq x) (0, w) = (Ret (sq_elems x), (sq_work x, w1)).
Proof.
  intros W A x. destruct (work_opens W A x) as (g & H & E). destruct (drain_emits _ g _ _ E) as [k D]. exists k. intros fuel F w.
  destruct (H 0 w) as [w1 Q]. destruct (D fuel F [] 0 w1) as [w2 Q2]. exists w2. unfold to_list. unfold bind at 1. rewrite Q. unfold bind at 1. rewrite Q2. cbn. now rewrite Nat.add_0_r.
Qed.
Lemma gather_work : forall A (vs : list (pyopt A)) r n, n = List.length (sq_elems r) ->
  2 * sq_work (gather seq_builder (fun m : sq A => SqList (sq_elems m ++ [])) r vs) + n * (n + 3) = 2 * sq_work r + (n + List.length vs) * (n + List.length vs + 3).
Proof.
  intros A. induction vs as [|v vs IH]; intros r n N; [cbn [gather fold_left List.length]; unfold gather; cbn [fold_left]; rewrite !Nat.add_0_r; reflexivity|].
  change (gather seq_builder (fun m : sq A => SqList (sq_elems m ++ [])) r (v :: vs)) with (gather seq_builder (fun m : sq A => SqList (sq_elems m ++ [])) (SqConcat r (SqList [v])) vs).
  specialize (IH (SqConcat r (SqList [v])) (S n)). cbn [sq_elems sq_work] in IH. rewrite app_length in IH. cbn [List.length] in *.
  specialize (IH ltac:(lia)). rewrite <- N in IH. nia.
Qed.
Lemma C50_work_pf : forall W A St (resume : St -> pyopt A -> W -> node (pyopt A) (sq A) St * W) s w vs v w1,
  body_gives resume s PyNone w vs (EReturn v) w1 ->
  exists x m j, settles (fun fuel => call_gen seq_builder resume fuel s w) (Ret x, w1) /\
    let xs := vs ++ match v with PyNone => [] | PyVal _ => [v] end in
    2 * m = (List.length xs + 4) * (List.length xs - 1) /\
    forall fuel, j <= fuel -> forall w2 : W, exists w3, to_list fuel (work_sq x) (0, w2) = (Ret xs, (m, w3)).
Proof.
  intros W A St resume s w vs v w1 B. pose proof (seq_complete _ _ _ _ _ _ B) as C.
  assert (Wh : exists x, whole seq_builder (fun m : sq A => SqList (sq_elems m ++ [])) vs (EReturn v) = Ret x /\
    sq_elems x = vs ++ match v with PyNone => [] | PyVal _ => [v] end /\ 2 * sq_work x = (List.length (sq_elems x) + 4) * (List.length (sq_elems x) - 1)).
  { destruct vs as [|u vs]; destruct v as [|v]; cbn -[gather]; eexists; (split; [reflexivity|]); cbn [sq_elems sq_work app List.length]; try (split; [reflexivity|lia]); rewrite sq_gather.
    - split; [cbn; now rewrite app_nil_r|]. pose proof (gather_work A vs (SqSeq [u]) 1 eq_refl). cbn [sq_elems sq_work app List.length] in *. rewrite Nat.sub_succ, Nat.sub_0_r. nia.
    - split; [cbn; reflexivity|]. pose proof (gather_work A vs (SqSeq [u]) 1 eq_refl). rewrite ?app_length. cbn [sq_elems sq_work app List.length] in *. match goal with |- context [?a - 1] => replace (a - 1) with (List.length vs + 1) by lia end. nia. }
  destruct Wh as (x & Ex & El & Wx). rewrite Ex in C. destruct (work_list W A x) as [j D]. exists x, (sq_work x), j. split; [exact C|]. cbn zeta. rewrite <- El. split; [exact Wx|exact D].
Qed.
