From Coq Require Import List.
From Verif.Model Require Import Base PyList OptionResult Gen Seq Block OptIter.
From Verif.Spec Require Import ListM SeqSpec AsyncSeqSpec.
From Verif.Proofs Require Import SeqFacts SeqFacts2 SeqFacts3 SeqFacts5.
Import ListNotations.
Local Open Scope py_scope.

Lemma opt_iter_pf W A (o : option A) (w : W) :
  iterates (opt_iter o) w (match o with Some x => [x] | None => [] end) (match o with Some _ => Ret tt | None => Raise EffectErrorExn end) w.
Proof.
  left. eexists _, w. split; [reflexivity|]. destruct o as [x|].
  - eapply pr_yield; [reflexivity|]. apply pr_stop. reflexivity.
  - apply pr_raise. reflexivity.
Qed.
Lemma res_iter_pf W A E (o : result A E) (w : W) :
  iterates (res_iter o) w (match o with Ok x => [x] | Err _ => [] end) (match o with Ok _ => Ret tt | Err _ => Raise EffectErrorExn end) w.
Proof.
  left. eexists _, w. split; [reflexivity|]. destruct o as [x|].
  - eapply pr_yield; [reflexivity|]. apply pr_stop. reflexivity.
  - apply pr_raise. reflexivity.
Qed.
Lemma collects_options W A B (f : A -> M W (option B)) ms : forall w,
  let '(l, r, w1) := emit (List.map (fun m => do x <- m; do o <- f x; match o with Some y => ret [y] | None => raise EffectErrorExn end) ms) w in
  collects (fun x => do o <- f x; ret (opt_iter o)) ms w l r w1.
Proof.
  induction ms as [|m ms IH]; intros w; cbn [List.map emit]; [constructor|].
  unfold bind at 1. destruct (m w) as [[x|e] w1] eqn:E1; [|apply co_source; exact E1].
  unfold bind at 1. destruct (f x w1) as [[o|e] w2] eqn:E2.
  2:{ eapply co_callback; [exact E1|]. unfold bind. rewrite E2. reflexivity. }
  assert (E3 : (do o <- f x; ret (opt_iter (W := W) o)) w1 = (Ret (opt_iter o), w2)) by (unfold bind; rewrite E2; reflexivity).
  assert (P := opt_iter_pf W B o w2). destruct o as [y|]; cbn [ret raise].
  - assert (K := IH w2). destruct (emit _ w2) as [[zs r] w3]. exact (co_next _ _ _ _ _ _ _ _ _ _ _ _ _ E1 E3 P K).
  - exact (co_inner _ _ _ _ _ _ _ _ _ _ _ E1 E3 P).
Qed.
Lemma collect_options_seq_pf W A B (f : A -> M W (option B)) ms w : Forall no_stop ms ->
  let '(l, r, w1) := emit (List.map (fun m => do x <- m; do o <- f x; match o with Some y => ret [y] | None => raise EffectErrorExn end) ms) w in
  iterates (Seq.collect (fun x => do o <- f x; ret (opt_iter o)) (of_script ms)) w l (leaving r) w1.
Proof.
  intros N. assert (C := collects_options W A B f ms w). destruct (emit _ w) as [[l r] w1]. apply collect_sources_pf; assumption.
Qed.
Lemma concat_options_pf W A (os : list (option A)) (w : W) :
  let '(l, r, w1) := emit (List.map (fun o => match o with Some y => ret [y] | None => raise EffectErrorExn end) os) w in
  w1 = w /\ iterates (Seq.concat (List.map opt_iter os)) w l r w.
Proof.
  assert (K : let '(l, r, w1) := emit (List.map (fun o => match o with Some y => ret [y] | None => raise EffectErrorExn end) os) w in
    w1 = w /\ iterates_all (List.map (opt_iter (W := W)) os) w l r w).
  { induction os as [|o os IH]; cbn [List.map emit]; [split; [reflexivity|constructor]|].
    assert (P := opt_iter_pf W A o w). destruct o as [y|]; cbn [ret raise].
    - destruct (emit _ w) as [[zs r] w1]. destruct IH as [-> IH]. split; [reflexivity|]. exact (ia_next _ _ _ _ _ _ _ _ P IH).
    - split; [reflexivity|]. exact (ia_fail _ _ _ _ _ _ P). }
  destruct (emit _ w) as [[l r] w1]. destruct K as [E K]. split; [exact E|]. apply concat_iterates. exact K.
Qed.
Lemma collect_options_block_pf W A B (F : A -> option B) xs (w : W) :
  ((forall x, In x xs -> F x <> None) -> collect_options xs (fun x => ret (F x)) w = (Ret (flat_map (fun x => opt_to_list (F x)) xs), w))
  /\ ((exists x, In x xs /\ F x = None) -> collect_options xs (fun x => ret (F x)) w = (Raise EffectErrorExn, w)).
Proof.
  unfold collect_options.
  assert (G : forall acc,
    ((forall x, In x xs -> F x <> None) ->
      for_calls xs acc (fun x => ret (F x)) (fun acc _ o => do ys <- to_list 3 (opt_iter o); ret (acc ++ ys)) w = (Ret (acc ++ flat_map (fun x => opt_to_list (F x)) xs), w))
    /\ ((exists x, In x xs /\ F x = None) ->
      for_calls xs acc (fun x => ret (F x)) (fun acc _ o => do ys <- to_list 3 (opt_iter o); ret (acc ++ ys)) w = (Raise EffectErrorExn, w)));
  [|exact (G [])].
  induction xs as [|x xs IH]; intros acc; split.
  - intros _. cbn. rewrite app_nil_r. reflexivity.
  - intros (x & [] & _).
  - intros H. cbn [for_calls flat_map]. change (ret (F x) w) with (Ret (F x), w). cbv beta iota.
    assert (Hx := H x (or_introl eq_refl)). destruct (F x) as [y|]; [|destruct (Hx eq_refl)].
    unfold bind at 1. change ((do ys <- to_list 3 (opt_iter (Some y)); ret (acc ++ ys)) w) with (Ret (acc ++ [y]), w). cbv beta iota.
    destruct (IH (acc ++ [y])) as [I _]. rewrite I by (intros z Z; apply H; right; exact Z). rewrite <- app_assoc. reflexivity.
  - intros (z & Hz & E). cbn [for_calls]. change (ret (F x) w) with (Ret (F x), w). cbv beta iota.
    destruct (F x) as [y|] eqn:Ex; [|reflexivity].
    unfold bind at 1. change ((do ys <- to_list 3 (opt_iter (Some y)); ret (acc ++ ys)) w) with (Ret (acc ++ [y]), w). cbv beta iota.
    destruct (IH (acc ++ [y])) as [_ I]. apply I. destruct Hz as [->|Hz]; [congruence|]. exists z. auto.
Qed.
Lemma choose_options_pf W A B (F : A -> option B) xs (w : W) :
  Block.choose xs (fun x => ret (F x)) w = (Ret (flat_map (fun x => opt_to_list (F x)) xs), w).
Proof.
  unfold Block.choose, Block.collect.
  assert (G : forall acc, for_calls xs acc (fun x => do o <- ret (F x); ret (opt_to_list o)) (fun acc _ mapped => for_in mapped acc (fun acc y => ret (acc ++ [y]))) w
    = (Ret (acc ++ flat_map (fun x => opt_to_list (F x)) xs), w)); [|exact (G [])].
  induction xs as [|x xs IH]; intros acc; cbn [for_calls flat_map]; [cbn; rewrite app_nil_r; reflexivity|].
  change ((do o <- ret (F x); ret (opt_to_list o)) w) with (Ret (opt_to_list (F x)) : res (list B), w). cbv beta iota.
  destruct (F x) as [y|]; cbn [opt_to_list for_in].
  - unfold bind at 1. change ((do s <- ret (acc ++ [y]); ret s) w) with (Ret (acc ++ [y]), w). cbv beta iota. rewrite IH, <- app_assoc. reflexivity.
  - unfold bind at 1. change (ret acc w) with (Ret acc, w). cbv beta iota. exact (IH acc).
Qed.
