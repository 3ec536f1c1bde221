(** Lemmas about Seq: collect with any inner sources. *)
From Coq Require Import List ZArith Bool Lia.
From Verif.Model Require Import Base Gen OptionResult Seq.
From Verif.Spec Require Import ListM SeqSpec AsyncSeqSpec.
From Verif.Proofs Require Import SeqFacts SeqFacts2 SeqFacts3 SeqFacts4.
Import ListNotations.
Local Open Scope py_scope.

Section Collect.
  Context {W A B : Type}.
  Implicit Types f : A -> M W (iterable W B).
  Lemma collect_inner_raise : forall f g (h : gen W B) w l e w1, produces h w l (Raise e) w1 -> produces (collect_loop f (Some h) g) w l (leaving (Raise e)) w1.
  Proof.
    intros f g h w l e w1 P. remember (Raise e) as r eqn:R. induction P as [h w w1 E|h w e0 w1 E|h w h1 w1 l r w2 E P IH|h w x h1 w1 l r w2 E P IH]; try discriminate; subst.
    - injection R as ->. assert (N : e <> StopIterationExn) by (intros ->; destruct h as [n]; cbn in E; destruct (n w) as [[|[]] ?]; discriminate).
      replace (leaving (Raise e : res unit)) with (Raise e : res unit) by (destruct e; try reflexivity; now contradiction N). apply pr_raise. cbn. unfold bind at 1. rewrite E. destruct e; try reflexivity. now contradiction N.
    - eapply pr_skip; [|auto]. cbn. unfold bind at 1. rewrite E. reflexivity.
    - eapply pr_yield; [|auto]. cbn. unfold bind at 1. rewrite E. reflexivity.
  Qed.
  Lemma collect_inner_ret : forall f g (h : gen W B) w l w1 l2 r2 w2, produces h w l (Ret tt) w1 -> produces (collect_loop f None g) w1 l2 r2 w2 -> produces (collect_loop f (Some h) g) w (l ++ l2) r2 w2.
  Proof.
    intros f g h w l w1 l2 r2 w2 P Q. remember (Ret tt) as r eqn:R. induction P as [h w w1 E|h w e0 w1 E|h w h1 w1 l r w3 E P IH|h w x h1 w1 l r w3 E P IH]; try discriminate; subst; cbn [app].
    - eapply pr_skip; [|exact Q]. cbn. unfold bind at 1. rewrite E. reflexivity.
    - eapply pr_skip; [|auto]. cbn. unfold bind at 1. rewrite E. reflexivity.
    - eapply pr_yield; [|auto]. cbn. unfold bind at 1. rewrite E. reflexivity.
  Qed.
  Lemma in_generator_ret : forall X (m : M W X) w x w1, m w = (Ret x, w1) -> in_generator m w = (Ret x, w1).
  Proof. intros X m w x w1 E. unfold in_generator. now rewrite E. Qed.
  Lemma in_generator_raise : forall X (m : M W X) w e w1, m w = (Raise e, w1) -> in_generator m w = (leaving (Raise e), w1).
  Proof. intros X m w e w1 E. unfold in_generator. rewrite E. destruct e; reflexivity. Qed.
  Lemma collect_sources_loop : forall f ms w l r w1, collects f ms w l r w1 -> Forall no_stop ms -> produces (collect_loop f None (script_gen ms)) w l (leaving r) w1.
  Proof.
    induction 1 as [w|m ms w e w1 E|m ms w x w1 e w2 E Ef|m ms w x w1 it w2 l e w3 E Ef I|m ms w x w1 it w2 l w3 l2 r w4 E Ef I C IH]; intros N; [|inversion N as [|? ? N1 N2]; subst..].
    - apply pr_stop. reflexivity.
    - apply raw_leaving. assert (e <> StopIterationExn) by (intros ->; apply (N1 w); now rewrite E). src_gives E. destruct e; congruence.
    - apply raw_leaving. src_gives E. rewrite (in_generator_raise _ _ _ _ _ Ef). destruct e; reflexivity.
    - destruct I as [(h & w4 & O & P)|(e1 & O & -> & Q)].
      + eapply pr_skip; [src_gives E; rewrite (in_generator_ret _ _ _ _ _ Ef); unfold bind; rewrite (in_generator_ret _ _ _ _ _ O); reflexivity|]. apply collect_inner_raise. exact P.
      + injection Q as <-. apply raw_leaving. src_gives E. rewrite (in_generator_ret _ _ _ _ _ Ef). unfold bind. rewrite (in_generator_raise _ _ _ _ _ O). destruct e; reflexivity.
    - destruct I as [(h & w5 & O & P)|(e1 & O & -> & Q)]; [|discriminate].
      eapply pr_skip; [src_gives E; rewrite (in_generator_ret _ _ _ _ _ Ef); unfold bind; rewrite (in_generator_ret _ _ _ _ _ O); reflexivity|]. eapply collect_inner_ret; [exact P|exact (IH N2)].
  Qed.
  Lemma collect_sources_pf : forall f ms w l r w1, collects f ms w l r w1 -> Forall no_stop ms -> iterates (collect f (of_script ms)) w l (leaving r) w1.
  Proof.
    intros f ms w l r w1 C N. left. exists (opening (of_script ms) (collect_loop f None)), w. split; [reflexivity|]. eapply pr_skip; [reflexivity|]. apply collect_sources_loop; assumption.
  Qed.
End Collect.

(** The methods Seq.concat and Seq.collect, which iterate the outer sequence at once. *)
Lemma concat_method_pf : forall W A (self : iterable W (iterable W A)) w its r w1, iterates self w its r w1 ->
  exists n, forall fuel, n <= fuel ->
  match r with
  | Ret _ => exists it, seq_concat fuel self w = (Ret it, w1) /\ forall w2 l r2 w3, iterates_all its w2 l r2 w3 -> iterates it w2 l r2 w3
  | Raise e => seq_concat fuel self w = (Raise e, w1)
  end.
Proof.
  intros W A self w its r w1 H. destruct (to_list_any _ _ self w its r w1 H) as (n & T). exists n. intros fuel L.
  specialize (T fuel L). destruct r as [[]|e].
  - exists (concat its). split; [unfold seq_concat, bind; rewrite T; reflexivity|]. intros. now apply concat_iterates.
  - unfold seq_concat, bind. rewrite T. reflexivity.
Qed.
Lemma collect_method_pf : forall W A B (f : A -> M W (iterable W B)) ms w,
  let '(its, r, w1) := emit (List.map (fun m => do x <- m; do it <- outside (f x); ret [it]) ms) w in
  exists n, forall fuel, n <= fuel ->
  match ended r with
  | Ret _ => exists it, seq_collect fuel f (of_script ms) w = (Ret it, w1) /\ forall w2 l r2 w3, iterates_all its w2 l r2 w3 -> iterates it w2 l r2 w3
  | Raise e => seq_collect fuel f (of_script ms) w = (Raise e, w1)
  end.
Proof.
  intros W A B f ms w. pose proof (map_effects_pf f ms w) as H. destruct emit as [[its r] w1]. exact (concat_method_pf _ _ _ _ _ _ _ H).
Qed.

(** scan with the state None. *)
Section ScanNone.
  Context {W A : Type}.
  Lemma accumulate_produces : forall (F : A -> A -> A) (g : gen W A) w l r w1, produces g w l r w1 ->
    produces (accumulate_loop (fun s x => ret (F s x)) g) w (match l with [] => [] | x :: l => x :: scan_list F x l end) r w1.
  Proof.
    intros F g w l r w1 P. induction P as [g w w1 E|g w e w1 E|g w g1 w1 l r w2 E P IH|g w x g1 w1 l r w2 E P IH].
    - apply pr_stop. cbn. unfold bind. rewrite E. reflexivity.
    - assert (N : e <> StopIterationExn) by (intros ->; destruct g as [n]; cbn in E; destruct (n w) as [[|[]] ?]; discriminate).
      apply pr_raise. cbn. unfold bind. rewrite E. destruct e; try reflexivity. now contradiction N.
    - eapply pr_skip; [|exact IH]. cbn. unfold bind. rewrite E. reflexivity.
    - eapply pr_yield; [cbn; unfold bind; rewrite E; reflexivity|]. now apply scan_loop_produces.
  Qed.
  Lemma scan_value_pf : forall (is_none : A -> bool) (F : A -> A -> A) s (src : iterable W A) w g w0 l r w1,
    src w = (Ret g, w0) -> produces g w0 l r w1 ->
    iterates (scan_value is_none (fun s x => ret (F s x)) s src) w
      (if is_none s then match l with [] => [] | x :: l => x :: scan_list F x l end else s :: scan_list F s l) r w1.
  Proof.
    intros is_none F s src w g w0 l r w1 E P. unfold scan_value. destruct (is_none s).
    - left. eexists _, _. split; [unfold bind; rewrite E; reflexivity|]. now apply accumulate_produces.
    - eapply scan_iterates_pf; eassumption.
  Qed.
  Lemma scan_none_effects_pf : forall (is_none : A -> bool) (f : A -> A -> M W A) none ms w, is_none none = true ->
    match ms with
    | [] => iterates (scan_value is_none f none (of_script ms)) w [] (Ret tt) w
    | m :: ms' =>
        match m w with
        | (Ret x, w1) => let '(l, r, w2) := scan_emit f x ms' w1 in iterates (scan_value is_none f none (of_script ms)) w (x :: l) (ended r) w2
        | (Raise e, w1) => iterates (scan_value is_none f none (of_script ms)) w [] (ended (Raise e)) w1
        end
    end.
  Proof.
    intros is_none f none ms w N. unfold scan_value. rewrite N. destruct ms as [|m ms].
    - left. eexists _, _. split; [reflexivity|]. apply pr_stop. reflexivity.
    - destruct (m w) as [[x|e] w1] eqn:E.
      + assert (H := scan_script A f ms x w1). destruct scan_emit as [[l r] w2]. left. eexists _, _. split; [reflexivity|].
        eapply pr_yield; [|exact H]. unfold step, accumulate_loop, bind, of_script. cbn. unfold bind. rewrite E. reflexivity.
      + left. eexists _, _. split; [reflexivity|]. destruct e; try (apply pr_raise; unfold step, accumulate_loop, bind, of_script; cbn; unfold bind; rewrite E; reflexivity).
        apply pr_stop. unfold step, accumulate_loop, bind, of_script. cbn. unfold bind. rewrite E. reflexivity.
  Qed.
  Lemma scan_list_length : forall S (F : S -> A -> S) l s, List.length (scan_list F s l) = List.length l.
  Proof. intros S F l. induction l as [|x l IH]; intros s; [reflexivity|]. cbn. now rewrite IH. Qed.
  Lemma scan_none_length_pf : forall (is_none : A -> bool) (F : A -> A -> A) none l (w : W), is_none none = true ->
    exists out, iterates (scan_value is_none (fun s x => ret (F s x)) none (of_list l)) w out (Ret tt) w /\ List.length out = List.length l.
  Proof.
    intros is_none F none l w N. pose proof (scan_value_pf is_none F none (of_list l) w (list_gen l) w l (Ret tt) w eq_refl (list_gen_produces l w)) as H.
    rewrite N in H. eexists. split; [exact H|]. destruct l as [|x l]; [reflexivity|]. cbn. now rewrite scan_list_length.
  Qed.
  Lemma scan_none_refuted_pf : forall (is_none : A -> bool) (F : A -> A -> A) none l (w : W), is_none none = true ->
    exists out, iterates (scan_value is_none (fun s x => ret (F s x)) none (of_list l)) w out (Ret tt) w /\ out <> none :: scan_list F none l.
  Proof.
    intros is_none F none l w N. destruct (scan_none_length_pf is_none F none l w N) as (out & I & L). exists out. split; [exact I|].
    intros ->. cbn in L. rewrite scan_list_length in L. lia.
  Qed.
End ScanNone.
