(** Lemmas about Seq: a callback that raises, over a list. *)
From Coq Require Import List ZArith Bool Lia.
From Verif.Model Require Import Base Gen OptionResult Seq.
From Verif.Spec Require Import ListM SeqSpec.
From Verif.Proofs Require Import SeqFacts SeqFacts2 SeqFacts3.
Import ListNotations.
Local Open Scope py_scope.

Lemma raw_leaving : forall W A (g : gen W A) w e w1, match g with Gen n => n w end = (leaving (Raise e), w1) -> produces g w [] (leaving (Raise e)) w1.
Proof. intros W A g w e w1 E. destruct e; apply raw_raise in E; exact E. Qed.

Section Callback.
  Context {W A B S : Type}.

  Lemma map_callback : forall (f : A -> M W B) xs w ys e w1, stops f xs w ys e w1 ->
    produces (map_loop f (list_gen xs)) w ys (leaving (Raise e)) w1.
  Proof.
    intros f. induction 1 as [x xs w e w1 E|x xs w y w1 ys e w2 E H IH].
    - apply raw_leaving. cbn. unfold bind, in_generator. rewrite E. destruct e; reflexivity.
    - eapply pr_yield; [|exact IH]. cbn. unfold bind, in_generator. rewrite E. reflexivity.
  Qed.
  Lemma filter_callback : forall (f : A -> M W bool) xs w ys e w1, stops f xs w ys e w1 ->
    produces (filter_loop f (list_gen xs)) w (List.map fst (List.filter snd (combine xs ys))) (ended (Raise e)) w1.
  Proof.
    intros f. induction 1 as [x xs w e w1 E|x xs w y w1 ys e w2 E H IH].
    - apply raw_raise. cbn. unfold bind. rewrite E. reflexivity.
    - cbn [combine List.filter snd]. destruct y; [cbn [List.map fst]; eapply pr_yield|eapply pr_skip]; try exact IH; cbn; unfold bind; rewrite E; reflexivity.
  Qed.
  Lemma choose_callback : forall (f : A -> M W (option B)) xs w ys e w1, stops f xs w ys e w1 ->
    produces (collect_loop (fun x => do o <- f x; ret (of_list (opt_to_list o))) None (list_gen xs)) w (flat_map opt_to_list ys) (leaving (Raise e)) w1.
  Proof.
    intros f. induction 1 as [x xs w e w1 E|x xs w y w1 ys e w2 E H IH].
    - apply raw_leaving. cbn. unfold bind, in_generator. rewrite E. destruct e; reflexivity.
    - cbn [flat_map]. eapply pr_skip; [cbn; unfold bind, in_generator; rewrite E; reflexivity|]. apply collect_loop_inner. exact IH.
  Qed.
  Lemma collect_callback : forall (f : A -> M W (list B)) xs w ys e w1, stops f xs w ys e w1 ->
    produces (collect_loop (fun x => do l <- f x; ret (of_list l)) None (list_gen xs)) w (List.concat ys) (leaving (Raise e)) w1.
  Proof.
    intros f. induction 1 as [x xs w e w1 E|x xs w y w1 ys e w2 E H IH].
    - apply raw_leaving. cbn. unfold bind, in_generator. rewrite E. destruct e; reflexivity.
    - cbn [List.concat]. eapply pr_skip; [cbn; unfold bind, in_generator; rewrite E; reflexivity|]. apply collect_loop_inner. exact IH.
  Qed.
  Lemma mapi_callback : forall (f : Z -> A -> M W B) xs i w ys e w1, stops (fun '(i, x) => f i x) (number i xs) w ys e w1 ->
    produces (mapi_loop f i (list_gen xs)) w ys (ended (Raise e)) w1.
  Proof.
    intros f. induction xs as [|x xs IH]; intros i w ys e w1 H; inversion H; subst.
    - apply raw_raise. cbn. unfold bind. match goal with E : f _ _ _ = _ |- _ => rewrite E end. reflexivity.
    - eapply pr_yield; [|apply IH; eassumption]. cbn. unfold bind. match goal with E : f _ _ _ = _ |- _ => rewrite E end. reflexivity.
  Qed.
  Lemma scan_callback : forall (f : S -> A -> M W S) xs s w ss e w1, folds_until f s xs w ss e w1 ->
    produces (scan_loop f s (list_gen xs)) w ss (ended (Raise e)) w1.
  Proof.
    intros f. induction 1 as [s x xs w e w1 E|s x xs w s1 w1 ss e w2 E _ IH].
    - apply raw_raise. cbn. unfold bind. rewrite E. reflexivity.
    - eapply pr_yield; [|exact IH]. cbn. unfold bind. rewrite E. reflexivity.
  Qed.
  Lemma folds_until_fold : forall (f : S -> A -> M W S) xs s w ss e w1, folds_until f s xs w ss e w1 -> foldM f s xs w = (Raise e, w1).
  Proof.
    intros f. induction 1 as [s x xs w e w1 E|s x xs w s1 w1 ss e w2 E _ IH]; cbn [foldM]; unfold bind; rewrite E; [reflexivity|exact IH].
  Qed.
  Lemma for_gen_list : forall (f : S -> A -> M W S) R xs fuel s, List.length xs < fuel ->
    for_gen fuel (list_gen xs) s (fun s x => do s <- f s x; ret (inl s : S + R)) ==m (do s <- foldM f s xs; ret (inl s)).
  Proof.
    intros f R. induction xs as [|x xs IH]; intros fuel s L w; (destruct fuel as [|fuel]; [cbn in L; lia|]).
    - reflexivity.
    - cbn in L. cbn. unfold bind. cbn. destruct (f s x w) as [[s1|e] w1]; [|reflexivity].
      specialize (IH fuel s1 ltac:(lia) w1). unfold bind in IH. exact IH.
  Qed.
  Lemma fold_callback : forall (f : S -> A -> M W S) s xs fuel, List.length xs < fuel -> fold fuel f s (of_list xs) ==m foldM f s xs.
  Proof.
    intros f s xs fuel L w. unfold fold, of_list. unfold bind at 1. cbn [ret].
    assert (H := for_gen_list f S xs fuel s L w). unfold bind in *. rewrite H. destruct (foldM f s xs w) as [[s1|e] w1]; reflexivity.
  Qed.
  Lemma fold_proj : forall (proj : A -> M W B) (k : S -> B -> S) xs w ys e w1, stops proj xs w ys e w1 -> forall s,
    foldM (fun s x => do y <- in_generator (proj x); ret (k s y)) s xs w = (leaving (Raise e), w1).
  Proof.
    intros proj k. induction 1 as [x xs w e w1 E|x xs w y w1 ys e w2 E H IH]; intros s; cbn [foldM]; unfold bind, in_generator; rewrite E.
    - destruct e; reflexivity.
    - apply IH.
  Qed.
End Callback.

Section Callback2.
  Context {W A B S : Type}.
  Lemma sum_callback : forall (zero : B) add (proj : A -> M W B) xs w ys e w1, stops proj xs w ys e w1 -> forall fuel, List.length xs < fuel ->
    sum_by fuel zero (fun x y => ret (add x y)) proj (of_list xs) w = (leaving (Raise e), w1).
  Proof.
    intros zero add proj xs w ys e w1 H fuel L. unfold sum_by, of_list. unfold bind at 1. cbn [ret].
    assert (G := for_gen_list (fun s x => do y <- in_generator (proj x); ret (add s y)) B xs fuel zero L w).
    assert (F := fold_proj proj add xs w ys e w1 H zero).
    assert (Q : forall fuel g s w, for_gen fuel g s (fun s x => do y <- in_generator (proj x); do s <- ret (add s y); ret (inl s : B + B)) w =
                for_gen fuel g s (fun s x => do s <- (do y <- in_generator (proj x); ret (add s y)); ret (inl s)) w).
    { clear. induction fuel as [|fuel IH]; intros g s w; [reflexivity|]. cbn [for_gen]. unfold bind. destruct (step g w) as [[[x g1|g1|]|e] w1]; auto.
      destruct (in_generator (proj x) w1) as [[y|e] w2]; [|reflexivity]. cbn. apply IH. }
    unfold bind at 1. rewrite Q, G. unfold bind at 1. rewrite F. destruct e; reflexivity.
  Qed.
  Lemma best_callback : forall better (proj : A -> M W B) xs w ys e w1, stops proj xs w ys e w1 -> forall fuel, List.length xs < fuel ->
    best_by fuel better proj (of_list xs) w = (leaving (Raise e), w1).
  Proof.
    intros better proj xs w ys e w1 H fuel L. rewrite best_by_plain. unfold of_list. unfold bind at 1. cbn [ret].
    set (k := fun (s : option B) y => Some match s with None => y | Some m => if better y m then y else m end).
    assert (G := for_gen_list (fun s x => do y <- in_generator (proj x); ret (k s y)) (option B) xs fuel None L w).
    assert (F := fold_proj proj k xs w ys e w1 H None).
    assert (Q : forall fuel g s w, for_gen fuel g s (fun s x => do y <- in_generator (proj x); ret (inl (k s y) : option B + option B)) w =
                for_gen fuel g s (fun s x => do s <- (do y <- in_generator (proj x); ret (k s y)); ret (inl s)) w).
    { clear. induction fuel as [|fuel IH]; intros g s w; [reflexivity|]. cbn [for_gen]. unfold bind. destruct (step g w) as [[[x g1|g1|]|e] w1]; auto.
      destruct (in_generator (proj x) w1) as [[y|e] w2]; [|reflexivity]. cbn. apply IH. }
    unfold bind at 1. unfold k in Q at 1. rewrite Q, G. unfold bind at 1. rewrite F. destruct e; reflexivity.
  Qed.
  Lemma iter_callback : forall (f : A -> M W unit) xs w ys e w1, stops f xs w ys e w1 -> forall fuel, List.length xs < fuel ->
    iter fuel f (of_list xs) w = (Raise e, w1).
  Proof.
    intros f xs w ys e w1 H. unfold iter, of_list. unfold bind at 1. cbn [ret].
    induction H as [x xs w e w1 E|x xs w y w1 ys e w2 E H IH]; intros fuel L; (destruct fuel as [|fuel]; [cbn in L; lia|]); cbn in L; cbn; unfold bind in *; cbn; rewrite E; [reflexivity|].
    specialize (IH fuel ltac:(lia)). exact IH.
  Qed.
  Lemma try_pick_callback : forall (f : A -> M W (option B)) xs w ys e w1, stops f xs w ys e w1 -> (forall y, In y ys -> y = None) -> forall fuel, List.length xs < fuel ->
    try_pick fuel f (of_list xs) w = (Raise e, w1).
  Proof.
    intros f xs w ys e w1 H. unfold try_pick, of_list. unfold bind at 1. cbn [ret].
    induction H as [x xs w e w1 E|x xs w y w1 ys e w2 E H IH]; intros Y fuel L; (destruct fuel as [|fuel]; [cbn in L; lia|]); cbn in L; cbn; unfold bind in *; cbn; rewrite E; [reflexivity|].
    rewrite (Y y (or_introl eq_refl)). apply IH; [|lia]. intros z Z. apply Y. now right.
  Qed.
End Callback2.

Lemma not_stop : forall e, e <> StopIterationExn -> ended (Raise e) = Raise e /\ forall X, leaving (Raise e : res X) = Raise e.
Proof. intros [] N; (split; [reflexivity|intros X; reflexivity]) || now contradiction N. Qed.

Section Script.
  Context {W A B : Type}.

  Lemma in_generator_outside : forall X (m : M W X), in_generator m ==m outside m.
  Proof. intros X m w. unfold in_generator, outside. destruct (m w) as [[x|e] w1]; [reflexivity|destruct e; reflexivity]. Qed.

  Lemma for_gen_ext : forall S R (b1 b2 : S -> A -> M W (S + R)), (forall s x, b1 s x ==m b2 s x) ->
    forall fuel g s, for_gen fuel g s b1 ==m for_gen fuel g s b2.
  Proof.
    intros S R b1 b2 E. induction fuel as [|fuel IH]; intros g s w; [reflexivity|]. cbn [for_gen]. unfold bind.
    destruct (step g w) as [[[x g1|g1|]|e] w1]; auto; try apply IH.
    rewrite E. destruct (b2 s x w1) as [[[s1|v]|e] w2]; auto. apply IH.
  Qed.

  Lemma sum_script : forall (zero : B) add (proj : A -> M W B) ms fuel, Forall no_stop ms -> List.length ms < fuel ->
    sum_by fuel zero add proj (of_script ms) ==m foldM (fun s m => do x <- m; do y <- outside (proj x); add s y) zero ms.
  Proof.
    intros zero add proj ms fuel N L w. unfold sum_by, of_script. unfold bind at 1. cbn [ret].
    assert (H := for_gen_script (fun s x => do y <- outside (proj x); add s y) B ms fuel zero N L w).
    unfold bind at 1. erewrite for_gen_ext.
    - rewrite H. unfold bind at 1. cbv beta. destruct (foldM _ zero ms w) as [[s|e] w1]; reflexivity.
    - intros s x v. unfold bind. rewrite in_generator_outside. destruct (outside (proj x) v) as [[y|e] v1]; [|reflexivity]. destruct (add s y v1) as [[y1|e1] v2]; reflexivity.
  Qed.

  Lemma fold_mapM : forall S (k : S -> B -> S) (f : M W A -> M W B) ms s,
    foldM (fun s m => do y <- f m; ret (k s y)) s ms ==m (do ys <- mapM f ms; ret (fold_left k ys s)).
  Proof.
    intros S k f. induction ms as [|m ms IH]; intros s w; [reflexivity|]. cbn [foldM mapM]. unfold bind.
    destruct (f m w) as [[y|e] w1]; [|reflexivity]. cbn. rewrite IH. unfold bind. destruct (mapM f ms w1) as [[ys|e] w2]; reflexivity.
  Qed.

  Lemma best_script : forall (better : B -> B -> bool) (proj : A -> M W B) ms fuel, strict_weak better -> Forall no_stop ms -> List.length ms < fuel ->
    forall w, match mapM (fun m => do x <- m; outside (proj x)) ms w with
    | (Ret [], w1) => best_by fuel better proj (of_script ms) w = (Raise ValueError, w1)
    | (Ret ys, w1) => exists m, best_by fuel better proj (of_script ms) w = (Ret m, w1) /\ first_best better ys m
    | (Raise e, w1) => best_by fuel better proj (of_script ms) w = (Raise e, w1)
    end.
  Proof.
    intros better proj ms fuel SW N L w.
    set (k := fun (s : option B) y => Some match s with None => y | Some m => if better y m then y else m end).
    assert (E : best_by fuel better proj (of_script ms) w =
      (do ys <- mapM (fun m => do x <- m; outside (proj x)) ms; match fold_left k ys None with None => raise ValueError | Some m => ret m end) w).
    { rewrite best_by_plain. unfold of_script. unfold bind at 1. cbn [ret].
      assert (H := for_gen_script (fun s x => do y <- outside (proj x); ret (k s y)) (option B) ms fuel None N L w).
      unfold bind at 1. erewrite for_gen_ext.
      - rewrite H. unfold bind at 1.
        assert (Q : forall s v, foldM (fun s m => do x <- m; do y <- outside (proj x); ret (k s y)) s ms v =
                    foldM (fun s m => do y <- (do x <- m; outside (proj x)); ret (k s y)) s ms v).
        { clear. induction ms as [|m ms IH]; intros s v; [reflexivity|]. cbn [foldM]. unfold bind.
          destruct (m v) as [[x|e] v1]; [|reflexivity]. destruct (outside (proj x) v1) as [[y|e] v2]; [|reflexivity]. cbn. apply IH. }
        rewrite Q, fold_mapM. unfold bind. destruct (mapM _ ms w) as [[ys|e] w1]; reflexivity.
      - intros s x v. unfold bind. rewrite in_generator_outside. destruct (outside (proj x) v) as [[y|e] v1]; reflexivity. }
    rewrite E. unfold bind at 2 4 6. 
    destruct (mapM (fun m => do x <- m; outside (proj x)) ms w) as [[[|y ys]|e] w1]; [reflexivity| |reflexivity].
    cbn [fold_left]. unfold k at 2.
    destruct (best_fold better SW ys [y] y) as (m' & E3 & F).
    { exists [], []. split; auto. split; [|intros z []]. intros z [<-|[]]. apply SW. }
    exists m'. change (fold_left k ys (Some y) = Some m') in E3. rewrite E3. split; [reflexivity|exact F].
  Qed.
End Script.
