(** Lemmas about curry, compose, pipe and tailrec. *)
From Coq Require Import List ZArith Bool String Lia.
From Verif.Model Require Import Base Functions.
From Verif.Spec Require Import FunctionsSpec.
Import ListNotations.
Local Open Scope py_scope.
Local Open Scope list_scope.

Section CurryFacts.
  Context {W V R : Type}.
  Implicit Types f : pyfun W V R.

  Lemma calls_curried : forall f groups args n, n = List.length groups ->
    forall last kw, calls (inl (Curried args (Z.of_nat n + 1) f)) (groups ++ [(last, kw)]) ==m
      (do r <- f (args ++ List.concat (List.map fst groups) ++ last) kw; ret (inr r)).
  Proof.
    intros f. induction groups as [|[a k] groups IH]; intros args n -> last kw w; cbn [List.length].
    - cbn. unfold bind, ret. destruct (f (args ++ last) kw w) as [[r|e] w1]; reflexivity.
    - cbn [app calls]. unfold curry_wrapper. cbn [c_arity c_args c_fun].
      destruct (Z.eqb_spec (Z.of_nat (S (List.length groups)) + 1) 1); [lia|].
      unfold bind, ret, _curry. replace (Z.of_nat (S (List.length groups)) + 1 - 1)%Z with (Z.of_nat (List.length groups) + 1)%Z by lia.
      rewrite (IH (args ++ a) (List.length groups) eq_refl last kw w).
      cbn [List.map fst List.concat]. rewrite !app_assoc. reflexivity.
  Qed.

  Lemma calls_prefix : forall f groups args n, List.length groups <= n ->
    calls (inl (Curried args (Z.of_nat n + 1) f)) groups ==m
      ret (inl (Curried (args ++ List.concat (List.map fst groups)) (Z.of_nat (n - List.length groups) + 1) f)).
  Proof.
    intros f. induction groups as [|[a k] groups IH]; intros args n L w; cbn [List.length] in *.
    - cbn. rewrite app_nil_r, Nat.sub_0_r. reflexivity.
    - cbn [calls]. unfold curry_wrapper. cbn [c_arity c_args c_fun].
      destruct (Z.eqb_spec (Z.of_nat n + 1) 1); [lia|].
      unfold bind, ret, _curry. destruct n as [|n]; [lia|].
      replace (Z.of_nat (S n) + 1 - 1)%Z with (Z.of_nat n + 1)%Z by lia.
      rewrite (IH (args ++ a) n) by lia. cbn [List.map fst List.concat]. rewrite <- app_assoc. reflexivity.
  Qed.

  Lemma C43_direct_pf : forall f groups last kw,
    calls (inl (curry (Z.of_nat (List.length groups)) f)) (groups ++ [(last, kw)]) ==m
    (do r <- f (List.concat (List.map fst (groups ++ [(last, kw)]))) kw; ret (inr r)).
  Proof.
    intros f groups last kw w. unfold curry, _curry. rewrite (calls_curried f groups [] _ eq_refl).
    rewrite List.map_app, concat_app. cbn. rewrite app_nil_r. reflexivity.
  Qed.

  Lemma C43_reuse_pf : forall f n prefix, List.length prefix <= n ->
    exists c, calls (inl (curry (Z.of_nat n) f)) prefix ==m ret (inl c) /\
    forall groups last kw, List.length prefix + List.length groups = n ->
      calls (inl c) (groups ++ [(last, kw)]) ==m
      (do r <- f (List.concat (List.map fst (prefix ++ groups)) ++ last) kw; ret (inr r)).
  Proof.
    intros f n prefix L. eexists. split; [apply calls_prefix; exact L|].
    intros groups last kw Len w. rewrite calls_curried by lia.
    rewrite List.map_app, concat_app, <- !app_assoc. reflexivity.
  Qed.

  Lemma C44_pf : forall f n args kwargs groups last, n = S (List.length groups) ->
    (do c <- call_flipped (curry_flip (Z.of_nat n) f) args kwargs; calls c (List.map (fun g => (g, [])) (groups ++ [last]))) ==m
    (do r <- f (List.concat (groups ++ [last]) ++ args) kwargs; ret (inr r)).
  Proof.
    intros f n args kwargs groups last -> w. unfold curry_flip.
    destruct (Z.eqb_spec (Z.of_nat (S (List.length groups))) 0); [lia|].
    cbn [call_flipped]. unfold bind at 1. cbn [ret]. unfold _curry. rewrite List.map_app. cbn [List.map].
    replace (Z.of_nat (S (List.length groups))) with (Z.of_nat (List.length groups) + 1)%Z by lia.
    rewrite calls_curried by now rewrite map_length.
    rewrite map_map. cbn [fst]. rewrite map_id. rewrite concat_app. cbn [List.concat app]. rewrite app_nil_r. reflexivity.
  Qed.

  Lemma C44_keywords_pf : forall f n args kwargs (groups : list (list V * kwds V)) last kw, n = S (List.length groups) ->
    (do c <- call_flipped (curry_flip (Z.of_nat n) f) args kwargs; calls c (groups ++ [(last, kw)])) ==m
    match kw with [] => do r <- f ((List.concat (List.map fst groups) ++ last) ++ args) kwargs; ret (inr r) | _ => raise TypeError end.
  Proof.
    intros f n args kwargs groups last kw -> w. unfold curry_flip.
    destruct (Z.eqb_spec (Z.of_nat (S (List.length groups))) 0); [lia|].
    cbn [call_flipped]. unfold bind at 1. cbn [ret]. unfold _curry.
    replace (Z.of_nat (S (List.length groups))) with (Z.of_nat (List.length groups) + 1)%Z by lia.
    rewrite calls_curried by reflexivity. cbn [app]. destruct kw; reflexivity.
  Qed.

  Lemma C44_zero_pf : forall f args kwargs,
    call_flipped (curry_flip 0 f) args kwargs ==m (do r <- f args kwargs; ret (inr r)).
  Proof. intros f args kwargs w. reflexivity. Qed.

  Lemma C44_pipeable_pf : forall f args kwargs x,
    (do c <- pipeable f args kwargs; calls c [([x], [])]) ==m (do r <- f (x :: args) kwargs; ret (inr r)).
  Proof.
    intros f args kwargs x. unfold pipeable.
    pose proof (C44_pf f 1 args kwargs [] [x] eq_refl) as H. exact H.
  Qed.
End CurryFacts.

Lemma C43_refuted_pf : exists (f : pyfun unit nat (list nat * kwds nat)) (g1 g2 : list nat * kwds nat),
  ~ (calls (inl (curry 1 f)) [g1; g2] ==m
     (do r <- f (fst g1 ++ fst g2) (snd g1 ++ snd g2); ret (inr r))).
Proof.
  exists (fun args kw => ret (args, kw)), ([1], [("k"%string, 7)]), ([2], []). intros H. specialize (H tt). discriminate H.
Qed.

Section PipeFacts.
  Context {W V : Type}.
  Variable unpack : V -> res (list V).
  Variable mktuple : list V -> V.

  Lemma reduceM_app : forall A B (f : A -> B -> M W A) xs ys acc,
    reduceM f (xs ++ ys) acc ==m (do a <- reduceM f xs acc; reduceM f ys a).
  Proof.
    intros A B f. induction xs as [|x xs IH]; intros ys acc w; cbn; auto.
    unfold bind. destruct (f acc x w) as [[a|e] w1]; auto. apply IH.
  Qed.

  Lemma C45_compose_pf : forall (fs gs hs : list (V -> M W V)) (f : V -> M W V) x,
    compose (W := W) [] x ==m ret x /\
    pipe x fs ==m compose fs x /\
    compose (fs ++ [f]) x ==m (do y <- compose fs x; f y) /\
    compose (fs ++ [compose gs] ++ hs) x ==m compose (fs ++ gs ++ hs) x.
  Proof.
    intros fs gs hs f x. repeat split; intros w.
    - unfold compose. rewrite reduceM_app. unfold bind. destruct (reduceM _ fs x w) as [[y|e] w1]; auto.
      cbn. unfold bind, ret. destruct (f y w1) as [[]]; auto.
    - unfold compose. rewrite !reduceM_app. unfold bind. destruct (reduceM _ fs x w) as [[y|e] w1]; auto.
      cbn [app reduceM]. rewrite reduceM_app. reflexivity.
  Qed.

  Lemma C45_exception_pf : forall (fs hs : list (V -> M W V)) (f : V -> M W V) x y w w1 w2 e,
    pipe x fs w = (Ret y, w1) -> f y w1 = (Raise e, w2) -> pipe x (fs ++ f :: hs) w = (Raise e, w2).
  Proof.
    intros fs hs f x y w w1 w2 e H1 H2. unfold pipe, compose in *. rewrite reduceM_app. unfold bind.
    rewrite H1. cbn. unfold bind. rewrite H2. reflexivity.
  Qed.

  Lemma C45_pipe2_pf : forall a b (f : V -> M W (V -> M W V)) fs,
    pipe2 mktuple [a; b] (Some (f, fs)) ==m (do g <- f a; do y <- g b; pipe y fs) /\
    pipe2 (W := W) mktuple [a; b] None ==m ret (mktuple [a; b]).
  Proof. intros. split; intros w; reflexivity. Qed.

  Lemma C45_pipe3_pf : forall a b c (f : V -> M W (V -> M W (V -> M W V))) fs,
    pipe3 mktuple [a; b; c] (Some (f, fs)) ==m (do g <- f a; do h <- g b; do y <- h c; pipe y fs) /\
    pipe3 (W := W) mktuple [a; b; c] None ==m ret (mktuple [a; b; c]).
  Proof. intros. split; intros w; reflexivity. Qed.

  Lemma C45_star_pf : forall (fs gs : list (list V -> M W V)) (f : list V -> M W V) args,
    (forall xs, unpack (mktuple xs) = Ret xs) ->
    starpipe unpack mktuple (mktuple args) (fs ++ [f]) ==m
      (do y <- starpipe unpack mktuple (mktuple args) fs; do xs <- lift (unpack y); f xs) /\
    starpipe (W := W) unpack mktuple (mktuple args) [] ==m ret (mktuple args) /\
    starcompose unpack (fs ++ gs) (mktuple args) ==m (do y <- starcompose unpack fs (mktuple args); starcompose unpack gs y) /\
    starcompose (W := W) unpack [] (mktuple args) ==m ret (mktuple args) /\
    (fs <> [] -> starpipe unpack mktuple (mktuple args) fs ==m starcompose unpack fs (mktuple args)).
  Proof.
    intros fs gs f args U. repeat split; intros.
    - intros w. unfold starpipe. destruct fs as [|g fs]; cbn [app tl].
      + unfold bind, lift, starid, ret. rewrite U. cbn. rewrite U. unfold starcompose. cbn. unfold ret.
        destruct (f args w) as [[]]; reflexivity.
      + unfold bind, lift. rewrite U. destruct (g args w) as [[y|e] w1] eqn:E; cbn; auto.
        unfold starcompose. rewrite reduceM_app. unfold bind.
        destruct (reduceM _ fs y w1) as [[z|e] w2]; auto. cbn. unfold bind, lift, ret.
        destruct (unpack z) as [zs|e]; auto. destruct (f zs w2) as [[]]; reflexivity.
    - intros w. unfold starpipe, bind, lift, starid. rewrite U. reflexivity.
    - unfold starcompose. apply reduceM_app.
    - destruct fs as [|g fs]; [congruence|]. intros w. unfold starpipe, starcompose. cbn. unfold bind, lift. rewrite U.
      destruct (g args w) as [[y|e] w1]; reflexivity.
  Qed.
End PipeFacts.

Section TailRecFacts.
  Context {W Args R : Type}.
  Variable fn : Args -> M W (bounce Args R).

  (** States the decorated call goes through. *)
  Definition shape (st : tstate (Args := Args) (R := R)) : Prop :=
    match st with
    | Finished _ => True
    | Running [InFn _; InWrapper] => True
    | Running [InTrampoline (Some _); WrapperTail] => True
    | Running [InFn _; InTrampoline None; WrapperTail] => True
    | _ => False
    end.

  Ltac shapes st := destruct st as [[|[a| | |[[a|r]|]] [|[a2| | |[b2|]] [|[a3| | |b3] [|c rest]]]]|r]; cbn in *; try tauto.

  Lemma tstep_shape : forall st w, shape st -> shape (fst (tstep fn (st, w))).
  Proof.
    intros st w H. shapes st.
    - destruct (fn a w) as [[b|e] w1]; cbn; exact I.
    - destruct (fn a w) as [[b|e] w1]; cbn; exact I.
  Qed.

  Lemma shape_depth : forall st, shape st -> depth st <= 3.
  Proof. intros st H. shapes st; lia. Qed.

  Lemma trun_shape : forall n st w, shape st -> shape (fst (trun fn n (st, w))).
  Proof.
    induction n as [|n IH]; intros st w H; auto. cbn [trun]. destruct (tstep fn (st, w)) as [st1 w1] eqn:E.
    apply IH. change st1 with (fst (st1, w1)). rewrite <- E. now apply tstep_shape.
  Qed.

  Lemma C46_depth_pf : forall n a w, depth (fst (trun fn n (tstart a, w))) <= 3.
  Proof. intros n a w. apply shape_depth, trun_shape. exact I. Qed.

  (** The three states in which the body is about to run behave alike. *)
  Definition at_call (a : Args) (st : tstate (Args := Args) (R := R)) : Prop :=
    st = Running [InFn a; InWrapper] \/ st = Running [InFn a; InTrampoline None; WrapperTail].

  Lemma step_call : forall a st w, at_call a st ->
    tstep fn (st, w) = match fn a w with
                       | (Ret b, w1) => (Running [InTrampoline (Some b); WrapperTail], w1)
                       | (Raise e, w1) => (Finished (Raise e), w1)
                       end.
  Proof. intros a st w [-> | ->]; reflexivity. Qed.

  Lemma evals_runs : forall a w r w2, evals fn a w r w2 ->
    forall st, at_call a st -> exists n, trun fn n (st, w) = (Finished r, w2).
  Proof.
    induction 1 as [a w r w1 E|a w e w1 E|a w a1 w1 r w2 E _ IH]; intros st H.
    - exists 2. cbn [trun]. rewrite (step_call a st w H), E. reflexivity.
    - exists 1. cbn [trun]. rewrite (step_call a st w H), E. reflexivity.
    - destruct (IH (Running [InFn a1; InTrampoline None; WrapperTail])) as [n Hn]; [now right|].
      exists (S (S n)). cbn [trun]. rewrite (step_call a st w H), E. exact Hn.
  Qed.

  Lemma trun_finished : forall n r w, trun fn n (Finished r, w) = (Finished r, w).
  Proof. induction n; intros; cbn; auto. Qed.

  Lemma runs_evals : forall n a w st r w2, at_call a st ->
    trun fn n (st, w) = (Finished r, w2) -> evals fn a w r w2.
  Proof.
    induction n as [n IH] using lt_wf_ind. intros a w st r w2 H E.
    destruct n as [|n]; cbn [trun] in E.
    - destruct H as [-> | ->]; discriminate.
    - rewrite (step_call a st w H) in E. destruct (fn a w) as [[b|e] w1] eqn:F.
      + destruct n as [|n]; cbn [trun] in E; [discriminate|]. destruct b as [a1|x]; cbn [tstep] in E.
        * eapply ev_call; [exact F|]. eapply IH with (m := n); [lia| |exact E]. now right.
        * rewrite trun_finished in E. injection E as <- <-. now apply ev_result.
      + rewrite trun_finished in E. injection E as <- <-. now apply ev_raise.
  Qed.

  Lemma C46_pf : forall a w r w2,
    (exists n, trun fn n (tstart a, w) = (Finished r, w2)) <-> evals fn a w r w2.
  Proof.
    intros a w r w2. split.
    - intros [n H]. eapply runs_evals; [|exact H]. now left.
    - intros H. eapply evals_runs; [exact H|]. now left.
  Qed.

  Lemma diverges_not_evals : forall a w r w2, evals fn a w r w2 -> diverges fn a w -> False.
  Proof.
    induction 1 as [a w r w1 E|a w e w1 E|a w a1 w1 r w2 E _ IH]; intros D; inversion D; subst; try congruence.
  Qed.

  Lemma not_evals_diverges : forall a w, (forall n r w2, trun fn n (tstart a, w) <> (Finished r, w2)) -> diverges fn a w.
  Proof.
    assert (G : forall a w, (forall r w2, ~ evals fn a w r w2) -> diverges fn a w).
    { cofix CIH. intros a w H. destruct (fn a w) as [[[a1|r]|e] w1] eqn:E.
      - eapply div_call; [exact E|]. apply CIH. intros r w2 H1. apply (H r w2). eapply ev_call; eauto.
      - exfalso. apply (H (Ret r) w1). now apply ev_result.
      - exfalso. apply (H (Raise e) w1). now apply ev_raise. }
    intros a w H. apply G. intros r w2 H1. apply C46_pf in H1. destruct H1 as [n H1]. exact (H n r w2 H1).
  Qed.

  Lemma C46_diverges_pf : forall a w,
    diverges fn a w <-> forall n r w2, trun fn n (tstart a, w) <> (Finished r, w2).
  Proof.
    intros a w. split.
    - intros D n r w2 H. apply (diverges_not_evals a w r w2); auto. apply C46_pf. eauto.
    - apply not_evals_diverges.
  Qed.
End TailRecFacts.
