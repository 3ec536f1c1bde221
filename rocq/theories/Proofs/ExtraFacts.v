(** Lemmas about traverse, pipelines and catch. *)
From Coq Require Import List Bool Lia.
From Verif.Model Require Import Base Gen OptionResult Builder Mixed Seq Extra.
From Verif.Spec Require Import ListM OptionResultSpec ExtraSpec.
Import ListNotations.
Local Open Scope py_scope.

Section Traverse.
  Context {W A B E : Type}.
  Implicit Types fn : A -> M W (result (pyopt B) E).
  Notation outcomes := (list (option (result (pyopt B) E))).
  Definition step_outcome (r : option (result (pyopt B) E)) (tail : option (result (list (pyopt B)) E)) : option (result (list (pyopt B)) E) :=
    match r with None => None | Some (Err e) => Some (Err e) | Some (Ok h) => match tail with Some (Ok t) => Some (Ok (h :: t)) | x => x end end.
  Lemma folder_pf : forall fn head tail,
    folder fn head (traverse_outcome tail) ==m (do r <- or_effect_error (in_generator (fn head)); ret (traverse_outcome (step_outcome r tail))).
  Proof.
    intros fn head tail w. unfold folder, call_gen, binder, bind, bsend, or_effect_error, in_generator. cbn.
    unfold run_body. cbn. destruct (fn head w) as [[r|e] w1].
    2: { destruct e; reflexivity. }
    destruct r as [h|e]; cbn; [|reflexivity].
    destruct tail as [[t|e]|]; cbn; try reflexivity. destruct h as [|h]; reflexivity.
  Qed.
  Lemma of_list_to_list : forall (l acc : list A) (w : W),
    for_gen (R := Empty_set) (S (List.length l)) (list_gen l) acc (fun acc x => ret (inl (acc ++ [x]))) w = (Ret (inl (acc ++ l)), w).
  Proof.
    induction l as [|x l IH]; intros acc w.
    - cbn. rewrite app_nil_r. reflexivity.
    - cbn [List.length]. change (for_gen (R := Empty_set) (S (List.length l)) (list_gen l) (acc ++ [x]) (fun acc x => ret (inl (acc ++ [x]))) w = (Ret (inl (acc ++ x :: l)), w)).
      rewrite IH, <- app_assoc. reflexivity.
  Qed.
  Lemma leftmost_cons : forall (r : option (result (pyopt B) E)) rs, leftmost (r :: rs) = step_outcome r (leftmost rs).
  Proof. intros [[x|e]|] rs; cbn; try reflexivity. destruct (leftmost rs) as [[vs|e]|]; reflexivity. Qed.
  Lemma traverse_go : forall fn ys (done : outcomes) w,
    (fix go (ys : list A) (s : outcome (tobj B) E) : M W (outcome (tobj B) E) :=
       match ys with [] => ret s | y :: ys => do s <- folder fn y s; go ys s end) ys (traverse_outcome (leftmost done)) w =
    (do rs <- mapM (fun x => or_effect_error (in_generator (fn x))) ys; ret (traverse_outcome (leftmost (rev rs ++ done)))) w.
  Proof.
    intros fn ys. induction ys as [|y ys IH]; intros done w.
    - reflexivity.
    - unfold bind at 1. rewrite folder_pf. cbn [mapM]. unfold bind. destruct (or_effect_error (in_generator (fn y)) w) as [[r|e] w1]; [|reflexivity].
      cbn [ret]. unfold ret at 1. rewrite <- leftmost_cons. rewrite IH. unfold bind.
      destruct (mapM (fun x => or_effect_error (in_generator (fn x))) ys w1) as [[rs|e] w2]; [|reflexivity].
      cbn [ret rev]. unfold ret at 2. cbn [rev]. rewrite <- app_assoc. reflexivity.
  Qed.
  Lemma traverse_pf : forall fn lst,
    traverse fn lst ==m (do rs <- mapM (fun x => or_effect_error (in_generator (fn x))) (rev lst); ret (traverse_outcome (leftmost (rev rs)))).
  Proof.
    intros fn lst w. unfold traverse, fold_back, to_list, of_list. unfold bind at 1. unfold bind at 1. unfold ret at 1. unfold bind at 1.
    rewrite of_list_to_list. cbn [app]. unfold ret at 1.
    change (URes (Ok (PyVal (TBlock [])))) with (traverse_outcome (leftmost (@nil (option (result (pyopt B) E))))).
    rewrite traverse_go. unfold bind. destruct (mapM _ (rev lst) w) as [[rs|e] w1]; [|reflexivity]. rewrite app_nil_r. reflexivity.
  Qed.
  Lemma leftmost_some : forall rs : list (result (pyopt B) E), leftmost (List.map Some rs) = Some (all_ok rs).
  Proof. induction rs as [|[x|e] rs IH]; cbn; try reflexivity. rewrite IH. destruct (all_ok rs); reflexivity. Qed.
  Lemma traverse_no_effect_error : forall fn lst, (forall x w, fst (fn x w) <> Raise EffectErrorExn) ->
    traverse fn lst ==m (do rs <- mapM (fun x => in_generator (fn x)) (rev lst); ret (URes (block_result (all_ok (rev rs))))).
  Proof.
    intros fn lst N w. rewrite traverse_pf.
    assert (G : forall l w, mapM (fun x => or_effect_error (in_generator (fn x))) l w = (do rs <- mapM (fun x => in_generator (fn x)) l; ret (List.map Some rs)) w).
    { induction l as [|x l IH]; intros w0; [reflexivity|]. cbn [mapM]. unfold bind.
      assert (X : or_effect_error (in_generator (fn x)) w0 = match in_generator (fn x) w0 with (Ret r, w1) => (Ret (Some r), w1) | (Raise e, w1) => (Raise e, w1) end).
      { unfold or_effect_error, in_generator. specialize (N x w0). destruct (fn x w0) as [[r|e] w1]; [reflexivity|]. cbn in N.
        destruct e; try reflexivity. exfalso. apply N. reflexivity. }
      rewrite X. destruct (in_generator (fn x) w0) as [[r|e] w1]; [|reflexivity]. rewrite IH. unfold bind.
      destruct (mapM (fun x => in_generator (fn x)) l w1) as [[rs|e] w2]; reflexivity. }
    unfold bind. rewrite G. unfold bind. destruct (mapM (fun x => in_generator (fn x)) (rev lst) w) as [[rs|e] w1]; [|reflexivity].
    unfold ret. rewrite <- map_rev, leftmost_some. reflexivity.
  Qed.
  Lemma mapM_pure : forall X Y (f : X -> Y) (l : list X) (w : W), mapM (fun x => ret (f x)) l w = (Ret (List.map f l), w).
  Proof. induction l as [|x l IH]; intros w; cbn; unfold bind; cbn; [|rewrite IH]; reflexivity. Qed.
  Lemma traverse_pure_pf : forall (f : A -> result (pyopt B) E) lst (w : W),
    traverse (fun x => ret (f x)) lst w = (Ret (URes (block_result (all_ok (List.map f lst)))), w).
  Proof.
    intros f lst w. rewrite traverse_no_effect_error by (intros; discriminate). unfold bind.
    change (fun x => in_generator (ret (f x))) with (fun x : A => ret (W := W) (f x)). rewrite mapM_pure. cbn. rewrite map_rev, rev_involutive. reflexivity.
  Qed.
  Lemma traverse_left_pure : forall (f : A -> result (pyopt B) E) lst (w : W),
    traverse_left (fun x => ret (f x)) lst w = (Ret (all_ok (List.map f lst)), w).
  Proof.
    induction lst as [|x l IH]; intros w; [reflexivity|]. cbn [traverse_left]. unfold bind. cbn.
    destruct (f x) as [y|e]; [|reflexivity]. rewrite IH. cbn. destruct (all_ok (List.map f l)); reflexivity.
  Qed.
End Traverse.
Lemma traverse_calls_pf : forall A B E (f : A -> result (pyopt B) E) lst (w : list A),
  traverse (fun x w => (Ret (f x), w ++ [x])) lst w = (Ret (URes (block_result (all_ok (List.map f lst)))), w ++ rev lst).
Proof.
  intros A B E f lst w.
  assert (G : forall l w, mapM (fun x => in_generator (fun w : list A => (Ret (f x), w ++ [x]))) l w = (Ret (List.map f l), w ++ l)).
  { induction l as [|x l IH]; intros w0; cbn; [unfold ret; rewrite app_nil_r; reflexivity|].
    unfold bind. cbn. unfold in_generator. rewrite IH. cbn. rewrite <- app_assoc. reflexivity. }
  rewrite traverse_no_effect_error by (intros; discriminate). unfold bind. rewrite G. cbn. rewrite map_rev, rev_involutive. reflexivity.
Qed.
Lemma all_ok_ok : forall A E (rs : list (result A E)) xs, all_ok rs = Ok xs <-> rs = List.map Ok xs.
Proof.
  induction rs as [|[x|e] rs IH]; intros xs; cbn.
  - destruct xs; split; intros Q; try discriminate; reflexivity.
  - destruct (all_ok rs) as [ys|e] eqn:E1; split; intros Q.
    + injection Q; intros; subst. cbn. f_equal. apply IH. reflexivity.
    + destruct xs as [|x' xs]; [discriminate|]. injection Q; intros Q1 ->. apply IH in Q1. congruence.
    + discriminate.
    + destruct xs as [|x' xs]; [discriminate|]. injection Q; intros Q1 ->. apply IH in Q1. discriminate.
  - split; [discriminate|]. destruct xs; discriminate.
Qed.
Lemma all_ok_err : forall A E (rs : list (result A E)) e,
  all_ok rs = Err e <-> exists xs rest, rs = List.map Ok xs ++ Err e :: rest.
Proof.
  induction rs as [|[x|e'] rs IH]; intros e; cbn.
  - split; [discriminate|]. intros (xs & rest & Q). destruct xs; discriminate.
  - destruct (all_ok rs) as [ys|e1] eqn:E1; split; intros Q.
    + discriminate.
    + destruct Q as (xs & rest & Q). destruct xs as [|x' xs]; [discriminate|]. injection Q; intros Q1 ->.
      exfalso. assert (H : Ok ys = Err e) by (apply IH; exists xs, rest; exact Q1). discriminate.
    + injection Q; intros ->. destruct (proj1 (IH e) eq_refl) as (xs & rest & ->). exists (x :: xs), rest. reflexivity.
    + destruct Q as (xs & rest & Q). destruct xs as [|x' xs]; [discriminate|]. injection Q; intros Q1 ->.
      assert (H : Err e1 = Err e :> result (list A) E) by (apply IH; exists xs, rest; exact Q1). congruence.
  - split.
    + intros Q; injection Q; intros ->. exists [], rs. reflexivity.
    + intros (xs & rest & Q). destruct xs as [|x xs]; [|discriminate]. injection Q; intros; subst. reflexivity.
Qed.

(** ** pipelines *)
Section Pipe.
  Context {W A E : Type}.
  Lemma res_reduce : forall (fns : list (A -> M W (result A E))) acc x,
    fold_left res_reducer fns acc x ==m (do r <- acc x; match r with Ok y => while_ok y fns | Err e => ret (Err e) end).
  Proof.
    induction fns as [|f fns IH]; intros acc x w.
    - cbn. unfold bind. destruct (acc x w) as [[[y|e]|e] w1]; reflexivity.
    - cbn [fold_left]. rewrite IH. unfold res_reducer, bind. destruct (acc x w) as [[[y|e]|e] w1]; cbn; try reflexivity.
  Qed.
  Lemma res_pipeline_pf : forall (fns : list (A -> M W (result A E))) x, res_pipeline fns x ==m while_ok x fns.
  Proof. intros fns x w. unfold res_pipeline. rewrite res_reduce. reflexivity. Qed.
  Lemma while_ok_app : forall (fs gs : list (A -> M W (result A E))) x,
    while_ok x (fs ++ gs) ==m (do r <- while_ok x fs; match r with Ok y => while_ok y gs | Err e => ret (Err e) end).
  Proof.
    induction fs as [|f fs IH]; intros gs x w; [reflexivity|]. cbn. unfold bind. destruct (f x w) as [[[y|e]|e] w1]; try reflexivity.
    rewrite IH. reflexivity.
  Qed.
  Lemma res_pipeline_app_pf : forall (fs gs : list (A -> M W (result A E))) x,
    res_pipeline (fs ++ gs) x ==m (do r <- res_pipeline fs x; res_bind r (res_pipeline gs)) /\
    res_pipeline (fs ++ gs) x ==m res_pipeline [res_pipeline fs; res_pipeline gs] x.
  Proof.
    intros fs gs x; split; intros w; rewrite !res_pipeline_pf, while_ok_app.
    - unfold bind. rewrite res_pipeline_pf. destruct (while_ok x fs w) as [[[y|e]|e] w1]; cbn; try reflexivity. rewrite res_pipeline_pf. reflexivity.
    - cbn. unfold bind. rewrite res_pipeline_pf. destruct (while_ok x fs w) as [[[y|e]|e] w1]; cbn; try reflexivity.
      rewrite res_pipeline_pf. destruct (while_ok y gs w1) as [[[z|e]|e] w2]; reflexivity.
  Qed.
  Lemma opt_reduce : forall (fns : list (A -> M W (option A))) acc x,
    fold_left opt_reducer fns acc x ==m (do r <- acc x; match r with Some y => while_some y fns | None => ret None end).
  Proof.
    induction fns as [|f fns IH]; intros acc x w.
    - cbn. unfold bind. destruct (acc x w) as [[[y|]|e] w1]; reflexivity.
    - cbn [fold_left]. rewrite IH. unfold opt_reducer, bind. destruct (acc x w) as [[[y|]|e] w1]; cbn; try reflexivity.
  Qed.
  Lemma opt_pipeline_pf : forall (fns : list (A -> M W (option A))) x, opt_pipeline fns x ==m while_some x fns.
  Proof. intros fns x w. unfold opt_pipeline. rewrite opt_reduce. reflexivity. Qed.
  Lemma while_some_app : forall (fs gs : list (A -> M W (option A))) x,
    while_some x (fs ++ gs) ==m (do r <- while_some x fs; match r with Some y => while_some y gs | None => ret None end).
  Proof.
    induction fs as [|f fs IH]; intros gs x w; [reflexivity|]. cbn. unfold bind. destruct (f x w) as [[[y|]|e] w1]; try reflexivity.
    rewrite IH. reflexivity.
  Qed.
  Lemma opt_pipeline_app_pf : forall (fs gs : list (A -> M W (option A))) x,
    opt_pipeline (fs ++ gs) x ==m (do r <- opt_pipeline fs x; opt_bind r (opt_pipeline gs)) /\
    opt_pipeline (fs ++ gs) x ==m opt_pipeline [opt_pipeline fs; opt_pipeline gs] x.
  Proof.
    intros fs gs x; split; intros w; rewrite !opt_pipeline_pf, while_some_app.
    - unfold bind. rewrite opt_pipeline_pf. destruct (while_some x fs w) as [[[y|]|e] w1]; cbn; try reflexivity. rewrite opt_pipeline_pf. reflexivity.
    - cbn. unfold bind. rewrite opt_pipeline_pf. destruct (while_some x fs w) as [[[y|]|e] w1]; cbn; try reflexivity.
      rewrite opt_pipeline_pf. destruct (while_some y gs w1) as [[[z|]|e] w2]; reflexivity.
  Qed.
End Pipe.

(** ** catch *)
Section Catch.
  Context {W X A E : Type}.
  Lemma catch_pf : forall (matches : exn -> bool) (inj : exn -> E) (fn : X -> M W (returned A E)) args w,
    let (o, w1) := fn args w in
    snd (catch matches inj fn args w) = w1 /\
    (forall v, o = Ret (Plain v) -> fst (catch matches inj fn args w) = Ret (Ok v)) /\
    (forall r, o = Ret (AResult r) -> fst (catch matches inj fn args w) = Ret r) /\
    (forall e, o = Raise e -> matches e = true -> fst (catch matches inj fn args w) = Ret (Err (inj e))) /\
    (forall e, o = Raise e -> matches e = false -> fst (catch matches inj fn args w) = Raise e).
  Proof.
    intros matches inj fn args w. unfold catch. destruct (fn args w) as [[[v|r]|e] w1]; [| |destruct (matches e) eqn:Me]; repeat split; intros; cbn in *; try congruence.
  Qed.
  Lemma catch_twice_pf : forall (m1 m2 : exn -> bool) (inj : exn -> E) (fn : X -> M W (returned A E)) args,
    catch m1 inj (decorated (catch m2 inj fn)) args ==m catch (fun e => m2 e || m1 e) inj fn args.
  Proof.
    intros m1 m2 inj fn args w. unfold catch, decorated, bind. destruct (fn args w) as [[[v|r]|e] w1]; cbn; try reflexivity.
    destruct (m2 e); cbn; [reflexivity|]. destruct (m1 e); reflexivity.
  Qed.
  Lemma catch_never_raises_pf : forall (matches : exn -> bool) (inj : exn -> E) (fn : X -> M W (returned A E)) args w e,
    fst (catch matches inj fn args w) = Raise e <-> (fst (fn args w) = Raise e /\ matches e = false).
  Proof.
    intros matches inj fn args w e. unfold catch. destruct (fn args w) as [[[v|r]|e0] w1]; cbn.
    1-2: split; [discriminate|intros [Q _]; discriminate].
    destruct (matches e0) eqn:Me; cbn; split; try discriminate.
    - intros [Q M0]. congruence.
    - intros Q. split; congruence.
    - intros [Q _]. congruence.
  Qed.
End Catch.
Lemma leftmost_cases : forall B E (rs : list (option (result B E))),
  (forall vs, leftmost rs = Some (Ok vs) <-> rs = List.map (fun v => Some (Ok v)) vs) /\
  (leftmost rs = None <-> exists vs rest, rs = List.map (fun v => Some (Ok v)) vs ++ None :: rest) /\
  (forall e, leftmost rs = Some (Err e) <-> exists vs rest, rs = List.map (fun v => Some (Ok v)) vs ++ Some (Err e) :: rest).
Proof.
  intros B E. induction rs as [|r rs (IH1 & IH2 & IH3)].
  - split; [|split].
    + intros vs. cbn. split; intros H; [injection H as <-; reflexivity|]. destruct vs; [reflexivity|discriminate].
    + cbn. split; [discriminate|]. intros (vs & rest & H). destruct vs; discriminate.
    + intros e. cbn. split; [discriminate|]. intros (vs & rest & H). destruct vs; discriminate.
  - destruct r as [[v|e]|]; cbn [leftmost].
    + split; [|split].
      * intros vs. split.
        -- destruct (leftmost rs) as [[us|e]|]; try discriminate. intros H. injection H as <-. cbn. f_equal. apply IH1. reflexivity.
        -- destruct vs as [|u vs]; [discriminate|]. cbn. intros H. injection H as <- H. apply IH1 in H. rewrite H. reflexivity.
      * split.
        -- destruct (leftmost rs) as [[us|e]|] eqn:Q; try discriminate. intros _. destruct (proj1 IH2 eq_refl) as (vs & rest & ->). exists (v :: vs), rest. reflexivity.
        -- intros (vs & rest & H). destruct vs as [|u vs]; [discriminate|]. cbn in H. injection H as <- H.
           rewrite (proj2 IH2 (ex_intro _ vs (ex_intro _ rest H))). reflexivity.
      * intros e. split.
        -- destruct (leftmost rs) as [[us|e0]|] eqn:Q; try discriminate. intros H. injection H as <-. destruct (proj1 (IH3 e0) eq_refl) as (vs & rest & ->). exists (v :: vs), rest. reflexivity.
        -- intros (vs & rest & H). destruct vs as [|u vs]; [discriminate|]. cbn in H. injection H as <- H.
           rewrite (proj2 (IH3 e) (ex_intro _ vs (ex_intro _ rest H))). reflexivity.
    + split; [|split].
      * intros vs. split; [discriminate|]. destruct vs; discriminate.
      * split; [discriminate|]. intros (vs & rest & H). destruct vs; discriminate.
      * intros e0. split.
        -- intros H. injection H as <-. exists [], rs. reflexivity.
        -- intros (vs & rest & H). destruct vs; [|discriminate]. injection H as <- _. reflexivity.
    + split; [|split].
      * intros vs. split; [discriminate|]. destruct vs; discriminate.
      * split; [|reflexivity]. intros _. exists [], rs. reflexivity.
      * intros e0. split; [discriminate|]. intros (vs & rest & H). destruct vs; discriminate.
Qed.
