(** Lemmas about Seq: the statements used by the property theorems C28-C33. *)
From Coq Require Import List ZArith Bool Lia.
From Verif.Model Require Import Base Gen OptionResult Seq.
From Verif.Spec Require Import ListM SeqSpec.
From Verif.Proofs Require Import SeqFacts SeqFacts2.
Import ListNotations.
Local Open Scope py_scope.

Lemma bind_ret : forall W A B (x : M W A) (f : A -> M W B) w a w1, x w = (Ret a, w1) -> bind x f w = f a w1.
Proof. intros W A B x f w a w1 E. unfold bind. now rewrite E. Qed.
Lemma bind_raise : forall W A B (x : M W A) (f : A -> M W B) w e w1, x w = (Raise e, w1) -> bind x f w = (Raise e, w1).
Proof. intros W A B x f w e w1 E. unfold bind. now rewrite E. Qed.
Ltac by_loop E H :=
  match goal with |- bind ?x ?f ?w = _ => etransitivity; [exact (bind_ret _ _ _ x f w _ _ E)|] end;
  cbv beta;
  match goal with |- bind ?x ?f ?w = _ =>
    first [ etransitivity; [exact (bind_ret _ _ _ x f w _ _ H)|]; reflexivity
          | match type of H with _ = (match ?r with _ => _ end, _) => destruct r end;
            [etransitivity; [exact (bind_ret _ _ _ x f w _ _ H)|]; reflexivity|exact (bind_raise _ _ _ x f w _ _ H)] ]
  end.

Section Shared.
  Context {W A : Type}.
  Lemma shared_produces : forall (g : gen W A) w l r w1, produces g w l r w1 -> produces shared_gen (Some g, w) l r (None, w1).
  Proof.
    induction 1.
    - apply pr_stop. cbn. rewrite H. reflexivity.
    - apply pr_raise. cbn. rewrite H. no_stop_raised.
    - eapply pr_skip; [cbn; rewrite H; reflexivity|exact IHproduces].
    - eapply pr_yield; [cbn; rewrite H; reflexivity|exact IHproduces].
  Qed.
  Lemma shared_pulled : forall (g : gen W A) w l g1 w1, pulled g w l g1 w1 -> pulled shared_gen (Some g, w) l shared_gen (Some g1, w1).
  Proof.
    induction 1.
    - apply pu_none.
    - eapply pu_skip; [cbn; rewrite H; reflexivity|exact IHpulled].
    - eapply pu_yield; [cbn; rewrite H; reflexivity|exact IHpulled].
  Qed.
  Lemma shared_twice : forall (g : gen W A) w l w1, produces g w l (Ret tt) w1 -> iterated shared 2 (Some g, w) [l; []] (None, w1).
  Proof.
    intros g w l w1 P. eapply it_more.
    - left. eexists _, _. split; [reflexivity|]. apply shared_produces, P.
    - eapply it_more; [|constructor]. left. eexists _, _. split; [reflexivity|]. now apply pr_stop.
  Qed.
End Shared.

(** *** C28 *)
Section C28.
  Context {W A B : Type}.
  Variable I : W -> Prop.
  Lemma C28_map_pf : forall (f : A -> M W B) F (src : iterable W A) l, gives I f F -> reiterable I src l -> reiterable I (map f src) (List.map F l).
  Proof. intros f F src l G H. eapply reiterable_opening; [exact H|]. intros g. now apply map_steady. Qed.
  Lemma C28_collect_pf : forall (f : A -> M W (iterable W B)) F (src : iterable W A) l,
    (forall x, exists it, (forall w, I w -> exists w1, f x w = (Ret it, w1) /\ I w1) /\ reiterable I it (F x)) ->
    reiterable I src l -> reiterable I (collect f src) (flat_map F l).
  Proof. intros f F src l G H. eapply reiterable_opening; [exact H|]. intros g. now apply collect_steady. Qed.
  Lemma C28_choose_pf : forall (f : A -> M W (option B)) F (src : iterable W A) l, gives I f F -> reiterable I src l ->
    reiterable I (choose f src) (flat_map (fun x => match F x with Some y => [y] | None => [] end) l).
  Proof.
    intros f F src l G H. apply C28_collect_pf; [|exact H]. intros x. exists (of_list (opt_to_list (F x))). split.
    - intros w Iw. destruct (G x w Iw) as (w1 & E & Iw1). exists w1. split; auto. unfold bind. rewrite E. reflexivity.
    - exists (list_gen (opt_to_list (F x))). split; [intros w Iw; exists w; auto|].
      change (match F x with Some y => [y] | None => [] end) with (opt_to_list (F x)). apply steady_list.
  Qed.
  Lemma C28_concat_pf : forall (its : list (iterable W A)) ls, Forall2 (reiterable I) its ls -> reiterable I (concat its) (List.concat ls).
  Proof.
    intros its ls H. exists (concat_loop None its). split; [intros w Iw; exists w; auto|]. now apply concat_steady.
  Qed.
  Lemma C28_append_pf : forall (its : list (iterable W A)) ls (src : iterable W A) l, Forall2 (reiterable I) its ls ->
    reiterable I src l -> reiterable I (append its src) (l ++ List.concat ls).
  Proof. intros its ls src l H1 H2. unfold append. apply (C28_concat_pf (src :: its) (l :: ls)). now constructor. Qed.
  Lemma C28_skip_pf : forall n (src : iterable W A) l, reiterable I src l -> reiterable I (skip n src) (skipn (Z.to_nat n) l).
  Proof.
    intros n src l H. eapply reiterable_opening; [exact H|]. intros g S. rewrite <- (Z.sub_0_r n) at 2. now apply skip_steady.
  Qed.
  Lemma C28_take_pf : forall n (src : iterable W A) l, reiterable I src l -> reiterable I (take n src) (firstn (Z.to_nat n) l).
  Proof.
    intros n src l H. unfold take. destruct (Z.ltb_spec 0 n) as [L|L].
    - eapply reiterable_opening; [exact H|]. intros g S. rewrite <- (Z.sub_0_r n) at 2. now apply take_steady.
    - replace (Z.to_nat n) with 0 by lia. exists (list_gen []). split; [intros w Iw; exists w; auto|]. apply steady_list.
  Qed.
  Lemma C28_pairwise_pf : forall (src : iterable W A) l, reiterable I src l -> reiterable I (pairwise src) (combine l (tl l)).
  Proof.
    intros src l (g & O & S). exists (pairwise_loop None g). split; [|now apply pairwise_steady].
    intros w Iw. destruct (O w Iw) as (w1 & E & Iw1). exists w1. split; auto. unfold pairwise, bind. rewrite E. reflexivity.
  Qed.
  Lemma C28_delay_pf : forall (f : M W (iterable W A)) it l, (forall w, I w -> exists w1, f w = (Ret it, w1) /\ I w1) ->
    reiterable I it l -> reiterable I (delay f) l.
  Proof.
    intros f it l H (g & O & S). exists g. split; auto. intros w Iw. destruct (H w Iw) as (w1 & E & Iw1).
    destruct (O w1 Iw1) as (w2 & E2 & Iw2). exists w2. split; auto. unfold delay, bind. rewrite E. exact E2.
  Qed.
  Lemma C28_list_pf : forall xs : list A, reiterable I (of_list xs) xs.
  Proof. intros xs. exists (list_gen xs). split; [intros w Iw; exists w; auto|]. apply steady_list. Qed.
End C28.

Lemma C28_refuted_pf : forall W A B (P : A -> bool) S (F : S -> A -> S) s (xs : list A) (ys : list B) (w : W),
  (exists g, filter (fun x => ret (P x)) (of_list xs) w = (Ret g, w) /\ iterated shared 2 (Some g, w) [List.filter P xs; []] (None, w)) /\
  (exists g, scan (fun s x => ret (F s x)) s (of_list xs) w = (Ret g, w) /\ iterated shared 2 (Some g, w) [s :: scan_list F s xs; []] (None, w)) /\
  (exists g, zip (of_list xs) (of_list ys) w = (Ret g, w) /\ iterated shared 2 (Some g, w) [combine xs ys; []] (None, w)).
Proof.
  intros W A B P S F s xs ys w. repeat split; eexists; (split; [reflexivity|]); apply shared_twice.
  - apply filter_loop_produces, list_gen_produces.
  - eapply pr_yield; [reflexivity|]. apply scan_loop_produces, list_gen_produces.
  - clear. revert ys. induction xs as [|x xs IH]; intros ys; cbn [combine].
    + now apply pr_stop.
    + eapply pr_skip; [reflexivity|]. destruct ys as [|y ys].
      * now apply pr_stop.
      * eapply pr_yield; [reflexivity|]. apply IH.
Qed.

(** *** C29 *)
Lemma C29_exact_pf : forall W A (g : gen W A) w l g1 w1, pulled g w l g1 w1 -> l <> [] ->
  iterates (take (Z.of_nat (List.length l)) shared) (Some g, w) l (Ret tt) (Some g1, w1).
Proof.
  intros W A g w l g1 w1 P N. eapply take_enough; [reflexivity| |].
  - destruct l; [congruence|]. cbn. lia.
  - eexists _, _. split; [reflexivity|]. apply shared_pulled, P.
Qed.

(** *** C30 *)
Lemma C30_refuted_pf : forall A,
  (* seq.mapi calls the mapper on every element when it is built *)
  (exists fuel, mapi fuel (fun (i : Z) (x : A) (log : list A) => (Ret x, log ++ [x])) (of_list []) [] = (Ret [], [])) /\
  (forall x y : A, exists fuel, mapi fuel (fun (i : Z) (x : A) (log : list A) => (Ret x, log ++ [x])) (of_list [x; y]) [] = (Ret [x; y], [x; y])) /\
  (* Seq.collect calls the mapping on every element when it is built *)
  (forall x y : A, exists fuel it, seq_collect fuel (fun x (log : list A) => (Ret (of_list [x]), log ++ [x])) (of_list [x; y]) [] = (Ret it, [x; y])) /\
  (* seq.filter over a delayed sequence calls the delayed function when it is built *)
  (forall x y : A, exists it, build (Then (OpFilter (fun _ => ret true)) Done) (delay (fun log => (Ret (of_list [x]), log ++ [y]))) [] = (Ret it, [y])).
Proof.
  intros A. repeat split.
  - exists 5. reflexivity.
  - intros x y. exists 5. reflexivity.
  - intros x y. exists 9. eexists. reflexivity.
  - intros x y. eexists. reflexivity.
Qed.

(** *** C31 *)
Section C31.
  Context {W A B : Type}.

  Lemma head_hit_pf : forall (src : iterable W A) w x g1 w1, pulls src w [x] g1 w1 ->
    exists n, forall fuel, n <= fuel -> head fuel src w = (Ret x, w1).
  Proof.
    intros src w x g1 w1 (g & w0 & E & P).
    destruct (for_gen_hit A (fun (_ : unit) (x : A) => inr x : unit + A) g w0 [x] g1 w1 P [] x tt tt x eq_refl) as [n H]; auto.
    - intros pre y post C. destruct pre; discriminate.
    - exists n. intros fuel L. specialize (H fuel L). unfold head. by_loop E H.
  Qed.

  Lemma head_empty_pf : forall (src : iterable W A) w r w1, iterates src w [] r w1 ->
    exists n, forall fuel, n <= fuel -> head fuel src w = (match r with Ret _ => Raise ValueError | Raise e => Raise e end, w1).
  Proof.
    intros src w r w1 [(g & w0 & E & P)|(e & E & _ & ->)].
    - destruct (for_gen_miss A (fun (_ : unit) (x : A) => inr x : unit + A) (fun s _ => s) g w0 [] r w1 P tt) as [n H].
      + intros pre y post C. destruct pre; discriminate.
      + exists n. intros fuel L. specialize (H fuel L). unfold head. by_loop E H.
    - exists 0. intros fuel _. unfold head, bind. rewrite E. reflexivity.
  Qed.

  Lemma try_pick_hit_pf : forall (f : A -> option B) (src : iterable W A) w l x y g1 w1,
    pulls src w (l ++ [x]) g1 w1 -> (forall a, In a l -> f a = None) -> f x = Some y ->
    exists n, forall fuel, n <= fuel -> try_pick fuel (fun a => ret (f a)) src w = (Ret (Some y), w1).
  Proof.
    intros f src w l x y g1 w1 (g & w0 & E & P) HN HS.
    destruct (for_gen_hit (option B) (fun (_ : unit) a => match f a with Some y => inr (Some y) | None => inl tt end) g w0 _ g1 w1 P
                l x tt tt (Some y) eq_refl) as [n H].
    - intros pre a post ->. exists tt. rewrite HN; auto. apply in_or_app. right. now left.
    - clear. induction l as [|a l IH]; cbn; auto. destruct (f a); auto.
    - rewrite HS. reflexivity.
    - exists n. intros fuel L. specialize (H fuel L). unfold try_pick. by_loop E H.
  Qed.

  Lemma try_pick_miss_pf : forall (f : A -> option B) (src : iterable W A) w l r w1,
    iterates src w l r w1 -> (forall a, In a l -> f a = None) ->
    exists n, forall fuel, n <= fuel -> try_pick fuel (fun a => ret (f a)) src w = (rmap (fun _ => None) r, w1).
  Proof.
    intros f src w l r w1 [(g & w0 & E & P)|(e & E & _ & ->)] HN.
    - destruct (for_gen_miss (option B) (fun (_ : unit) a => match f a with Some y => inr (Some y) | None => inl tt end) (fun s _ => s) g w0 l r w1 P tt) as [n H].
      + intros pre a post ->. rewrite HN; [|apply in_or_app; right; now left]. now destruct (fold_left _ pre tt).
      + exists n. intros fuel L. specialize (H fuel L). unfold try_pick. by_loop E H.
    - exists 0. intros fuel _. unfold try_pick, bind. rewrite E. reflexivity.
  Qed.

  Lemma fold_index : forall (l : list A) i (p : A -> bool), (forall a, In a l -> p a = false) ->
    fold_left (fun s a => match (if p a then inr (Some s) else inl (s + 1)%Z) with inl s => s | inr _ => s end) l i = (i + Z.of_nat (List.length l))%Z.
  Proof.
    induction l as [|a l IH]; intros i p H; cbn [fold_left List.length].
    - lia.
    - rewrite (H a (or_introl eq_refl)). rewrite IH; [lia|]. intros b Hb. apply H. now right.
  Qed.
  Lemma fold_index' : forall (l : list A) i, fold_left (fun s (_ : A) => (s + 1)%Z) l i = (i + Z.of_nat (List.length l))%Z.
  Proof. induction l as [|a l IH]; intros i; cbn [fold_left List.length]; [lia|]. rewrite IH. lia. Qed.

  Lemma try_find_index_hit_pf : forall (p : A -> bool) (src : iterable W A) w l x g1 w1,
    pulls src w (l ++ [x]) g1 w1 -> (forall a, In a l -> p a = false) -> p x = true ->
    exists n, forall fuel, n <= fuel -> try_find_index fuel (fun a => ret (p a)) src w = (Ret (Some (Z.of_nat (List.length l))), w1).
  Proof.
    intros p src w l x g1 w1 (g & w0 & E & P) HN HS.
    destruct (for_gen_hit (option Z) (fun i a => if p a then inr (Some i) else inl (i + 1)%Z) g w0 _ g1 w1 P
                l x 0%Z (Z.of_nat (List.length l)) (Some (Z.of_nat (List.length l))) eq_refl) as [n H].
    - intros pre a post ->. eexists. rewrite HN; [reflexivity|]. apply in_or_app. right. now left.
    - rewrite fold_index by auto. lia.
    - rewrite HS. reflexivity.
    - exists n. intros fuel L. specialize (H fuel L). unfold try_find_index. by_loop E H.
  Qed.

  Lemma try_find_index_miss_pf : forall (p : A -> bool) (src : iterable W A) w l r w1,
    iterates src w l r w1 -> (forall a, In a l -> p a = false) ->
    exists n, forall fuel, n <= fuel -> try_find_index fuel (fun a => ret (p a)) src w = (rmap (fun _ => None) r, w1).
  Proof.
    intros p src w l r w1 [(g & w0 & E & P)|(e & E & _ & ->)] HN.
    - destruct (for_gen_miss (option Z) (fun i a => if p a then inr (Some i) else inl (i + 1)%Z) (fun i _ => (i + 1)%Z) g w0 l r w1 P 0%Z) as [n H].
      + intros pre a post ->. rewrite HN; [reflexivity|]. apply in_or_app. right. now left.
      + exists n. intros fuel L. specialize (H fuel L). unfold try_find_index. by_loop E H.
    - exists 0. intros fuel _. unfold try_find_index, bind. rewrite E. reflexivity.
  Qed.

  Lemma try_pick_script_pf : forall (f : A -> M W (option B)) ms fuel, Forall no_stop ms -> List.length ms < fuel ->
    try_pick fuel f (of_script ms) ==m firstM (fun m => do x <- m; f x) ms.
  Proof.
    intros f ms fuel N L w. unfold try_pick, of_script. unfold bind at 1. cbn [ret].
    revert fuel L w. induction ms as [|m ms IH]; intros fuel L w; (destruct fuel as [|fuel]; [cbn in L; lia|]).
    - reflexivity.
    - inversion N as [|? ? N1 N2]; subst. cbn in L. cbn [for_gen firstM]. unfold bind. specialize (N1 w). destruct (m w) as [[x|e] w1] eqn:E.
      + rewrite (script_step _ _ _ _ _ _ _ E). destruct (f x w1) as [[[y|]|e] w2]; cbn; auto.
        assert (H := IH N2 fuel ltac:(lia) w2). unfold bind in H. exact H.
      + rewrite (script_step_raise _ _ _ _ _ _ _ E); [reflexivity|]. cbn in N1. congruence.
  Qed.

  Lemma try_find_index_script_pf : forall (p : A -> M W bool) ms fuel, Forall no_stop ms -> List.length ms < fuel ->
    try_find_index fuel p (of_script ms) ==m
    firstM (fun '(i, m) => do x <- m; do b <- p x; ret (if b : bool then Some i else None)) (number 0 ms).
  Proof.
    intros p ms fuel N L w. unfold try_find_index, of_script. unfold bind at 1. cbn [ret]. generalize 0%Z as i.
    revert fuel L w. induction ms as [|m ms IH]; intros fuel L w i; (destruct fuel as [|fuel]; [cbn in L; lia|]).
    - reflexivity.
    - inversion N as [|? ? N1 N2]; subst. cbn in L. cbn [for_gen firstM number]. unfold bind. specialize (N1 w). destruct (m w) as [[x|e] w1] eqn:E.
      + rewrite (script_step _ _ _ _ _ _ _ E). destruct (p x w1) as [[[|]|e] w2]; cbn; auto.
        assert (H := IH N2 fuel ltac:(lia) w2 (i + 1)%Z). unfold bind in H. exact H.
      + rewrite (script_step_raise _ _ _ _ _ _ _ E); [reflexivity|]. cbn in N1. congruence.
  Qed.
End C31.

Lemma to_list_any : forall W A (src : iterable W A) w l r w1, iterates src w l r w1 ->
  exists n, forall fuel, n <= fuel -> to_list fuel src w = (rmap (fun _ => l) r, w1).
Proof.
  intros W A src w l r w1 [(g & w0 & E & P)|(e & E & _ & ->)].
  - destruct (for_gen_produces (fun acc x => acc ++ [x]) g w0 l r w1 P) as [n H]. exists n. intros fuel L.
    assert (Q : forall (l acc : list A), fold_left (fun acc x => acc ++ [x]) l acc = acc ++ l).
    { clear. induction l as [|x l IH]; intros acc; cbn; [now rewrite app_nil_r|]. rewrite IH, <- app_assoc. reflexivity. }
    specialize (H fuel L [] Empty_set) as Q0. rewrite Q in Q0. unfold to_list. by_loop E Q0.
  - exists 0. intros fuel _. unfold to_list, bind. rewrite E. reflexivity.
Qed.

(** *** C32 *)
Section C32.
  Context {W A B S : Type}.

  Lemma fold_pf : forall (F : S -> A -> S) s (src : iterable W A) w l r w1, iterates src w l r w1 ->
    exists n, forall fuel, n <= fuel -> fold fuel (fun s x => ret (F s x)) s src w = (rmap (fun _ => fold_left F l s) r, w1).
  Proof.
    intros F s src w l r w1 [(g & w0 & E & P)|(e & E & _ & ->)].
    - destruct (for_gen_produces F g w0 l r w1 P) as [n H]. exists n. intros fuel L.
      specialize (H fuel L s S) as Q0. unfold fold. by_loop E Q0.
    - exists 0. intros fuel _. unfold fold, bind. rewrite E. reflexivity.
  Qed.

  Lemma fold_app_list : forall (l acc : list A), fold_left (fun acc x => acc ++ [x]) l acc = acc ++ l.
  Proof.
    induction l as [|x l IH]; intros acc; cbn; [now rewrite app_nil_r|]. rewrite IH, <- app_assoc. reflexivity.
  Qed.

  Lemma to_list_pf : forall (src : iterable W A) w l r w1, iterates src w l r w1 ->
    exists n, forall fuel, n <= fuel -> to_list fuel src w = (rmap (fun _ => l) r, w1).
  Proof.
    intros src w l r w1 [(g & w0 & E & P)|(e & E & -> & ->)].
    - destruct (for_gen_produces (fun acc x => acc ++ [x]) g w0 l r w1 P) as [n H]. exists n. intros fuel L.
      specialize (H fuel L [] Empty_set) as Q0. rewrite fold_app_list in Q0. unfold to_list. by_loop E Q0.
    - exists 0. intros fuel _. unfold to_list, bind. rewrite E. reflexivity.
  Qed.

  Lemma fold_back_pf : forall (f : A -> S -> M W S) s (src : iterable W A) w l r w1, iterates src w l r w1 ->
    exists n, forall fuel, n <= fuel -> fold_back fuel f src s w =
      match r with Ret _ => foldM (fun s x => f x s) s (rev l) w1 | Raise e => (Raise e, w1) end.
  Proof.
    intros f s src w l r w1 H. destruct (to_list_pf src w l r w1 H) as [n T]. exists n. intros fuel L.
    unfold fold_back. unfold bind at 1. rewrite (T fuel L). destruct r as [u|e]; cbn [rmap]; [|reflexivity].
    clear. generalize (rev l) as k. intros k. revert s w1. induction k as [|x k IH]; intros s w1; [reflexivity|].
    cbn. unfold bind. destruct (f x s w1) as [[s1|e] w2]; auto.
  Qed.

  Lemma length_pf : forall (src : iterable W A) w l r w1, iterates src w l r w1 ->
    exists n, forall fuel, n <= fuel -> length fuel src w = (rmap (fun _ => Z.of_nat (List.length l)) r, w1).
  Proof.
    intros src w l r w1 [(g & w0 & E & P)|(e & E & -> & ->)].
    - destruct (for_gen_produces (fun n _ => (n + 1)%Z) g w0 l r w1 P) as [n H]. exists n. intros fuel L.
      specialize (H fuel L 0%Z Z) as Q0. rewrite fold_index' in Q0. unfold length. by_loop E Q0.
    - exists 0. intros fuel _. unfold length, bind. rewrite E. reflexivity.
  Qed.

  Lemma sum_pf : forall (zero : B) (add : B -> B -> B) (proj : A -> B) (src : iterable W A) w l r w1, iterates src w l r w1 ->
    exists n, forall fuel, n <= fuel -> sum_by fuel zero (fun x y => ret (add x y)) (fun x => ret (proj x)) src w =
      (rmap (fun _ => fold_left add (List.map proj l) zero) r, w1).
  Proof.
    intros zero add proj src w l r w1 [(g & w0 & E & P)|(e & E & -> & ->)].
    - destruct (for_gen_produces (fun s x => add s (proj x)) g w0 l r w1 P) as [n H]. exists n. intros fuel L.
      specialize (H fuel L zero B) as Q0.
      assert (Q : forall s, fold_left (fun s x => add s (proj x)) l s = fold_left add (List.map proj l) s).
      { clear. induction l as [|x l IH]; intros s; cbn; auto. }
      rewrite Q in Q0. unfold sum_by. by_loop E Q0.
    - exists 0. intros fuel _. unfold sum_by, bind. rewrite E. reflexivity.
  Qed.

  Lemma first_best_snoc : forall (better : B -> B -> bool), strict_weak better -> forall l m y, first_best better l m ->
    first_best better (l ++ [y]) (if better y m then y else m).
  Proof.
    intros better (Ir & Tr & Nt) l m y (pre & post & -> & H1 & H2). destruct (better y m) eqn:E.
    - exists (pre ++ m :: post), []. split; [reflexivity|]. split.
      + intros z Hz. apply in_app_or in Hz. destruct Hz as [Hz|[<-|[]]]; [|apply Ir].
        destruct (better z y) eqn:E2; auto. assert (Q := Tr z y m E2 E). rewrite (H1 z Hz) in Q. discriminate.
      + intros z Hz. destruct (better y z) eqn:E2; auto. assert (Q := Nt y z m E2 (H1 z Hz)). congruence.
    - exists pre, (post ++ [y]). split; [rewrite <- app_assoc; reflexivity|]. split; auto.
      intros z Hz. apply in_app_or in Hz. destruct Hz as [Hz|[<-|[]]]; auto.
  Qed.

  Lemma best_fold : forall (better : B -> B -> bool), strict_weak better -> forall l2 l1 m, first_best better l1 m ->
    exists m', fold_left (fun s y => Some match s with None => y | Some m => if better y m then y else m end) l2 (Some m) = Some m' /\
               first_best better (l1 ++ l2) m'.
  Proof.
    intros better SW. induction l2 as [|y l2 IH]; intros l1 m H; cbn.
    - exists m. rewrite app_nil_r. auto.
    - destruct (IH (l1 ++ [y]) _ (first_best_snoc better SW l1 m y H)) as (m' & E & Q). exists m'. split; [exact E|].
      rewrite <- app_assoc in Q. exact Q.
  Qed.

  (** comparisons without effects *)
  Lemma best_by_plain : forall fuel (better : B -> B -> bool) (proj : A -> M W B) (src : iterable W A) w,
    best_by fuel better proj src w =
    (do g <- src;
     do r <- for_gen fuel g None (fun s x =>
       do y <- in_generator (proj x);
       ret (inl (Some match s with None => y | Some m => if better y m then y else m end)));
     match loop_result r with None => raise ValueError | Some m => ret m end) w.
  Proof.
    intros fuel better proj src w. unfold best_by, best_with.
    assert (Q : forall fuel g s w,
      for_gen fuel g s (fun s x => do y <- in_generator (proj x);
        do m <- match s with None => ret y | Some m => do b <- ret (better y m); ret (if b : bool then y else m) end; ret (inl (Some m) : option B + option B)) w =
      for_gen fuel g s (fun s x => do y <- in_generator (proj x); ret (inl (Some match s with None => y | Some m => if better y m then y else m end))) w).
    { clear. induction fuel as [|fuel IH]; intros g s w; [reflexivity|]. cbn [for_gen]. unfold bind. destruct (step g w) as [[[x g1|g1|]|e] w1]; auto.
      destruct (in_generator (proj x) w1) as [[y|e] w2]; [|reflexivity]. destruct s as [m|]; cbn; apply IH. }
    assert (K : forall X (k1 k2 : gen W A -> M W X), (forall g v, k1 g v = k2 g v) -> (do g <- src; k1 g) w = (do g <- src; k2 g) w).
    { intros X k1 k2 Ek. unfold bind. destruct (src w) as [[g|e] w1]; [apply Ek|reflexivity]. }
    apply K. intros g v. unfold bind at 1. rewrite Q. reflexivity.
  Qed.
  Lemma best_pf : forall (better : B -> B -> bool) (proj : A -> B), strict_weak better ->
    forall (src : iterable W A) w l w1, iterates src w l (Ret tt) w1 ->
    exists n, forall fuel, n <= fuel ->
      (l = [] -> best_by fuel better (fun x => ret (proj x)) src w = (Raise ValueError, w1)) /\
      (l <> [] -> exists m, best_by fuel better (fun x => ret (proj x)) src w = (Ret m, w1) /\ first_best better (List.map proj l) m).
  Proof.
    intros better proj SW src w l w1 [(g & w0 & E & P)|(e & _ & _ & C)]; [|discriminate].
    set (G := fun (s : option B) (x : A) => Some match s with None => proj x | Some m => if better (proj x) m then proj x else m end).
    destruct (for_gen_produces G g w0 l (Ret tt) w1 P) as [n H]. exists n. intros fuel L.
    assert (E2 : best_by fuel better (fun x => ret (proj x)) src w =
                 (match fold_left G l None with None => Raise ValueError | Some m => Ret m end, w1)).
    { specialize (H fuel L None (option B)) as Q0. cbv iota in Q0. rewrite best_by_plain. destruct (fold_left G l None); by_loop E Q0. }
    rewrite E2. split.
    - intros ->. reflexivity.
    - intros N. destruct l as [|x l]; [congruence|]. cbn [fold_left List.map].
      assert (Q : forall s, fold_left G l s = fold_left (fun s y => Some match s with None => y | Some m => if better y m then y else m end) (List.map proj l) s).
      { clear. induction l as [|x l IH]; intros s; cbn; auto. }
      rewrite Q. destruct (best_fold better SW (List.map proj l) [proj x] (proj x)) as (m' & E3 & F).
      { exists [], []. split; auto. split; [|intros y []]. intros y [<-|[]]. apply SW. }
      exists m'. unfold G at 1. rewrite E3. split; auto.
  Qed.

  Lemma scan_last_pf : forall (F : S -> A -> S) l s,
    List.length (s :: scan_list F s l) = Datatypes.S (List.length l) /\
    List.last (s :: scan_list F s l) s = fold_left F l s /\
    (forall k, k <= List.length l -> nth k (s :: scan_list F s l) s = fold_left F (firstn k l) s).
  Proof.
    intros F l s. split; [|split].
    - cbn. f_equal. revert s. induction l as [|x l IH]; intros s; cbn; auto.
    - revert s. induction l as [|x l IH]; intros s; [reflexivity|]. cbn [scan_list fold_left]. rewrite <- (IH (F s x)).
      cbn [scan_list]. generalize (scan_list F (F s x) l) as k. intros k. cbn.
      assert (Q : forall d1 d2, match k with [] => F s x | _ :: _ => List.last k d1 end = match k with [] => F s x | _ :: _ => List.last k d2 end).
      { intros d1 d2. destruct k as [|y k]; auto. clear. revert y. induction k as [|z k IH]; intros y; cbn in *; auto. }
      apply Q.
    - assert (Q : forall l s k d, k <= List.length l -> nth k (s :: scan_list F s l) d = fold_left F (firstn k l) s).
      { clear. induction l as [|x l IH]; intros s [|k] d L; cbn [List.length] in L; try reflexivity; [lia|].
        cbn [scan_list firstn fold_left]. rewrite <- (IH (F s x) k d) by lia. reflexivity. }
      intros k L. now apply Q.
  Qed.

  Lemma mapi_loop_produces : forall (F : Z -> A -> B) (g : gen W A) w l r w1, produces g w l r w1 -> forall i,
    produces (mapi_loop (fun i x => ret (F i x)) i g) w (List.map (fun '(i, x) => F i x) (number i l)) r w1.
  Proof.
    intros F. induction 1; intros i; cbn [number List.map].
    - apply pr_stop. stp.
    - apply pr_raise. stp.
    - eapply pr_skip; [stp|apply IHproduces].
    - eapply pr_yield; [stp|apply IHproduces].
  Qed.
  Lemma mapi_pf : forall (F : Z -> A -> B) (src : iterable W A) w l r w1, iterates src w l r w1 ->
    exists n, forall fuel, n <= fuel -> mapi fuel (fun i x => ret (F i x)) src w = (rmap (fun _ => List.map (fun '(i, x) => F i x) (number 0 l)) r, w1).
  Proof.
    intros F src w l r w1 [(g & w0 & E & P)|(e & E & -> & ->)].
    - unfold mapi. apply to_list_any. left. eexists _, w0. split; [unfold bind; rewrite E; reflexivity|]. now apply mapi_loop_produces.
    - exists 0. intros fuel _. unfold mapi, to_list, bind. rewrite E. reflexivity.
  Qed.

  Lemma mapi_script_pf : forall (f : Z -> A -> M W B) ms w,
    let '(l, r, w1) := emit (List.map (fun '(i, m) => do x <- m; do y <- f i x; ret [y]) (number 0 ms)) w in
    exists n, forall fuel, n <= fuel -> mapi fuel f (of_script ms) w = (rmap (fun _ => l) (ended r), w1).
  Proof.
    intros f ms w. assert (H := mapi_script f ms 0%Z w). destruct emit as [[l r] w1].
    unfold mapi. apply to_list_any. left. eexists _, w. split; [reflexivity|exact H].
  Qed.

  Lemma iter_script_pf : forall (f : A -> M W unit) ms fuel, Forall no_stop ms -> List.length ms < fuel ->
    iter fuel f (of_script ms) ==m iterM (fun m => do x <- m; f x) ms.
  Proof.
    intros f ms fuel N L w. unfold iter, of_script. unfold bind at 1. cbn [ret].
    revert fuel L w. induction ms as [|m ms IH]; intros fuel L w; (destruct fuel as [|fuel]; [cbn in L; lia|]).
    - reflexivity.
    - inversion N as [|? ? N1 N2]; subst. cbn in L. cbn [for_gen iterM]. unfold bind. specialize (N1 w). destruct (m w) as [[x|e] w1] eqn:E.
      + rewrite (script_step _ _ _ _ _ _ _ E). destruct (f x w1) as [[[]|e] w2]; cbn; auto.
        assert (H := IH N2 fuel ltac:(lia) w2). unfold bind in H. exact H.
      + rewrite (script_step_raise _ _ _ _ _ _ _ E); [reflexivity|]. cbn in N1. congruence.
  Qed.
End C32.

(** *** C33 *)
Section C33.
  Context {W A S : Type}.
  Variable f : S -> M W (option (A * S)).

  Lemma unfold_step : forall s w, step (unfold f s) w =
    match outside (f s) w with
    | (Ret (Some (x, s1)), w1) => (Ret (Yield x (unfold f s1)), w1)
    | (Ret None, w1) => (Ret Stop, w1)
    | (Raise e, w1) => (Raise e, w1)
    end.
  Proof.
    intros s w. cbn. unfold bind. rewrite in_generator_outside. destruct (outside (f s) w) as [[[[x s1]|]|e] w1] eqn:E; try reflexivity.
    destruct e; try reflexivity. now apply outside_no_stop in E.
  Qed.
  Lemma outside_give : forall s w x w1, f s w = (Ret x, w1) -> outside (f s) w = (Ret x, w1).
  Proof. intros s w x w1 E. unfold outside. rewrite E. reflexivity. Qed.

  Ltac un :=
    match goal with
    | H : step (unfold f ?s) ?w = _ |- _ =>
        rewrite unfold_step in H; let E := fresh "E" in destruct (outside (f s) w) as [[[[? ?]|]|?] ?] eqn:E; try discriminate;
        injection H; intros; subst; clear H; try apply outside_ret in E
    end.

  Lemma unfold_pulled_pf : forall l s w g1 w1,
    pulled (unfold f s) w l g1 w1 <-> exists s1, g1 = unfold f s1 /\ unfold_steps f s w l s1 w1.
  Proof.
    induction l as [|x l IH]; intros s w g1 w1; split.
    - intros P. inversion P; subst. exists s. split; auto. constructor.
    - intros (s1 & -> & U). inversion U; subst. constructor.
    - intros P. inversion P; subst; un.
      match goal with Q : pulled (unfold f _) _ l _ _ |- _ => apply IH in Q; destruct Q as (s2 & -> & U) end.
      exists s2. split; auto. econstructor; eauto.
    - intros (s1 & -> & U). inversion U; subst.
      match goal with E : f s w = _ |- _ => eapply pu_yield; [rewrite unfold_step, (outside_give _ _ _ _ E); reflexivity|] end. apply IH. eauto.
  Qed.

  Lemma unfold_produces_pf : forall l s w r w1,
    produces (unfold f s) w l r w1 <->
    exists s1 w2, unfold_steps f s w l s1 w2 /\
      match r with Ret _ => f s1 w2 = (Ret None, w1) | Raise e => outside (f s1) w2 = (Raise e, w1) end.
  Proof.
    induction l as [|x l IH]; intros s w r w1; split.
    - intros P. inversion P; subst; un; exists s, w; (split; [constructor|auto]).
    - intros (s1 & w2 & U & H). inversion U; subst. destruct r as [[]|e].
      + apply pr_stop. rewrite unfold_step, (outside_give _ _ _ _ H). reflexivity.
      + apply pr_raise. rewrite unfold_step, H. reflexivity.
    - intros P. inversion P; subst; un.
      match goal with Q : produces (unfold f _) _ l _ _ |- _ => apply IH in Q; destruct Q as (s2 & w4 & U & Q) end.
      exists s2, w4. split; auto. econstructor; eauto.
    - intros (s1 & w2 & U & H). inversion U; subst.
      match goal with E : f s w = _ |- _ => eapply pr_yield; [rewrite unfold_step, (outside_give _ _ _ _ E); reflexivity|] end. apply IH. eauto.
  Qed.
End C33.

Section Infinite.
  Context {W A : Type}.
  Variable f : Z -> M W A.
  Lemma infinite_step : forall i w, step (infinite_loop f i) w =
    match f i w with
    | (Ret y, w1) => (Ret (Yield y (infinite_loop f (i + 1))), w1)
    | (Raise StopIterationExn, w1) => (Ret Stop, w1)
    | (Raise e, w1) => (Raise e, w1)
    end.
  Proof. intros i w. cbn. unfold bind. destruct (f i w) as [[y|[]] w1]; reflexivity. Qed.
  Lemma infinite_pulled_pf : forall l i w g1 w1,
    pulled (infinite_loop f i) w l g1 w1 <->
    (g1 = infinite_loop f (i + Z.of_nat (List.length l)) /\ mapM f (List.map (fun k => i + Z.of_nat k)%Z (seq 0 (List.length l))) w = (Ret l, w1)).
  Proof.
    assert (Sh : forall i n, List.map (fun k => i + Z.of_nat k)%Z (seq 1 n) = List.map (fun k => (i + 1) + Z.of_nat k)%Z (seq 0 n)).
    { intros i n. rewrite <- seq_shift, map_map. apply map_ext. intros k. lia. }
    induction l as [|x l IH]; intros i w g1 w1; split.
    - intros P. inversion P; subst. cbn. split; [f_equal; lia|reflexivity].
    - intros (-> & E). cbn in E. injection E as <-. cbn. replace (i + 0)%Z with i by lia. constructor.
    - intros P. inversion P; subst;
        match goal with H : step (infinite_loop f i) w = _ |- _ => rewrite infinite_step in H; destruct (f i w) as [[y|e] w3] eqn:E; [|destruct e; discriminate]; try discriminate; injection H; intros; subst; clear H end.
      match goal with Q : pulled (infinite_loop f _) _ l _ _ |- _ => apply IH in Q; destruct Q as (-> & E2) end. split.
      + f_equal. cbn [List.length]. lia.
      + cbn [List.length seq List.map]. cbn [mapM]. replace (i + Z.of_nat 0)%Z with i by lia. unfold bind. rewrite E, Sh, E2. reflexivity.
    - intros (-> & E). cbn [List.length seq List.map mapM] in E. replace (i + Z.of_nat 0)%Z with i in E by lia.
      unfold bind in E. destruct (f i w) as [[y|e] w3] eqn:E1; [|discriminate]. rewrite Sh in E.
      destruct (mapM f _ w3) as [[ys|e] w4] eqn:E2; [|discriminate]. cbn in E. injection E; intros; subst.
      eapply pu_yield; [rewrite infinite_step, E1; reflexivity|]. apply IH. split; [f_equal; cbn [List.length]; lia|exact E2].
  Qed.

  (** It ends only when the initializer raises. *)
  Lemma infinite_produces_pf : forall l i w r w1,
    produces (infinite_loop f i) w l r w1 <->
    exists e w2, mapM f (List.map (fun k => i + Z.of_nat k)%Z (seq 0 (List.length l))) w = (Ret l, w2) /\
      f (i + Z.of_nat (List.length l))%Z w2 = (Raise e, w1) /\ r = ended (Raise e).
  Proof.
    intros l i w r w1. split.
    - intros P. destruct (produces_pulled _ _ _ _ _ P l []) as (g1 & w2 & P1 & P2); [now rewrite app_nil_r|].
      apply infinite_pulled_pf in P1. destruct P1 as (-> & E). 
      inversion P2 as [g w' w1' St|g w' e w1' St|g w' g1 w1' l' r' w2' St Q|]; subst; rewrite infinite_step in St;
        destruct (f (i + Z.of_nat (List.length l))%Z w2) as [[y|e0] w3] eqn:F; try discriminate.
      + exists e0, w2. destruct e0; try discriminate. injection St as ->. repeat split; assumption.
      + exists e0, w2. destruct e0; try discriminate; injection St as <- ->; repeat split; assumption.
      + destruct e0; discriminate.
    - intros (e & w2 & E & F & ->). rewrite <- (app_nil_r l). eapply pulled_produces.
      + apply infinite_pulled_pf. split; [reflexivity|exact E].
      + apply raw_raise. cbn. unfold bind. rewrite F. reflexivity.
  Qed.
End Infinite.

(** *** The forms used in Props/PSeq.v *)
Section Forms.
  Context {W A B : Type}.

  Lemma list_iterates : forall (xs : list A) (w : W), iterates (of_list xs) w xs (Ret tt) w.
  Proof. intros xs w. left. eexists _, w. split; [reflexivity|]. apply list_gen_produces. Qed.

  Lemma take_list_pf : forall n (xs : list A) (w : W), iterates (take n (of_list xs)) w (firstn (Z.to_nat n) xs) (Ret tt) w.
  Proof.
    intros n xs w. destruct (Z.leb_spec n 0) as [L|L].
    - replace (Z.to_nat n) with 0 by lia. now apply take_none.
    - destruct (Z.ltb_spec (Z.of_nat (List.length xs)) n) as [L2|L2].
      + rewrite firstn_all2 by lia. apply (take_short n _ w xs (Ret tt)); [lia|]. apply list_iterates.
      + destruct (produces_pulled (list_gen xs) w xs (Ret tt) w (list_gen_produces xs w) (firstn (Z.to_nat n) xs) (skipn (Z.to_nat n) xs)) as (g1 & w1 & P & Q).
        { now rewrite firstn_skipn. }
        assert (Ew : w1 = w).
        { clear Q L2. revert P. generalize (firstn (Z.to_nat n) xs) as l. intros l. revert xs w.
          induction l as [|x l IH]; intros xs w P; inversion P; subst; auto.
          - destruct xs; discriminate.
          - destruct xs as [|y xs]; [discriminate|].
            match goal with H : step (list_gen (y :: xs)) w = _ |- _ => cbn in H; injection H; intros; subst end. eapply IH; eauto. }
        subst w1. eapply take_enough; [|exact L|eexists _, _; split; [reflexivity|exact P]].
        rewrite firstn_length_le by lia. lia.
  Qed.

  Lemma scan_iterates_pf : forall S (F : S -> A -> S) s (src : iterable W A) w g w0 l r w1,
    src w = (Ret g, w0) -> produces g w0 l r w1 ->
    iterates (scan (fun s x => ret (F s x)) s src) w (s :: scan_list F s l) r w1.
  Proof.
    intros S F s src w g w0 l r w1 E P. assert (H := scan_produces S F s src w l r w1). rewrite E in H. apply H. left. eauto.
  Qed.

  Lemma map_effects_pf : forall (f : A -> M W B) ms w,
    let '(l, r, w1) := emit (List.map (fun m => do x <- m; do y <- outside (f x); ret [y]) ms) w in
    iterates (map f (of_script ms)) w l (ended r) w1.
  Proof.
    intros f ms w. assert (H := map_script f ms w). destruct emit as [[l r] w1]. left. eexists _, _. split; [reflexivity|].
    eapply opening_produces; [reflexivity|exact H].
  Qed.
  Lemma filter_effects_pf : forall (p : A -> M W bool) ms w,
    let '(l, r, w1) := emit (List.map (fun m => do x <- m; do b <- p x; ret (if b : bool then [x] else [])) ms) w in
    iterates (filter p (of_script ms)) w l (ended r) w1.
  Proof.
    intros p ms w. assert (H := filter_script p ms w). destruct emit as [[l r] w1]. left. eexists _, _. split; [reflexivity|exact H].
  Qed.
  Lemma choose_effects_pf : forall (f : A -> M W (option B)) ms w,
    let '(l, r, w1) := emit (List.map (fun m => do x <- m; do o <- outside (f x); ret (match o with Some y => [y] | None => [] end)) ms) w in
    iterates (choose f (of_script ms)) w l (ended r) w1.
  Proof.
    intros f ms w. assert (H := choose_script f ms w). destruct emit as [[l r] w1]. left. eexists _, _. split; [reflexivity|].
    eapply opening_produces; [reflexivity|exact H].
  Qed.
  Lemma collect_effects_pf : forall (f : A -> M W (list B)) ms w,
    let '(l, r, w1) := emit (List.map (fun m => do x <- m; outside (f x)) ms) w in
    iterates (collect (fun x => do ys <- f x; ret (of_list ys)) (of_script ms)) w l (ended r) w1.
  Proof.
    intros f ms w. assert (H := collect_script f ms w). destruct emit as [[l r] w1]. left. eexists _, _. split; [reflexivity|].
    eapply opening_produces; [reflexivity|exact H].
  Qed.
  Lemma scan_effects_pf : forall S (f : S -> A -> M W S) s ms w,
    let '(l, r, w1) := scan_emit f s ms w in iterates (scan f s (of_script ms)) w (s :: l) (ended r) w1.
  Proof.
    intros S f s ms w. assert (H := scan_script S f ms s w). destruct scan_emit as [[l r] w1]. left. eexists _, _. split; [reflexivity|].
    eapply pr_yield; [reflexivity|exact H].
  Qed.
  Lemma zip_effects_pf : forall (ms : list (M W A)) (ns : list (M W B)) w,
    let '(l, r, w1) := emit (zip_script ms ns) w in iterates (zip (of_script ms) (of_script ns)) w l (ended r) w1.
  Proof.
    intros ms ns w. assert (H := zip_scripts ms ns w). destruct emit as [[l r] w1]. left. eexists _, _. split; [reflexivity|exact H].
  Qed.

  Lemma C28_pf : forall (I : W -> Prop) (src : iterable W A) l, reiterable I src l ->
    (forall (f : A -> M W B) F, gives I f F -> reiterable I (map f src) (List.map F l)) /\
    (forall (f : A -> M W (option B)) F, gives I f F ->
       reiterable I (choose f src) (flat_map (fun x => match F x with Some y => [y] | None => [] end) l)) /\
    (forall (f : A -> M W (iterable W B)) F,
       (forall x, exists it, (forall w, I w -> exists w1, f x w = (Ret it, w1) /\ I w1) /\ reiterable I it (F x)) ->
       reiterable I (collect f src) (flat_map F l)) /\
    (forall others ls, Forall2 (reiterable I) others ls -> reiterable I (append others src) (l ++ List.concat ls)) /\
    (forall n, reiterable I (skip n src) (skipn (Z.to_nat n) l)) /\
    (forall n, reiterable I (take n src) (firstn (Z.to_nat n) l)) /\
    reiterable I (pairwise src) (combine l (tl l)) /\
    (forall f, (forall w, I w -> exists w1, f w = (Ret src, w1) /\ I w1) -> reiterable I (delay f) l).
  Proof.
    intros I src l H. repeat split; intros.
    - now apply C28_map_pf.
    - now apply C28_choose_pf.
    - now apply C28_collect_pf.
    - now apply C28_append_pf.
    - now apply C28_skip_pf.
    - now apply C28_take_pf.
    - now apply C28_pairwise_pf.
    - eapply C28_delay_pf; eauto.
  Qed.

  Lemma C30_on_demand_pf : forall (g : gen W A) w l g1 w1, pulled g w l g1 w1 ->
    (forall F : A -> B, pulled (map_loop (fun x => ret (F x)) g) w (List.map F l) (map_loop (fun x => ret (F x)) g1) w1) /\
    (forall P l0 x, l = l0 ++ [x] -> P x = true ->
       pulled (filter_loop (fun x => ret (P x)) g) w (List.filter P l) (filter_loop (fun x => ret (P x)) g1) w1) /\
    (forall (F : A -> list B) l0 x, l = l0 ++ [x] -> F x <> [] ->
       pulled (collect_loop (fun x => ret (of_list (F x))) None g) w (flat_map F l)
         (collect_loop (fun x => ret (of_list (F x))) (Some (list_gen [])) g1) w1) /\
    (forall n, (n < Z.of_nat (List.length l))%Z ->
       pulled (skip_loop n 0 g) w (skipn (Z.to_nat n) l) (skip_loop n (Z.of_nat (List.length l)) g1) w1) /\
    (forall n, (Z.of_nat (List.length l) <= n)%Z -> exists g2, pulled (take_loop n None 0 g) w l g2 w1) /\
    (forall x y l', l = x :: y :: l' ->
       pulled (pairwise_loop None g) w (combine l (tl l)) (pairwise_loop (Some (List.last l x)) g1) w1) /\
    (forall (F : B -> A -> B) s,
       pulled (scan_loop (fun s x => ret (F s x)) s g) w (scan_list F s l) (scan_loop (fun s x => ret (F s x)) (fold_left F l s) g1) w1).
  Proof.
    intros g w l g1 w1 P. repeat split; intros.
    - now apply map_loop_pulled.
    - eapply filter_loop_pulled; eauto.
    - eapply collect_loop_pulled; eauto.
    - assert (Q := skip_loop_pulled g w l g1 w1 P n 0%Z ltac:(lia) ltac:(lia)). rewrite Z.sub_0_r, Z.add_0_l in Q. exact Q.
    - eapply take_loop_pulled; [exact P|lia].
    - eapply pairwise_loop_pulled; eauto.
    - now apply scan_loop_pulled.
  Qed.

  Lemma C30_concat_pf : forall (its1 : list (iterable W A)) w l1 w1, iterates_all its1 w l1 (Ret tt) w1 ->
    forall it its2 l2 g2 w2, l2 <> [] -> pulls it w1 l2 g2 w2 ->
    pulls (concat (its1 ++ it :: its2)) w (l1 ++ l2) (concat_loop (Some g2) its2) w2.
  Proof.
    intros its1 w l1 w1 H it its2 l2 g2 w2 N P. eexists _, _. split; [reflexivity|]. eapply concat_pulled; eauto.
  Qed.

  Lemma fold_back_pure_pf : forall S (F : A -> S -> S) s (src : iterable W A) w l w1, iterates src w l (Ret tt) w1 ->
    exists n, forall fuel, n <= fuel -> fold_back fuel (fun x s => ret (F x s)) src s w = (Ret (fold_right F s l), w1).
  Proof.
    intros S F s src w l w1 H. destruct (fold_back_pf (fun x s => ret (F x s)) s src w l (Ret tt) w1 H) as [n Q].
    exists n. intros fuel L. rewrite (Q fuel L).
    clear. rewrite <- (rev_involutive l) at 2. generalize (rev l) as k. intros k.
    revert s. induction k as [|x k IH]; intros s; cbn; [reflexivity|]. unfold bind. cbn. rewrite IH. rewrite fold_right_app. reflexivity.
  Qed.

  Lemma init_infinite_pf : forall (f : Z -> M W A) l w g1 w1,
    pulls (init_infinite f) w l g1 w1 <->
    (g1 = infinite_loop f (Z.of_nat (List.length l)) /\ mapM f (List.map Z.of_nat (seq 0 (List.length l))) w = (Ret l, w1)).
  Proof.
    intros f l w g1 w1. assert (H := infinite_pulled_pf f l 0%Z w g1 w1). split.
    - intros (g & w0 & E & P). injection E as <- <-. apply H in P. exact P.
    - intros P. eexists _, _. split; [reflexivity|]. apply H. exact P.
  Qed.
  Lemma init_infinite_ends_pf : forall (f : Z -> M W A) l w r w1,
    iterates (init_infinite f) w l r w1 <->
    exists e w2, mapM f (List.map Z.of_nat (seq 0 (List.length l))) w = (Ret l, w2) /\
      f (Z.of_nat (List.length l)) w2 = (Raise e, w1) /\ r = ended (Raise e).
  Proof.
    intros f l w r w1. assert (H := infinite_produces_pf f l 0%Z w r w1). split.
    - intros [(g & w0 & E & P)|(e & E & _)]; [|discriminate]. injection E as <- <-. apply H in P. exact P.
    - intros P. left. eexists _, _. split; [reflexivity|]. apply H. exact P.
  Qed.
End Forms.

(** *** starmap and dict *)
Lemma emit_ext : forall W A B (f g : A -> M W (list B)) ms w, (forall m, f m ==m g m) ->
  emit (List.map f ms) w = emit (List.map g ms) w.
Proof.
  intros W A B f g ms w H. revert w. induction ms as [|m ms IH]; intros w; cbn; [reflexivity|].
  rewrite H. destruct (g m w) as [[ys|e] w1]; [|reflexivity]. now rewrite IH.
Qed.
Lemma starmap_effects_pf : forall W X B (f : list X -> M W B) (ms : list (M W (PyList.star X))) w,
  let '(l, r, w1) := emit (List.map (fun m => do a <- m; match a with PyList.Args xs => do y <- outside (f xs); ret [y]
                                                          | PyList.NotIterable _ => raise TypeError end) ms) w in
  iterates (starmap f (of_script ms)) w l (ended r) w1.
Proof.
  intros W X B f ms w. pose proof (map_effects_pf (PyList.call_star f) ms w) as H. unfold starmap.
  erewrite emit_ext; [exact H|]. intros m v. unfold bind. destruct (m v) as [[[xs|x]|e] v1]; reflexivity.
Qed.
Lemma dict_pf : forall W A B (F : A -> B) (src : iterable W A) w l r w1, iterates src w l r w1 ->
  iterates (dict (fun x => ret (F x)) src) w (List.map F l) r w1.
Proof.
  intros W A B F src w l r w1 [(g & w2 & E & P)|H].
  - left. eexists _, _. split; [|apply map_loop_produces, P]. unfold dict, bind. now rewrite E.
  - right. destruct H as (e & E & -> & ->). exists e. unfold dict, bind. rewrite E. auto.
Qed.
Lemma dict_twice_pf : forall W A B (F : A -> B) (xs : list A) (w : W),
  exists g, dict (fun x => ret (F x)) (of_list xs) w = (Ret g, w) /\ iterated shared 2 (Some g, w) [List.map F xs; []] (None, w).
Proof.
  intros. eexists. split; [reflexivity|]. apply shared_twice. apply map_loop_produces, list_gen_produces.
Qed.
