(** Lemmas about AsyncSeq: effects, demand, consumers. *)
From Coq Require Import List ZArith Bool Lia.
From Verif.Model Require Import Base PyList Gen AsyncSeq.
From Verif.Model Require Seq.
From Verif.Spec Require Import ListM AsyncSeqSpec.
From Verif.Proofs Require Import SeqFacts SeqFacts2 SeqFacts3 AsyncSeqFacts AsyncSeqFacts2.
Import ListNotations.
Local Open Scope py_scope.

Section Effects.
  Context {W A B S : Type}.
  Lemma script_iterates : forall (body : S -> A -> M W (turn S B)) s ms w, Forall no_stop ms -> let '(l, r, w1) := each_emit body s ms w in
    produces (async_for body s (of_script ms)) w l (leaving r) w1.
  Proof.
    intros body s ms w N. pose proof (each_script body ms s w N) as H. destruct (each_emit body s ms w) as [[l r] w1]. eapply started_ret; [reflexivity|exact H].
  Qed.
End Effects.
Section Effects2.
  Context {W A B S : Type}.
  Lemma map_effects : forall (f : A -> M W B) ms w,
    Forall no_stop ms -> let '(l, r, w1) := emit (List.map (fun m => do x <- m; do y <- f x; ret [y]) ms) w in produces (map f (of_script ms)) w l (leaving r) w1.
  Proof.
    intros f ms w N. pose proof (script_iterates (fun (_ : unit) x => do y <- f x; ret (Give y tt)) tt ms w N) as H.
    replace (emit (List.map (fun m => do x <- m; do y <- f x; ret [y]) ms) w) with (each_emit (fun (_ : unit) x => do y <- f x; ret (Give y tt)) tt ms w); [exact H|].
    clear H N. revert w. induction ms as [|m ms IH]; intros w; [reflexivity|]. cbn [each_emit List.map emit]. unfold bind. destruct (m w) as [[x|e] w1]; [|reflexivity].
    destruct (f x w1) as [[y|e] w2]; [|reflexivity]. cbn. rewrite IH. reflexivity.
  Qed.
  Lemma filter_effects : forall (p : A -> M W bool) ms w,
    Forall no_stop ms -> let '(l, r, w1) := emit (List.map (fun m => do x <- m; do b <- p x; ret (if b : bool then [x] else [])) ms) w in produces (filter p (of_script ms)) w l (leaving r) w1.
  Proof.
    intros p ms w N. pose proof (script_iterates (fun (_ : unit) x => do b <- p x; ret (if b : bool then Give x tt else Drop tt)) tt ms w N) as H.
    replace (emit (List.map (fun m => do x <- m; do b <- p x; ret (if b : bool then [x] else [])) ms) w) with (each_emit (fun (_ : unit) x => do b <- p x; ret (if b : bool then Give x tt else Drop tt)) tt ms w); [exact H|].
    clear H N. revert w. induction ms as [|m ms IH]; intros w; [reflexivity|]. cbn [each_emit List.map emit]. unfold bind. destruct (m w) as [[x|e] w1]; [|reflexivity].
    destruct (p x w1) as [[[]|e] w2]; [| |reflexivity]; cbn; rewrite IH; destruct (emit _ w2) as [[l r] w3]; reflexivity.
  Qed.
  Lemma choose_effects : forall (f : A -> M W (option B)) ms w,
    Forall no_stop ms -> let '(l, r, w1) := emit (List.map (fun m => do x <- m; do o <- f x; ret (match o with Some y => [y] | None => [] end)) ms) w in produces (choose f (of_script ms)) w l (leaving r) w1.
  Proof.
    intros f ms w N. pose proof (script_iterates (fun (_ : unit) x => do o <- f x; ret (match o with Some y => Give y tt | None => Drop tt end)) tt ms w N) as H.
    replace (emit (List.map (fun m => do x <- m; do o <- f x; ret (match o with Some y => [y] | None => [] end)) ms) w) with (each_emit (fun (_ : unit) x => do o <- f x; ret (match o with Some y => Give y tt | None => Drop tt end)) tt ms w); [exact H|].
    clear H N. revert w. induction ms as [|m ms IH]; intros w; [reflexivity|]. cbn [each_emit List.map emit]. unfold bind. destruct (m w) as [[x|e] w1]; [|reflexivity].
    destruct (f x w1) as [[[y|]|e] w2]; [| |reflexivity]; cbn; rewrite IH; destruct (emit _ w2) as [[l r] w3]; reflexivity.
  Qed.
  Lemma scan_effects : forall (f : S -> A -> M W S) s ms w,
    Forall no_stop ms -> let '(l, r, w1) := scan_emit f s ms w in produces (scan f s (of_script ms)) w (s :: l) (leaving r) w1.
  Proof.
    intros f s ms w N. pose proof (script_iterates (fun s x => do s1 <- f s x; ret (Give s1 s1)) s ms w N) as H.
    replace (scan_emit f s ms w) with (each_emit (fun s x => do s1 <- f s x; ret (Give s1 s1)) s ms w).
    - destruct (each_emit _ s ms w) as [[l r] w1]. eapply pr_yield; [reflexivity|exact H].
    - clear H N. revert s w. induction ms as [|m ms IH]; intros s w; [reflexivity|]. cbn [each_emit scan_emit]. unfold bind. destruct (m w) as [[x|e] w1]; [|reflexivity].
      destruct (f s x w1) as [[y|e] w2]; [|reflexivity]. cbn. rewrite IH. reflexivity.
  Qed.
End Effects2.

Section Demand.
  Context {W A B S : Type}.
  Implicit Types src : iterable W A.
  Lemma map_demand : forall (F : A -> B) src w l g1 w1, l <> [] -> pulls src w l g1 w1 -> exists g2, pulled (map (fun x => ret (F x)) src) w (List.map F l) g2 w1.
  Proof.
    intros F src w l g1 w1 N P. destruct (exists_last N) as (l0 & x & E).
    replace (List.map F l) with (outs (fun (_ : unit) x => Give (F x) tt) tt l) by (clear; induction l; cbn; congruence).
    refine (pure_pulled _ _ _ _ _ _ _ _ _ _ _ _ _ _ E eq_refl P). clear. induction l; cbn; auto.
  Qed.
  Lemma filter_demand : forall (Q : A -> bool) src w l x g1 w1, Q x = true -> pulls src w (l ++ [x]) g1 w1 -> exists g2, pulled (filter (fun x => ret (Q x)) src) w (List.filter Q l ++ [x]) g2 w1.
  Proof.
    intros Q src w l x g1 w1 H P. replace (List.filter Q l ++ [x]) with (outs (fun (_ : unit) x => if Q x then Give x tt else Drop tt) tt (l ++ [x])).
    - refine (pure_pulled _ _ _ _ _ _ _ l x x tt _ _ _ eq_refl _ P); [|rewrite H; reflexivity]. clear. induction (l ++ [x]) as [|y k IH]; cbn; auto. destruct (Q y); auto.
    - clear P. induction l as [|y l IH]; cbn; [rewrite H; reflexivity|]. destruct (Q y); cbn; congruence.
  Qed.
  Lemma choose_demand : forall (F : A -> option B) src w l x y g1 w1, F x = Some y -> pulls src w (l ++ [x]) g1 w1 ->
    exists g2, pulled (choose (fun x => ret (F x)) src) w (flat_map (fun x => match F x with Some y => [y] | None => [] end) l ++ [y]) g2 w1.
  Proof.
    intros F src w l x y g1 w1 H P. replace (flat_map _ l ++ [y]) with (outs (fun (_ : unit) x => match F x with Some y => Give y tt | None => Drop tt end) tt (l ++ [x])).
    - refine (pure_pulled _ _ _ _ _ _ _ l x y tt _ _ _ eq_refl _ P); [|rewrite H; reflexivity]. clear. induction (l ++ [x]) as [|z k IH]; cbn; auto. destruct (F z); auto.
    - clear P. induction l as [|z l IH]; cbn; [rewrite H; reflexivity|]. destruct (F z); cbn; congruence.
  Qed.
  Lemma scan_demand : forall (F : S -> A -> S) s src w l g1 w1, l <> [] -> pulls src w l g1 w1 -> exists g2, pulled (scan (fun s x => ret (F s x)) s src) w (s :: scan_list F s l) g2 w1.
  Proof.
    intros F s src w l g1 w1 N P. destruct (exists_last N) as (l0 & x & E).
    set (T := fun s x => Give (F s x) (F s x)).
    assert (Q : exists g2, pulled (async_for (fun s x => ret (T s x)) s src) w (outs T s l) g2 w1).
    { refine (pure_pulled _ _ T s src w l l0 x (F (after T s l0) x) (F (after T s l0) x) g1 w1 _ E eq_refl P). clear. revert s. induction l; cbn; auto. }
    destruct Q as (g2 & Q). exists g2. eapply pu_yield; [reflexivity|].
    replace (scan_list F s l) with (outs T s l) by (unfold T; clear; revert s; induction l as [|y k IH]; intros s; cbn; [reflexivity|rewrite IH; reflexivity]). exact Q.
  Qed.
  Lemma skip_demand : forall n src w l g1 w1, (n < Z.of_nat (List.length l))%Z -> l <> [] -> pulls src w l g1 w1 -> exists g2, pulled (skip n src) w (skipn (Z.to_nat n) l) g2 w1.
  Proof.
    intros n src w l g1 w1 L N P. destruct (exists_last N) as (l0 & x & E).
    replace (skipn (Z.to_nat n) l) with (outs (skip_turn n) 0%Z l) by (rewrite skip_outs, Z.sub_0_r; reflexivity).
    assert (Af : forall k i, after (skip_turn n) i k = (i + Z.of_nat (@List.length A k))%Z).
    { induction k as [|y k IH]; intros i; cbn [after List.length]; [lia|]. unfold skip_turn at 1. destruct (Z.leb n i); rewrite IH; lia. }
    refine (pure_pulled _ _ (skip_turn n) _ _ _ _ l0 x x _ _ _ (skip_goes n l 0%Z) E _ P). rewrite Af. unfold skip_turn. subst l. rewrite app_length in L. cbn in L. destruct (Z.leb_spec n (0 + Z.of_nat (List.length l0))); [reflexivity|lia].
  Qed.
  Lemma take_demand : forall n src w l g1 w1, (Z.of_nat (List.length l) <= n)%Z -> l <> [] -> pulls src w l g1 w1 -> exists g2, pulled (take n src) w l g2 w1.
  Proof.
    intros n src w l g1 w1 L N P. destruct (exists_last N) as (l0 & x & E). destruct (take_outs n l 0) as (H1 & H2 & H3); [lia|]. rewrite <- H1.
    destruct (take_outs n l0 0) as (K1 & K2 & K3); [subst l; rewrite app_length in L; cbn in L; lia|].
    refine (pure_pulled _ _ (take_turn n) _ _ _ _ l0 x x _ _ _ H2 E _ P). rewrite K3. unfold take_turn. subst l. rewrite app_length in L. cbn in L. destruct (Z.leb_spec n (0 + Z.of_nat (List.length l0))); [lia|reflexivity].
  Qed.
End Demand.

Section Consume.
  Context {W A S : Type}.
  Implicit Types src : iterable W A.
  Lemma rmap_leaving : forall (X Y : Type) (f : X -> Y) r, leaving (rmap f r) = rmap f (leaving r).
  Proof. intros X Y f [x|e]; [reflexivity|destruct e; reflexivity]. Qed.
  Lemma loop_pf : forall R (F : R -> A -> R) s src w l r w1, iterates src w l r w1 -> exists n, forall fuel, n <= fuel ->
    in_async (do g <- src; do r <- for_gen fuel g s (fun s x => ret (inl (F s x))); match r with inl s => ret s | inr v => match v : Empty_set with end end) w = (leaving (rmap (fun _ => fold_left F l s) r), w1).
  Proof.
    intros R F s src w l r w1 [(g & w2 & O & P)|(e & O & -> & ->)].
    - destruct (for_gen_produces F g w2 l r w1 P) as [n H]. exists n. intros fuel L. rewrite in_async_outside. unfold outside. unfold bind at 1. rewrite O. unfold bind. rewrite H by exact L. destruct r as [[]|e]; reflexivity.
    - exists 0. intros fuel _. rewrite in_async_outside. unfold outside, bind. rewrite O. reflexivity.
  Qed.
  Lemma fold_pf : forall (F : S -> A -> S) s src w l r w1, iterates src w l r w1 ->
    exists n, forall fuel, n <= fuel -> fold fuel (fun s x => ret (F s x)) s src w = (leaving (rmap (fun _ => fold_left F l s) r), w1).
  Proof. intros F s src w l r w1 I. exact (loop_pf S F s src w l r w1 I). Qed.
  Lemma length_pf : forall src w l r w1, iterates src w l r w1 -> exists n, forall fuel, n <= fuel -> length fuel src w = (leaving (rmap (fun _ => Z.of_nat (List.length l)) r), w1).
  Proof.
    intros src w l r w1 I. destruct (loop_pf Z (fun n _ => (n + 1)%Z) 0%Z src w l r w1 I) as [n H]. exists n. intros fuel L. etransitivity; [exact (H fuel L)|].
    replace (fold_left (fun (n : Z) (_ : A) => (n + 1)%Z) l 0%Z) with (Z.of_nat (List.length l)); [reflexivity|]. clear.
    assert (G : forall z, fold_left (fun (n : Z) (_ : A) => (n + 1)%Z) l z = (z + Z.of_nat (List.length l))%Z). { induction l as [|x l IH]; intros z; cbn [fold_left List.length]; [lia|rewrite IH; lia]. }
    rewrite G. lia.
  Qed.
  Lemma sum_pf : forall zero (add : A -> A -> A) src w l r w1, iterates src w l r w1 ->
    exists n, forall fuel, n <= fuel -> sum fuel zero (fun x y => ret (add x y)) src w = (leaving (rmap (fun _ => fold_left add l zero) r), w1).
  Proof. intros zero add src w l r w1 I. exact (loop_pf A add zero src w l r w1 I). Qed.
  Lemma fold_script_pf : forall (f : S -> A -> M W S) s ms fuel, Forall no_stop ms -> List.length ms < fuel ->
    fold fuel f s (of_script ms) ==m outside (foldM (fun s m => do x <- m; f s x) s ms).
  Proof.
    intros f s ms fuel N L w. unfold fold. rewrite in_async_outside. unfold outside.
    assert (H := for_gen_script f Empty_set ms fuel s N L w). unfold of_script. unfold bind at 1. cbn [ret]. unfold bind at 1. rewrite H. unfold bind, ret. clear.
    destruct foldM as [[s1|e] w1]; reflexivity.
  Qed.
  Lemma head_pf : forall src w x g1 w1, pulls src w [x] g1 w1 -> exists n, forall fuel, n <= fuel -> head fuel src w = (Ret x, w1).
  Proof.
    intros src w x g1 w1 (g & w0 & E & P).
    destruct (for_gen_hit A (fun (_ : unit) (x : A) => inr x : unit + A) g w0 [x] g1 w1 P [] x tt tt x eq_refl) as [n H]; auto.
    - intros pre y post C. destruct pre; discriminate.
    - exists n. intros fuel L. specialize (H fuel L). unfold head. rewrite in_async_outside. unfold outside, bind. rewrite E, H. reflexivity.
  Qed.
  Lemma head_empty_pf : forall src w r w1, iterates src w [] r w1 ->
    exists n, forall fuel, n <= fuel -> head fuel src w = (match r with Ret _ => Raise ValueError | Raise e => leaving (Raise e) end, w1).
  Proof.
    intros src w r w1 [(g & w0 & E & P)|(e & E & _ & ->)].
    - destruct (for_gen_miss A (fun (_ : unit) (x : A) => inr x : unit + A) (fun s _ => s) g w0 [] r w1 P tt) as [n H].
      + intros pre y post C. destruct pre; discriminate.
      + exists n. intros fuel L. specialize (H fuel L). unfold head. rewrite in_async_outside. unfold outside, bind. rewrite E, H. destruct r; reflexivity.
    - exists 0. intros fuel _. unfold head. rewrite in_async_outside. unfold outside, bind. rewrite E. reflexivity.
  Qed.
  Lemma for_list_foldM : forall (f : S -> A -> M W S) xs s w, for_list f s xs w = foldM f s xs w.
  Proof. induction xs as [|x xs IH]; intros s w; [reflexivity|]. cbn. unfold bind. destruct (f s x w) as [[s1|e] w1]; auto. Qed.
  Lemma fold_back_pf : forall (f : A -> S -> M W S) s src w l r w1, iterates src w l r w1 ->
    exists n, forall fuel, n <= fuel -> fold_back fuel f s src w = match r with Ret _ => outside (foldM (fun s x => f x s) s (rev l)) w1 | Raise e => (leaving (Raise e), w1) end.
  Proof.
    intros f s src w l r w1 I. destruct (SeqFacts3.to_list_pf src w l r w1 I) as [n H]. exists n. intros fuel L. unfold fold_back. rewrite in_async_outside. unfold outside, bind. rewrite H by exact L.
    destruct r as [u|e]; cbn [rmap]; [|reflexivity]. rewrite for_list_foldM. reflexivity.
  Qed.
  Lemma best_of_plain : forall (better : A -> A -> bool) xs m (w : W),
    best_of (fun y m => ret (better y m)) m xs w = (Ret (fold_left (fun m y => if better y m then y else m) xs m), w).
  Proof. intros better. induction xs as [|y xs IH]; intros m w; [reflexivity|]. cbn. unfold bind, ret at 1. apply IH. Qed.
  Lemma best_pf : forall (better : A -> A -> bool), strict_weak better -> forall src w l w1, iterates src w l (Ret tt) w1 ->
    exists n, forall fuel, n <= fuel ->
      (l = [] -> best fuel better src w = (Raise ValueError, w1)) /\
      (l <> [] -> exists m, best fuel better src w = (Ret m, w1) /\ first_best better l m).
  Proof.
    intros better SW src w l w1 I. destruct (SeqFacts3.to_list_pf src w l _ w1 I) as [n H]. exists n. intros fuel L. unfold best, best_with. rewrite in_async_outside. unfold outside, bind. rewrite H by exact L. cbn [rmap].
    split; [intros ->; reflexivity|]. intros N. destruct l as [|x l]; [congruence|].
    destruct (best_fold better SW l [x] x) as (m' & E3 & F).
    { exists [], []. split; auto. split; [|intros y []]. intros y [<-|[]]. apply SW. }
    exists m'. split; [|exact F]. rewrite best_of_plain. replace (fold_left (fun m y => if better y m then y else m) l x) with m'; [reflexivity|].
    assert (G : forall k z, fold_left (fun s y => Some match s with None => y | Some m => if better y m then y else m end) k (Some z) = Some (fold_left (fun m y => if better y m then y else m) k z)).
    { clear. induction k as [|y k IH]; intros z; cbn; auto. }
    rewrite G in E3. congruence.
  Qed.
  Lemma best_raise_pf : forall (better : A -> A -> bool) src w l e w1, iterates src w l (Raise e) w1 -> exists n, forall fuel, n <= fuel -> best fuel better src w = (leaving (Raise e), w1).
  Proof.
    intros better src w l e w1 I. destruct (SeqFacts3.to_list_pf src w l _ w1 I) as [n H]. exists n. intros fuel L. unfold best, best_with. rewrite in_async_outside. unfold outside, bind. rewrite H by exact L. reflexivity.
  Qed.
End Consume.

Section Demand2.
  Context {W A B : Type}.
  Implicit Types f : A -> M W (iterable W B).
  Lemma collect_outer_step : forall f g w x g1 w1, pulled g w [x] g1 w1 -> forall it w2 h w3, f x w1 = (Ret it, w2) -> it w2 = (Ret h, w3) ->
    forall l g2 w4, l <> [] -> pulled (collect_loop f (Some h) g1) w3 l g2 w4 -> pulled (collect_loop f None g) w l g2 w4.
  Proof.
    intros f g w x g1 w1 P. remember [x] as k eqn:K. revert K.
    induction P as [g w|g w g1 w1 y k g2 w2 E P IH|g w y g1 w1 k g2 w2 E P IH]; intros K it u h u1 F O l g3 w4 N Q; [discriminate| |].
    - destruct l as [|z l]; [congruence|]. eapply pu_skip; [cbn; unfold bind, in_async; rewrite E; reflexivity|]. apply (IH K _ _ _ _ F O); [discriminate|exact Q].
    - injection K as -> ->. inversion P; subst. destruct l as [|z l]; [congruence|].
      eapply pu_skip; [|exact Q]. cbn. unfold bind, in_async. rewrite E, F, O. reflexivity.
  Qed.
  Lemma collect_inner_last : forall f g h w l h1 w1, pulled h w l h1 w1 -> pulled (collect_loop f (Some h) g) w l (collect_loop f (Some h1) g) w1.
  Proof.
    intros f g. induction 1 as [h w|h w h1 w1 x l h2 w2 E P IH|h w x h1 w1 l h2 w2 E P IH]; [apply pu_none| |].
    - eapply pu_skip; [cbn; unfold bind, in_async; rewrite E; reflexivity|exact IH].
    - eapply pu_yield; [cbn; unfold bind, in_async; rewrite E; reflexivity|exact IH].
  Qed.
  Lemma collect_inner_all : forall f g h w l r w1, produces h w l r w1 -> r = Ret tt -> forall l2 g2 w2, l2 <> [] ->
    pulled (collect_loop f None g) w1 l2 g2 w2 -> pulled (collect_loop f (Some h) g) w (l ++ l2) g2 w2.
  Proof.
    intros f g. induction 1 as [h w w1 E|h w e w1 E|h w h1 w1 l r w2 E P IH|h w x h1 w1 l r w2 E P IH]; intros R l2 g2 w3 N Q; [|discriminate| |].
    - destruct l2 as [|z l2]; [congruence|]. eapply pu_skip; [|exact Q]. cbn. unfold bind, in_async. rewrite E. reflexivity.
    - specialize (IH R l2 g2 w3 N Q). destruct (l ++ l2) as [|z k] eqn:K; [destruct l; [exfalso; apply N; exact K|discriminate]|].
      eapply pu_skip; [|exact IH]. cbn. unfold bind, in_async. rewrite E. reflexivity.
    - eapply pu_yield; [cbn; unfold bind, in_async; rewrite E; reflexivity|]. now apply IH.
  Qed.
  Lemma collect_pulls_loop : forall f g w l w1, collect_pulls f g w l w1 -> l <> [] /\ exists g2, pulled (collect_loop f None g) w l g2 w1.
  Proof.
    induction 1 as [g w x g1 w1 it w2 l h w3 P F N (h0 & w4 & O & Q)|g w x g1 w1 it w2 l w3 l2 w4 P F I C (N & g2 & Q)].
    - split; [exact N|]. eexists. eapply collect_outer_step; [exact P|exact F|exact O|exact N|apply collect_inner_last, Q].
    - split; [destruct l; [exact N|discriminate]|]. destruct I as [(h & w5 & O & I)|(e & _ & _ & R)]; [|discriminate].
      eexists. eapply collect_outer_step; [exact P|exact F|exact O|destruct l; [exact N|discriminate]|]. eapply collect_inner_all; [exact I|reflexivity|exact N|exact Q].
  Qed.
  Lemma collect_demand_pf : forall f (src : iterable W A) w g w1 l w2, src w = (Ret g, w1) -> collect_pulls f g w1 l w2 ->
    exists g2, pulled (collect f src) w l g2 w2.
  Proof.
    intros f src w g w1 l w2 O C. destruct (collect_pulls_loop _ _ _ _ _ C) as (N & g2 & P). exists g2. destruct l as [|x l]; [congruence|].
    eapply pu_skip; [|exact P]. cbn. unfold bind, in_async. rewrite O. reflexivity.
  Qed.

  Lemma append_loop_pulled : forall other (g : gen W A) w l g1 w1, pulled g w l g1 w1 -> pulled (append_loop other g) w l (append_loop other g1) w1.
  Proof.
    intros other. induction 1 as [h w|h w h1 w1 x l h2 w2 E P IH|h w x h1 w1 l h2 w2 E P IH]; [apply pu_none| |].
    - eapply pu_skip; [cbn; unfold bind, in_async; rewrite E; reflexivity|exact IH].
    - eapply pu_yield; [cbn; unfold bind, in_async; rewrite E; reflexivity|exact IH].
  Qed.
  Lemma append_loop_next : forall (other : iterable W A) (g : gen W A) w l r w1, produces g w l r w1 -> r = Ret tt -> forall h w2 l2 g2 w3,
    other w1 = (Ret h, w2) -> l2 <> [] -> pulled (append_loop None h) w2 l2 g2 w3 -> pulled (append_loop (Some other) g) w (l ++ l2) g2 w3.
  Proof.
    intros other. induction 1 as [h w w1 E|h w e w1 E|h w h1 w1 l r w2 E P IH|h w x h1 w1 l r w2 E P IH]; intros R k w4 l2 g2 w5 O N Q; [|discriminate| |].
    - destruct l2 as [|z l2]; [congruence|]. eapply pu_skip; [|exact Q]. cbn. unfold bind, in_async. rewrite E, O. reflexivity.
    - specialize (IH R _ _ l2 g2 w5 O N Q). destruct (l ++ l2) as [|z l3] eqn:K; [destruct l; [exfalso; apply N; exact K|discriminate]|].
      eapply pu_skip; [|exact IH]. cbn. unfold bind, in_async. rewrite E. reflexivity.
    - eapply pu_yield; [cbn; unfold bind, in_async; rewrite E; reflexivity|]. eapply IH; eassumption.
  Qed.
  Lemma append_demand_pf : forall (other src : iterable W A) w l,
    (forall g1 w1, l <> [] -> pulls src w l g1 w1 -> exists g2, pulled (append other src) w l g2 w1) /\
    (forall w1 l2 g1 w2, iterates src w l (Ret tt) w1 -> l2 <> [] -> pulls other w1 l2 g1 w2 -> exists g2, pulled (append other src) w (l ++ l2) g2 w2).
  Proof.
    intros other src w l. split.
    - intros g1 w1 N (g & w0 & O & P). eexists. destruct l as [|x l]; [congruence|].
      eapply pu_skip; [cbn; unfold bind, in_async; rewrite O; reflexivity|]. apply append_loop_pulled, P.
    - intros w1 l2 g1 w2 [(g & w0 & O & P)|(e & _ & _ & R)] N (h & w3 & O2 & P2); [|discriminate]. eexists.
      destruct (l ++ l2) as [|z k] eqn:K; [destruct l; [exfalso; apply N; exact K|discriminate]|].
      eapply pu_skip; [cbn; unfold bind, in_async; rewrite O; reflexivity|]. rewrite <- K. eapply append_loop_next; [exact P|reflexivity|exact O2|exact N|apply append_loop_pulled, P2].
  Qed.
End Demand2.

Section Demand3.
  Context {W A B S : Type}.
  Definition turn_of (p : S * list B) : turn S B := match snd p with [] => Drop (fst p) | y :: _ => Give y (fst p) end.
  Lemma each_step : forall (body : S -> A -> M W (turn S B)) s g w x g1 w1, pulled g w [x] g1 w1 -> forall t w2, body s x w1 = (Ret t, w2) ->
    forall l g2 w3, l <> [] -> pulled (Gen (ret match t with Give y s1 => Yield y (each body s1 g1) | Drop s1 => Skip (each body s1 g1) | Leave => Stop end)) w2 l g2 w3 ->
    pulled (each body s g) w l g2 w3.
  Proof.
    intros body s g w x g1 w1 P. remember [x] as k eqn:K. revert K.
    induction P as [g w|g w g1 w1 y k g2 w2 E P IH|g w y g1 w1 k g2 w2 E P IH]; intros K t u F l g3 w4 N Q; [discriminate| |].
    - destruct l as [|z l]; [congruence|]. eapply pu_skip; [cbn; unfold bind, in_async; rewrite E; reflexivity|]. apply (IH K _ _ F); [discriminate|exact Q].
    - injection K as -> ->. inversion P; subst. destruct l as [|z l]; [congruence|].
      destruct t as [v s1|s1|]; inversion Q as [|? ? ? ? ? ? ? ? E1 Q1|? ? ? ? ? ? ? ? E1 Q1]; subst; cbn in E1; try discriminate E1; injection E1 as <- <-.
      + subst. eapply pu_yield; [|exact Q1]. cbn. unfold bind, in_async. rewrite E, F. reflexivity.
      + eapply pu_skip; [|exact Q1]. cbn. unfold bind, in_async. rewrite E, F. reflexivity.
  Qed.
  Lemma each_batches : forall (body : S -> A -> M W (turn S B)) f,
    (forall s x w s1 ys w1, f s x w = (Ret (s1, ys), w1) -> body s x w = (Ret (turn_of (s1, ys)), w1) /\ List.length ys <= 1) ->
    forall s g w l w1, batch_pulls f s g w l w1 -> l <> [] /\ exists g2, pulled (each body s g) w l g2 w1.
  Proof.
    intros body f H. induction 1 as [s g w x g1 w1 s1 ys w2 P F N|s g w x g1 w1 s1 ys w2 l w3 P F C (N & g2 & Q)]; destruct (H _ _ _ _ _ _ F) as [E L].
    - split; [exact N|]. destruct ys as [|y [|z ys]]; [congruence| |cbn in L; lia]. eexists. eapply each_step; [exact P|exact E|discriminate|].
      cbn. eapply pu_yield; [reflexivity|apply pu_none].
    - split; [destruct ys; [exact N|discriminate]|]. exists g2. eapply each_step; [exact P|exact E|destruct ys; [exact N|discriminate]|].
      destruct ys as [|y [|z ys]]; [| |cbn in L; lia]; cbn.
      + destruct l as [|z l]; [congruence|]. eapply pu_skip; [reflexivity|exact Q].
      + eapply pu_yield; [reflexivity|exact Q].
  Qed.
  Lemma async_for_batches : forall (body : S -> A -> M W (turn S B)) f,
    (forall s x w s1 ys w1, f s x w = (Ret (s1, ys), w1) -> body s x w = (Ret (turn_of (s1, ys)), w1) /\ List.length ys <= 1) ->
    forall s (src : iterable W A) w g w0 l w1, src w = (Ret g, w0) -> batch_pulls f s g w0 l w1 -> exists g2, pulled (async_for body s src) w l g2 w1.
  Proof.
    intros body f H s src w g w0 l w1 O C. destruct (each_batches body f H _ _ _ _ _ C) as (N & g2 & P). exists g2. destruct l as [|x l]; [congruence|].
    eapply pu_skip; [|exact P]. cbn. unfold bind, in_async. rewrite O. reflexivity.
  Qed.
End Demand3.
Lemma batch_demand_pf : forall W A B S (src : iterable W A) w g w0, src w = (Ret g, w0) ->
  (forall (f : A -> M W B) l w1, batch_pulls (fun (_ : unit) x => do y <- f x; ret (tt, [y])) tt g w0 l w1 -> exists g2, pulled (map f src) w l g2 w1) /\
  (forall (p : A -> M W bool) l w1, batch_pulls (fun (_ : unit) x => do b <- p x; ret (tt, if b : bool then [x] else [])) tt g w0 l w1 -> exists g2, pulled (filter p src) w l g2 w1) /\
  (forall (f : A -> M W (option B)) l w1, batch_pulls (fun (_ : unit) x => do o <- f x; ret (tt, match o with Some y => [y] | None => [] end)) tt g w0 l w1 -> exists g2, pulled (choose f src) w l g2 w1) /\
  (forall (f : S -> A -> M W S) s l w1, batch_pulls (fun s x => do s1 <- f s x; ret (s1, [s1])) s g w0 l w1 -> exists g2, pulled (scan f s src) w (s :: l) g2 w1).
Proof.
  intros W A B S src w g w0 O. split; [|split; [|split]].
  - intros f l w1 C. eapply async_for_batches; [|exact O|exact C]. intros s x u s1 ys u1. unfold bind. destruct (f x u) as [[y|e] u2]; [|discriminate]. cbn. intros [= <- <- <-]. split; [reflexivity|cbn; lia].
  - intros f l w1 C. eapply async_for_batches; [|exact O|exact C]. intros s x u s1 ys u1. unfold bind. destruct (f x u) as [[[]|e] u2]; [| |discriminate]; cbn; intros [= <- <- <-]; (split; [reflexivity|cbn; lia]).
  - intros f l w1 C. eapply async_for_batches; [|exact O|exact C]. intros s x u s1 ys u1. unfold bind. destruct (f x u) as [[[y|]|e] u2]; [| |discriminate]; cbn; intros [= <- <- <-]; (split; [reflexivity|cbn; lia]).
  - intros f s l w1 C. assert (X : exists g2, pulled (async_for (fun s x => do s1 <- f s x; ret (Give s1 s1)) s src) w l g2 w1); [|destruct X as (g2 & P); exists g2; eapply pu_yield; [reflexivity|exact P]].
    eapply async_for_batches; [|exact O|exact C]. intros s0 x u s1 ys u1. unfold bind. destruct (f s0 x u) as [[y|e] u2]; [|discriminate]. cbn. intros [= <- <- <-]. split; [reflexivity|cbn; lia].
Qed.
