(** Property theorems C72, C80-C82 (AsyncSeq). *)
From Coq Require Import List ZArith Bool Lia.
From Verif.Model Require Import Base PyList Gen AsyncSeq.
From Verif.Model Require Block.
From Verif.Spec Require Import ListM AsyncSeqSpec.
From Verif.Proofs Require Import SeqFacts SeqFacts2 SeqFacts3 BlockFacts AsyncSeqFacts AsyncSeqFacts2 AsyncSeqFacts3.
Import ListNotations.
Local Open Scope py_scope.

(** C72, pure callbacks over any async source, which may have effects and may raise: the
    result hands out the elements of the list function, then ends the way the source
    ends (a StopIteration is seen as a RuntimeError), with the effects of the source:
    each element was awaited once. *)
Theorem C72_lists : forall W A B S (src : iterable W A) w l r w1, iterates src w l r w1 ->
  (forall F : A -> B, produces (map (fun x => ret (F x)) src) w (List.map F l) (leaving r) w1) /\
  (forall P : A -> bool, produces (filter (fun x => ret (P x)) src) w (List.filter P l) (leaving r) w1) /\
  (forall F : A -> option B, produces (choose (fun x => ret (F x)) src) w (flat_map (fun x => match F x with Some y => [y] | None => [] end) l) (leaving r) w1) /\
  (forall F : A -> list B, produces (collect (fun x => ret (of_list (F x))) src) w (flat_map F l) (leaving r) w1) /\
  (forall (F : S -> A -> S) s, produces (scan (fun s x => ret (F s x)) s src) w (s :: scan_list F s l) (leaving r) w1) /\
  (forall n, produces (skip n src) w (skipn (Z.to_nat n) l) (leaving r) w1) /\
  produces (tail src) w (tl l) (leaving r) w1 /\
  (forall n, (Z.of_nat (List.length l) <= n)%Z -> produces (take n src) w l (leaving r) w1).
Proof.
  intros W A B S src w l r w1 I. repeat split; intros.
  - now apply map_pf.
  - now apply filter_pf.
  - now apply choose_pf.
  - now apply collect_list_pf.
  - now apply scan_pf.
  - now apply skip_pf.
  - now apply tail_pf.
  - now apply take_short_pf.
Qed.
Print Assumptions C72_lists.
(** A source with more elements than asked for, which may be infinite. *)
Theorem C72_take : forall W A n (src : iterable W A) w l x g1 w1, Z.of_nat (List.length l) = Z.max 0 n ->
  pulls src w (l ++ [x]) g1 w1 -> produces (take n src) w l (Ret tt) w1.
Proof. exact (fun W A => @take_long_pf W A). Qed.
Print Assumptions C72_take.
Theorem C72_append : forall W A (src other : iterable W A) w l r w1, iterates_all [src; other] w l r w1 ->
  produces (append other src) w l (leaving r) w1.
Proof. exact (fun W A src other => @append_pf W A other src). Qed.
Print Assumptions C72_append.
(** Callbacks with effects that may raise: for each element in turn, the source's effect,
    then the callback's; nothing after an exception.  [no_stop]: awaiting an element never
    raises StopIteration, a coroutine cannot. *)
Theorem C72_effects : forall W A B S (ms : list (M W A)) w, Forall no_stop ms ->
  (forall f : A -> M W B, let '(l, r, w1) := emit (List.map (fun m => do x <- m; do y <- f x; ret [y]) ms) w in
    produces (map f (of_script ms)) w l (leaving r) w1) /\
  (forall p : A -> M W bool, let '(l, r, w1) := emit (List.map (fun m => do x <- m; do b <- p x; ret (if b : bool then [x] else [])) ms) w in
    produces (filter p (of_script ms)) w l (leaving r) w1) /\
  (forall f : A -> M W (option B), let '(l, r, w1) := emit (List.map (fun m => do x <- m; do o <- f x; ret (match o with Some y => [y] | None => [] end)) ms) w in
    produces (choose f (of_script ms)) w l (leaving r) w1) /\
  (forall (f : S -> A -> M W S) s, let '(l, r, w1) := scan_emit f s ms w in produces (scan f s (of_script ms)) w (s :: l) (leaving r) w1).
Proof.
  intros W A B S ms w N. repeat split; intros.
  - now apply map_effects.
  - now apply filter_effects.
  - now apply choose_effects.
  - now apply scan_effects.
Qed.
Print Assumptions C72_effects.
Theorem C72_collect : forall W A B (f : A -> M W (iterable W B)) ms w l r w1, collects f ms w l r w1 -> Forall no_stop ms ->
  produces (collect f (of_script ms)) w l (leaving r) w1.
Proof. exact (fun W A B => @collect_pf W A B). Qed.
Print Assumptions C72_collect.
Theorem C72_concat : forall W A (ms : list (M W (iterable W A))) w l r w1, collects (fun it => ret it) ms w l r w1 -> Forall no_stop ms ->
  produces (concat (of_script ms)) w l (leaving r) w1.
Proof. exact (fun W A => @collect_pf W (iterable W A) A (fun it => ret it)). Qed.
Print Assumptions C72_concat.
(** fold and fold_back with any callbacks; a list is reached from its end. *)
Theorem C72_fold : forall W A S (f : S -> A -> M W S) s ms fuel, Forall no_stop ms -> List.length ms < fuel ->
  fold fuel f s (of_script ms) ==m outside (foldM (fun s m => do x <- m; f s x) s ms).
Proof. exact (fun W A S => @fold_script_pf W A S). Qed.
Print Assumptions C72_fold.
Theorem C72_fold_back : forall W A S (f : A -> S -> M W S) s (src : iterable W A) w l r w1, iterates src w l r w1 ->
  exists n, forall fuel, n <= fuel ->
    fold_back fuel f s src w = match r with Ret _ => outside (foldM (fun s x => f x s) s (rev l)) w1 | Raise e => (leaving (Raise e), w1) end.
Proof. exact (fun W A S => @fold_back_pf W A S). Qed.
Print Assumptions C72_fold_back.
Theorem C72_totals : forall W A S (src : iterable W A) w l r w1, iterates src w l r w1 ->
  (forall (F : S -> A -> S) s, exists n, forall fuel, n <= fuel -> fold fuel (fun s x => ret (F s x)) s src w = (leaving (rmap (fun _ => fold_left F l s) r), w1)) /\
  (exists n, forall fuel, n <= fuel -> length fuel src w = (leaving (rmap (fun _ => Z.of_nat (List.length l)) r), w1)) /\
  (forall zero add, exists n, forall fuel, n <= fuel -> sum fuel zero (fun x y => ret (add x y)) src w = (leaving (rmap (fun _ => fold_left add l zero) r), w1)).
Proof.
  intros W A S src w l r w1 I. repeat split; intros.
  - now apply fold_pf.
  - now apply length_pf.
  - now apply sum_pf.
Qed.
Print Assumptions C72_totals.
(** max and min: the first of the best; ValueError without elements. *)
Theorem C72_best : forall W A (better : A -> A -> bool), strict_weak better -> forall (src : iterable W A) w l w1, iterates src w l (Ret tt) w1 ->
  exists n, forall fuel, n <= fuel ->
    (l = [] -> best fuel better src w = (Raise ValueError, w1)) /\
    (l <> [] -> exists m, best fuel better src w = (Ret m, w1) /\ first_best better l m).
Proof. exact (fun W A => @best_pf W A). Qed.
Print Assumptions C72_best.
(** head awaits one element. *)
Theorem C72_head : forall W A (src : iterable W A) w,
  (forall x g1 w1, pulls src w [x] g1 w1 -> exists n, forall fuel, n <= fuel -> head fuel src w = (Ret x, w1)) /\
  (forall r w1, iterates src w [] r w1 -> exists n, forall fuel, n <= fuel ->
     head fuel src w = (match r with Ret _ => Raise ValueError | Raise e => leaving (Raise e) end, w1)).
Proof. intros W A src w. split; intros; [eapply head_pf|apply head_empty_pf]; eauto. Qed.
Print Assumptions C72_head.
Theorem C72_range : forall W start stop step (w : W), step <> 0%Z ->
  exists l, produces (range start stop step) w l (Ret tt) w /\
    (forall i x, nth_error l i = Some x -> x = (start + Z.of_nat i * step)%Z) /\
    (forall x, In x l <-> exists i, (0 <= i /\ x = start + i * step /\ if Z.ltb 0 step then x < stop else stop < x)%Z).
Proof.
  intros W start stop step w N. destruct (range_pf start stop step N) as (l & E & H). exists l. split; [|exact H].
  unfold Block.range in E. unfold range. eapply pr_skip; [cbn; rewrite E; reflexivity|]. apply list_gen_produces.
Qed.
Print Assumptions C72_range.
(** empty ends at once; repeat gives its value [times] times, none for a negative count,
    and none at all without a count. *)
Theorem C72_sources : forall W A (w : W) (x : A),
  produces empty w ([] : list A) (Ret tt) w /\
  (forall n, produces (repeat x (Some (Z.of_nat n))) w (List.repeat x n) (Ret tt) w) /\
  (forall n, (n < 0)%Z -> produces (repeat x (Some n)) w [] (Ret tt) w) /\
  produces (repeat x None) w [] (Ret tt) w.
Proof.
  intros W A w x. repeat split.
  - apply list_gen_produces.
  - intros n. unfold repeat. rewrite Nat2Z.id. apply list_gen_produces.
  - intros n N. unfold repeat. replace (Z.to_nat n) with 0 by lia. apply list_gen_produces.
  - apply list_gen_produces.
Qed.
Print Assumptions C72_sources.
Example C72_example :
  iterates (of_script [ret 1; (fun w => (Ret 2, S w)); ret 3]) 0 [1; 2; 3] (Ret tt) 1 /\
  produces (map (fun x => ret (x * 10)) (of_script [ret 1; (fun w => (Ret 2, S w)); ret 3])) 0 [10; 20; 30] (Ret tt) 1 /\
  produces (take 2 (of_list [1; 2; 3])) tt [1; 2] (Ret tt) tt /\
  produces (map (fun x => if Nat.eqb x 2 then raise StopIterationExn else ret x) (of_list [1; 2; 3])) tt [1] (Raise RuntimeError) tt /\
  produces (concat (of_script [ret (of_list [1]); ret (of_list []); ret (of_list [2; 3])])) tt [1; 2; 3] (Ret tt) tt /\
  fst (fold 9 (fun s x => ret (s - x)%Z) 10%Z (of_list [1; 2]%Z) tt) = Ret 7%Z /\
  fst (fold_back 9 (fun x s => ret (x - s)%Z) 10%Z (of_list [1; 2]%Z) tt) = Ret 9%Z /\
  fst (best 9 (fun x y => Nat.ltb y x) (of_list [1; 3; 2]) tt) = Ret 3 /\
  produces (range 5 0 (-2)) tt [5; 3; 1]%Z (Ret tt) tt.
Proof.
  repeat split; try (left; eexists _, _; split; [reflexivity|]);
    repeat first [apply pr_stop; reflexivity|apply pr_raise; reflexivity|eapply pr_yield; [reflexivity|]|eapply pr_skip; [reflexivity|]].
Qed.

(** C80.  What was awaited when an element has been handed out. *)
Theorem C80_on_demand_partial : forall W A B S (src : iterable W A) w g1 w1,
  (forall (F : A -> B) l, l <> [] -> pulls src w l g1 w1 -> exists g2, pulled (map (fun x => ret (F x)) src) w (List.map F l) g2 w1) /\
  (forall (Q : A -> bool) l x, Q x = true -> pulls src w (l ++ [x]) g1 w1 -> exists g2, pulled (filter (fun x => ret (Q x)) src) w (List.filter Q l ++ [x]) g2 w1) /\
  (forall (F : A -> option B) l x y, F x = Some y -> pulls src w (l ++ [x]) g1 w1 ->
     exists g2, pulled (choose (fun x => ret (F x)) src) w (flat_map (fun x => match F x with Some y => [y] | None => [] end) l ++ [y]) g2 w1) /\
  (forall (F : S -> A -> S) s l, l <> [] -> pulls src w l g1 w1 -> exists g2, pulled (scan (fun s x => ret (F s x)) s src) w (s :: scan_list F s l) g2 w1) /\
  (forall n l, (n < Z.of_nat (List.length l))%Z -> l <> [] -> pulls src w l g1 w1 -> exists g2, pulled (skip n src) w (skipn (Z.to_nat n) l) g2 w1) /\
  (forall n l, (Z.of_nat (List.length l) <= n)%Z -> l <> [] -> pulls src w l g1 w1 -> exists g2, pulled (take n src) w l g2 w1).
Proof.
  intros W A B S src w g1 w1. repeat split; intros.
  - now apply map_demand with g1.
  - now apply filter_demand with g1.
  - now apply choose_demand with x g1.
  - now apply scan_demand with g1.
  - now apply skip_demand with g1.
  - now apply take_demand with g1.
Qed.
Print Assumptions C80_on_demand_partial.
(** Creating any of them does nothing at all; scan hands out its state before it opens
    its source. *)
Theorem C80_scan_first_partial : forall W A S (f : S -> A -> M W S) s (src : iterable W A) w, exists g, pulled (scan f s src) w [s] g w.
Proof. intros. eexists. eapply pu_yield; [reflexivity|apply pu_none]. Qed.
Print Assumptions C80_scan_first_partial.
(** with callbacks that have effects: the source is taken element by element, the callback
    awaited in between *)
Theorem C80_effects_partial : forall W A B S (src : iterable W A) w g w0, src w = (Ret g, w0) ->
  (forall (f : A -> M W B) l w1, batch_pulls (fun (_ : unit) x => do y <- f x; ret (tt, [y])) tt g w0 l w1 -> exists g2, pulled (map f src) w l g2 w1) /\
  (forall (p : A -> M W bool) l w1, batch_pulls (fun (_ : unit) x => do b <- p x; ret (tt, if b : bool then [x] else [])) tt g w0 l w1 -> exists g2, pulled (filter p src) w l g2 w1) /\
  (forall (f : A -> M W (option B)) l w1, batch_pulls (fun (_ : unit) x => do o <- f x; ret (tt, match o with Some y => [y] | None => [] end)) tt g w0 l w1 -> exists g2, pulled (choose f src) w l g2 w1) /\
  (forall (f : S -> A -> M W S) s l w1, batch_pulls (fun s x => do s1 <- f s x; ret (s1, [s1])) s g w0 l w1 -> exists g2, pulled (scan f s src) w (s :: l) g2 w1).
Proof. exact batch_demand_pf. Qed.
Print Assumptions C80_effects_partial.
(** The source gives and increments the number, the callback doubles it; the second
    element, which raises, is not awaited. *)
Example C80_effects_case : exists g, pulled (map (fun x n => (Ret (x + n), n * 2)) (of_script [(fun n => (Ret n, S n)); raise KeyError])) 3 [7] g 8.
Proof.
  refine (proj1 (C80_effects_partial nat nat nat unit _ 3 _ 3 eq_refl) _ [7] 8 _). eapply bp_last; [eapply pu_yield; [reflexivity|apply pu_none]|reflexivity|discriminate].
Qed.
(** collect and concat take an element of the source only when the sequence of the one
    before it has ended, and take no more of a sequence than is handed out; the callback,
    the source and the sequences may have any effects. *)
Theorem C80_collect_partial : forall W A B (f : A -> M W (iterable W B)) (src : iterable W A) w g w1 l w2,
  src w = (Ret g, w1) -> collect_pulls f g w1 l w2 -> exists g2, pulled (collect f src) w l g2 w2.
Proof. exact (fun W A B => @collect_demand_pf W A B). Qed.
Print Assumptions C80_collect_partial.
(** append does not open the second sequence before the first has ended. *)
Theorem C80_append_partial : forall W A (other src : iterable W A) w l,
  (forall g1 w1, l <> [] -> pulls src w l g1 w1 -> exists g2, pulled (append other src) w l g2 w1) /\
  (forall w1 l2 g1 w2, iterates src w l (Ret tt) w1 -> l2 <> [] -> pulls other w1 l2 g1 w2 -> exists g2, pulled (append other src) w (l ++ l2) g2 w2).
Proof. exact (fun W A => @append_demand_pf W A). Qed.
Print Assumptions C80_append_partial.
(** The second element of the source, which raises, is not awaited for the elements of
    the first, nor is the sequence appended. *)
Example C80_collect_case :
  (exists g, pulled (collect (fun x (n : nat) => (Ret (of_list [x; x]), n + 10)) (of_script [(fun n => (Ret n, S n)); raise KeyError])) 3 [3; 3] g 14) /\
  (exists g, pulled (append (of_script [raise KeyError]) (of_script [fun n : nat => (Ret n, S n)])) 3 [3] g 4).
Proof.
  split.
  - eapply C80_collect_partial; [reflexivity|]. eapply cp_last.
    + eapply pu_yield; [reflexivity|apply pu_none].
    + reflexivity.
    + discriminate.
    + eexists _, _. split; [reflexivity|]. eapply pu_yield; [reflexivity|]. eapply pu_yield; [reflexivity|apply pu_none].
  - eapply C80_append_partial; [discriminate|]. eexists _, _. split; [reflexivity|]. eapply pu_yield; [reflexivity|apply pu_none].
Qed.
(** take: to end, it awaits one element more than it hands out, also for take(0), and
    loses it. *)
Theorem C80_take_loses_refuted : forall W A (l : list A) x (g g1 : gen W A) w w1, pulled g w (l ++ [x]) g1 w1 ->
  produces (take (Z.of_nat (List.length l)) shared) (Some g, w) l (Ret tt) (Some g1, w1).
Proof.
  intros W A l x g g1 w w1 P. eapply take_long_pf; [lia|]. exists shared_gen, (Some g, w). split; [reflexivity|]. apply shared_pulled, P.
Qed.
Print Assumptions C80_take_loses_refuted.
(** So it never ends when that element never comes. *)
CoFixpoint never {W A} : gen W A := Gen (ret (Skip never)).
Definition one_then_never {W A} (x : A) : iterable W A := ret (Gen (ret (Yield x never))).
Lemma each_never : forall W A B S (body : S -> A -> M W (turn S B)) s w l r w1, ~ produces (each body s never) w l r w1.
Proof.
  intros W A B S body s w l r w1 P. remember (each body s never) as g eqn:E. induction P as [g w w1 T|g w e w1 T|g w g1 w1 l r w2 T P IH|g w x g1 w1 l r w2 T P IH]; subst g; cbn in T; try discriminate.
  injection T as <- <-. apply IH. reflexivity.
Qed.
Theorem C80_take_waits_refuted : forall W A (x : A) (w : W),
  pulls (one_then_never x) w [x] never w /\ forall l r w1, ~ produces (take 1 (one_then_never x)) w l r w1.
Proof.
  intros W A x w. split.
  - eexists _, _. split; [reflexivity|]. eapply pu_yield; [reflexivity|apply pu_none].
  - intros l r w1 P.
    inversion P as [? ? ? T|? ? ? ? T|? ? g1 w2 ? ? ? T P1|? ? ? g1 w2 ? ? ? T P1]; subst; cbn in T; try discriminate. injection T as <- <-.
    inversion P1 as [? ? ? T|? ? ? ? T|? ? g1 w2 ? ? ? T P2|? ? ? g1 w2 ? ? ? T P2]; subst; cbn in T; try discriminate. injection T as <- <- <-.
    exact (each_never _ _ _ _ _ _ _ _ _ _ P2).
Qed.
Print Assumptions C80_take_waits_refuted.
Example C80_example :
  produces (take 2 shared) (Some (list_gen [1; 2; 3; 4]), tt) [1; 2] (Ret tt) (Some (list_gen [4]), tt) /\
  (exists g, pulled (filter (fun x => ret (Nat.even x)) shared) (Some (list_gen [1; 2; 3; 4]), tt) [2] g (Some (list_gen [3; 4]), tt)).
Proof.
  split.
  - apply (C80_take_loses_refuted _ _ [1; 2] 3). repeat (eapply pu_yield; [reflexivity|]). apply pu_none.
  - apply (filter_demand Nat.even shared (Some (list_gen [1; 2; 3; 4]), tt) [1] 2 shared_gen); [reflexivity|]. eexists _, _. split; [reflexivity|]. repeat (eapply pu_yield; [reflexivity|]). apply pu_none.
Qed.

(** C81: what an operation gives is one generator object; a second [async for] over it
    continues where the first one ended. *)
Theorem C81_again_refuted : forall W A B (F : A -> B) (src : iterable W A) w l w1, iterates src w l (Ret tt) w1 ->
  iterated shared 2 (Some (map (fun x => ret (F x)) src), w) [List.map F l; []] (None, w1).
Proof. intros W A B F src w l w1 I. apply shared_twice. exact (map_pf F src w l _ w1 I). Qed.
Print Assumptions C81_again_refuted.
Theorem C81_range_again_refuted : forall W start stop step (w : W) l, py_range start stop step = Ret l ->
  iterated shared 2 (Some (range start stop step), w) [l; []] (None, w).
Proof. intros W start stop step w l E. apply shared_twice. eapply pr_skip; [cbn; rewrite E; reflexivity|]. apply list_gen_produces. Qed.
Print Assumptions C81_range_again_refuted.
(** An operation applied anew to a source that can be iterated again gives the same
    elements every time. *)
Theorem C81_anew_partial : forall W A B S (I : W -> Prop) (src : iterable W A) l, reiterable I src l -> forall w, I w ->
  exists w1, I w1 /\
    (forall F : A -> B, produces (map (fun x => ret (F x)) src) w (List.map F l) (Ret tt) w1) /\
    (forall P : A -> bool, produces (filter (fun x => ret (P x)) src) w (List.filter P l) (Ret tt) w1) /\
    (forall F : A -> option B, produces (choose (fun x => ret (F x)) src) w (flat_map (fun x => match F x with Some y => [y] | None => [] end) l) (Ret tt) w1) /\
    (forall F : A -> list B, produces (collect (fun x => ret (of_list (F x))) src) w (flat_map F l) (Ret tt) w1) /\
    (forall (F : S -> A -> S) s, produces (scan (fun s x => ret (F s x)) s src) w (s :: scan_list F s l) (Ret tt) w1) /\
    (forall n, produces (skip n src) w (skipn (Z.to_nat n) l) (Ret tt) w1).
Proof.
  intros W A B S I src l R w Iw. destruct (reiterable_iterated I src l R 1 w Iw) as (w1 & T & I1). exists w1. split; [exact I1|].
  inversion T as [|? ? ? w2 ? ? H T2]; subst. inversion T2; subst. destruct (C72_lists W A B S src w l (Ret tt) w1 H) as (H1 & H2 & H3 & H4 & H5 & H6 & _). auto 7.
Qed.
Print Assumptions C81_anew_partial.
Example C81_example : iterated shared 2 (Some (map (fun x => ret (x + 1)) (of_list [1; 2])), tt) [[2; 3]; []] (None, tt).
Proof. apply (C81_again_refuted unit nat nat (fun x => x + 1) (of_list [1; 2]) tt [1; 2] tt). left. eexists _, _. split; [reflexivity|apply list_gen_produces]. Qed.

(** C82: repeat without a count yields nothing; with a count, that many. *)
Theorem C82_endless_refuted : forall W A (v : A) (w : W), produces (repeat v None) w [] (Ret tt) w.
Proof. intros. exact (list_gen_produces [] w). Qed.
Print Assumptions C82_endless_refuted.
Theorem C82_count_partial : forall W A (v : A) n (w : W), exists l, produces (repeat v (Some n)) w l (Ret tt) w /\
  Z.of_nat (List.length l) = Z.max 0 n /\ forall x, In x l -> x = v.
Proof.
  intros W A v n w. exists (List.repeat v (Z.to_nat n)). repeat split.
  - exact (list_gen_produces _ w).
  - rewrite repeat_length. lia.
  - intros x. apply repeat_spec.
Qed.
Print Assumptions C82_count_partial.
Example C82_example : produces (repeat 7 (Some 3%Z)) tt [7; 7; 7] (Ret tt) tt.
Proof. exact (list_gen_produces [7; 7; 7] tt). Qed.
