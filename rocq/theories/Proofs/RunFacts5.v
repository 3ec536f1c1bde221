(** Lemmas about loops over any iterator: callbacks that raise, and lists of results. *)
From Coq Require Import List ZArith Bool Lia.
From Verif.Model Require Import Base Gen OptionResult Seq.
From Verif.Spec Require Import RunSpec.
From Verif.Proofs Require Import SeqFacts SeqFacts3 RunFacts RunFacts2 RunFacts3.
Import ListNotations.
Local Open Scope py_scope.

Lemma fails_runs : forall W A B C S (f : S -> A -> M W (S * B)) (b : S -> A -> M W (S * list C)) (k : A -> B -> list C) e e',
  (forall s x w s1 y w1, f s x w = (Ret (s1, y), w1) -> b s x w = (Ret (s1, k x y), w1)) ->
  (forall s x w w1, f s x w = (Raise e, w1) -> b s x w = (Raise e', w1)) ->
  forall s g w l w1, fails f s g w l e w1 -> runs b s g w (flat_map (fun p => k (fst p) (snd p)) l) (Raise e') w1.
Proof.
  intros W A B C S f b k e e' H1 H2 s g w l w1 F. revert H2. induction F as [s g w x g1 w1 e w2 P E|s g w x g1 w1 s1 y w2 l e w3 P E F IH]; intros H2.
  - eapply ru_raise; [exact P|]. now apply H2.
  - cbn [flat_map fst snd]. eapply ru_next; [exact P|eapply H1; exact E|now apply IH].
Qed.
Lemma fails_folds : forall W A B S T (st : T -> S) (f : T -> A -> M W (T * B)) (b : S -> A -> M W S) e e',
  (forall s x w s1 y w1, f s x w = (Ret (s1, y), w1) -> b (st s) x w = (Ret (st s1), w1)) ->
  (forall s x w w1, f s x w = (Raise e, w1) -> b (st s) x w = (Raise e', w1)) ->
  forall s g w l w1, fails f s g w l e w1 -> folds b (st s) g w (Raise e') w1.
Proof.
  intros W A B S T st f b e e' H1 H2 s g w l w1 F. revert H2. induction F as [s g w x g1 w1 e w2 P E|s g w x g1 w1 s1 y w2 l e w3 P E F IH]; intros H2.
  - eapply fo_raise; [exact P|]. now apply H2.
  - eapply fo_next; [exact P|eapply H1; exact E|now apply IH].
Qed.
Lemma fails_searches : forall W A B (f : A -> M W B) C (b : Z -> A -> M W (option C)) (miss : B -> Prop) e,
  (forall i x w y w1, f x w = (Ret y, w1) -> miss y -> b i x w = (Ret None, w1)) ->
  (forall i x w w1, f x w = (Raise e, w1) -> b i x w = (Raise e, w1)) ->
  forall s g w l w1, fails (fun _ x => do y <- f x; ret (tt, y)) s g w l e w1 -> Forall (fun p => miss (snd p)) l ->
  forall i, searches b i g w (Raise e) w1.
Proof.
  intros W A B f C b miss e H1 H2 s g w l w1 F. revert H2. induction F as [s g w x g1 w1 e w2 P E|s g w x g1 w1 s1 y w2 l e w3 P E F IH]; intros H2 M i.
  - unfold bind in E. destruct (f x w1) as [[y|e0] w3] eqn:Ef; [discriminate|]. injection E as -> ->.
    eapply se_raise; [exact P|]. now apply H2.
  - unfold bind in E. destruct (f x w1) as [[y0|e0] w4] eqn:Ef; [|discriminate]. injection E as <- -> ->. inversion M; subst.
    eapply se_next; [exact P|eapply H1; eassumption|now apply IH].
Qed.
Lemma fails_sum : forall W A B (f : A -> M W B) zero (add : B -> B -> B) e, e <> StopIterationExn ->
  forall s g w l w1, fails (fun _ x => do y <- f x; ret (tt, y)) s g w l e w1 ->
  folds (fun s x => do y <- outside (f x); ret (add s y)) zero g w (Raise e) w1.
Proof.
  intros W A B f zero add e N s g w l w1 F. revert zero. induction F as [s g w x g1 w1 e w2 P E|s g w x g1 w1 s1 y w2 l e w3 P E F IH]; intros zero.
  - unfold bind in E. destruct (f x w1) as [[y|e0] w3] eqn:Ef; [discriminate|]. injection E as -> ->.
    eapply fo_raise; [exact P|]. unfold bind, outside. rewrite Ef. destruct e; try reflexivity. now contradiction N.
  - unfold bind in E. destruct (f x w1) as [[y0|e0] w4] eqn:Ef; [|discriminate]. injection E as <- -> ->.
    eapply fo_next; [exact P|unfold bind, outside; rewrite Ef; reflexivity|now apply IH].
Qed.

(** Collecting into a list, backwards. *)
Lemma for_list_back : forall W A fuel (g : gen W A) acc w r w1,
  for_gen (R := Empty_set) fuel g acc (fun acc x => ret (inl (acc ++ [x]))) w = (r, w1) -> r <> Raise OutOfFuel ->
  exists l r0, produces g w l r0 w1 /\ r = rmap (fun _ => inl (acc ++ l)) r0.
Proof.
  intros W A. induction fuel as [|fuel IH]; intros g acc w r w1 E N; [injection E as <- <-; now contradiction N|].
  cbn in E. unfold bind in E. destruct (step g w) as [[[x g1|g1|]|e] w0] eqn:Eg.
  - cbn in E. destruct (IH _ _ _ _ _ E N) as (l & r0 & P & ->). exists (x :: l), r0. split; [eapply pr_yield; eassumption|]. now rewrite <- app_assoc.
  - destruct (IH _ _ _ _ _ E N) as (l & r0 & P & ->). exists l, r0. split; [eapply pr_skip; eassumption|reflexivity].
  - injection E as <- <-. exists [], (Ret tt). split; [now apply pr_stop|]. now rewrite app_nil_r.
  - injection E as <- <-. exists [], (Raise e). split; [now apply pr_raise|reflexivity].
Qed.
Lemma to_list_back : forall W A (src : iterable W A) fuel w r w1, to_list fuel src w = (r, w1) -> r <> Raise OutOfFuel ->
  exists l r0, iterates src w l r0 w1 /\ r = rmap (fun _ => l) r0.
Proof.
  intros W A src fuel w r w1 E N. unfold to_list, bind in E. destruct (src w) as [[g|e] w0] eqn:Es.
  - destruct (for_gen fuel g [] (fun acc x => ret (inl (acc ++ [x]))) w0) as [r2 w2] eqn:F.
    assert (N2 : r2 <> Raise OutOfFuel) by (intros ->; injection E as <- <-; now apply N).
    destruct (for_list_back _ _ _ _ _ _ _ _ F N2) as (l & r0 & P & ->). exists l, r0. destruct r0 as [u|e]; injection E as <- <-; split; try reflexivity;
      left; exists g, w0; now split.
  - injection E as <- <-. exists [], (Raise e). split; [right; exists e; now repeat split|reflexivity].
Qed.

Lemma mapi_any : forall W A B (f : Z -> A -> M W B) (src : iterable W A) w g w0, src w = (Ret g, w0) ->
  (forall l r w1, runs (fun i x => do y <- f i x; ret ((i + 1)%Z, [y])) 0%Z g w0 l r w1 ->
     exists n, forall fuel, n <= fuel -> mapi fuel f src w = (rmap (fun _ => l) (ended r), w1)) /\
  (forall fuel r w1, mapi fuel f src w = (r, w1) -> r <> Raise OutOfFuel ->
     exists l r0, runs (fun i x => do y <- f i x; ret ((i + 1)%Z, [y])) 0%Z g w0 l r0 w1 /\ r = rmap (fun _ => l) (ended r0)).
Proof.
  intros W A B f src w g w0 E. split.
  - intros l r w1 R. apply to_list_any. apply (built_iff src (mapi_loop f 0) w g w0 E). apply mapi_loop_iff. exists r. now split.
  - intros fuel r w1 H N. destruct (to_list_back _ _ _ _ _ _ _ H N) as (l & r0 & I & ->).
    apply (built_iff src (mapi_loop f 0) w g w0 E) in I. apply mapi_loop_iff in I. destruct I as (r1 & R & ->). exists l, r1. now split.
Qed.

Lemma scan_any : forall W A S (f : S -> A -> M W S) s (src : iterable W A) w g w0, src w = (Ret g, w0) -> forall l r w1,
  iterates (scan f s src) w l r w1 <->
  exists l1 r0, l = s :: l1 /\ runs (fun s x => do s1 <- f s x; ret (s1, [s1])) s g w0 l1 r0 w1 /\ r = ended r0.
Proof.
  intros W A S f s src w g w0 E l r w1. rewrite (built_iff src (fun g => Gen (ret (Yield s (scan_loop f s g)))) w g w0 E). split.
  - intros P. inversion P as [? ? ? E2|? ? ? ? E2|? ? ? ? ? ? ? E2 P2|? ? ? ? ? ? ? ? E2 P2]; subst; cbn in E2; try discriminate.
    injection E2 as <- <- <-. apply scan_loop_iff in P2. destruct P2 as (r0 & R & ->). eexists _, r0. repeat split. exact R.
  - intros (l1 & r0 & -> & R & ->). eapply pr_yield; [reflexivity|]. apply scan_loop_iff. exists r0. now split.
Qed.

Lemma accumulate_iff : forall W A (f : A -> A -> M W A) g w l r w1,
  produces (accumulate_loop f g) w l r w1 <->
  (l = [] /\ produces g w [] r w1) \/
  exists x g1 w2 l1 r0, l = x :: l1 /\ pulled g w [x] g1 w2 /\ runs (fun s x => do s1 <- f s x; ret (s1, [s1])) x g1 w2 l1 r0 w1 /\ r = ended r0.
Proof.
  intros W A f g w l r w1. split.
  - intros P. remember (accumulate_loop f g) as k eqn:Ek. revert g Ek.
    induction P as [k w w1 E|k w e w1 E|k w k1 w1 l r w2 E P IH|k w x k1 w1 l r w2 E P IH]; intros g ->; cbn in E; unfold bind in E;
      destruct (step g w) as [[[y g0|g0|]|e0] w0] eqn:Eg; cbn in E; try discriminate; try (exfalso; destruct e0; discriminate).
    + injection E as ->. left. split; [reflexivity|now apply pr_stop].
    + pose proof (step_no_stop _ _ _ _ _ _ Eg). destruct e0; try discriminate. congruence.
    + assert (X : e = e0 /\ w1 = w0) by (destruct e0; inversion E; now split). destruct X as [-> ->]. left. split; [reflexivity|now apply pr_raise].
    + injection E as <- <-. destruct (IH _ eq_refl) as [(-> & Q)|(x & g1 & w3 & l1 & r0 & -> & Q & R)].
      * left. split; [reflexivity|eapply pr_skip; eassumption].
      * right. exists x, g1, w3, l1, r0. split; [reflexivity|]. split; [eapply pu_skip; eassumption|exact R].
    + injection E as <- <- <-. right. apply scan_loop_iff in P. destruct P as (r0 & R & ->). exists y, g0, w0, l, r0.
      split; [reflexivity|]. split; [eapply pu_yield; [exact Eg|apply pu_none]|]. now split.
  - intros [(-> & P)|(x & g1 & w2 & l1 & r0 & -> & P & R & ->)].
    + remember [] as nil eqn:En. revert En. induction P as [g w w1 E|g w e w1 E|g w g1 w1 l r w2 E P IH|g w x g1 w1 l r w2 E P IH]; intros En; try discriminate.
      * apply pr_stop. stp.
      * apply pr_raise. stp.
      * eapply pr_skip; [stp|]. now apply IH.
    + remember [x] as one eqn:Eo. revert x Eo R. induction P as [g w|g w g1 w3 y l g2 w4 E P IH|g w y g1 w3 l g2 w4 E P IH]; intros x Eo R; try discriminate.
      * eapply pr_skip; [stp|]. eapply IH; eassumption.
      * injection Eo as -> ->. inversion P; subst. eapply pr_yield; [stp|]. apply scan_loop_iff. exists r0. now split.
Qed.

Lemma inner_ext : forall W A B (f f' : A -> M W (iterable W B)), (forall x w, f x w = f' x w) ->
  forall g w l r w1, runs_inner f g w l r w1 -> runs_inner f' g w l r w1.
Proof.
  intros W A B f f' H. induction 1 as [g w r w1 P|g w x g1 w1 e w2 P E|g w x g1 w1 it w2 l e w3 P E I|g w x g1 w1 it w2 l w3 l2 r w4 P E I R IH].
  - now apply ri_end.
  - rewrite H in E. eapply ri_raise; eassumption.
  - rewrite H in E. eapply ri_inner; eassumption.
  - rewrite H in E. eapply ri_next; eassumption.
Qed.

Section Ops.
  Context {W A B : Type}.
  Variables (src : iterable W A) (w : W) (g : gen W A) (w0 : W).
  Hypothesis E : src w = (Ret g, w0).

  Lemma map_any : forall (f : A -> M W B) l r w1,
    iterates (map f src) w l r w1 <-> runs (fun _ x => do y <- outside (f x); ret (tt, [y])) tt g w0 l r w1.
  Proof using E. intros f l r w1. unfold map. rewrite (opening_iff src (map_loop f) w g w0 E). apply map_loop_iff. Qed.
  Lemma dict_any : forall (f : A -> M W B) l r w1,
    iterates (dict f src) w l r w1 <-> runs (fun _ x => do y <- outside (f x); ret (tt, [y])) tt g w0 l r w1.
  Proof using E. intros f l r w1. unfold dict. rewrite (built_iff src (map_loop f) w g w0 E). apply map_loop_iff. Qed.
  Lemma collect_any : forall (f : A -> M W (iterable W B)) l r w1, iterates (collect f src) w l r w1 <-> runs_inner f g w0 l r w1.
  Proof using E. intros f l r w1. unfold collect. rewrite (opening_iff src _ w g w0 E). apply collect_loop_iff. Qed.
  Lemma collect_lists_any : forall (f : A -> M W (list B)) l r w1,
    iterates (collect (fun x => do ys <- f x; ret (of_list ys)) src) w l r w1 <-> runs (fun _ x => do ys <- outside (f x); ret (tt, ys)) tt g w0 l r w1.
  Proof using E. intros f l r w1. rewrite collect_any. apply inner_lists. Qed.
  Lemma choose_any : forall (f : A -> M W (option B)) l r w1, iterates (choose f src) w l r w1 <->
     runs (fun _ x => do o <- outside (f x); ret (tt, match o with Some y => [y] | None => [] end)) tt g w0 l r w1.
  Proof using E.
    intros f l r w1. unfold choose. rewrite collect_any.
    transitivity (runs_inner (fun x => do ys <- (do o <- f x; ret (opt_to_list o)); ret (of_list ys)) g w0 l r w1).
    - split; apply inner_ext; intros x v; unfold bind; destruct (f x v) as [[]]; reflexivity.
    - rewrite inner_lists. split; apply runs_ext; intros [] x v; unfold bind, outside; destruct (f x v) as [[[]|[]]]; reflexivity.
  Qed.
  Lemma filter_any : forall (p : A -> M W bool) l r w1, iterates (filter p src) w l r w1 <->
    exists r0, runs (fun _ x => do b <- p x; ret (tt, if b : bool then [x] else [])) tt g w0 l r0 w1 /\ r = ended r0.
  Proof using E. intros p l r w1. unfold filter. rewrite (built_iff src (filter_loop p) w g w0 E). apply filter_loop_iff. Qed.
  Lemma scan_none_any : forall (is_none : A -> bool) (f : A -> A -> M W A) none l r w1, is_none none = true ->
    (iterates (scan_value is_none f none src) w l r w1 <->
     (l = [] /\ produces g w0 [] r w1) \/
     exists x g1 w2 l1 r0, l = x :: l1 /\ pulled g w0 [x] g1 w2 /\ runs (fun s x => do s1 <- f s x; ret (s1, [s1])) x g1 w2 l1 r0 w1 /\ r = ended r0).
  Proof using E.
    intros is_none f none l r w1 N. unfold scan_value. rewrite N. rewrite (built_iff src (accumulate_loop f) w g w0 E). apply accumulate_iff.
  Qed.
End Ops.
Lemma zip_any : forall W A B (src : iterable W A) (src2 : iterable W B) w g w0 h w2, src w = (Ret g, w0) -> src2 w0 = (Ret h, w2) -> forall l r w1,
  iterates (zip src src2) w l r w1 <-> runs_both g h w2 l r w1.
Proof.
  intros W A B src src2 w g w0 h w2 E1 E2 l r w1. rewrite (iterates_opened (zip src src2) w (zip_loop None g h) w2); [apply zip_loop_iff|].
  unfold zip, bind. rewrite E1, E2. reflexivity.
Qed.
Lemma seq_collect_any : forall W A B (f : A -> M W (iterable W B)) (src : iterable W A) w g w0 its r w1, src w = (Ret g, w0) ->
  runs (fun _ x => do it <- outside (f x); ret (tt, [it])) tt g w0 its r w1 ->
  exists n, forall fuel, n <= fuel ->
  match r with
  | Ret _ => exists it, seq_collect fuel f src w = (Ret it, w1) /\ forall w2 l r2 w3, iterates_all its w2 l r2 w3 -> iterates it w2 l r2 w3
  | Raise e => seq_collect fuel f src w = (Raise e, w1)
  end.
Proof.
  intros W A B f src w g w0 its r w1 E R. apply (map_any src w g w0 E f) in R. destruct (to_list_any _ _ _ _ _ _ _ R) as [n H]. exists n. intros fuel L.
  unfold seq_collect, seq_concat, bind. rewrite (H fuel L). destruct r as [u|e]; [|reflexivity]. cbn. exists (concat its). split; [reflexivity|]. intros. now apply concat_iterates.
Qed.

(** [best_by] when the projection raises, whatever the comparison. *)
Lemma best_raises : forall W A B (better : B -> B -> bool) (proj : A -> M W B) (src : iterable W A) w g w0 l e w1, src w = (Ret g, w0) ->
  runs (fun _ x => do y <- outside (proj x); ret (tt, [y])) tt g w0 l (Raise e) w1 ->
  exists n, forall fuel, n <= fuel -> best_by fuel better proj src w = (Raise e, w1).
Proof.
  intros W A B better proj src w g w0 l e w1 E R.
  pose (k := fun (s : option B) y => Some match s with None => y | Some m => if better y m then y else m end).
  assert (R' : runs (fun u x => do y <- outside (proj x); ret (u, [y])) tt g w0 l (Raise e) w1).
  { eapply runs_ext; [|exact R]. intros [] x v. reflexivity. }
  destruct (loops_for _ _ _ _ _ _ (for_runs _ _ _ _ (fun x => outside (proj x)) k (option B)
     (fun s x => do y <- in_generator (proj x); ret (inl (k s y))) ltac:(intros s x v; unfold bind, in_generator, outside; destruct (proj x v) as [[y|[]] v1]; reflexivity)
     _ _ _ _ _ _ R' None)) as [n K].
  exists n. intros fuel L. specialize (K fuel L). rewrite best_by_plain. unfold bind at 1. rewrite E. unfold bind at 1.
  change (fun s x => do y <- in_generator (proj x); ret (inl (k s y))) with
      (fun (s : option B) x => do y <- in_generator (proj x); ret (inl (Some match s with None => y | Some m => if better y m then y else m end) : option B + option B)) in K.
  rewrite K. reflexivity.
Qed.

Lemma outside_raise : forall W X (m : M W X) w e w1, e <> StopIterationExn -> m w = (Raise e, w1) -> outside m w = (Raise e, w1).
Proof. intros W X m w e w1 N E. unfold outside. rewrite E. destruct e; try reflexivity. now contradiction N. Qed.
Lemma outside_ret : forall W X (m : M W X) w x w1, m w = (Ret x, w1) -> outside m w = (Ret x, w1).
Proof. intros W X m w x w1 E. unfold outside. rewrite E. reflexivity. Qed.

Lemma flat_map_one : forall X Y (h : X -> Y) l, flat_map (fun p => [h p]) l = List.map h l.
Proof. induction l as [|x l IH]; cbn; [reflexivity|now rewrite IH]. Qed.
Lemma flat_map_filter : forall X (l : list (X * bool)), flat_map (fun p : X * bool => if snd p then [fst p] else []) l = List.map fst (List.filter snd l).
Proof. induction l as [|[x []] l IH]; cbn; [reflexivity|now rewrite IH|exact IH]. Qed.

Lemma fails_callback : forall W A B C (f : A -> M W B) (k : A -> B -> list C) e, e <> StopIterationExn ->
  forall g w l w1, fails (fun _ x => do y <- f x; ret (tt, y)) tt g w l e w1 ->
  runs (fun _ x => do y <- outside (f x); ret (tt, k x y)) tt g w (flat_map (fun p => k (fst p) (snd p)) l) (Raise e) w1 /\
  runs (fun _ x => do y <- f x; ret (tt, k x y)) tt g w (flat_map (fun p => k (fst p) (snd p)) l) (Raise e) w1.
Proof.
  intros W A B C f k e N g w l w1 F. split.
  - eapply fails_runs; [| |exact F].
    + intros s x v s1 y v1 E. unfold bind in *. destruct (f x v) as [[y0|e0] v2] eqn:Ef; [|discriminate]. injection E as <- -> ->.
      rewrite (outside_ret _ _ _ _ _ _ Ef). reflexivity.
    + intros s x v v1 E. unfold bind in *. destruct (f x v) as [[y0|e0] v2] eqn:Ef; [discriminate|]. injection E as -> ->.
      rewrite (outside_raise _ _ _ _ _ _ N Ef). reflexivity.
  - eapply fails_runs; [| |exact F].
    + intros s x v s1 y v1 E. unfold bind in *. destruct (f x v) as [[y0|e0] v2] eqn:Ef; [|discriminate]. injection E as <- -> ->. reflexivity.
    + intros s x v v1 E. unfold bind in *. destruct (f x v) as [[y0|e0] v2] eqn:Ef; [discriminate|]. injection E as -> ->. reflexivity.
Qed.

Lemma fails_any : forall W A B S (src : iterable W A) w g w0 e w1, src w = (Ret g, w0) -> e <> StopIterationExn ->
  (forall (f : A -> M W B) l, fails (fun _ x => do y <- f x; ret (tt, y)) tt g w0 l e w1 -> iterates (map f src) w (List.map snd l) (Raise e) w1) /\
  (forall (p : A -> M W bool) l, fails (fun _ x => do b <- p x; ret (tt, b)) tt g w0 l e w1 ->
     iterates (filter p src) w (List.map fst (List.filter snd l)) (Raise e) w1) /\
  (forall (f : A -> M W (option B)) l, fails (fun _ x => do o <- f x; ret (tt, o)) tt g w0 l e w1 ->
     iterates (choose f src) w (flat_map (fun p => opt_to_list (snd p)) l) (Raise e) w1) /\
  (forall (f : A -> M W (list B)) l, fails (fun _ x => do ys <- f x; ret (tt, ys)) tt g w0 l e w1 ->
     iterates (collect (fun x => do ys <- f x; ret (of_list ys)) src) w (flat_map snd l) (Raise e) w1) /\
  (forall (f : S -> A -> M W S) s l, fails (fun s x => do s1 <- f s x; ret (s1, s1)) s g w0 l e w1 ->
     iterates (scan f s src) w (s :: List.map snd l) (Raise e) w1 /\
     exists n, forall fuel, n <= fuel -> fold fuel f s src w = (Raise e, w1)) /\
  (forall (f : Z -> A -> M W B) l, fails (fun i x => do y <- f i x; ret ((i + 1)%Z, y)) 0%Z g w0 l e w1 ->
     exists n, forall fuel, n <= fuel -> mapi fuel f src w = (Raise e, w1)) /\
  (forall (f : A -> M W unit) l, fails (fun _ x => do y <- f x; ret (tt, y)) tt g w0 l e w1 ->
     exists n, forall fuel, n <= fuel -> iter fuel f src w = (Raise e, w1)) /\
  (forall (f : A -> M W (option B)) l, fails (fun _ x => do o <- f x; ret (tt, o)) tt g w0 l e w1 -> Forall (fun p => snd p = None) l ->
     exists n, forall fuel, n <= fuel -> try_pick fuel f src w = (Raise e, w1)) /\
  (forall (p : A -> M W bool) l, fails (fun _ x => do b <- p x; ret (tt, b)) tt g w0 l e w1 -> Forall (fun p => snd p = false) l ->
     exists n, forall fuel, n <= fuel -> try_find_index fuel p src w = (Raise e, w1)) /\
  (forall (proj : A -> M W B) l, fails (fun _ x => do y <- proj x; ret (tt, y)) tt g w0 l e w1 ->
     (forall zero add, exists n, forall fuel, n <= fuel -> sum_by fuel zero (fun x y => ret (add x y)) proj src w = (Raise e, w1)) /\
     (forall better, exists n, forall fuel, n <= fuel -> best_by fuel better proj src w = (Raise e, w1))).
Proof.
  intros W A B S src w g w0 e w1 E N.
  assert (NE : ended (Raise e) = Raise e :> res unit) by (destruct e; try reflexivity; now contradiction N).
  split; [|split; [|split; [|split; [|split; [|split; [|split; [|split; [|split]]]]]]]].
  - intros f l F. apply (map_any src w g w0 E). rewrite <- flat_map_one. exact (proj1 (fails_callback _ _ _ _ f (fun _ y => [y]) e N _ _ _ _ F)).
  - intros p l F. apply (filter_any src w g w0 E). exists (Raise e). split; [|now rewrite NE]. rewrite <- flat_map_filter.
    exact (proj2 (fails_callback _ _ _ _ p (fun x b => if b : bool then [x] else []) e N _ _ _ _ F)).
  - intros f l F. apply (choose_any src w g w0 E). exact (proj1 (fails_callback _ _ _ _ f (fun _ o => match o with Some y => [y] | None => [] end) e N _ _ _ _ F)).
  - intros f l F. apply (collect_lists_any src w g w0 E). exact (proj1 (fails_callback _ _ _ _ f (fun _ ys => ys) e N _ _ _ _ F)).
  - intros f s l F. split.
    + apply (scan_any _ _ _ _ _ _ _ _ _ E). exists (List.map snd l), (Raise e). split; [reflexivity|]. split; [|now rewrite NE]. rewrite <- flat_map_one.
      eapply (fails_runs _ _ _ _ _ _ _ (fun _ y => [y])); [| |exact F]; intros s0 x v; intros; unfold bind in *; destruct (f s0 x v) as [[]]; try discriminate;
        match goal with H : _ = _ |- _ => inversion H; subst; reflexivity end.
    + apply (fold_any f s src w g w0 E). eapply (fails_folds _ _ _ _ _ (fun s => s)); [| |exact F]; intros s0 x v; intros; unfold bind in *; destruct (f s0 x v) as [[]];
        try discriminate; match goal with H : _ = _ |- _ => inversion H; subst; reflexivity end.
  - intros f l F. assert (R : runs (fun i x => do y <- f i x; ret ((i + 1)%Z, [y])) 0%Z g w0 (flat_map (fun p => [snd p]) l) (Raise e) w1).
    { eapply (fails_runs _ _ _ _ _ _ _ (fun _ y => [y])); [| |exact F]; intros s0 x v; intros; unfold bind in *; destruct (f s0 x v) as [[]]; try discriminate;
        match goal with H : _ = _ |- _ => inversion H; subst; reflexivity end. }
    destruct (proj1 (mapi_any _ _ _ f src w g w0 E) _ _ _ R) as [n H]. exists n. intros fuel L. rewrite (H fuel L), NE. reflexivity.
  - intros f l F. apply (iter_any f src w g w0 E). eapply (fails_folds _ _ _ _ _ (fun s => s)); [| |exact F]; intros s0 x v; intros; unfold bind in *;
      destruct (f x v) as [[[]|]]; try discriminate; match goal with H : _ = _ |- _ => inversion H; subst; reflexivity end.
  - intros f l F M. apply (try_pick_any _ _ _ f src w g w0 E). eapply (fails_searches _ _ _ f _ _ (fun o => o = None)); [| |exact F|exact M].
    + intros i x v y v1 H ->. exact H.
    + intros i x v v1 H. exact H.
  - intros p l F M. apply (try_find_index_any _ _ p src w g w0 E). eapply (fails_searches _ _ _ p _ _ (fun b => b = false)); [| |exact F|exact M].
    + intros i x v y v1 H ->. unfold bind. rewrite H. reflexivity.
    + intros i x v v1 H. unfold bind. rewrite H. reflexivity.
  - intros proj l F. split.
    + intros zero add. apply (sum_any zero (fun x y => ret (add x y)) proj src w g w0 E). eapply fails_sum; eassumption.
    + intros better. eapply best_raises; [exact E|]. exact (proj1 (fails_callback _ _ _ _ proj (fun _ y => [y]) e N _ _ _ _ F)).
Qed.
