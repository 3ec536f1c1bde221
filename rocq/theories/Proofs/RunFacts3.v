(** Lemmas about loops over any iterator: the consumers. *)
From Coq Require Import List ZArith Bool Lia.
From Verif.Model Require Import Base Gen OptionResult Seq.
From Verif.Spec Require Import RunSpec.
From Verif.Proofs Require Import SeqFacts SeqFacts3 RunFacts RunFacts2.
Import ListNotations.
Local Open Scope py_scope.

(** What [for_gen] does. *)
Inductive loops {W A S R} (body : S -> A -> M W (S + R)) : S -> gen W A -> W -> res (S + R) -> W -> Prop :=
| lo_end : forall s g w r w1, produces g w [] r w1 -> loops body s g w (rmap (fun _ => inl s) r) w1
| lo_raise : forall s g w x g1 w1 e w2, pulled g w [x] g1 w1 -> body s x w1 = (Raise e, w2) -> loops body s g w (Raise e) w2
| lo_leave : forall s g w x g1 w1 v w2, pulled g w [x] g1 w1 -> body s x w1 = (Ret (inr v), w2) -> loops body s g w (Ret (inr v)) w2
| lo_next : forall s g w x g1 w1 s1 w2 r w3, pulled g w [x] g1 w1 -> body s x w1 = (Ret (inl s1), w2) ->
    loops body s1 g1 w2 r w3 -> loops body s g w r w3.

Section Loops.
  Context {W A S R : Type}.
  Variable body : S -> A -> M W (S + R).
  Implicit Types g : gen W A.

  Lemma loops_skip : forall s g w g1 w1 r w2, step g w = (Ret (Skip g1), w1) -> loops body s g1 w1 r w2 -> loops body s g w r w2.
  Proof.
    intros s g w g1 w1 r w2 E L. inversion L; subst.
    - apply lo_end. eapply pr_skip; eassumption.
    - eapply lo_raise; [eapply pu_skip; eassumption|eassumption].
    - eapply lo_leave; [eapply pu_skip; eassumption|eassumption].
    - eapply lo_next; [eapply pu_skip; eassumption|eassumption|eassumption].
  Qed.
  Lemma for_ended : forall g w l r w1, produces g w l r w1 -> l = [] -> forall s,
    exists n, forall fuel, n <= fuel -> for_gen fuel g s body w = (rmap (fun _ => inl s) r, w1).
  Proof.
    induction 1 as [g w w1 E|g w e w1 E|g w g1 w1 l r w2 E P IH|g w x g1 w1 l r w2 E P IH]; intros L s; try discriminate.
    - exists 1. intros [|fuel] F; [lia|]. cbn. unfold bind. rewrite E. reflexivity.
    - exists 1. intros [|fuel] F; [lia|]. cbn. unfold bind. rewrite E. reflexivity.
    - destruct (IH L s) as [n H]. exists (Datatypes.S n). intros [|fuel] F; [lia|]. cbn. unfold bind. rewrite E. apply H. lia.
  Qed.
  Lemma for_pulled : forall g w l g1 w1, pulled g w l g1 w1 -> forall x, l = [x] -> forall s r w2 n,
    (forall fuel, n <= fuel -> (do r <- body s x; match r with inl s => for_gen fuel g1 s body | inr v => ret (inr v) end) w1 = (r, w2)) ->
    exists n, forall fuel, n <= fuel -> for_gen fuel g s body w = (r, w2).
  Proof.
    induction 1 as [g w|g w g1 w1 y l g2 w2 E P IH|g w y g1 w1 l g2 w2 E P IH]; intros x L s r w3 n H; try discriminate.
    - destruct (IH _ L _ _ _ _ H) as [m K]. exists (Datatypes.S m). intros [|fuel] F; [lia|]. cbn. unfold bind. rewrite E. apply K. lia.
    - injection L as -> ->. inversion P; subst. exists (Datatypes.S n). intros [|fuel] F; [lia|]. specialize (H fuel ltac:(lia)).
      cbn. unfold bind in H |- *. rewrite E. exact H.
  Qed.
  Lemma loops_for : forall s g w r w1, loops body s g w r w1 -> exists n, forall fuel, n <= fuel -> for_gen fuel g s body w = (r, w1).
  Proof.
    induction 1 as [s g w r w1 P|s g w x g1 w1 e w2 P E|s g w x g1 w1 v w2 P E|s g w x g1 w1 s1 w2 r w3 P E L [n IH]].
    - eapply for_ended; [exact P|reflexivity].
    - eapply (for_pulled _ _ _ _ _ P _ eq_refl _ _ _ 0). intros fuel _. unfold bind. rewrite E. reflexivity.
    - eapply (for_pulled _ _ _ _ _ P _ eq_refl _ _ _ 0). intros fuel _. unfold bind. rewrite E. reflexivity.
    - eapply (for_pulled _ _ _ _ _ P _ eq_refl _ _ _ n). intros fuel F. unfold bind. rewrite E. now apply IH.
  Qed.
  Lemma for_loops : forall fuel g s w r w1, for_gen fuel g s body w = (r, w1) -> r <> Raise OutOfFuel -> loops body s g w r w1.
  Proof.
    induction fuel as [|fuel IH]; intros g s w r w1 E N; [injection E as <- <-; now contradiction N|].
    cbn in E. unfold bind in E. destruct (step g w) as [[[x g1|g1|]|e] w0] eqn:Eg.
    - destruct (body s x w0) as [[[s1|v]|e] w2] eqn:Eb.
      + eapply lo_next; [eapply pu_yield; [exact Eg|apply pu_none]|exact Eb|]. now apply IH.
      + injection E as <- <-. eapply lo_leave; [eapply pu_yield; [exact Eg|apply pu_none]|exact Eb].
      + injection E as <- <-. eapply lo_raise; [eapply pu_yield; [exact Eg|apply pu_none]|exact Eb].
    - eapply loops_skip; [exact Eg|]. now apply IH.
    - injection E as <- <-. apply (lo_end body s g w (Ret tt)). now apply pr_stop.
    - injection E as <- <-. apply (lo_end body s g w (Raise e)). now apply pr_raise.
  Qed.
End Loops.

Section Folds.
  Context {W A S : Type}.

  Lemma folds_loops : forall R (f : S -> A -> M W S) (body : S -> A -> M W (S + R)),
    (forall s x w, body s x w = let '(r, w1) := f s x w in (rmap inl r, w1)) ->
    forall s g w r w1, folds f s g w r w1 -> loops body s g w (rmap inl r) w1.
  Proof.
    intros R f body H. induction 1 as [s g w r w1 P|s g w x g1 w1 e w2 P E|s g w x g1 w1 s1 w2 r w3 P E L IH].
    - replace (rmap inl (rmap (fun _ : unit => s) r)) with (rmap (fun _ : unit => inl s : S + R) r) by (destruct r; reflexivity). now apply lo_end.
    - eapply lo_raise; [exact P|]. rewrite H, E. reflexivity.
    - eapply lo_next; [exact P| |exact IH]. rewrite H, E. reflexivity.
  Qed.
  Lemma loops_folds : forall R (f : S -> A -> M W S) (body : S -> A -> M W (S + R)),
    (forall s x w, body s x w = let '(r, w1) := f s x w in (rmap inl r, w1)) ->
    forall s g w r w1, loops body s g w r w1 -> exists r0, r = rmap inl r0 /\ folds f s g w r0 w1.
  Proof.
    intros R f body H. induction 1 as [s g w r w1 P|s g w x g1 w1 e w2 P E|s g w x g1 w1 v w2 P E|s g w x g1 w1 s1 w2 r w3 P E L (r0 & -> & F)].
    - exists (rmap (fun _ => s) r). split; [destruct r; reflexivity|now apply fo_end].
    - exists (Raise e). split; [reflexivity|]. rewrite H in E. destruct (f s x w1) as [[s1|e1] w3] eqn:Ef; [discriminate|]. injection E as -> ->.
      eapply fo_raise; eassumption.
    - rewrite H in E. destruct (f s x w1) as [[s1|e1] w3] eqn:Ef; discriminate.
    - exists r0. split; [reflexivity|]. rewrite H in E. destruct (f s x w1) as [[s2|e1] w4] eqn:Ef; [|discriminate]. injection E as -> ->.
      eapply fo_next; eassumption.
  Qed.

  (** Consumers that are folds. *)
  Lemma fold_shape : forall (f : S -> A -> M W S) (body : S -> A -> M W (S + S)) (run : nat -> M W S) (src : iterable W A) s w g w0,
    (forall s x w, body s x w = let '(r, w1) := f s x w in (rmap inl r, w1)) ->
    (forall fuel, run fuel = (do g <- src; do r <- for_gen fuel g s body; ret (loop_result r))) ->
    src w = (Ret g, w0) ->
    (forall r w1, folds f s g w0 r w1 -> exists n, forall fuel, n <= fuel -> run fuel w = (r, w1)) /\
    (forall fuel r w1, run fuel w = (r, w1) -> r <> Raise OutOfFuel -> folds f s g w0 r w1).
  Proof.
    intros f body run src s w g w0 H D E. split.
    - intros r w1 F. destruct (loops_for _ _ _ _ _ _ (folds_loops _ _ _ H _ _ _ _ _ F)) as [n K]. exists n. intros fuel L.
      rewrite D. unfold bind. rewrite E, (K fuel L). destruct r; reflexivity.
    - intros fuel r w1 F N. rewrite D in F. unfold bind in F. rewrite E in F. destruct (for_gen fuel g s body w0) as [r0 w2] eqn:K.
      assert (N0 : r0 <> Raise OutOfFuel) by (intros ->; injection F as <- <-; now apply N).
      destruct (loops_folds _ _ _ H _ _ _ _ _ (for_loops _ _ _ _ _ _ _ K N0)) as (r1 & -> & Q).
      destruct r1 as [s1|e]; injection F as <- <-; exact Q.
  Qed.
End Folds.

Section Consumers.
  Context {W A B S : Type}.

  Lemma fold_any : forall (f : S -> A -> M W S) s (src : iterable W A) w g w0, src w = (Ret g, w0) ->
    (forall r w1, folds f s g w0 r w1 -> exists n, forall fuel, n <= fuel -> fold fuel f s src w = (r, w1)) /\
    (forall fuel r w1, fold fuel f s src w = (r, w1) -> r <> Raise OutOfFuel -> folds f s g w0 r w1).
  Proof.
    intros f s src w g w0 E. eapply (fold_shape f _ (fun fuel => fold fuel f s src)); [|reflexivity|exact E].
    intros s0 x w1. unfold bind. destruct (f s0 x w1) as [[]]; reflexivity.
  Qed.
  Lemma iter_any : forall (f : A -> M W unit) (src : iterable W A) w g w0, src w = (Ret g, w0) ->
    (forall r w1, folds (fun _ => f) tt g w0 r w1 -> exists n, forall fuel, n <= fuel -> iter fuel f src w = (r, w1)) /\
    (forall fuel r w1, iter fuel f src w = (r, w1) -> r <> Raise OutOfFuel -> folds (fun _ => f) tt g w0 r w1).
  Proof.
    intros f src w g w0 E. eapply (fold_shape (fun _ => f) _ (fun fuel => iter fuel f src)); [|reflexivity|exact E].
    intros s0 x w1. unfold bind. destruct (f x w1) as [[[]|] ?]; reflexivity.
  Qed.
  Lemma sum_any : forall zero add (proj : A -> M W B) (src : iterable W A) w g w0, src w = (Ret g, w0) ->
    (forall r w1, folds (fun s x => do y <- outside (proj x); add s y) zero g w0 r w1 -> exists n, forall fuel, n <= fuel -> sum_by fuel zero add proj src w = (r, w1)) /\
    (forall fuel r w1, sum_by fuel zero add proj src w = (r, w1) -> r <> Raise OutOfFuel -> folds (fun s x => do y <- outside (proj x); add s y) zero g w0 r w1).
  Proof.
    intros zero add proj src w g w0 E. eapply (fold_shape _ _ (fun fuel => sum_by fuel zero add proj src)); [|reflexivity|exact E].
    intros s0 x w1. unfold bind, in_generator, outside. destruct (proj x w1) as [[y|[]] w2]; try reflexivity. cbn. destruct (add s0 y w2) as [[]]; reflexivity.
  Qed.

  (** Searches. *)
  Lemma searches_loops : forall T (st : Z -> T) (f : Z -> A -> M W (option B)) (body : T -> A -> M W (T + option B)),
    (forall i x w, body (st i) x w = let '(r, w1) := f i x w in (rmap (fun o => match o with Some y => inr (Some y) | None => inl (st (i + 1)%Z) end) r, w1)) ->
    forall i g w r w1, searches f i g w r w1 ->
    exists r0, loops body (st i) g w r0 w1 /\ r = rmap (fun x => match x with inl _ => None | inr o => o end) r0.
  Proof.
    intros T st f body H. induction 1 as [i g w r w1 P|i g w x g1 w1 e w2 P E|i g w x g1 w1 y w2 P E|i g w x g1 w1 w2 r w3 P E L (r0 & IH & ->)].
    - exists (rmap (fun _ => inl (st i)) r). split; [now apply lo_end|destruct r; reflexivity].
    - exists (Raise e). split; [|reflexivity]. eapply lo_raise; [exact P|]. rewrite H, E. reflexivity.
    - exists (Ret (inr (Some y))). split; [|reflexivity]. eapply lo_leave; [exact P|]. rewrite H, E. reflexivity.
    - exists r0. split; [|reflexivity]. eapply lo_next; [exact P| |exact IH]. rewrite H, E. reflexivity.
  Qed.
  Lemma loops_searches : forall T (st : Z -> T) (f : Z -> A -> M W (option B)) (body : T -> A -> M W (T + option B)),
    (forall i x w, body (st i) x w = let '(r, w1) := f i x w in (rmap (fun o => match o with Some y => inr (Some y) | None => inl (st (i + 1)%Z) end) r, w1)) ->
    forall s g w r w1, loops body s g w r w1 -> forall i, s = st i ->
    searches f i g w (rmap (fun x => match x with inl _ => None | inr o => o end) r) w1.
  Proof.
    intros T st f body H. induction 1 as [s g w r w1 P|s g w x g1 w1 e w2 P E|s g w x g1 w1 v w2 P E|s g w x g1 w1 s1 w2 r w3 P E L IH]; intros i ->.
    - replace (rmap _ (rmap (fun _ : unit => inl (st i)) r)) with (rmap (fun _ : unit => None : option B) r) by (destruct r; reflexivity). now apply se_end.
    - rewrite H in E. destruct (f i x w1) as [[o|e1] w3] eqn:Ef; [destruct o; discriminate|]. injection E as -> ->. eapply se_raise; eassumption.
    - rewrite H in E. destruct (f i x w1) as [[[y|]|e1] w3] eqn:Ef; try discriminate. injection E as <- ->. eapply se_found; eassumption.
    - rewrite H in E. destruct (f i x w1) as [[[y|]|e1] w4] eqn:Ef; try discriminate. injection E as <- ->. eapply se_next; [exact P|exact Ef|]. now apply IH.
  Qed.
  Lemma search_shape : forall T (st : Z -> T) (f : Z -> A -> M W (option B)) (body : T -> A -> M W (T + option B)) (run : nat -> M W (option B)) (src : iterable W A) w g w0,
    (forall i x w, body (st i) x w = let '(r, w1) := f i x w in (rmap (fun o => match o with Some y => inr (Some y) | None => inl (st (i + 1)%Z) end) r, w1)) ->
    (forall fuel, run fuel = (do g <- src; do r <- for_gen fuel g (st 0%Z) body; match r with inl _ => ret None | inr o => ret o end)) ->
    src w = (Ret g, w0) ->
    (forall r w1, searches f 0 g w0 r w1 -> exists n, forall fuel, n <= fuel -> run fuel w = (r, w1)) /\
    (forall fuel r w1, run fuel w = (r, w1) -> r <> Raise OutOfFuel -> searches f 0 g w0 r w1).
  Proof.
    intros T st f body run src w g w0 H D E. split.
    - intros r w1 F. destruct (searches_loops _ _ _ _ H _ _ _ _ _ F) as (r0 & L0 & ->).
      destruct (loops_for _ _ _ _ _ _ L0) as [n K]. exists n. intros fuel L.
      rewrite D. unfold bind. rewrite E, (K fuel L). destruct r0 as [[|]|]; reflexivity.
    - intros fuel r w1 F N. rewrite D in F. unfold bind in F. rewrite E in F. destruct (for_gen fuel g (st 0%Z) body w0) as [r0 w2] eqn:K.
      assert (N0 : r0 <> Raise OutOfFuel) by (intros ->; injection F as <- <-; now apply N).
      pose proof (loops_searches _ _ _ _ H _ _ _ _ _ (for_loops _ _ _ _ _ _ _ K N0) 0%Z eq_refl) as Q.
      destruct r0 as [[s1|o]|e]; injection F as <- <-; exact Q.
  Qed.
End Consumers.

Lemma try_pick_any : forall W A B (f : A -> M W (option B)) (src : iterable W A) w g w0, src w = (Ret g, w0) ->
  (forall r w1, searches (fun _ => f) 0 g w0 r w1 -> exists n, forall fuel, n <= fuel -> try_pick fuel f src w = (r, w1)) /\
  (forall fuel r w1, try_pick fuel f src w = (r, w1) -> r <> Raise OutOfFuel -> searches (fun _ => f) 0 g w0 r w1).
Proof.
  intros W A B f src w g w0 E. eapply (search_shape unit (fun _ => tt) (fun _ => f) _ (fun fuel => try_pick fuel f src)); [|reflexivity|exact E].
  intros s0 x w1. unfold bind. destruct (f x w1) as [[[]|] ?]; reflexivity.
Qed.
Lemma try_find_index_any : forall W A (p : A -> M W bool) (src : iterable W A) w g w0, src w = (Ret g, w0) ->
  (forall r w1, searches (fun i x => do b <- p x; ret (if b : bool then Some i else None)) 0 g w0 r w1 -> exists n, forall fuel, n <= fuel -> try_find_index fuel p src w = (r, w1)) /\
  (forall fuel r w1, try_find_index fuel p src w = (r, w1) -> r <> Raise OutOfFuel -> searches (fun i x => do b <- p x; ret (if b : bool then Some i else None)) 0 g w0 r w1).
Proof.
  intros W A p src w g w0 E. eapply (search_shape Z (fun i => i) _ _ (fun fuel => try_find_index fuel p src)); [|reflexivity|exact E].
  intros s0 x w1. unfold bind. destruct (p x w1) as [[[]|] ?]; reflexivity.
Qed.

(** Loops that collect everything. *)
Lemma for_runs : forall W A B T (f : A -> M W B) (k : T -> B -> T) R (body : T -> A -> M W (T + R)),
  (forall s x w, body s x w = let '(r, w1) := f x w in (rmap (fun y => inl (k s y)) r, w1)) ->
  forall u (g : gen W A) w l r w1, runs (fun u x => do y <- f x; ret (u, [y])) (u : unit) g w l r w1 ->
  forall s, loops body s g w (rmap (fun _ => inl (fold_left k l s)) r) w1.
Proof.
  intros W A B T f k R body H. induction 1 as [u g w r w1 P|u g w x g1 w1 e w2 P E|u g w x g1 w1 s1 ys w2 l r w3 P E L IH]; intros s.
  - now apply lo_end.
  - unfold bind in E. destruct (f x w1) as [[y|e1] w3] eqn:Ef; [discriminate|]. injection E as -> ->. eapply lo_raise; [exact P|]. rewrite H, Ef. reflexivity.
  - unfold bind in E. destruct (f x w1) as [[y|e1] w4] eqn:Ef; [|discriminate]. injection E as <- <- ->. eapply lo_next; [exact P| |apply IH]. rewrite H, Ef. reflexivity.
Qed.

Lemma best_any : forall W A B (better : B -> B -> bool) (proj : A -> M W B), strict_weak better ->
  forall (src : iterable W A) w g w0 l r w1, src w = (Ret g, w0) -> runs (fun _ x => do y <- outside (proj x); ret (tt, [y])) tt g w0 l r w1 ->
  exists n, forall fuel, n <= fuel ->
    match r with
    | Raise e => best_by fuel better proj src w = (Raise e, w1)
    | Ret _ => (l = [] -> best_by fuel better proj src w = (Raise ValueError, w1)) /\
               (l <> [] -> exists m, best_by fuel better proj src w = (Ret m, w1) /\ first_best better l m)
    end.
Proof.
  intros W A B better proj SW src w g w0 l r w1 E R.
  pose (k := fun (s : option B) y => Some match s with None => y | Some m => if better y m then y else m end).
  assert (R' : runs (fun u x => do y <- outside (proj x); ret (u, [y])) tt g w0 l r w1).
  { eapply runs_ext; [|exact R]. intros [] x v. reflexivity. }
  destruct (loops_for _ _ _ _ _ _ (for_runs _ _ _ _ (fun x => outside (proj x)) k (option B)
     (fun s x => do y <- in_generator (proj x); ret (inl (k s y))) ltac:(intros s x v; unfold bind, in_generator, outside; destruct (proj x v) as [[y|[]] v1]; reflexivity)
     _ _ _ _ _ _ R' None)) as [n K].
  exists n. intros fuel L. specialize (K fuel L).
  assert (D : best_by fuel better proj src w = match r with Raise e => (Raise e, w1) | Ret _ => match fold_left k l None with None => (Raise ValueError, w1) | Some m => (Ret m, w1) end end).
  { rewrite best_by_plain. unfold bind at 1. rewrite E. unfold bind at 1. fold k. change (fun s x => do y <- in_generator (proj x); ret (inl (k s y))) with
      (fun (s : option B) x => do y <- in_generator (proj x); ret (inl (Some match s with None => y | Some m => if better y m then y else m end) : option B + option B)) in K.
    rewrite K. destruct r as [u|e]; cbn; [|reflexivity]. destruct (fold_left k l None); reflexivity. }
  destruct r as [u|e]; [|exact D]. split.
  - intros ->. rewrite D. reflexivity.
  - intros N. destruct l as [|x l]; [congruence|].
    assert (FB : first_best better [x] x) by (exists [], []; repeat split; [|intros y []]; intros y [<-|[]]; apply SW).
    destruct (best_fold better SW l [x] x FB) as (m & Em & Q). exists m. split; [|exact Q].
    rewrite D. change (fold_left k (x :: l) None) with (fold_left k l (Some x)). unfold k. rewrite Em. reflexivity.
Qed.
