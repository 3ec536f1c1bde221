(** max and min when comparing has effects. *)
From Coq Require Import List ZArith Bool Lia.
From Verif.Model Require Import Base Gen OptionResult Seq.
From Verif.Model Require AsyncSeq.
From Verif.Spec Require Import RunSpec.
From Verif.Proofs Require Import SeqFacts SeqFacts3 RunFacts RunFacts2 RunFacts3.
From Verif.Proofs Require AsyncSeqFacts3.
Import ListNotations.
Local Open Scope py_scope.

Section Best.
  Context {W A B : Type}.
  Variables (better : B -> B -> M W bool) (proj : A -> M W B).

  Lemma best_with_fold : forall (src : iterable W A) w g w0, src w = (Ret g, w0) ->
    (forall r w1, folds (fun s x => do y <- outside (proj x); challenge better s y) None g w0 r w1 ->
       exists n, forall fuel, n <= fuel -> best_with fuel better proj src w = (best_found r, w1)) /\
    (forall fuel r w1, best_with fuel better proj src w = (r, w1) -> r <> Raise OutOfFuel ->
       exists r0, folds (fun s x => do y <- outside (proj x); challenge better s y) None g w0 r0 w1 /\ r = best_found r0).
  Proof.
    intros src w g w0 E.
    set (body := fun (s : option B) x =>
      do y <- in_generator (proj x);
      do m <- match s with None => ret y | Some m => do b <- better y m; ret (if b : bool then y else m) end;
      ret (inl (Some m) : option B + option B)).
    assert (H : forall s x w, body s x w = let '(r, w1) := (do y <- outside (proj x); challenge better s y) w in (rmap inl r, w1)).
    { intros s x v. unfold body, bind, in_generator, outside. destruct (proj x v) as [[y|[]] v1]; try reflexivity.
      destruct s as [m|]; cbn; [|reflexivity]. unfold bind. destruct (better y m v1) as [[[]|e] v2]; reflexivity. }
    destruct (fold_shape _ body (fun fuel => do g <- src; do r <- for_gen fuel g None body; ret (loop_result r)) src None w g w0 H (fun _ => eq_refl) E) as [F1 F2].
    assert (D : forall fuel, best_with fuel better proj src w =
      let '(r, w1) := (do g <- src; do r <- for_gen fuel g None body; ret (loop_result r)) w in (best_found r, w1)).
    { intros fuel. unfold best_with. fold body. unfold bind. rewrite E. destruct (for_gen fuel g None body w0) as [[r0|e] w2]; [|reflexivity].
      destruct r0 as [[m|]|[m|]]; reflexivity. }
    split.
    - intros r w1 F. destruct (F1 r w1 F) as [n K]. exists n. intros fuel L. rewrite D, (K fuel L). reflexivity.
    - intros fuel r w1 Q N. rewrite D in Q.
      destruct ((do g <- src; do r <- for_gen fuel g None body; ret (loop_result r)) w) as [r0 w2] eqn:K. injection Q as <- <-.
      exists r0. split; [|reflexivity]. apply (F2 fuel); [exact K|]. intros ->. now apply N.
  Qed.
End Best.

(** What comes out is one of the values. *)
Lemma fold_values : forall W A B (better : B -> B -> M W bool) (proj : A -> M W B) s (g : gen W A) w r w1,
  folds (fun s x => do y <- outside (proj x); challenge better s y) s g w r w1 ->
  forall m, r = Ret (Some m) -> s = Some m \/ exists x v v1, outside (proj x) v = (Ret m, v1).
Proof.
  intros W A B better proj s g w r w1 F. induction F as [s g w r w1 P|s g w x g1 w1 e w2 P E|s g w x g1 w1 s1 w2 r w3 P E L IH]; intros m Er.
  - destruct r; [|discriminate]. injection Er as ->. now left.
  - discriminate.
  - destruct (IH m Er) as [->|R]; [|now right]. unfold bind in E. destruct (outside (proj x) w1) as [[y|e] v1] eqn:Ey; [|discriminate].
    destruct s as [k|]; cbn in E.
    + unfold bind in E. destruct (better y k v1) as [[b|e] v2]; [|discriminate]. destruct b; cbn in E; injection E as -> _; [right; eauto|now left].
    + injection E as -> _. right; eauto.
Qed.

Lemma async_best_of : forall W A (better : A -> A -> M W bool) xs m (w : W),
  AsyncSeq.best_of better m xs w = let '(r, w1) := foldM (challenge better) (Some m) xs w in (best_found r, w1).
Proof.
  intros W A better. induction xs as [|y xs IH]; intros m w; [reflexivity|]. cbn. unfold bind. destruct (better y m w) as [[b|e] w1]; [|reflexivity].
  cbn. rewrite IH. reflexivity.
Qed.
Lemma async_best_with : forall W A (better : A -> A -> M W bool) (src : iterable W A) w l r w1, iterates src w l r w1 ->
  exists n, forall fuel, n <= fuel -> AsyncSeq.best_with fuel better src w =
    match r with
    | Raise e => (leaving (Raise e), w1)
    | Ret _ => let '(r, w2) := foldM (challenge better) None l w1 in (leaving (best_found r), w2)
    end.
Proof.
  intros W A better src w l r w1 I. destruct (SeqFacts3.to_list_pf src w l _ w1 I) as [n H]. exists n. intros fuel L.
  unfold AsyncSeq.best_with. unfold AsyncSeq.in_async, bind. rewrite H by exact L. destruct r as [u|e]; cbn [rmap].
  - destruct l as [|x l]; [reflexivity|]. rewrite async_best_of. cbn. unfold bind. cbn.
    destruct (foldM (challenge better) (Some x) l w1) as [[[m|]|e] w2]; try reflexivity. destruct e; reflexivity.
  - destruct e; reflexivity.
Qed.
