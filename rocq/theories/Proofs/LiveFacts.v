(** Lemmas for C111. *)
From Coq Require Import List ZArith Bool Lia Arith.
From Verif.Model Require Import Base PyList OptionResult Array LiveArray.
From Verif.Spec Require Import LiveSpec.
Import ListNotations.
Local Open Scope py_scope.

Section Loops.
  Context {W A B S : Type} (peek : W -> list A).

  Lemma skipn_nth : forall (l : list A) i,
    match nth_error l i with Some x => skipn i l = x :: skipn (Datatypes.S i) l | None => skipn i l = [] end.
  Proof.
    induction l as [|y l IH]; intros [|i]; cbn; auto. specialize (IH i). cbn in IH.
    destruct (nth_error l i); auto.
  Qed.

  Lemma live_calls_behind : forall at_position (f : A -> M W B) (body : S -> A -> B -> S), only_behind peek at_position f ->
    forall fuel i s w, at_position i w -> length (skipn i (peek w)) < fuel ->
    live_calls peek fuel i s f (fun s x y => ret (body s x y)) w = for_calls (skipn i (peek w)) s f (fun s x y => ret (body s x y)) w.
  Proof.
    intros at_position f body Bh. induction fuel as [|fuel IH]; intros i s w At L; [lia|].
    cbn [live_calls]. pose proof (skipn_nth (peek w) i) as N. destruct (nth_error (peek w) i) as [x|] eqn:E.
    - rewrite N in *. cbn [for_calls]. destruct (Bh i x w At E) as [K At'].
      destruct (f x w) as [[y|e] w1] eqn:Ef; cbn [snd] in K, At'; [|reflexivity].
      unfold bind, ret. rewrite <- K. apply IH; auto. rewrite K. cbn [length] in L. lia.
    - rewrite N. reflexivity.
  Qed.

  Lemma live_in_behind : forall at_position (f : S -> A -> M W S), (forall s, only_behind peek at_position (f s)) ->
    forall fuel i s w, at_position i w -> length (skipn i (peek w)) < fuel ->
    live_in peek fuel i s f w = for_in (skipn i (peek w)) s f w.
  Proof.
    intros at_position f Bh. induction fuel as [|fuel IH]; intros i s w At L; [lia|].
    cbn [live_in]. pose proof (skipn_nth (peek w) i) as N. destruct (nth_error (peek w) i) as [x|] eqn:E.
    - rewrite N in *. cbn [for_in]. destruct (Bh s i x w At E) as [K At'].
      unfold bind. destruct (f s x w) as [[y|e] w1] eqn:Ef; cbn [snd] in K, At'; [|reflexivity].
      rewrite <- K. apply IH; auto. rewrite K. cbn [length] in L. lia.
    - rewrite N. reflexivity.
  Qed.

  Lemma hands_off_behind : forall (f : A -> M W B), hands_off peek f -> only_behind peek (fun _ _ => True) f.
  Proof. intros f Hf i x w _ _. now rewrite Hf. Qed.
End Loops.

Section Ops.
  Context {F U W : Type} `{Floats F} (long64 : bool) (peek : W -> list (pyval F U)).
  Notation val := (pyval F U).
  Implicit Types a : tarray F U.

  Lemma live_map_behind : forall at_position mapping a w fuel, only_behind peek at_position mapping -> at_position 0 w ->
    peek w = a_elems a -> length (a_elems a) < fuel ->
    live_map long64 peek fuel mapping w = map long64 a mapping w.
  Proof.
    intros at_position mapping a w fuel Bh At E L. unfold live_map, map, bind at 1. unfold bind at 1.
    rewrite (live_calls_behind peek at_position mapping (fun acc _ y => acc ++ [y]) Bh fuel 0 [] w At)
      by (cbn; rewrite E; exact L).
    cbn [skipn]. rewrite E. reflexivity.
  Qed.
  Lemma live_collect_off : forall mapping a w fuel, hands_off peek mapping ->
    peek w = a_elems a -> length (a_elems a) < fuel ->
    live_collect long64 peek fuel mapping w = collect long64 a mapping w.
  Proof.
    intros mapping a w fuel Ho E L. unfold live_collect, collect, bind at 1. unfold bind at 1.
    rewrite (live_calls_behind peek (fun _ _ => True) mapping (fun acc _ b => acc ++ a_elems b) (hands_off_behind peek mapping Ho) fuel 0 [] w I)
      by (cbn; rewrite E; exact L).
    cbn [skipn]. rewrite E. reflexivity.
  Qed.
  Lemma live_filter_off : forall predicate a w fuel, hands_off peek predicate ->
    peek w = a_elems a -> length (a_elems a) < fuel ->
    live_filter long64 peek fuel (a_type a) predicate w = filter long64 a predicate w.
  Proof.
    intros predicate a w fuel Ho E L. unfold live_filter, filter, bind at 1. unfold bind at 1.
    rewrite (live_calls_behind peek (fun _ _ => True) predicate (fun acc x (b : bool) => if b then acc ++ [x] else acc) (hands_off_behind peek predicate Ho) fuel 0 [] w I)
      by (cbn; rewrite E; exact L).
    cbn [skipn]. rewrite E. reflexivity.
  Qed.
  Lemma live_fold_behind : forall S at_position (folder : S -> val -> M W S) state a w fuel,
    (forall s, only_behind peek at_position (folder s)) -> at_position 0 w ->
    peek w = a_elems a -> length (a_elems a) < fuel ->
    live_fold peek fuel folder state w = fold a folder state w.
  Proof.
    intros S at_position folder state a w fuel Bh At E L. unfold live_fold, fold.
    rewrite (live_in_behind peek at_position folder Bh fuel 0 state w At) by (cbn; rewrite E; exact L).
    cbn [skipn]. now rewrite E.
  Qed.
  Lemma live_forall_off : forall predicate a w fuel, hands_off peek predicate ->
    peek w = a_elems a -> length (a_elems a) < fuel ->
    live_forall peek fuel predicate w = forall_ a predicate w.
  Proof.
    intros predicate a w fuel Ho E L. unfold live_forall, forall_.
    assert (G : forall fuel i w, length (skipn i (peek w)) < fuel ->
      live_all peek fuel i predicate w =
      (fix go (xs : list val) : M W bool :=
         match xs with [] => ret true | x :: xs => do b <- in_generator (predicate x); if b : bool then go xs else ret false end) (skipn i (peek w)) w).
    { clear - Ho. induction fuel as [|fuel IH]; intros i w L; [lia|]. cbn [live_all].
      pose proof (skipn_nth (peek w) i) as N. destruct (nth_error (peek w) i) as [x|].
      - rewrite N in *. pose proof (Ho x w) as K. unfold bind, in_generator.
        destruct (predicate x w) as [[b|e] w1]; cbn [snd] in K; [|destruct e; reflexivity].
        destruct b; [|reflexivity]. rewrite <- K. apply IH. rewrite K. cbn [length] in L. lia.
      - rewrite N. reflexivity. }
    rewrite (G fuel 0 w) by (cbn; rewrite E; exact L). cbn [skipn]. now rewrite E.
  Qed.
End Ops.

(** A callback that appends. *)
Lemma live_append_never : forall A (fuel i : nat) (acc w : list A), i < length w ->
  fst (live_calls (fun w => w) fuel i acc (fun x w => (Ret x, w ++ [x])) (fun acc _ y => ret (acc ++ [y])) w) = Raise OutOfFuel.
Proof.
  intros A. induction fuel as [|fuel IH]; intros i acc w L; [reflexivity|]. cbn [live_calls].
  destruct (nth_error w i) as [x|] eqn:E; [|apply nth_error_None in E; lia].
  unfold bind, ret. apply IH. rewrite app_length. cbn. lia.
Qed.
(** A callback that drops the first element. *)
Lemma live_drop : forall A (fuel i : nat) (acc w : list A), length w < fuel ->
  live_in (fun w => w) fuel i acc (fun acc x w => (Ret (acc ++ [x]), tl w)) w =
  (Ret (acc ++ every_other (skipn i w)), skipn (length (every_other (skipn i w))) w).
Proof.
  intros A. induction fuel as [|fuel IH]; intros i acc w L; [lia|]. cbn [live_in].
  pose proof (skipn_nth w i) as N. destruct (nth_error w i) as [x|] eqn:E.
  - rewrite N. unfold bind. destruct w as [|y w]; [destruct i; discriminate|]. cbn [tl].
    rewrite IH by (cbn in L; lia). change (skipn (S i) (y :: w)) with (skipn i w).
    replace (skipn (S i) w) with (tl (skipn i w)).
    + destruct (skipn i w) as [|z rest]; cbn; rewrite <- app_assoc; reflexivity.
    + clear. revert i. induction w as [|z w IHw]; intros [|i]; cbn; auto. apply IHw.
  - rewrite N. cbn. now rewrite app_nil_r.
Qed.

Section Choose.
  Context {F U W : Type} `{Floats F} (long64 : bool) (peek : W -> list (pyval F U)).
  Lemma live_choose_off : forall chooser (a : tarray F U) w fuel, hands_off peek chooser ->
    peek w = a_elems a -> length (a_elems a) < fuel ->
    live_choose long64 peek fuel chooser w = choose long64 a chooser w.
  Proof.
    intros chooser a w fuel Ho E L. unfold live_choose, choose. apply live_collect_off; auto.
    intros x w1. unfold bind, lift. pose proof (Ho x w1) as K. destruct (chooser x w1) as [[o|e] w2]; exact K.
  Qed.
  Lemma live_sum_by_off : forall total projection (a : tarray F U) w fuel, hands_off peek projection ->
    peek w = a_elems a -> length (a_elems a) < fuel ->
    live_sum_by long64 peek fuel total projection w = sum_by long64 total a projection w.
  Proof.
    intros total projection a w fuel Ho E L. unfold live_sum_by, sum_by, bind.
    now rewrite (live_map_behind long64 peek (fun _ _ => True) projection a w fuel (hands_off_behind peek projection Ho) I E L).
  Qed.
  Lemma live_map_off : forall mapping (a : tarray F U) w fuel, hands_off peek mapping ->
    peek w = a_elems a -> length (a_elems a) < fuel -> live_map long64 peek fuel mapping w = map long64 a mapping w.
  Proof.
    intros. eapply live_map_behind with (at_position := fun _ _ => True); auto using hands_off_behind.
  Qed.
End Choose.

Lemma fold_collects : forall A (xs s w : list A),
  fst (for_in xs s (fun s x w => (Ret (s ++ [x]), tl w)) w) = Ret (s ++ xs).
Proof.
  intros A. induction xs as [|x xs IH]; intros s w; cbn.
  - now rewrite app_nil_r.
  - unfold bind. rewrite IH. now rewrite <- app_assoc.
Qed.
Arguments fold_collects {A}.
