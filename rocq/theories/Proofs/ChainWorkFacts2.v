(** Counting changes nothing: the chains of ChainWork.v do what those of Chain.v do. *)
From Coq Require Import List ZArith Lia Bool Arith.
From Verif.Model Require Import Base Gen Chain ChainWork OptionResult.
From Verif.Model Require Seq.
From Verif.Spec Require Import ChainWorkSpec ChainDepthSpec.
From Verif.Proofs Require Import ChainWorkFacts.
Import ListNotations.
Local Open Scope py_scope.
Local Open Scope nat_scope.

Inductive sstep {W A} (R : gen (nat * W) A -> gen W A -> Prop) : res (gstep A (gen (nat * W) A)) * (nat * W) -> res (gstep A (gen W A)) * W -> Prop :=
| ss_yield : forall a cg g n w, R cg g -> sstep R (Ret (Yield a cg), (n, w)) (Ret (Yield a g), w)
| ss_skip : forall cg g n w, R cg g -> sstep R (Ret (Skip cg), (n, w)) (Ret (Skip g), w)
| ss_stop : forall n w, sstep R (Ret Stop, (n, w)) (Ret Stop, w)
| ss_raise : forall e n w, e <> StopIterationExn -> sstep R (Raise e, (n, w)) (Raise e, w).
CoInductive same {W A} (cg : gen (nat * W) A) (g : gen W A) : Prop :=
| same_next : (forall n w, sstep same (step cg (n, w)) (step g w)) -> same cg g.
(** The same answer and state, but for the counter. *)
Definition alike {W X Y} (R : X -> Y -> Prop) (m : M (nat * W) X) (m2 : M W Y) : Prop :=
  forall n w, match m (n, w), m2 w with
              | (Ret x, (_, w1)), (Ret y, w2) => w1 = w2 /\ R x y
              | (Raise e, (_, w1)), (Raise e2, w2) => e = e2 /\ w1 = w2
              | _, _ => False
              end.
Definition same_it {W A} : iterable (nat * W) A -> iterable W A -> Prop := alike same.
Ltac unf := unfold step at 1 2; cbn; unfold bind, in_generator.
Ltac over e N := destruct e; try (elim N; reflexivity); constructor; discriminate.
Ltac exns e := destruct e; cbn; constructor; discriminate.

Section Same.
  Context {W A B : Type}.
  Lemma list_same : forall xs : list A, same (W := W) (list_gen xs) (list_gen xs).
  Proof. cofix CIH. intros xs. constructor. intros n w. destruct xs as [|x xs]; cbn; constructor. apply CIH. Qed.
  Lemma counted_same : forall (cg : gen (nat * W) A) g, same cg g -> same (counted cg) g.
  Proof.
    cofix CIH. intros cg g [H]. constructor. intros n w. specialize (H n w). unfold step at 1. cbn. destruct H as [a cg1 g1 n1 w1 H|cg1 g1 n1 w1 H|n1 w1|e n1 w1 N].
    - constructor. apply CIH. assumption.
    - constructor. apply CIH. assumption.
    - constructor.
    - over e N.
  Qed.
  Lemma opening_same : forall (di : iterable (nat * W) A) it (dl : gen (nat * W) A -> gen (nat * W) B) l, same_it di it ->
    (forall cg g, same cg g -> same (dl cg) (l g)) -> same (Seq.opening di dl) (Seq.opening it l).
  Proof.
    intros di it dl l F L. constructor. intros n w. specialize (F n w). unf.
    destruct (di (n, w)) as [[cg|e] [n1 w1]], (it w) as [[g|e2] w2]; try contradiction; destruct F as [E F].
    - subst w2. constructor. now apply L.
    - subst e2 w2. exns e.
  Qed.
  Lemma map_same : forall (f : A -> M W B) cg g, same cg g -> same (Seq.map_loop (fun x => unseen (f x)) cg) (Seq.map_loop f g).
  Proof.
    intros f. cofix CIH. intros cg g [H]. constructor. intros n w. specialize (H n w). unf. unfold unseen. destruct H as [a cg1 g1 n1 w1 H|cg1 g1 n1 w1 H|n1 w1|e n1 w1 N].
    - cbn. destruct (f a w1) as [[y|e] w2].
      + constructor. apply CIH. assumption.
      + exns e.
    - constructor. apply CIH. assumption.
    - constructor.
    - over e N.
  Qed.
  Lemma collect_same : forall (df : A -> M (nat * W) (iterable (nat * W) B)) (f : A -> M W (iterable W B)),
    (forall x, alike same_it (df x) (f x)) ->
    forall cg g di i, same cg g -> match di, i with None, None => True | Some dh, Some h => same dh h | _, _ => False end ->
    same (Seq.collect_loop df di cg) (Seq.collect_loop f i g).
  Proof.
    intros df f F. cofix CIH. intros cg g di i H I. constructor. intros n w.
    destruct di as [dh|], i as [h|]; try contradiction; unf.
    - destruct I as [I]. specialize (I n w). destruct I as [a cg1 g1 n1 w1 I|cg1 g1 n1 w1 I|n1 w1|e n1 w1 N].
      + constructor. apply CIH; assumption.
      + constructor. apply CIH; assumption.
      + constructor. apply CIH; [assumption|exact Logic.I].
      + over e N.
    - destruct H as [H]. specialize (H n w). destruct H as [a cg1 g1 n1 w1 H|cg1 g1 n1 w1 H|n1 w1|e n1 w1 N].
      + specialize (F a n1 w1). destruct (df a (n1, w1)) as [[dt|e] [n2 w2]], (f a w1) as [[it|e2] w3]; try contradiction; destruct F as [E F].
        * subst w3. specialize (F n2 w2). destruct (dt (n2, w2)) as [[dh|e] [n3 w3]], (it w2) as [[h|e2] w4]; try contradiction; destruct F as [E F].
          -- subst w4. constructor. apply CIH; assumption.
          -- subst e2 w4. exns e.
        * subst e2 w3. exns e.
      + constructor. apply CIH; [assumption|exact Logic.I].
      + constructor.
      + over e N.
  Qed.
  Lemma concat_same : forall dits its, Forall2 same_it dits its ->
    forall (di : option (gen (nat * W) A)) i, match di, i with None, None => True | Some dh, Some h => same dh h | _, _ => False end ->
    same (Seq.concat_loop di dits) (Seq.concat_loop i its).
  Proof.
    cofix CIH. intros dits its F di i I. constructor. intros n w.
    destruct di as [dh|], i as [h|]; try contradiction; unf.
    - destruct I as [I]. specialize (I n w). destruct I as [a cg1 g1 n1 w1 I|cg1 g1 n1 w1 I|n1 w1|e n1 w1 N].
      + constructor. apply CIH; assumption.
      + constructor. apply CIH; assumption.
      + constructor. apply CIH; [assumption|exact Logic.I].
      + over e N.
    - destruct F as [|dt it dits its F1 F]; [constructor|]. specialize (F1 n w). destruct (dt (n, w)) as [[dh|e] [n1 w1]], (it w) as [[h|e2] w2]; try contradiction; destruct F1 as [E F1].
      + subst w2. constructor. apply CIH; assumption.
      + subst e2 w2. exns e.
  Qed.
  Lemma filter_same : forall (p : A -> M W bool) cg g, same cg g -> same (Seq.filter_loop (fun x => unseen (p x)) cg) (Seq.filter_loop p g).
  Proof.
    intros p. cofix CIH. intros cg g [H]. constructor. intros n w. specialize (H n w). unf. unfold unseen. destruct H as [a cg1 g1 n1 w1 H|cg1 g1 n1 w1 H|n1 w1|e n1 w1 N].
    - cbn. destruct (p a w1) as [[[|]|e] w2].
      + constructor. apply CIH. assumption.
      + constructor. apply CIH. assumption.
      + exns e.
    - constructor. apply CIH. assumption.
    - constructor.
    - over e N.
  Qed.
  Lemma skip_same : forall c i cg (g : gen W A), same cg g -> same (Seq.skip_loop c i cg) (Seq.skip_loop c i g).
  Proof.
    intros c. cofix CIH. intros i cg g [H]. constructor. intros n w. specialize (H n w). unf. destruct H as [a cg1 g1 n1 w1 H|cg1 g1 n1 w1 H|n1 w1|e n1 w1 N].
    - destruct (Z.leb c i); constructor; apply CIH; assumption.
    - constructor. apply CIH. assumption.
    - constructor.
    - over e N.
  Qed.
  Lemma take_same : forall c o i cg (g : gen W A), same cg g -> same (Seq.take_loop c o i cg) (Seq.take_loop c o i g).
  Proof.
    intros c. cofix CIH. intros o i cg g H. constructor. intros n w. destruct o as [j|]; unf.
    - destruct (Z.eqb j (c - 1)); constructor. apply CIH. assumption.
    - destruct H as [H]. specialize (H n w). destruct H as [a cg1 g1 n1 w1 H|cg1 g1 n1 w1 H|n1 w1|e n1 w1 N].
      + constructor. apply CIH. assumption.
      + constructor. apply CIH. assumption.
      + constructor.
      + over e N.
  Qed.
End Same.

Lemma ret_alike : forall W X Y (R : X -> Y -> Prop) x y, R x y -> alike (W := W) R (ret x) (ret y).
Proof. intros W X Y R x y H n w. split; [reflexivity|exact H]. Qed.
Lemma bind_alike : forall W X Y X2 Y2 (R : X -> Y -> Prop) (R2 : X2 -> Y2 -> Prop) (m : M (nat * W) X) m2 f f2,
  alike R m m2 -> (forall x y, R x y -> alike R2 (f x) (f2 y)) -> alike R2 (do x <- m; f x) (do y <- m2; f2 y).
Proof.
  intros W X Y X2 Y2 R R2 m m2 f f2 H F n w. unfold bind. specialize (H n w).
  destruct (m (n, w)) as [[x|e] [n1 w1]], (m2 w) as [[y|e2] w2]; try contradiction; destruct H as [E H]; [|now split]. subst w2. exact (F x y H n1 w1).
Qed.
Lemma unseen_alike : forall W X (m : M W X), alike eq (unseen m) m.
Proof. intros W X m n w. unfold unseen. cbn. destruct (m w) as [[x|e] w1]; split; reflexivity. Qed.

Lemma stage_same : forall W A B (s : stage W A B) di it, same_it di it -> alike same_it (seq_stage (unseen_stage s) di) (seq_stage s it).
Proof.
  intros W A B s. destruct s; intros di it F; cbn [unseen_stage seq_stage].
  - apply ret_alike, ret_alike, opening_same; [exact F|]. intros cg g. apply map_same.
  - eapply bind_alike; [|intros x y H; apply ret_alike, ret_alike, H]. unfold Seq.filter. eapply bind_alike; [exact F|]. intros x y H. apply ret_alike, filter_same, H.
  - apply ret_alike, ret_alike, opening_same; [exact F|]. intros cg g H. apply collect_same; [|exact H|exact Logic.I].
    intros x. eapply bind_alike; [apply unseen_alike|]. intros o ? <-. apply ret_alike, ret_alike, list_same.
  - apply ret_alike, ret_alike, opening_same; [exact F|]. intros cg g H. apply collect_same; [|exact H|exact Logic.I].
    intros x. eapply bind_alike; [apply unseen_alike|]. intros o ? <-. apply ret_alike, ret_alike, list_same.
  - apply ret_alike, ret_alike, concat_same; [|exact Logic.I]. constructor; [exact F|]. constructor; [|constructor]. apply ret_alike, list_same.
  - apply ret_alike, ret_alike, opening_same; [exact F|]. intros cg g. apply skip_same.
  - unfold Seq.take. apply ret_alike. destruct (Z.ltb 0 z); [|apply ret_alike, list_same]. apply ret_alike, opening_same; [exact F|]. intros cg g. apply take_same.
  - apply ret_alike, ret_alike, opening_same; [exact F|]. intros cg g. apply skip_same.
Qed.
Lemma chain_same : forall W A B (c : chain W A B) di it, same_it di it -> alike same_it (work_on c di) (on_seq c it).
Proof.
  induction c as [A|A B C s c IH]; intros di it F; cbn [work_on on_seq]; [now apply ret_alike|].
  eapply bind_alike; [|intros x y; apply IH]. intros n w. pose proof (stage_same W A B s di it F n w) as H. unfold work_stage, bind.
  destruct (seq_stage (unseen_stage s) di (n, w)) as [[d|e] [n1 w1]], (seq_stage s it w) as [[i|e2] w2]; try contradiction; destruct H as [E H]; [|now split]. cbn. split; [exact E|].
  intros k u. specialize (H k u). destruct (d (k, u)) as [[g|e] [k1 u1]], (i u) as [[g2|e2] u2]; try contradiction; destruct H as [Q H]; [|now split]. split; [exact Q|]. now apply counted_same.
Qed.
Lemma drain_same : forall W A fuel (cg : gen (nat * W) A) g acc, same cg g ->
  alike (eq (A := list A + Empty_set)) (for_gen fuel cg acc (fun acc x => ret (inl (acc ++ [x])))) (for_gen fuel g acc (fun acc x => ret (inl (acc ++ [x])))).
Proof.
  intros W A. induction fuel as [|fuel IH]; intros cg g acc F n w; [split; reflexivity|]. destruct F as [F]. specialize (F n w). cbn [for_gen]. unfold bind.
  destruct F as [a cg1 g1 n1 w1 F|cg1 g1 n1 w1 F|n1 w1|e n1 w1 N].
  - exact (IH cg1 g1 (acc ++ [a]) F n1 w1).
  - exact (IH cg1 g1 acc F n1 w1).
  - split; reflexivity.
  - split; reflexivity.
Qed.
Theorem work_same : forall W A B (c : chain W A B) xs fuel, alike eq (do it <- work_on c (of_list xs); to_list fuel it) (do it <- on_seq c (of_list xs); to_list fuel it).
Proof.
  intros W A B c xs fuel. eapply bind_alike; [apply chain_same, ret_alike, list_same|]. intros di it H. unfold to_list. eapply bind_alike; [exact H|]. intros cg g S.
  eapply bind_alike; [apply drain_same, S|]. intros r ? <-. destruct r as [l|v]; [now apply ret_alike|destruct v].
Qed.

(** ** examples of chains *)
Lemma maps_amounts : forall W A n (xs : list A), amounts (W := W) (maps n) xs (n * (length xs + 1)) xs.
Proof.
  intros W A. induction n as [|n IH]; intros xs; cbn [maps Nat.mul]; [constructor|].
  replace (length xs + 1 + n * (length xs + 1)) with (length (map (fun x => x) xs) + 1 + n * (length xs + 1)) by now rewrite map_length.
  eapply am_next; [apply g_map; intros x w; reflexivity|]. rewrite map_id. apply IH.
Qed.
Lemma maps_no_take : forall W A n, no_take (maps n : chain W A A).
Proof. induction n; cbn; auto. Qed.
Lemma appends_no_take : forall W A n (y : A), no_take (appends n y : chain W A A).
Proof. induction n; cbn; auto. Qed.
Lemma appends_amounts : forall W A n (y : A) xs, exists m, amounts (W := W) (appends n y) xs m (xs ++ repeat y n) /\ 2 * m = n * (2 * length xs + n + 3).
Proof.
  intros W A. induction n as [|n IH]; intros y xs; cbn [appends repeat].
  - exists 0. rewrite app_nil_r. split; [constructor|reflexivity].
  - destruct (IH y (xs ++ [y])) as (m & H & E). exists (length (xs ++ [y]) + 1 + m). rewrite <- app_assoc in H. cbn in H. split.
    + eapply am_next; [apply g_append|exact H].
    + rewrite app_length in *. cbn in *. nia.
Qed.
