(** Lemmas about slices with a step. *)
From Coq Require Import List ZArith Bool Lia.
From Verif.Proofs Require Import BlockFacts.
From Verif.Model Require Import Base PyList.
From Verif.Spec Require Import SliceSpec.
Import ListNotations.

Lemma from_spec : forall n s k, (0 <= n)%Z -> k <> 0%Z -> slice_from n s k = first_position n s k.
Proof.
  intros n s k N K. unfold slice_from, first_position. destruct (Z.ltb_spec k 0), (Z.ltb_spec 0 k), s as [b|]; try lia; destruct (Z.ltb_spec b 0); lia.
Qed.
Lemma to_spec : forall n s k, (0 <= n)%Z -> k <> 0%Z -> slice_to n s k = limit_position n s k.
Proof.
  intros n s k N K. unfold slice_to, limit_position. destruct (Z.ltb_spec k 0), (Z.ltb_spec 0 k), s as [b|]; try lia; destruct (Z.ltb_spec b 0); lia.
Qed.
Lemma first_bounds : forall n s k, (0 <= n)%Z -> k <> 0%Z -> ((0 < k -> 0 <= first_position n s k) /\ (k < 0 -> first_position n s k <= n - 1))%Z.
Proof. intros n s k N K. unfold first_position. destruct (Z.ltb_spec 0 k), s as [b|]; try destruct (Z.ltb_spec b 0); lia. Qed.
Lemma limit_bounds : forall n s k, (0 <= n)%Z -> k <> 0%Z -> ((0 < k -> limit_position n s k <= n) /\ (k < 0 -> -1 <= limit_position n s k))%Z.
Proof. intros n s k N K. unfold limit_position. destruct (Z.ltb_spec 0 k), s as [b|]; try destruct (Z.ltb_spec b 0); lia. Qed.

Lemma positions_pf : forall len s t k, given k <> 0%Z -> exists is, slice_positions len s t k = Ret is /\ selects len s t k is.
Proof.
  intros len s t k N. unfold slice_positions. fold (given k). set (n := Z.of_nat len). assert (Hn : (0 <= n)%Z) by lia.
  rewrite (from_spec n s _ Hn N), (to_spec n t _ Hn N). set (a := first_position n s (given k)). set (b := limit_position n t (given k)).
  destruct (range_pf a b (given k) N) as (l & E & O & I). change Block.range with py_range in E. rewrite E. cbn [rbind].
  pose proof (first_bounds n s _ Hn N) as FB. pose proof (limit_bounds n t _ Hn N) as LB. fold a in FB. fold b in LB.
  assert (R : forall x, In x l -> (0 <= x < n)%Z).
  { intros x Hx. apply I in Hx. destruct Hx as (i & Hi & -> & C). destruct (Z.ltb_spec 0 (given k)); nia. }
  eexists. split; [reflexivity|]. split.
  - intros j i E2. fold n a. rewrite nth_error_map in E2. destruct (nth_error l j) as [x|] eqn:E3; [|discriminate]. injection E2 as <-.
    assert (X := R x (nth_error_In _ _ E3)). rewrite Z2Nat.id by lia. apply O, E3.
  - intros i. fold n a b. rewrite in_map_iff. split.
    + intros (x & <- & Hx). assert (X := R x Hx). split; [lia|]. rewrite Z2Nat.id by lia. apply I, Hx.
    + intros (L & H). exists (Z.of_nat i). split; [lia|]. apply I, H.
Qed.
Lemma positions_zero : forall len s t, slice_positions len s t (Some 0%Z) = Raise ValueError.
Proof. reflexivity. Qed.
Lemma selects_bound : forall len s t k is, selects len s t k is -> forall i, In i is -> i < len.
Proof. intros len s t k is [_ H] i I. now apply H in I. Qed.
Lemma selects_nodup : forall len s t k is, given k <> 0%Z -> selects len s t k is -> NoDup is.
Proof.
  intros len s t k is N [H _]. apply NoDup_nth_error. intros i j L E. destruct (nth_error is i) as [x|] eqn:X.
  - symmetry in E. apply H in X, E. nia.
  - apply nth_error_None in X. lia.
Qed.
Lemma selects_unique : forall len s t k is js, selects len s t k is -> selects len s t k js -> given k <> 0%Z -> is = js.
Proof.
  intros len s t k is js H1 H2 N. assert (D1 := selects_nodup _ _ _ _ _ N H1). assert (D2 := selects_nodup _ _ _ _ _ N H2).
  assert (L : length is = length js).
  { apply Nat.le_antisymm; apply NoDup_incl_length; auto; intros x X; [apply H2, H1, X|apply H1, H2, X]. }
  destruct H1 as [H1 _], H2 as [H2 _]. apply (nth_ext _ _ 0 0 L). intros j J.
  assert (A : nth_error is j = Some (nth j is 0)) by (apply nth_error_nth'; lia).
  assert (B : nth_error js j = Some (nth j js 0)) by (apply nth_error_nth'; lia). apply H1 in A. apply H2 in B. lia.
Qed.

Section Slices.
  Context {A : Type}.
  Implicit Types xs ys : list A.
  Lemma picks : forall xs is, (forall i, In i is -> i < length xs) ->
    at_positions xs is (flat_map (fun i => match nth_error xs i with Some x => [x] | None => [] end) is).
  Proof.
    intros xs. induction is as [|i is IH]; intros B; [constructor|]. cbn [flat_map]. destruct (nth_error xs i) as [x|] eqn:E.
    - constructor; [exact E|]. apply IH. intros j J. apply B. now right.
    - apply nth_error_None in E. specialize (B i (or_introl eq_refl)). lia.
  Qed.
  Lemma slice_step_pf : forall xs s t k, given k <> 0%Z -> exists is ys, slice_step xs s t k = Ret ys /\ selects (length xs) s t k is /\ at_positions xs is ys.
  Proof.
    intros xs s t k N. destruct (positions_pf (length xs) s t k N) as (is & E & S). unfold slice_step. rewrite E. exists is. eexists. split; [reflexivity|]. split; [exact S|].
    apply picks, (selects_bound _ _ _ _ _ S).
  Qed.

  Lemma omit_pf : forall is xs i, omit is i xs = map snd (filter (fun p => negb (existsb (Nat.eqb (fst p)) is)) (combine (seq i (length xs)) xs)).
  Proof.
    intros is. induction xs as [|x xs IH]; intros i; [reflexivity|]. cbn [omit length seq combine filter fst]. destruct (existsb (Nat.eqb i) is); cbn [negb map snd]; now rewrite IH.
  Qed.
  Lemma omit_others : forall is xs, omit is 0 xs = others xs is.
  Proof. intros. apply omit_pf. Qed.

  Lemma put_nth : forall xs i y j, i < length xs -> nth_error (firstn i xs ++ y :: skipn (S i) xs) j = if Nat.eqb j i then Some y else nth_error xs j.
  Proof.
    induction xs as [|x xs IH]; intros i y j L; [cbn in L; lia|]. destruct i as [|i].
    - destruct j; reflexivity.
    - destruct j as [|j]; [reflexivity|]. cbn [firstn skipn app nth_error Nat.eqb]. apply IH. cbn in L. lia.
  Qed.
  Lemma put_length : forall xs i y, i < length xs -> length (firstn i xs ++ y :: skipn (S i) xs) = length xs.
  Proof. intros xs i y L. rewrite app_length. cbn [length]. rewrite firstn_length, skipn_length. lia. Qed.
  Lemma overwrite_pf : forall is ys xs, length ys = length is -> NoDup is -> (forall i, In i is -> i < length xs) ->
    length (overwrite is ys xs) = length xs /\ at_positions (overwrite is ys xs) is ys /\ forall i, ~ In i is -> nth_error (overwrite is ys xs) i = nth_error xs i.
  Proof.
    induction is as [|i is IH]; intros [|y ys] xs L D B; try discriminate L.
    - repeat split; auto; constructor.
    - inversion D; subst. injection L as L. assert (Li : i < length xs) by (apply B; now left).
      destruct (IH ys (firstn i xs ++ y :: skipn (S i) xs) L H2) as (L1 & P & O).
      { intros j J. rewrite put_length by exact Li. apply B. now right. }
      cbn [overwrite]. split; [now rewrite L1, put_length|]. split.
      + constructor; [|exact P]. rewrite O by assumption. rewrite put_nth by exact Li. now rewrite Nat.eqb_refl.
      + intros j J. rewrite O by (intros X; apply J; now right). rewrite put_nth by exact Li. destruct (Nat.eqb_spec j i); [subst; exfalso; apply J; now left|reflexivity].
  Qed.
End Slices.

(** The special cases that need no arithmetic. *)
Lemma reverse_slice_pf : forall A (xs : list A), slice_step xs None None (Some (-1)%Z) = Ret (rev xs).
Proof.
  intros A xs. destruct (slice_step_pf xs None None (Some (-1)%Z)) as (is & ys & E & S & P); [discriminate|]. rewrite E. f_equal.
  assert (Q : selects (length xs) None None (Some (-1)%Z) (rev (seq 0 (length xs)))).
  { split; cbn [given first_position limit_position]; change (0 <? -1)%Z with false; cbv iota.
    - intros j i N. assert (J : j < length xs) by (rewrite <- (seq_length (length xs) 0), <- rev_length; apply nth_error_Some; congruence).
      rewrite (nth_error_nth' _ 0) in N by (rewrite rev_length, seq_length; lia). injection N as <-. rewrite rev_nth by (rewrite seq_length; lia).
      rewrite seq_length, seq_nth by lia. lia.
    - intros i. rewrite <- in_rev, in_seq. split.
      + intros H. split; [lia|]. exists (Z.of_nat (length xs) - 1 - Z.of_nat i)%Z. lia.
      + lia. }
  rewrite (selects_unique _ _ _ _ _ _ S Q) in P by discriminate. clear - P.
  assert (R : at_positions xs (rev (seq 0 (length xs))) (rev xs)).
  { unfold at_positions. clear. assert (G : forall (l : list nat) (zs : list A) f, Forall2 (fun i y => f i = Some y) l zs -> Forall2 (fun i y => f i = Some y) (rev l) (rev zs)).
    { intros l zs f. induction 1; cbn; [constructor|]. apply Forall2_app; auto. }
    apply G. clear G. assert (G : forall ys pre : list A, Forall2 (fun i y => nth_error (pre ++ ys) i = Some y) (seq (length pre) (length ys)) ys).
    { induction ys as [|y ys IH]; intros pre; [constructor|]. cbn [length seq]. constructor.
      - rewrite nth_error_app2, Nat.sub_diag by lia. reflexivity.
      - specialize (IH (pre ++ [y])). rewrite <- app_assoc, app_length, Nat.add_1_r in IH. exact IH. }
    exact (G xs []). }
  revert R P. unfold at_positions. generalize (rev (seq 0 (length xs))) (rev xs). clear. intros is zs R. revert ys. induction R; intros ys P; inversion P; subst; [reflexivity|].
  f_equal; [congruence|auto].
Qed.
Lemma nth_skip : forall A (xs : list A) a j, nth_error (skipn a xs) j = nth_error xs (a + j).
Proof. intros A xs. induction xs as [|x xs IH]; intros [|a] j; try reflexivity; [now destruct j|]. apply IH. Qed.
Lemma same_nth : forall A (xs ys : list A), (forall j, nth_error xs j = nth_error ys j) -> xs = ys.
Proof.
  intros A. induction xs as [|x xs IH]; intros [|y ys] H; auto; try (specialize (H 0); discriminate). f_equal; [specialize (H 0); now injection H|].
  apply IH. intros j. exact (H (S j)).
Qed.
(** Without a step the slice is contiguous. *)
Lemma slice_one_pf : forall A (xs : list A) s t k, given k = 1%Z -> slice_step xs s t k = Ret (slice xs s t).
Proof.
  intros A xs s t k K. unfold slice_step, slice_positions. fold (given k). rewrite K. unfold py_range. change (1 =? 0)%Z with false. cbv iota. cbn [rbind].
  f_equal. unfold slice. set (n := Z.of_nat (length xs)). 
  assert (Ef : slice_from n s 1 = match s with Some b => slice_bound n b | None => 0%Z end) by (unfold slice_from, slice_bound; destruct s; reflexivity).
  assert (Et : slice_to n t 1 = match t with Some b => slice_bound n b | None => n end) by (unfold slice_to, slice_bound; destruct t; reflexivity).
  rewrite <- Ef, <- Et. set (a := slice_from n s 1) in *. set (b := slice_to n t 1) in *.
  assert (Ha : (0 <= a <= n)%Z) by (rewrite Ef; unfold slice_bound; destruct s as [z|]; [destruct (z <? 0)%Z; lia|lia]).
  assert (Hb : (0 <= b <= n)%Z) by (rewrite Et; unfold slice_bound; destruct t as [z|]; [destruct (z <? 0)%Z; lia|lia]). clearbody a b. clear Ef Et.
  assert (R : range_len a b 1 = Z.to_nat (b - a)).
  { unfold range_len. change (0 <? 1)%Z with true. cbv iota. destruct (Z.ltb_spec a b); rewrite ?Z.div_1_r; lia. }
  rewrite R, map_map. set (m := Z.to_nat (b - a)).
  assert (G : forall i l, Z.to_nat a + i + l <= length xs ->
     flat_map (fun i => match nth_error xs i with Some x => [x] | None => [] end) (map (fun i => Z.to_nat (a + Z.of_nat i * 1)) (seq i l)) = firstn l (skipn (Z.to_nat a + i) xs)).
  { intros i l. revert i. induction l as [|l IH]; intros i L; [reflexivity|]. cbn [seq map flat_map].
    rewrite IH by lia. replace (Z.to_nat (a + Z.of_nat i * 1)) with (Z.to_nat a + i) by lia. destruct (nth_error xs (Z.to_nat a + i)) as [x|] eqn:E.
    - assert (D : skipn (Z.to_nat a + i) xs = x :: skipn (Z.to_nat a + S i) xs).
      { apply same_nth. intros [|j]; rewrite nth_skip; [now rewrite Nat.add_0_r|]. cbn [nth_error]. rewrite nth_skip. f_equal. lia. }
      rewrite D. reflexivity.
    - apply nth_error_None in E. lia. }
  destruct (Z.ltb_spec b a) as [C|C].
  - replace m with 0 by lia. reflexivity.
  - rewrite G; [now rewrite Nat.add_0_r|]. unfold n in *. lia.
Qed.
Lemma contiguous_pf : forall A (xs : list A) s t k, given k = 1%Z ->
  let n := Z.of_nat (length xs) in let p := first_position n s 1 in let q := limit_position n t 1 in
  slice_step xs s t k = Ret (firstn (Z.to_nat (q - p)) (skipn (Z.to_nat p) xs)).
Proof.
  intros A xs s t k K n p q. rewrite (slice_one_pf A xs s t k K). unfold slice. fold n. unfold p, q.
  rewrite <- (from_spec n s 1), <- (to_spec n t 1) by (try discriminate; lia). unfold slice_from, slice_to, slice_bound. destruct s, t; reflexivity.
Qed.
Lemma given_zero : forall k, given k = 0%Z -> k = Some 0%Z.
Proof. intros [k|] K; [cbn in K; now subst|discriminate]. Qed.
Lemma slice_zero_pf : forall A (xs : list A) s t k, given k = 0%Z -> slice_step xs s t k = Raise ValueError.
Proof. intros A xs s t k K. now rewrite (given_zero k K). Qed.
