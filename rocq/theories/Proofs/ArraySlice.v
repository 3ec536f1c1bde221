(** Lemmas about slices of TypedArray and the rest of the MutableSequence methods. *)
From Coq Require Import List ZArith Bool Lia.
From Verif.Proofs Require Import ArrayFacts ArrayFacts2 SliceFacts.
From Verif.Model Require Import Base PyList Array.
From Verif.Spec Require Import BlockSpec ArraySpec SliceSpec.
Import ListNotations.

Section A.
  Context {F U : Type} `{Floats F}.
  Variable long64 : bool.
  Notation val := (pyval F U).
  Implicit Types a b : tarray F U.

  Lemma store_all_iff : forall k (vs ys : list val), Forall2 (stored long64 k) vs ys -> store_all long64 k vs = Ret ys.
  Proof. intros k vs ys. induction 1; [reflexivity|]. apply store_iff in H0. cbn [store_all]. rewrite H0, IHForall2. reflexivity. Qed.
  Lemma acode_eqb_refl : forall c, acode_eqb c c = true.
  Proof. now intros []. Qed.
  Lemma accepts_pf : forall k (src : source F U) ys, accepts long64 k src ys ->
    source_elems long64 k src = Ret ys /\ exists zs, (match src with SArray c vs _ => store_all long64 (KArr c) vs | SIter vs => Ret vs end) = Ret zs.
  Proof.
    intros k src ys. destruct 1 as [vs|vs ys S|c vs raw ys S|c vs raw ys S]; cbn [source_elems]; try (rewrite (store_all_iff _ _ _ S)); cbn [rbind]; rewrite ?acode_eqb_refl; split; eauto.
  Qed.

  Lemma getslice_pf : forall a s t k,
    (given k = 0%Z -> getslice a s t k = Raise ValueError) /\
    (given k <> 0%Z -> exists is ys, getslice a s t k = Ret ys /\ selects (length (a_elems a)) s t k is /\ at_positions (a_elems a) is ys).
  Proof.
    intros a s t k. split.
    - destruct k as [k|]; intros K; [cbn in K; subst; reflexivity|discriminate].
    - intros K. apply slice_step_pf, K.
  Qed.
  Lemma delstep_pf : forall a s t k,
    (given k = 0%Z -> delstep a s t k = (Raise ValueError, a)) /\
    (given k <> 0%Z -> exists is, selects (length (a_elems a)) s t k is /\ delstep a s t k = (Ret tt, TArray (a_kind a) (others (a_elems a) is) (a_type a))).
  Proof.
    intros a s t k. split.
    - destruct k as [k|]; intros K; [cbn in K; subst; reflexivity|discriminate].
    - intros K. destruct (positions_pf (length (a_elems a)) s t k K) as (is & E & S). exists is. split; [exact S|]. unfold delstep. rewrite E. unfold with_elems. now rewrite omit_others.
  Qed.

  Lemma others_nil : forall A (xs : list A), others xs [] = xs.
  Proof.
    intros A xs. unfold others. cbn [existsb negb]. generalize 0. induction xs as [|x xs IH]; intros n; [reflexivity|]. cbn. now rewrite IH.
  Qed.
  Lemma step_one : forall k, (match k with None => true | Some k => Z.eqb k 1 end) = Z.eqb (given k) 1.
  Proof. now intros [k|]. Qed.
  Lemma setslice_pf : forall a s t k src ys, accepts long64 (a_kind a) src ys ->
    (given k = 0%Z -> setslice long64 a s t k src = (Raise ValueError, a)) /\
    (given k = 1%Z -> exists pre mid post, a_elems a = pre ++ mid ++ post /\
       let n := Z.of_nat (length (a_elems a)) in
       Z.of_nat (length pre) = first_position n s 1 /\ Z.of_nat (length mid) = Z.max 0 (limit_position n t 1 - first_position n s 1) /\
       setslice long64 a s t k src = (Ret tt, TArray (a_kind a) (pre ++ ys ++ post) (a_type a))) /\
    (given k <> 0%Z -> given k <> 1%Z -> exists is, selects (length (a_elems a)) s t k is /\
       (length ys = length is -> exists zs, setslice long64 a s t k src = (Ret tt, TArray (a_kind a) zs (a_type a)) /\
          length zs = length (a_elems a) /\ at_positions zs is ys /\ forall i, ~ In i is -> nth_error zs i = nth_error (a_elems a) i) /\
       (length ys <> length is -> a_kind a = KList \/ ys <> [] -> setslice long64 a s t k src = (Raise ValueError, a)) /\
       (length ys <> length is -> a_kind a <> KList -> ys = [] ->
          setslice long64 a s t k src = (Ret tt, TArray (a_kind a) (others (a_elems a) is) (a_type a)))).
  Proof.
    intros [kd xs ty] s t k src ys Ac. apply accepts_pf in Ac. destruct Ac as (E1 & zs & E2). unfold setslice, with_elems. rewrite E1, E2, step_one. cbn [a_elems a_kind a_type] in *.
    split; [|split].
    - destruct k as [k|]; intros K; [cbn in K; subst; reflexivity|discriminate].
    - intros K. destruct (positions_pf (length xs) s t k) as (is & E & S); [now rewrite K|]. rewrite E, K, Z.eqb_refl.
      set (n := Z.of_nat (length xs)). assert (Hn : (0 <= n)%Z) by lia. rewrite (from_spec n s 1 Hn), (to_spec n t 1 Hn) by discriminate.
      set (p := first_position n s 1). set (q := limit_position n t 1).
      assert (P : (0 <= p <= n)%Z) by (unfold p, first_position; change (0 <? 1)%Z with true; cbv iota; destruct s as [z|]; [destruct (z <? 0)%Z eqn:B; [apply Z.ltb_lt in B|apply Z.ltb_ge in B]; lia|lia]).
      assert (Q : (0 <= q <= n)%Z) by (unfold q, limit_position; change (0 <? 1)%Z with true; cbv iota; destruct t as [z|]; [destruct (z <? 0)%Z eqn:B; [apply Z.ltb_lt in B|apply Z.ltb_ge in B]; lia|lia]).
      exists (firstn (Z.to_nat p) xs), (firstn (Z.to_nat (Z.max p q) - Z.to_nat p) (skipn (Z.to_nat p) xs)), (skipn (Z.to_nat (Z.max p q)) xs).
      split.
      + replace (Z.to_nat (Z.max p q)) with ((Z.to_nat (Z.max p q) - Z.to_nat p) + Z.to_nat p) at 2 by lia. rewrite <- skipn_skipn', firstn_skipn, firstn_skipn. reflexivity.
      + cbv zeta. rewrite !firstn_length, skipn_length. split; [lia|]. split; [lia|reflexivity].
    - intros K0 K1. destruct (positions_pf (length xs) s t k K0) as (is & E & S). exists is. split; [exact S|]. rewrite E. rewrite (proj2 (Z.eqb_neq _ _) K1).
      assert (D := selects_nodup _ _ _ _ _ K0 S). assert (B := selects_bound _ _ _ _ _ S).
      destruct (Nat.eqb_spec (length ys) (length is)) as [L|L].
      + split; [|split; intros; congruence]. intros _. destruct (overwrite_pf is ys xs L D B) as (O1 & O2 & O3).
        exists (overwrite is ys xs). split; [|repeat split; assumption].
        destruct ys as [|y ys]; [|destruct kd; reflexivity]. destruct is; [|discriminate L]. cbn [overwrite]. rewrite omit_others, others_nil. destruct kd; reflexivity.
      + split; [intros; congruence|]. split.
        * intros _ [Kl|Ny]; [rewrite Kl; reflexivity|]. destruct ys; [congruence|]. destruct kd; reflexivity.
        * intros _ Nk ->. rewrite omit_others. destruct kd; congruence.
  Qed.
  Lemma setslice_fails_pf : forall a s t k src e, fst (setslice long64 a s t k src) = Raise e -> snd (setslice long64 a s t k src) = a.
  Proof.
    intros a s t k src e. unfold setslice. repeat match goal with |- context [match ?x with _ => _ end] => destruct x; cbn [fst snd]; try congruence end.
  Qed.
  (** An array.array takes nothing but arrays with its code. *)
  Lemma setslice_typed_pf : forall a s t k c vs, a_kind a = KArr c -> given k <> 0%Z -> setslice long64 a s t k (SIter vs) = (Raise TypeError, a).
  Proof.
    intros a s t k c vs K N. unfold setslice. destruct (positions_pf (length (a_elems a)) s t k N) as (is & E & _). rewrite E, K. reflexivity.
  Qed.
  Lemma setslice_code_pf : forall a s t k c d vs raw ys, a_kind a = KArr d -> c <> d -> given k <> 0%Z -> Forall2 (stored long64 (KArr c)) vs ys ->
    setslice long64 a s t k (SArray c vs raw) = (Raise TypeError, a).
  Proof.
    intros a s t k c d vs raw ys K N G S. unfold setslice. rewrite (store_all_iff _ _ _ S). destruct (positions_pf (length (a_elems a)) s t k G) as (is & E & _). rewrite E, K.
    cbn [source_elems]. rewrite (store_all_iff _ _ _ S). cbn [rbind]. destruct (acode_eqb c d) eqn:Q; [|reflexivity]. exfalso. apply N. destruct c, d; try discriminate Q; reflexivity.
  Qed.
  (** A bytearray takes the memory of an array.array, not its numbers. *)
  Lemma setslice_raw_pf : forall a c vs raw ys, a_kind a = KBytes -> Forall2 (stored long64 (KArr c)) vs ys ->
    setslice long64 a None None None (SArray c vs raw) = (Ret tt, TArray KBytes (List.map (fun n => VInt None (n mod 256)%Z) raw) (a_type a)).
  Proof.
    intros [k xs ty] c vs raw ys K S. cbn in K. subst k. unfold setslice. rewrite (store_all_iff _ _ _ S).
    destruct (positions_pf (length xs) None None None) as (is & E & _); [discriminate|]. cbn [a_elems a_kind]. rewrite E. cbn [source_elems].
    unfold slice_from, slice_to. cbn [Z.ltb Z.compare]. unfold with_elems. cbn [a_kind a_type]. rewrite Z.max_r, Nat2Z.id, skipn_all, app_nil_r by lia. reflexivity.
  Qed.

  (** ** clear, remove, reverse *)
  Lemma delitem_at : forall k ty pre (x : val) post i, (i = Z.of_nat (length pre) \/ i = - (Z.of_nat (length post) + 1))%Z ->
    delitem (TArray k (pre ++ x :: post) ty) i = (Ret tt, TArray k (pre ++ post) ty) /\ pop (TArray k (pre ++ x :: post) ty) i = (Ret x, TArray k (pre ++ post) ty).
  Proof.
    intros k ty pre x post i I. destruct (delitem_pf (TArray k (pre ++ x :: post) ty) i) as [D _]. cbn [a_elems a_kind a_type] in D.
    destruct (D x) as (pre1 & post1 & E & I1 & D1 & D2); [exists pre, post; auto|]. rewrite D1, D2.
    assert (L : length pre = length pre1) by (apply (f_equal (@length val)) in E; rewrite !app_length in E; cbn in E; lia).
    assert (Ep : pre = pre1 /\ x :: post = x :: post1).
    { clear -E L. revert pre1 E L. induction pre as [|p pre IH]; intros [|q pre1] E L; try discriminate L; [auto|]. injection E as -> E. injection L as L. destruct (IH pre1 E L). split; congruence. }
    destruct Ep as [-> Ep]. injection Ep as ->. auto.
  Qed.
  Lemma clear_pf : forall fuel a, length (a_elems a) < fuel -> clear fuel a = (Ret tt, TArray (a_kind a) [] (a_type a)).
  Proof.
    induction fuel as [|fuel IH]; intros [k xs ty] L; [lia|]. cbn [clear a_elems a_kind a_type] in *.
    destruct xs as [|x0 xs0] eqn:Ex; [reflexivity|]. destruct (@exists_last _ xs) as (ys & y & ->); [congruence|]. rewrite <- Ex in *.
    rewrite (proj2 (delitem_at k ty ys y [] (-1) (or_intror eq_refl))), app_nil_r. apply IH. cbn [a_elems]. rewrite app_length in L. cbn in L. lia.
  Qed.
  Lemma index_of_pf : forall eq pre (x : val) post i, Forall (fun v => eq v = false) pre -> eq x = true ->
    index_of eq i (pre ++ x :: post) = Ret (i + Z.of_nat (length pre))%Z.
  Proof.
    intros eq. induction pre as [|p pre IH]; intros x post i N E.
    - cbn. rewrite E. f_equal. lia.
    - inversion N; subst. cbn [app index_of]. rewrite H2, IH by assumption. f_equal. cbn [length]. lia.
  Qed.
  Lemma index_of_none : forall eq (xs : list val) i, Forall (fun v => eq v = false) xs -> index_of eq i xs = Raise ValueError.
  Proof. intros eq. induction xs as [|x xs IH]; intros i N; [reflexivity|]. inversion N; subst. cbn. rewrite H2. auto. Qed.
  Lemma remove_pf : forall a eq,
    (forall pre x post, a_elems a = pre ++ x :: post -> Forall (fun v => eq v = false) pre -> eq x = true ->
       remove a eq = (Ret tt, TArray (a_kind a) (pre ++ post) (a_type a))) /\
    (Forall (fun v => eq v = false) (a_elems a) -> remove a eq = (Raise ValueError, a)).
  Proof.
    intros [k xs ty] eq. cbn [a_elems a_kind a_type]. split.
    - intros pre x post -> N E. unfold remove. cbn [a_elems]. rewrite index_of_pf by assumption. apply delitem_at. left. lia.
    - intros N. unfold remove. cbn [a_elems]. now rewrite index_of_none.
  Qed.

  Lemma nth_rev : forall A (xs : list A) j, j < length xs -> nth_error (rev xs) j = nth_error xs (length xs - 1 - j).
  Proof.
    intros A xs j L. destruct (nth_error xs (length xs - 1 - j)) as [x|] eqn:E; [|apply nth_error_None in E; lia].
    rewrite (nth_error_nth' _ x) by (rewrite rev_length; lia). rewrite rev_nth by lia. rewrite (nth_error_nth' _ x) in E by lia. injection E as E. f_equal.
    replace (length xs - S j) with (length xs - 1 - j) by lia. exact E.
  Qed.
  Lemma item_at : forall a i x, nth_error (a_elems a) i = Some x -> item a (Z.of_nat i) = Ret x.
  Proof.
    intros a i x E. unfold item, index. destruct (Z.ltb_spec (Z.of_nat i) 0); [lia|]. destruct (Z.ltb_spec (Z.of_nat i) 0); [lia|]. rewrite Nat2Z.id, E. reflexivity.
  Qed.
  Lemma setitem_at : forall a i x, i < length (a_elems a) -> store long64 (a_kind a) x = Ret x ->
    setitem long64 a (Z.of_nat i) x = (Ret tt, TArray (a_kind a) (firstn i (a_elems a) ++ x :: skipn (S i) (a_elems a)) (a_type a)).
  Proof.
    intros a i x L E. unfold setitem. rewrite E. replace (position (length (a_elems a)) (Z.of_nat i)) with (Some i); [reflexivity|].
    symmetry. apply position_some. lia.
  Qed.
  Definition half (xs : list val) (m : nat) (ys : list val) : Prop :=
    length ys = length xs /\
    forall j, j < length xs -> nth_error ys j = nth_error xs (if (Nat.ltb j m || Nat.leb (length xs - m) j)%bool then length xs - 1 - j else j).
  Lemma kept_in : forall k (xs : list val) i x, kept long64 k xs -> nth_error xs i = Some x -> store long64 k x = Ret x.
  Proof. intros k xs i x K E. unfold kept in K. rewrite Forall_forall in K. apply K. eapply nth_error_In; eauto. Qed.
  Lemma reverse_loop_pf : forall l xs m k ty ys, kept long64 k xs -> half xs m ys -> m + l <= length xs / 2 ->
    exists zs, reverse_loop long64 (Z.of_nat (length xs)) (List.map Z.of_nat (seq m l)) (TArray k ys ty) = (Ret tt, TArray k zs ty) /\ half xs (m + l) zs.
  Proof.
    induction l as [|l IH]; intros xs m k ty ys K [L Hf] B.
    - exists ys. split; [reflexivity|]. rewrite Nat.add_0_r. split; assumption.
    - assert (M : m + m + 1 < length xs) by (pose proof (Nat.div_mod_eq (length xs) 2); lia).
      set (n := length xs) in *. cbn [seq List.map reverse_loop].
      destruct (nth_error xs m) as [x|] eqn:Ex; [|apply nth_error_None in Ex; lia]. destruct (nth_error xs (n - 1 - m)) as [y|] eqn:Ey; [|apply nth_error_None in Ey; lia].
      assert (Yx : nth_error ys m = Some x).
      { rewrite Hf by lia. destruct (Nat.ltb_spec m m), (Nat.leb_spec (n - m) m); try lia. exact Ex. }
      assert (Yy : nth_error ys (n - 1 - m) = Some y).
      { rewrite Hf by lia. destruct (Nat.ltb_spec (n - 1 - m) m), (Nat.leb_spec (n - m) (n - 1 - m)); try lia. exact Ey. }
      replace (Z.of_nat n - Z.of_nat m - 1)%Z with (Z.of_nat (n - 1 - m)) by lia.
      rewrite (item_at (TArray k ys ty) (n - 1 - m) y Yy), (item_at (TArray k ys ty) m x Yx).
      assert (Sx := kept_in _ _ _ _ K Ex). assert (Sy := kept_in _ _ _ _ K Ey).
      rewrite setitem_at by (cbn; auto; lia). cbn [a_elems a_kind a_type]. rewrite setitem_at by (cbn [a_elems a_kind]; auto; rewrite put_length by lia; lia). cbn [a_elems a_kind a_type].
      set (zs := firstn m ys ++ y :: skipn (S m) ys). assert (Lz : length zs = n) by (unfold zs; rewrite put_length; lia).
      replace (m + S l) with (S m + l) by lia. apply IH; [exact K| |fold n; lia]. split; [rewrite put_length; fold n; lia|].
      intros j J. rewrite put_nth by lia. fold n. destruct (Nat.eqb_spec j (n - 1 - m)) as [->|N1].
      + destruct (Nat.leb_spec (n - S m) (n - 1 - m)); [|lia]. rewrite orb_true_r. replace (n - 1 - (n - 1 - m)) with m by lia. now rewrite Ex.
      + unfold zs. rewrite put_nth by lia. destruct (Nat.eqb_spec j m) as [->|N2].
        * destruct (Nat.ltb_spec m (S m)); [|lia]. cbn [orb]. now rewrite Ey.
        * rewrite Hf by lia. fold n. f_equal. destruct (Nat.ltb_spec j m), (Nat.ltb_spec j (S m)), (Nat.leb_spec (n - m) j), (Nat.leb_spec (n - S m) j); cbn [orb]; lia.
  Qed.
  Lemma reverse_pf : forall a, made long64 a -> reverse long64 a = (Ret tt, TArray (a_kind a) (rev (a_elems a)) (a_type a)).
  Proof.
    intros [k xs ty] D. apply made_ok in D. destruct D as [_ K]. cbn [a_elems a_kind a_type] in *. unfold reverse. cbn [a_elems].
    replace (Z.to_nat (Z.of_nat (length xs) / 2)) with (length xs / 2) by (change 2%Z with (Z.of_nat 2); rewrite <- Nat2Z.inj_div, Nat2Z.id; reflexivity).
    destruct (reverse_loop_pf (length xs / 2) xs 0 k ty xs K) as (zs & E & L & Hf); [|lia|].
    - split; [reflexivity|]. intros j J. destruct (Nat.ltb_spec j 0), (Nat.leb_spec (length xs - 0) j); try lia. reflexivity.
    - rewrite E. do 2 f_equal. apply same_nth. intros j. destruct (Nat.lt_ge_cases j (length xs)) as [J|J].
      + rewrite nth_rev, Hf by lia. f_equal. cbn [Nat.add]. pose proof (Nat.div_mod_eq (length xs) 2). pose proof (Nat.mod_upper_bound (length xs) 2 ltac:(lia)).
        destruct (Nat.ltb_spec j (length xs / 2)), (Nat.leb_spec (length xs - length xs / 2) j); cbn [orb]; lia.
      + rewrite (proj2 (nth_error_None zs j)), (proj2 (nth_error_None (rev xs) j)); auto; rewrite ?rev_length; lia.
  Qed.
End A.
