(** Lemmas about the methods that TypedArray and Map inherit. *)
From Coq Require Import List ZArith Bool Arith Lia.
From Verif.Model Require Import Base PyList Block Array MapTree Map Inherited.
From Verif.Spec Require Import ListM ArraySpec MapSpec InheritSpec.
From Verif.Proofs Require Import BlockFacts ArrayFacts ArrayFacts2 KeyOrdFacts MapTreeFacts MapFacts MapMain.
Import ListNotations.
Local Open Scope list_scope.
Local Open Scope nat_scope.
Local Open Scope py_scope.

Section Arrays.
  Context {F U : Type} `{Floats F}.
  Notation val := (pyval F U).
  Implicit Types a : tarray F U.

  Lemma contains_pf : forall W (eq : val -> M W bool) a, arr_contains eq a ==m existsM eq (a_elems a).
  Proof.
    intros W eq a. unfold arr_contains. induction (a_elems a) as [|x xs IH]; intros w; [reflexivity|].
    cbn [existsM]. unfold bind. destruct (eq x w) as [[[]|e] w1]; try reflexivity. apply IH.
  Qed.
  Lemma count_pf : forall W (eq : val -> M W bool) a,
    arr_count eq a ==m (do bs <- mapM (fun v => outside (eq v)) (a_elems a); ret (Z.of_nat (count_occ bool_dec bs true))).
  Proof.
    intros W eq a. unfold arr_count.
    assert (G : forall (xs : list val) n, for_in xs n (fun n v => do b <- in_generator (eq v); ret (if b : bool then (n + 1)%Z else n))
              ==m (do bs <- mapM (fun v => outside (eq v)) xs; ret (n + Z.of_nat (count_occ bool_dec bs true))%Z)).
    { induction xs as [|x xs IH]; intros n w.
      - cbn. rewrite Z.add_0_r. reflexivity.
      - cbn [for_in mapM]. unfold bind at 1 2. unfold in_generator.
        assert (D : forall X (m : M W X) w, (match m w with (Raise StopIterationExn, w1) => (Raise RuntimeError, w1) | r => r end) = outside m w).
        { intros X m v. unfold outside. destruct (m v) as [[y|[]] v1]; reflexivity. }
        rewrite D. unfold bind at 2 3. destruct (outside (eq x) w) as [[b|e] w1]; [|reflexivity].
        cbn [ret]. unfold bind at 1. unfold ret at 1. rewrite IH. unfold bind.
        destruct (mapM _ xs w1) as [[bs|e] w2]; [|reflexivity]. unfold ret. cbn [count_occ].
        destruct b; destruct (bool_dec _ _) as [E|E]; try congruence; do 2 f_equal; lia. }
    intros w. rewrite G. unfold bind. destruct (mapM _ _ w) as [[bs|e] w1]; reflexivity.
  Qed.

  Lemma index_at : forall A (l : list A) i, index l (Z.of_nat i) = match nth_error l i with Some x => Ret x | None => Raise IndexError end.
  Proof.
    intros A l i. unfold index. destruct (Z.ltb_spec (Z.of_nat i) 0); [lia|]. destruct (Z.ltb_spec (Z.of_nat i) 0); [lia|]. rewrite Nat2Z.id. reflexivity.
  Qed.
  Lemma items_at_map : forall A (l : list A) (is : list nat), Forall (fun i => i < List.length l) is ->
    exists ys, items_at (index l) (List.map Z.of_nat is) = Ret ys /\ Forall2 (fun i y => nth_error l i = Some y) is ys.
  Proof.
    intros A l is. induction 1 as [|i is L _ IH]; [exists []; split; [reflexivity|constructor]|].
    destruct IH as (ys & E & Q). destruct (nth_error l i) as [y|] eqn:N; [|apply nth_error_None in N; lia].
    exists (y :: ys). split; [|constructor; auto]. cbn [List.map items_at]. rewrite index_at, N. cbn. rewrite E. reflexivity.
  Qed.
  Lemma nth_seq_id : forall A (l : list A), Forall2 (fun i y => nth_error l i = Some y) (seq 0 (List.length l)) l.
  Proof.
    intros A l. assert (G : forall pre (l' : list A), l = pre ++ l' -> Forall2 (fun i y => nth_error l i = Some y) (seq (List.length pre) (List.length l')) l').
    { intros pre l'. revert pre. induction l' as [|x l' IH]; intros pre E; [constructor|]. cbn [List.length seq]. constructor.
      - rewrite E, nth_error_app2, Nat.sub_diag by lia. reflexivity.
      - specialize (IH (pre ++ [x])). rewrite app_length, Nat.add_comm in IH. apply IH. rewrite <- app_assoc. exact E. }
    apply (G [] l eq_refl).
  Qed.
  Lemma reversed_index : forall A (l : list A), items_at (index l) (down_from (List.length l)) = Ret (rev l).
  Proof.
    intros A l. destruct (items_at_map A l (rev (seq 0 (List.length l)))) as (ys & E & Q).
    - apply Forall_forall. intros i I. apply in_rev, in_seq in I. lia.
    - unfold down_from. rewrite E. f_equal.
      assert (R : Forall2 (fun i y => nth_error l i = Some y) (rev (seq 0 (List.length l))) (rev l)).
      { assert (T : forall is ys, Forall2 (fun i y => nth_error l i = Some y) is ys -> Forall2 (fun i y => nth_error l i = Some y) (rev is) (rev ys)).
        { induction 1; [constructor|]. cbn. apply Forall2_app; auto. }
        apply T, nth_seq_id. }
      clear E. revert ys Q R. generalize (rev (seq 0 (List.length l))), (rev l). intros is. induction is as [|i is IH]; intros l0 ys Q R; inversion Q; inversion R; subst; [reflexivity|].
      f_equal; [congruence|]. now apply IH.
  Qed.

  (** index *)
  Lemma skipn_at : forall A (l : list A) i, skipn i l = match nth_error l i with Some x => x :: skipn (S i) l | None => [] end.
  Proof. induction l as [|x l IH]; intros [|i]; cbn; auto. rewrite IH. reflexivity. Qed.
  Lemma index_loop_pf : forall W (eq : val -> M W bool) stop a fuel i, List.length (a_elems a) - i < fuel ->
    index_loop fuel eq (Z.of_nat i) stop a ==m
    search eq (Z.of_nat i) (firstn (match stop with Some s => Z.to_nat (s - Z.of_nat i) | None => List.length (a_elems a) - i end) (skipn i (a_elems a))).
  Proof.
    intros W eq stop a. induction fuel as [|fuel IH]; intros i L w; [lia|].
    cbn [index_loop]. unfold Array.item. rewrite index_at, skipn_at.
    destruct (nth_error (a_elems a) i) as [x|] eqn:N.
    - assert (I : i < List.length (a_elems a)) by (apply nth_error_Some; congruence).
      assert (T : forall k, match k with 0 => True | S _ => search eq (Z.of_nat i) (firstn k (x :: skipn (S i) (a_elems a))) w
                   = (do b <- eq x; if b : bool then ret (Z.of_nat i) else search eq (Z.of_nat (S i)) (firstn (k - 1) (skipn (S i) (a_elems a)))) w end).
      { intros [|k]; [exact Logic.I|]. cbn [firstn search Nat.sub]. rewrite Nat.sub_0_r. replace (Z.of_nat (S i)) with (Z.of_nat i + 1)%Z by lia. reflexivity. }
      destruct stop as [s|].
      + destruct (Z.ltb_spec (Z.of_nat i) s) as [C|C].
        * specialize (T (Z.to_nat (s - Z.of_nat i))). destruct (Z.to_nat (s - Z.of_nat i)) as [|k] eqn:Ek; [lia|]. rewrite T.
          unfold bind. destruct (eq x w) as [[[]|e] w1]; try reflexivity.
          replace (Z.of_nat i + 1)%Z with (Z.of_nat (S i)) by lia. rewrite (IH (S i)) by lia. replace (Z.to_nat (s - Z.of_nat (S i))) with (S k - 1) by lia. reflexivity.
        * replace (Z.to_nat (s - Z.of_nat i)) with 0 by lia. reflexivity.
      + specialize (T (List.length (a_elems a) - i)). destruct (List.length (a_elems a) - i) as [|k] eqn:Ek; [lia|]. rewrite T.
        unfold bind. destruct (eq x w) as [[[]|e] w1]; try reflexivity.
        replace (Z.of_nat i + 1)%Z with (Z.of_nat (S i)) by lia. rewrite (IH (S i)) by lia. replace (List.length (a_elems a) - S i) with (S k - 1) by lia. reflexivity.
    - rewrite firstn_nil. destruct stop as [s|]; [destruct (Z.ltb_spec (Z.of_nat i) s)|]; reflexivity.
  Qed.
  Lemma index_search_pf : forall W (eq : val -> M W bool) start stop a fuel, List.length (a_elems a) < fuel ->
    arr_index fuel eq start stop a ==m
    search eq (slice_bound (Z.of_nat (List.length (a_elems a))) start) (slice (a_elems a) (Some start) stop).
  Proof.
    intros W eq start stop a fuel L w. unfold arr_index. set (n := List.length (a_elems a)).
    set (st := if (start <? 0)%Z then Z.max (Z.of_nat n + start) 0 else start).
    assert (P : (0 <= st)%Z) by (subst st; destruct (Z.ltb_spec start 0); lia).
    replace st with (Z.of_nat (Z.to_nat st)) by lia. rewrite index_loop_pf by (fold n; lia). unfold slice. fold n. unfold slice_bound at 2.
    set (q := match stop with Some b => slice_bound (Z.of_nat n) b | None => Z.of_nat n end).
    assert (B : slice_bound (Z.of_nat n) start = Z.min (Z.of_nat n) st) by (unfold slice_bound; subst st; destruct (Z.ltb_spec start 0); lia).
    fold (slice_bound (Z.of_nat n) start). rewrite B.
    destruct (Z.le_gt_cases (Z.of_nat n) st) as [C|C].
    - rewrite !skipn_all2 by (fold n; lia). rewrite !firstn_nil. reflexivity.
    - replace (Z.min (Z.of_nat n) st) with st by lia.
      rewrite Z2Nat.id by lia. f_equal.
      destruct stop as [s|]; subst q.
      + unfold slice_bound. set (s1 := if (s <? 0)%Z then (s + Z.of_nat n)%Z else s).
        destruct (Z.le_gt_cases s1 (Z.of_nat n)) as [D|D].
        * f_equal. lia.
        * rewrite !firstn_all2; auto; rewrite skipn_length; fold n; lia.
      + f_equal. fold n. lia.
  Qed.

  Lemma search_pure : forall W (p : val -> bool) l i (w : W),
    (exists j x, nth_error l j = Some x /\ p x = true /\ (forall j' y, (j' < j) -> nth_error l j' = Some y -> p y = false) /\
       search (fun v => ret (p v)) i l w = (Ret (i + Z.of_nat j)%Z, w)) \/
    ((forall x, In x l -> p x = false) /\ search (fun v => ret (p v)) i l w = (Raise ValueError, w)).
  Proof.
    intros W p l. induction l as [|x l IH]; intros i w; [right; split; [intros ? []|reflexivity]|].
    cbn [search]. unfold bind, ret at 1. destruct (p x) eqn:Px.
    - left. exists 0, x. repeat split; auto; [intros j' y L; lia|]. rewrite Z.add_0_r. reflexivity.
    - destruct (IH (i + 1)%Z w) as [(j & y & N & Py & B & E)|(A & E)].
      + left. exists (S j), y. repeat split; auto.
        * intros [|j'] z L N'; [cbn in N'; congruence|]. eapply (B j'); [lia|exact N'].
        * change (ret (p x) w) with (@Ret bool (p x), w) in *. rewrite E. do 2 f_equal. lia.
      + right. split; [intros y [<-|I]; auto|]. exact E.
  Qed.

  Lemma slice_nth : forall A (xs : list A) start stop j,
    nth_error (slice xs (Some start) stop) j =
    let i := Z.to_nat (slice_bound (Z.of_nat (List.length xs)) start) + j in
    if Z.ltb (Z.of_nat i) (match stop with Some s => slice_bound (Z.of_nat (List.length xs)) s | None => Z.of_nat (List.length xs) end)
    then nth_error xs i else None.
  Proof.
    intros A xs start stop j. unfold slice. set (lo := slice_bound _ start). set (hi := match stop with Some _ => _ | None => _ end).
    assert (P : (0 <= lo)%Z) by (subst lo; unfold slice_bound; lia). cbv zeta.
    assert (Nf : forall k (l : list A) j, nth_error (firstn k l) j = if j <? k then nth_error l j else None).
    { clear. induction k as [|k IH]; intros l j; [now destruct j|]. destruct l as [|x l]; [rewrite firstn_nil; replace (nth_error [] j) with (@None A) by (now destruct j); now destruct (j <? S k)|].
      destruct j as [|j]; [reflexivity|]. cbn [firstn nth_error]. rewrite IH. reflexivity. }
    assert (Ns : forall k (l : list A) j, nth_error (skipn k l) j = nth_error l (k + j)).
    { clear. induction k as [|k IH]; intros l j; [reflexivity|]. destruct l as [|x l]; [now destruct j|]. cbn. apply IH. }
    rewrite Nf, Ns. destruct (Nat.ltb_spec j (Z.to_nat (hi - lo))), (Z.ltb_spec (Z.of_nat (Z.to_nat lo + j)) hi); try reflexivity; lia.
  Qed.
  Lemma slice_within : forall A (xs : list A) start stop i x, nth_error xs i = Some x ->
    (within (List.length xs) start stop i <-> exists j, i = Z.to_nat (slice_bound (Z.of_nat (List.length xs)) start) + j /\ nth_error (slice xs (Some start) stop) j = Some x).
  Proof.
    intros A xs start stop i x N. assert (L : i < List.length xs) by (apply nth_error_Some; congruence).
    unfold within, counted. split.
    - intros (_ & Lo & Hi). exists (i - Z.to_nat (slice_bound (Z.of_nat (List.length xs)) start)).
      assert (E : i = Z.to_nat (slice_bound (Z.of_nat (List.length xs)) start) + (i - Z.to_nat (slice_bound (Z.of_nat (List.length xs)) start))).
      { unfold slice_bound. destruct (Z.ltb_spec start 0); lia. }
      split; [exact E|]. rewrite slice_nth. cbv zeta. rewrite <- E.
      destruct (Z.ltb_spec (Z.of_nat i) (match stop with Some s => slice_bound (Z.of_nat (List.length xs)) s | None => Z.of_nat (List.length xs) end)) as [C|C]; [exact N|].
      exfalso. destruct stop as [s|]; [|lia]. unfold slice_bound in C. destruct (Z.ltb_spec s 0); lia.
    - intros (j & E & Q). rewrite slice_nth in Q. cbv zeta in Q. rewrite <- E in Q.
      destruct (Z.ltb_spec (Z.of_nat i) (match stop with Some s => slice_bound (Z.of_nat (List.length xs)) s | None => Z.of_nat (List.length xs) end)) as [C|C]; [|discriminate].
      unfold slice_bound in *. split; [exact L|]. split.
      + destruct (Z.ltb_spec start 0); lia.
      + destruct stop as [s|]; [|exact Logic.I]. destruct (Z.ltb_spec s 0); lia.
  Qed.

  Lemma index_pure_pf : forall W (p : val -> bool) start stop a fuel (w : W), List.length (a_elems a) < fuel ->
    let hit i := within (List.length (a_elems a)) start stop i /\ exists x, nth_error (a_elems a) i = Some x /\ p x = true in
    (exists i, hit i /\ (forall j, j < i -> ~ hit j) /\ arr_index fuel (fun v => ret (p v)) start stop a w = (Ret (Z.of_nat i), w)) \/
    ((forall i, ~ hit i) /\ arr_index fuel (fun v => ret (p v)) start stop a w = (Raise ValueError, w)).
  Proof.
    intros W p start stop a fuel w L hit. rewrite (index_search_pf W _ start stop a fuel L).
    set (lo := slice_bound (Z.of_nat (List.length (a_elems a))) start). assert (P : (0 <= lo)%Z) by (subst lo; unfold slice_bound; lia).
    destruct (search_pure W p (slice (a_elems a) (Some start) stop) lo w) as [(j & x & N & Px & B & E)|(B & E)].
    - left. assert (Nx : nth_error (a_elems a) (Z.to_nat lo + j) = Some x).
      { rewrite slice_nth in N. cbv zeta in N. fold lo in N. destruct (Z.ltb _ _) in N; [exact N|discriminate]. }
      exists (Z.to_nat lo + j). split; [|split].
      + split; [|eauto]. apply (slice_within _ _ _ _ _ x Nx). exists j. split; [reflexivity|exact N].
      + intros i Li [Wi (y & Ny & Py)]. apply (slice_within _ _ _ _ _ y Ny) in Wi. destruct Wi as (k & Ek & Nk). fold lo in Ek.
        assert (p y = false) by (apply (B k y); [lia|exact Nk]). congruence.
      + rewrite E. do 2 f_equal. lia.
    - right. split; [|exact E]. intros i [Wi (y & Ny & Py)]. apply (slice_within _ _ _ _ _ y Ny) in Wi. destruct Wi as (k & Ek & Nk).
      apply nth_error_In in Nk. rewrite (B y Nk) in Py. discriminate.
  Qed.

  (** extend *)
  Lemma itself_pf : forall long64 a fuel, made long64 a ->
    extend_by long64 fuel a Itself = (Ret tt, TArray (a_kind a) (a_elems a ++ a_elems a) (a_type a)).
  Proof.
    intros long64 a fuel D. apply made_ok in D. destruct D as [_ Kp]. cbn [extend_by].
    assert (G : forall vs (b : tarray F U), a_kind b = a_kind a -> kept long64 (a_kind a) vs -> extend long64 b vs = (Ret tt, TArray (a_kind b) (a_elems b ++ vs) (a_type b))).
    { induction vs as [|v vs IH]; intros b Kb Kv; [rewrite app_nil_r; destruct b; reflexivity|].
      inversion Kv as [|? ? S Kv']; subst. cbn [extend]. unfold append, insert. rewrite Kb, S.
      unfold slice_bound. destruct (Z.ltb_spec (Z.of_nat (List.length (a_elems b))) 0); [lia|]. rewrite Z.min_id, Z.max_r, Nat2Z.id by lia.
      rewrite firstn_all, skipn_all. rewrite IH; auto. cbn [with_elems a_kind a_elems a_type]. rewrite Kb, <- app_assoc. reflexivity. }
    apply G; auto.
  Qed.
  Lemma append_kept : forall long64 k xs ty v, store long64 k v = Ret v ->
    append long64 (TArray k xs ty : tarray F U) v = (Ret tt, TArray k (xs ++ [v]) ty).
  Proof.
    intros long64 k xs ty v S. unfold append, insert. cbn [a_kind a_elems a_type]. rewrite S.
    unfold slice_bound. destruct (Z.ltb_spec (Z.of_nat (List.length xs)) 0); [lia|]. rewrite Z.min_id, Z.max_r, Nat2Z.id by lia.
    rewrite firstn_all, skipn_all. reflexivity.
  Qed.
  Lemma own_storage_pf : forall long64 a fuel, made long64 a -> a_elems a <> [] ->
    exists b, extend_by long64 fuel a ItsStorage = (Raise OutOfFuel, b) /\ List.length (a_elems b) = List.length (a_elems a) + fuel.
  Proof.
    intros long64 [k xs ty] fuel D N. apply made_ok in D. destruct D as [_ Kp]. cbn [a_kind a_elems] in *. cbn [extend_by].
    assert (G : forall fuel i xs, i < List.length xs -> kept long64 k xs ->
      exists b, extend_live long64 fuel i (TArray k xs ty : tarray F U) = (Raise OutOfFuel, b) /\ List.length (a_elems b) = List.length xs + fuel).
    { clear. induction fuel as [|fuel IH]; intros i xs L Kp; [eexists; split; [reflexivity|cbn; lia]|].
      cbn [extend_live a_elems]. destruct (nth_error xs i) as [v|] eqn:E; [|apply nth_error_None in E; lia].
      assert (S : store long64 k v = Ret v) by (eapply Forall_forall in Kp; [exact Kp|eapply nth_error_In; eauto]).
      rewrite append_kept by exact S. destruct (IH (Datatypes.S i) (xs ++ [v])) as (b & Eb & Lb).
      - rewrite app_length. cbn. lia.
      - apply Forall_app. split; [exact Kp|repeat constructor; exact S].
      - exists b. split; [exact Eb|]. rewrite Lb, app_length. cbn. lia. }
    apply G; auto. destruct xs; [congruence|cbn; lia].
  Qed.
End Arrays.

Section Maps.
  Context {K V : Type} `{KeyOrd K}.
  Implicit Types m : tree K V.

  Lemma reach_facts : forall m, Reach m -> ascending (to_list m) /\ to_list m = elements m /\ len m = List.length (to_list m) /\
    (forall k, try_find k m = option_map snd (assoc k (to_list m))) /\ (forall k, mem k m = match assoc k (to_list m) with Some _ => true | None => false end).
  Proof.
    intros m R. pose proof (C05_pf m R) as P. pose proof (Reach_Wf V m R) as [Wm S].
    assert (E : to_list m = elements m) by apply to_list_elements. rewrite E. repeat split; auto.
    - unfold len. apply size_elements.
    - intros k. now apply try_find_assoc.
    - intros k. now apply mem_assoc.
  Qed.
End Maps.
