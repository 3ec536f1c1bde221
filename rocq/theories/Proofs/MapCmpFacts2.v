(** How often keys are compared by the operations that build a whole map (C106). *)
From Coq Require Import List Bool Arith Lia.
From Verif.Model Require Import Base MapTree MapCmp.
From Verif.Spec Require Import MapSpec MapCmpSpec.
From Verif.Proofs Require Import MapTreeFacts MapFacts MapCmpFacts.
Import ListNotations.

Section Bulk.
  Context {W K V : Type} (lt eq : K -> K -> M W bool).
  Implicit Types (m t l r : tree K V).
  Definition asks_for {B} (b : nat) (f : M (nat * W) B) (g : M W B) (Q : B -> Prop) : Prop :=
    forall n w, exists c, c <= b /\ f (n, w) = (fst (g w), (n + c, snd (g w))) /\ (forall x, fst (g w) = Ret x -> Q x).
  Lemma for_bind : forall B C b1 b2 b (f : M (nat * W) B) g (f' : B -> M (nat * W) C) g' P Q,
    asks_for b1 f g P -> (forall x, P x -> asks_for b2 (f' x) (g' x) Q) -> b1 + b2 <= b -> asks_for b (bind f f') (bind g g') Q.
  Proof.
    intros B C b1 b2 b f g f' g' P Q A1 A2 L n w. destruct (A1 n w) as (c1 & L1 & E1 & P1). unfold bind. rewrite E1.
    destruct (g w) as [[x|e] w1]; cbn [fst snd] in *.
    - destruct (A2 x (P1 x eq_refl) (n + c1) w1) as (c2 & L2 & E2 & Q2). rewrite E2. exists (c1 + c2). split; [lia|]. split; [now rewrite Nat.add_assoc|exact Q2].
    - exists c1. split; [lia|]. split; [reflexivity|discriminate].
  Qed.
  Lemma for_ret : forall B (x : B) b (Q : B -> Prop), Q x -> asks_for b (ret x) (ret x) Q.
  Proof. intros B x b Q q n w. exists 0. split; [lia|]. split; [unfold ret; cbn; now rewrite Nat.add_0_r|]. intros y E. injection E as <-. exact q. Qed.
  Lemma for_any : forall B b (f : M (nat * W) B) g, asks_c b f g -> asks_for b f g (fun _ => True).
  Proof. intros B b f g A n w. destruct (A n w) as (c & L & E). exists c. auto. Qed.
  Lemma for_weak : forall B b b' (f : M (nat * W) B) g (Q Q' : B -> Prop), asks_for b f g Q -> b <= b' -> (forall x, Q x -> Q' x) -> asks_for b' f g Q'.
  Proof. intros B b b' f g Q Q' A L I n w. destruct (A n w) as (c & Lc & E & q). exists c. split; [lia|]. auto. Qed.

  Definition per (n : nat) : nat := 4 * Nat.log2 (n + 1) + 2.
  Definition small (j : nat) m : Prop := good m /\ length (elements m) <= j.
  Lemma good_depth : forall m, good m -> 2 * depth m <= per (length (elements m)).
  Proof.
    intros m [_ B]. pose proof (balanced_minsize m B) as A. pose proof (minsize_pow (depth m)) as P.
    assert (Q : 2 ^ (depth m / 2) <= length (elements m) + 1) by lia.
    apply Nat.log2_le_mono in Q. rewrite Nat.log2_pow2 in Q by lia.
    pose proof (Nat.div_mod_eq (depth m) 2). pose proof (Nat.mod_upper_bound (depth m) 2). unfold per. lia.
  Qed.
  Lemma per_mono : forall i j, i <= j -> per i <= per j.
  Proof. intros i j L. unfold per. pose proof (Nat.log2_le_mono (i + 1) (j + 1)). lia. Qed.
  Lemma with_item_length : forall k (v : V) e1 e2, with_item eq k v e1 e2 -> length e2 <= S (length e1).
  Proof. intros k v e1 e2 H. destruct H; rewrite !app_length; cbn [length]; lia. Qed.
  Lemma add_for : forall k v m j n, small j m -> S j <= n ->
    asks_for (per n) (add_c (counted lt) (counted eq) k v m) (add_c lt eq k v m) (small (S j)).
  Proof.
    intros k v m j n [G L] Ln i w. destruct (add_c_asks lt eq k v m i w) as (c & Lc & E). exists c.
    split; [pose proof (good_depth m G); pose proof (per_mono (length (elements m)) n); lia|]. split; [exact E|].
    intros t Et. destruct (add_c lt eq k v m w) as [r w1] eqn:A. cbn [fst] in Et. subst r. split; [apply (add_c_good lt eq k v m w t w1 G A)|].
    destruct G as [Hh _]. pose proof (add_c_spec lt eq k v m Hh w) as Sp. rewrite A in Sp. destruct Sp as [_ Sp]. apply with_item_length in Sp. lia.
  Qed.

  Lemma of_list_for : forall xs acc j n, small j acc -> j + length xs <= n ->
    asks_for (length xs * per n) (of_list_c (counted lt) (counted eq) acc xs) (of_list_c lt eq acc xs) (small (j + length xs)).
  Proof.
    induction xs as [|[k v] xs IH]; intros acc j n Sm L; cbn [of_list_c length] in *.
    - apply for_ret. now rewrite Nat.add_0_r.
    - eapply for_bind; [apply (add_for k v acc j n Sm); lia| |].
      + intros x Sx. rewrite <- Nat.add_succ_comm. apply (IH x (S j) n Sx). lia.
      + lia.
  Qed.

  Lemma filter1_for : forall (p : K -> V -> M W bool) k v acc j n, small j acc -> S j <= n ->
    asks_for (per n) (filter1_c (counted lt) (counted eq) (fun k => uncounted (p k)) k v acc) (filter1_c lt eq p k v acc) (small (S j)).
  Proof.
    intros p k v acc j n Sm L. unfold filter1_c. eapply (for_bind _ _ 0 (per n)); [apply for_any, asks_uncounted| |lia].
    intros [|] _; [apply add_for; assumption|]. apply for_ret. destruct Sm. split; [assumption|lia].
  Qed.
  Lemma filter_for : forall (p : K -> V -> M W bool) m acc j n, small j acc -> j + length (elements m) <= n ->
    asks_for (length (elements m) * per n) (filter_aux_c (counted lt) (counted eq) (fun k => uncounted (p k)) m acc) (filter_aux_c lt eq p m acc) (small (j + length (elements m))).
  Proof.
    intros p. induction m as [|key value|key value l IHl r IHr h]; intros acc j n Sm L; cbn [filter_aux_c elements length] in *.
    - apply for_ret. now rewrite Nat.add_0_r.
    - rewrite Nat.add_1_r. eapply for_weak; [apply (filter1_for p key value acc j n Sm); lia|lia|auto].
    - rewrite app_length in *. cbn [length] in *. eapply (for_bind _ _ _ (per n + length (elements r) * per n)); [apply (IHl acc j n Sm); lia| |lia].
      intros a Sa. eapply for_bind; [apply (filter1_for p key value a _ n Sa); lia| |reflexivity].
      intros b Sb. eapply for_weak; [apply (IHr b _ n Sb); lia|lia|]. intros t. now replace (Datatypes.S (j + length (elements l)) + length (elements r)) with (j + (length (elements l) + Datatypes.S (length (elements r)))) by lia.
  Qed.

  Definition small2 (j : nat) (ab : tree K V * tree K V) : Prop := small j (fst ab) /\ small j (snd ab).
  Lemma partition1_for : forall (p : K -> V -> M W bool) k v acc j n, small2 j acc -> S j <= n ->
    asks_for (per n) (partition1_c (counted lt) (counted eq) (fun k => uncounted (p k)) k v acc) (partition1_c lt eq p k v acc) (small2 (S j)).
  Proof.
    intros p k v [a b] j n [[Ga Ha] [Gb Hb]] L. cbn [fst snd] in *. unfold partition1_c. eapply (for_bind _ _ 0 (per n)); [apply for_any, asks_uncounted| |lia].
    intros [|] _; (eapply (for_bind _ _ _ 0); [apply (add_for k v _ j n); [split; eassumption|exact L]| |lia]); intros x Sx; apply for_ret;
      split; cbn [fst snd]; try exact Sx; split; auto.
  Qed.
  Lemma partition_for : forall (p : K -> V -> M W bool) m acc j n, small2 j acc -> j + length (elements m) <= n ->
    asks_for (length (elements m) * per n) (partition_aux_c (counted lt) (counted eq) (fun k => uncounted (p k)) m acc) (partition_aux_c lt eq p m acc) (small2 (j + length (elements m))).
  Proof.
    intros p. induction m as [|key value|key value l IHl r IHr h]; intros acc j n Sm L; cbn [partition_aux_c elements length] in *.
    - apply for_ret. now rewrite Nat.add_0_r.
    - rewrite Nat.add_1_r. eapply for_weak; [apply (partition1_for p key value acc j n Sm); lia|lia|auto].
    - rewrite app_length in *. cbn [length] in *. eapply (for_bind _ _ _ (per n + length (elements l) * per n)); [apply (IHr acc j n Sm); lia| |lia].
      intros a Sa. eapply for_bind; [apply (partition1_for p key value a _ n Sa); lia| |reflexivity].
      intros b Sb. eapply for_weak; [apply (IHl b _ n Sb); lia|lia|]. intros t. now replace (Datatypes.S (j + length (elements r)) + length (elements l)) with (j + (length (elements l) + Datatypes.S (length (elements r)))) by lia.
  Qed.

  Lemma small_empty : small 0 Empty.
  Proof. split; [exact good_empty|reflexivity]. Qed.
  Lemma bulk : forall xs (m : tree K V) (p : K -> V -> M W bool) n w,
    (exists c, c <= length xs * per (length xs) /\
       of_list_c (V := V) (counted lt) (counted eq) Empty xs (n, w) = (fst (of_list_c lt eq Empty xs w), (n + c, snd (of_list_c lt eq Empty xs w)))) /\
    (exists c, c <= length (elements m) * per (length (elements m)) /\
       filter_c (counted lt) (counted eq) (fun k => uncounted (p k)) m (n, w) = (fst (filter_c lt eq p m w), (n + c, snd (filter_c lt eq p m w)))) /\
    (exists c, c <= length (elements m) * per (length (elements m)) /\
       partition_c (counted lt) (counted eq) (fun k => uncounted (p k)) m (n, w) = (fst (partition_c lt eq p m w), (n + c, snd (partition_c lt eq p m w)))).
  Proof.
    intros xs m p n w. split; [|split].
    - destruct (of_list_for xs Empty 0 (length xs) small_empty (le_n _) n w) as (c & L & E & _). exists c. auto.
    - destruct (filter_for p m Empty 0 (length (elements m)) small_empty (le_n _) n w) as (c & L & E & _). exists c. auto.
    - destruct (partition_for p m (Empty, Empty) 0 (length (elements m)) (conj small_empty small_empty) (le_n _) n w) as (c & L & E & _). exists c. auto.
  Qed.
End Bulk.
