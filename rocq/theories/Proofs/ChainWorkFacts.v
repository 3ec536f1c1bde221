(** Facts about ChainWork.v: the work of iterating a chain. *)
From Coq Require Import List ZArith Lia Bool Arith.
From Verif.Model Require Import Base Gen Seq Chain ChainWork OptionResult.
From Verif.Spec Require Import ChainWorkSpec ChainDepthSpec.
Import ListNotations.
Local Open Scope py_scope.
Local Open Scope nat_scope.

(** [g] hands out [xs] and ends, with [n] counted calls, from every state. *)
Inductive emits {W A} : gen (nat * W) A -> list A -> nat -> Prop :=
| em_stop : forall g k, (forall c w, exists w1, step g (c, w) = (Ret Stop, (k + c, w1))) -> emits g [] k
| em_skip : forall g g1 xs k n, (forall c w, exists w1, step g (c, w) = (Ret (Skip g1), (k + c, w1))) -> emits g1 xs n -> emits g xs (k + n)
| em_yield : forall g g1 x xs k n, (forall c w, exists w1, step g (c, w) = (Ret (Yield x g1), (k + c, w1))) -> emits g1 xs n -> emits g (x :: xs) (k + n).

Section Facts.
  Context {W : Type}.
  Notation w' := (nat * W)%type.

  Lemma emits_cast : forall A (g : gen w' A) xs n m, emits g xs n -> n = m -> emits g xs m.
  Proof. intros; subst; assumption. Qed.

  Lemma step_eq : forall A (g : gen w' A) r, (match g with Gen n => n end) = r -> forall w, step g w = match r w with (Raise StopIterationExn, w1) => (Ret Stop, w1) | x => x end.
  Proof. intros A [n] r <- w. reflexivity. Qed.

  Lemma list_emits : forall A (xs : list A), emits (list_gen xs : gen w' A) xs 0.
  Proof.
    induction xs as [|x xs IH].
    - apply em_stop. intros c w. exists w. reflexivity.
    - apply (em_yield _ (list_gen xs) x xs 0 0); [|exact IH]. intros c w. exists w. reflexivity.
  Qed.

  Lemma counted_emits : forall A (g : gen w' A) xs n, emits g xs n -> emits (counted g) xs (n + List.length xs + 1).
  Proof.
    induction 1 as [g k H|g g1 xs k n H E IH|g g1 x xs k n H E IH].
    - eapply emits_cast; [apply (em_stop _ (S k))|cbn; lia]. intros c w. destruct (H c w) as [w1 Q]. exists w1. cbn. rewrite Q. reflexivity.
    - eapply emits_cast; [eapply (em_skip _ (counted g1) xs k); [|exact IH]|lia]. intros c w. destruct (H c w) as [w1 Q]. exists w1. cbn. rewrite Q. reflexivity.
    - eapply emits_cast; [eapply (em_yield _ (counted g1) x xs (S k)); [|exact IH]|cbn; lia]. intros c w. destruct (H c w) as [w1 Q]. exists w1. cbn. rewrite Q. reflexivity.
  Qed.

  Lemma unseen_answers : forall A B (f : A -> M W B) F x c w, answers f F -> exists w1, unseen (f x) (c, w) = (Ret (F x), (c, w1)).
  Proof. intros A B f F x c w H. unfold unseen. cbn. specialize (H x w). destruct (f x w) as [r w1]. cbn in H. subst r. exists w1. reflexivity. Qed.

  Ltac one Q := cbn; unfold bind, in_generator; rewrite Q; cbn.

  Lemma opening_emits : forall A B (src : iterable w' A) (g : gen w' A) (loop : gen w' A -> gen w' B) xs n,
    (forall c w, exists w1, src (c, w) = (Ret g, (c, w1))) -> emits (loop g) xs n -> emits (opening src loop) xs n.
  Proof.
    intros A B src g loop xs n H E. eapply (em_skip _ (loop g) xs 0); [|exact E]. intros c w. destruct (H c w) as [w1 Q]. exists w1. one Q. reflexivity.
  Qed.

  Lemma map_emits : forall A B (f : A -> M W B) F (g : gen w' A) xs n, answers f F -> emits g xs n -> emits (map_loop (fun x => unseen (f x)) g) (List.map F xs) n.
  Proof.
    intros A B f F g xs n P. induction 1 as [g k H|g g1 xs k n H E IH|g g1 x xs k n H E IH].
    - apply em_stop. intros c w. destruct (H c w) as [w1 Q]. exists w1. one Q. reflexivity.
    - eapply em_skip; [|exact IH]. intros c w. destruct (H c w) as [w1 Q]. exists w1. one Q. reflexivity.
    - cbn. eapply em_yield; [|exact IH]. intros c w. destruct (H c w) as [w1 Q]. destruct (unseen_answers _ _ f F x (k + c) w1 P) as [w2 Q2].
      exists w2. one Q. rewrite Q2. reflexivity.
  Qed.

  Lemma filter_emits : forall A (p : A -> M W bool) P (g : gen w' A) xs n, answers p P -> emits g xs n -> emits (filter_loop (fun x => unseen (p x)) g) (List.filter P xs) n.
  Proof.
    intros A p P g xs n Hp. induction 1 as [g k H|g g1 xs k n H E IH|g g1 x xs k n H E IH].
    - apply em_stop. intros c w. destruct (H c w) as [w1 Q]. exists w1. one Q. reflexivity.
    - eapply em_skip; [|exact IH]. intros c w. destruct (H c w) as [w1 Q]. exists w1. one Q. reflexivity.
    - cbn. destruct (P x) eqn:Px; [eapply em_yield; [|exact IH]|eapply em_skip; [|exact IH]]; intros c w; destruct (H c w) as [w1 Q];
        destruct (unseen_answers _ _ p P x (k + c) w1 Hp) as [w2 Q2]; exists w2; one Q; rewrite Q2, Px; reflexivity.
  Qed.

  Lemma collect_inner : forall A B (f : A -> M w' (iterable w' B)) (g : gen w' A) ys zs n,
    emits (collect_loop f None g) zs n -> emits (collect_loop f (Some (list_gen ys)) g) (ys ++ zs) n.
  Proof.
    intros A B f g ys zs n E. induction ys as [|y ys IH].
    - cbn. apply (em_skip _ (collect_loop f None g) zs 0); [|exact E]. intros c w. exists w. reflexivity.
    - cbn. apply (em_yield _ (collect_loop f (Some (list_gen ys)) g) y (ys ++ zs) 0); [|exact IH]. intros c w. exists w. reflexivity.
  Qed.

  Lemma collect_emits : forall A B (f : A -> M w' (iterable w' B)) F (g : gen w' A) xs n,
    (forall x c w, exists w1, f x (c, w) = (Ret (of_list (F x)), (c, w1))) -> emits g xs n -> emits (collect_loop f None g) (flat_map F xs) n.
  Proof.
    intros A B f F g xs n P. induction 1 as [g k H|g g1 xs k n H E IH|g g1 x xs k n H E IH].
    - apply em_stop. intros c w. destruct (H c w) as [w1 Q]. exists w1. one Q. reflexivity.
    - eapply em_skip; [|exact IH]. intros c w. destruct (H c w) as [w1 Q]. exists w1. one Q. reflexivity.
    - cbn. eapply em_skip; [|apply collect_inner, IH]. intros c w. destruct (H c w) as [w1 Q]. destruct (P x (k + c) w1) as [w2 Q2].
      exists w2. one Q. rewrite Q2. reflexivity.
  Qed.

  Lemma concat_last : forall A (g : gen w' A) xs n its ys m, emits g xs n -> emits (concat_loop None its) ys m -> emits (concat_loop (Some g) its) (xs ++ ys) (n + m).
  Proof.
    intros A g xs n its ys m E L. induction E as [g k H|g g1 xs k n H E IH|g g1 x xs k n H E IH].
    - cbn. eapply em_skip; [|exact L]. intros c w. destruct (H c w) as [w1 Q]. exists w1. one Q. reflexivity.
    - eapply emits_cast; [eapply (em_skip _ (concat_loop (Some g1) its) _ k); [|exact IH]|lia]. intros c w. destruct (H c w) as [w1 Q]. exists w1. one Q. reflexivity.
    - eapply emits_cast; [eapply (em_yield _ (concat_loop (Some g1) its) x _ k); [|exact IH]|lia]. intros c w. destruct (H c w) as [w1 Q]. exists w1. one Q. reflexivity.
  Qed.

  Lemma append_emits : forall A (src : iterable w' A) g xs n ys,
    (forall c w, exists w1, src (c, w) = (Ret g, (c, w1))) -> emits g xs n -> emits (concat_loop None [src; of_list ys]) (xs ++ ys) n.
  Proof.
    intros A src g xs n ys H E. apply (em_skip _ (concat_loop (Some g) [of_list ys]) (xs ++ ys) 0).
    - intros c w. destruct (H c w) as [w1 Q]. exists w1. one Q. reflexivity.
    - eapply emits_cast; [apply concat_last; [exact E|]|apply Nat.add_0_r].
      apply (em_skip _ (concat_loop (Some (list_gen ys)) []) ys 0 0).
      + intros c w. exists w. reflexivity.
      + rewrite <- (app_nil_r ys) at 2. eapply (concat_last A (list_gen ys) ys 0 [] [] 0); [apply list_emits|]. apply em_stop. intros c w. exists w. reflexivity.
  Qed.

  Lemma skip_emits : forall A count (g : gen w' A) xs n, emits g xs n -> forall i, (0 <= i)%Z ->
    emits (skip_loop count i g) (skipn (Z.to_nat (count - i)) xs) n.
  Proof.
    intros A count g xs n. induction 1 as [g k H|g g1 xs k n H E IH|g g1 x xs k n H E IH]; intros i I.
    - rewrite skipn_nil. apply em_stop. intros c w. destruct (H c w) as [w1 Q]. exists w1. one Q. reflexivity.
    - eapply em_skip; [|exact (IH i I)]. intros c w. destruct (H c w) as [w1 Q]. exists w1. one Q. reflexivity.
    - assert (J : (0 <= i + 1)%Z) by lia. specialize (IH (i + 1)%Z J). destruct (Z.leb_spec count i) as [L|L].
      + replace (Z.to_nat (count - i)) with 0 by lia. cbn [skipn]. replace (Z.to_nat (count - (i + 1))) with 0 in IH by lia. cbn [skipn] in IH.
        eapply em_yield; [|exact IH]. intros c w. destruct (H c w) as [w1 Q]. exists w1. one Q. apply Z.leb_le in L. rewrite L. reflexivity.
      + replace (Z.to_nat (count - i)) with (S (Z.to_nat (count - (i + 1)))) by lia. cbn [skipn].
        eapply em_skip; [|exact IH]. intros c w. destruct (H c w) as [w1 Q]. exists w1. one Q. apply Z.leb_gt in L. rewrite L. reflexivity.
  Qed.

  Lemma take_emits : forall A count (g : gen w' A) xs n, emits g xs n -> forall i, (0 <= i < count)%Z ->
    exists m, m <= n /\ emits (take_loop count None i g) (firstn (Z.to_nat (count - i)) xs) m.
  Proof.
    intros A count g xs n. induction 1 as [g k H|g g1 xs k n H E IH|g g1 x xs k n H E IH]; intros i I.
    - exists k. split; [lia|]. rewrite firstn_nil. apply em_stop. intros c w. destruct (H c w) as [w1 Q]. exists w1. one Q. reflexivity.
    - destruct (IH i I) as (m & L & E2). exists (k + m). split; [lia|]. eapply em_skip; [|exact E2]. intros c w. destruct (H c w) as [w1 Q]. exists w1. one Q. reflexivity.
    - replace (Z.to_nat (count - i)) with (S (Z.to_nat (count - (i + 1)))) by lia. cbn [firstn].
      assert (F : forall c w, exists w1, step (take_loop count None i g) (c, w) = (Ret (Yield x (take_loop count (Some i) (i + 1) g1)), (k + c, w1))).
      { intros c w. destruct (H c w) as [w1 Q]. exists w1. one Q. reflexivity. }
      destruct (Z.eqb_spec i (count - 1)) as [Q|Q].
      + exists k. split; [lia|]. replace (Z.to_nat (count - (i + 1))) with 0 by lia. cbn [firstn]. eapply emits_cast; [eapply em_yield; [exact F|]|apply Nat.add_0_r].
        apply em_stop. intros c w. exists w. cbn. apply Z.eqb_eq in Q. rewrite Q. reflexivity.
      + destruct (IH (i + 1)%Z) as (m & L & E2); [lia|]. exists (k + m). split; [lia|]. eapply em_yield; [exact F|].
        apply (em_skip _ (take_loop count None (i + 1) g1) _ 0); [|exact E2]. intros c w. exists w. cbn. apply Z.eqb_neq in Q. rewrite Q. reflexivity.
  Qed.

  (** What an iterable opens. *)
  Definition opens {A} (src : iterable w' A) (xs : list A) (n : nat) : Prop :=
    exists g, (forall c w, exists w1, src (c, w) = (Ret g, (c, w1))) /\ emits g xs n.

  Lemma counted_opens : forall A (it : iterable w' A) xs n, opens it xs n -> opens (do g <- it; ret (counted g)) xs (n + List.length xs + 1).
  Proof.
    intros A it xs n (g & H & E). exists (counted g). split; [|now apply counted_emits]. intros c w. destruct (H c w) as [w1 Q]. exists w1. unfold bind. rewrite Q. reflexivity.
  Qed.

  Lemma now_opens : forall A (g : gen w' A) xs n, emits g xs n -> opens (ret g) xs n.
  Proof. intros A g xs n E. exists g. split; [|exact E]. intros c w. exists w. reflexivity. Qed.

  Definition takes {A B} (s : stage W A B) : Prop := match s with STake _ => True | _ => False end.

  Lemma stage_opens : forall A B (s : stage W A B) xs ys, gives s xs ys -> forall src n, opens src xs n ->
    exists it m, (forall c w, exists w1, work_stage s src (c, w) = (Ret it, (c, w1))) /\ opens it ys m /\
      m <= n + List.length ys + 1 /\ (~ takes s -> m = n + List.length ys + 1).
  Proof.
    assert (K : forall A B (s : stage W A B) src it ys m n, m <= n -> (~ takes s -> m = n) ->
      (forall c w, exists w1, seq_stage (unseen_stage s) src (c, w) = (Ret it, (c, w1))) -> opens it ys m ->
      exists it m, (forall c w, exists w1, work_stage s src (c, w) = (Ret it, (c, w1))) /\ opens it ys m /\ m <= n + List.length ys + 1 /\ (~ takes s -> m = n + List.length ys + 1)).
    { intros A B s src it ys m n L T H O. exists (do g <- it; ret (counted g)), (m + List.length ys + 1). split; [|split; [now apply counted_opens|split; [lia|intros N; rewrite (T N); reflexivity]]].
      intros c w. destruct (H c w) as [w1 Q]. exists w1. unfold work_stage, bind at 1. rewrite Q. reflexivity. }
    destruct 1 as [A B f F xs P|A p P xs Hp|A B f F xs P|A B f F xs P|A xs ys|A n0 xs|A n0 xs|A xs]; intros src n (g & H & E).
    - eapply (K _ _ (SMap f) src _ _ n n (le_n n) (fun _ => eq_refl)); [intros c w; exists w; reflexivity|]. apply now_opens. eapply opening_emits; [exact H|]. now apply map_emits.
    - eapply (K _ _ (SFilter p) src (ret (filter_loop (fun x => unseen (p x)) g)) _ n n (le_n n) (fun _ => eq_refl)).
      + intros c w. destruct (H c w) as [w1 Q]. exists w1. cbn. unfold Seq.filter, bind. rewrite Q. reflexivity.
      + apply now_opens. now apply filter_emits.
    - eapply (K _ _ (SChoose f) src _ _ n n (le_n n) (fun _ => eq_refl)); [intros c w; exists w; reflexivity|]. apply now_opens. eapply opening_emits; [exact H|].
      apply (collect_emits _ _ _ (fun x => match F x with Some y => [y] | None => [] end)); [|exact E]. intros x c w. destruct (unseen_answers _ _ f F x c w P) as [w1 Q]. exists w1. unfold bind. rewrite Q. destruct (F x); reflexivity.
    - eapply (K _ _ (SCollect f) src _ _ n n (le_n n) (fun _ => eq_refl)); [intros c w; exists w; reflexivity|]. apply now_opens. eapply opening_emits; [exact H|].
      apply (collect_emits _ _ _ F); [|exact E]. intros x c w. destruct (unseen_answers _ _ f F x c w P) as [w1 Q]. exists w1. unfold bind. rewrite Q. reflexivity.
    - eapply (K _ _ (SAppend ys) src _ _ n n (le_n n) (fun _ => eq_refl)); [intros c w; exists w; reflexivity|]. apply now_opens. eapply append_emits; [exact H|exact E].
    - eapply (K _ _ (SSkip n0) src _ _ n n (le_n n) (fun _ => eq_refl)); [intros c w; exists w; reflexivity|]. apply now_opens. eapply opening_emits; [exact H|].
      rewrite <- (Z.sub_0_r n0) at 2. apply skip_emits; [exact E|lia].
    - destruct (Z.ltb_spec 0 n0) as [L|L].
      + destruct (take_emits _ n0 g xs n E 0%Z) as (m & Lm & E2); [lia|]. rewrite Z.sub_0_r in E2.
        eapply (K _ _ (STake n0) src (ret (opening src (take_loop n0 None 0))) _ m n Lm); [cbn; tauto| |apply now_opens; eapply opening_emits; [exact H|exact E2]].
        intros c w. exists w. cbn. unfold Seq.take. apply Z.ltb_lt in L. rewrite L. reflexivity.
      + replace (Z.to_nat n0) with 0 by lia. cbn [firstn]. eapply (K _ _ (STake n0) src (of_list []) _ 0 n); [lia|cbn; tauto| |apply now_opens, list_emits].
        intros c w. exists w. cbn. unfold Seq.take. apply Z.ltb_ge in L. rewrite L. reflexivity.
    - eapply (K _ _ STail src _ _ n n (le_n n) (fun _ => eq_refl)); [intros c w; exists w; reflexivity|]. apply now_opens. eapply opening_emits; [exact H|].
      replace (tl xs) with (skipn (Z.to_nat (1 - 0)) xs) by (destruct xs; reflexivity). apply skip_emits; [exact E|lia].
  Qed.

  Lemma chain_opens : forall A B (c : chain W A B) xs n ys, amounts c xs n ys -> forall src k, opens src xs k ->
    exists it m, (forall c0 w, exists w1, work_on c src (c0, w) = (Ret it, (c0, w1))) /\ opens it ys m /\ m <= k + n /\ (no_take c -> m = k + n).
  Proof.
    induction 1 as [A xs|A B C s c xs ys n zs G R IH]; intros src k O.
    - exists src, k. split; [intros c w; exists w; reflexivity|]. split; [exact O|]. split; [lia|intros _; lia].
    - destruct (stage_opens A B s xs ys G src k O) as (it & m & H & O1 & L1 & X1). destruct (IH it m O1) as (it2 & m2 & H2 & O2 & L2 & X2).
      exists it2, m2. split; [|split; [exact O2|split; [lia|]]].
      + intros c0 w. destruct (H c0 w) as [w1 Q]. destruct (H2 c0 w1) as [w2 Q2]. exists w2. cbn. unfold bind at 1. rewrite Q. exact Q2.
      + intros N. assert (T : ~ takes s /\ no_take c) by (destruct s; cbn in *; tauto). rewrite (X2 (proj2 T)), (X1 (proj1 T)). lia.
  Qed.

  Lemma drain_emits : forall A (g : gen w' A) xs n, emits g xs n -> exists k, forall fuel, k <= fuel -> forall acc c w, exists w1,
    for_gen fuel g acc (fun acc x => ret (inl (acc ++ [x]))) (c, w) = (Ret (inl (acc ++ xs) : list A + Empty_set), (n + c, w1)).
  Proof.
    induction 1 as [g k H|g g1 xs k n H E [m IH]|g g1 x xs k n H E [m IH]].
    - exists 1. intros [|fuel] L acc c w; [lia|]. destruct (H c w) as [w1 Q]. exists w1. cbn. unfold bind. rewrite Q, app_nil_r. reflexivity.
    - exists (S m). intros [|fuel] L acc c w; [lia|]. destruct (H c w) as [w1 Q]. destruct (IH fuel ltac:(lia) acc (k + c) w1) as [w2 Q2]. exists w2. cbn [for_gen]. unfold bind at 1. rewrite Q, Q2. do 2 f_equal. lia.
    - exists (S m). intros [|fuel] L acc c w; [lia|]. destruct (H c w) as [w1 Q]. destruct (IH fuel ltac:(lia) (acc ++ [x]) (k + c) w1) as [w2 Q2]. exists w2. cbn [for_gen]. unfold bind at 1. rewrite Q. change (for_gen fuel g1 (acc ++ [x]) (fun acc x => ret (inl (acc ++ [x]))) (k + c, w1) = (Ret (inl (acc ++ x :: xs) : list A + Empty_set), (k + n + c, w2))). rewrite Q2, <- app_assoc. cbn. do 2 f_equal. lia.
  Qed.

  Theorem chain_work : forall A B (c : chain W A B) xs n ys, amounts c xs n ys -> exists m k, m <= n /\ (no_take c -> m = n) /\
    forall fuel, k <= fuel -> forall w, exists w1, (do it <- work_on c (of_list xs); to_list fuel it) (0, w) = (Ret ys, (m, w1)).
  Proof.
    intros A B c xs n ys R. destruct (chain_opens A B c xs n ys R (of_list xs) 0 (now_opens _ _ _ _ (list_emits _ xs))) as (it & m & H & (g & Og & E) & L & X).
    destruct (drain_emits _ g ys m E) as [k D]. exists m, k. split; [exact L|split; [exact X|]]. intros fuel F w.
    destruct (H 0 w) as [w1 Q]. destruct (Og 0 w1) as [w2 Q2]. destruct (D fuel F [] 0 w2) as [w3 Q3]. exists w3.
    unfold bind at 1. rewrite Q. unfold to_list. unfold bind at 1. rewrite Q2. unfold bind at 1. rewrite Q3. cbn. now rewrite Nat.add_0_r.
  Qed.
End Facts.
