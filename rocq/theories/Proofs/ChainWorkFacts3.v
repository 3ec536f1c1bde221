(** Facts about ChainWork.v: the work of iterating an asynchronous chain. *)
From Coq Require Import List ZArith Lia Bool Arith.
From Verif.Model Require Import Base Gen AsyncSeq Chain ChainWork.
From Verif.Spec Require Import ChainWorkSpec.
From Verif.Proofs Require Import ChainWorkFacts ChainWorkFacts2.
Import ListNotations.
Local Open Scope py_scope.
Local Open Scope nat_scope.

Ltac one Q := cbn; unfold bind, in_async; rewrite Q; cbn.

(** What a loop hands out when its body answers [G s x]. *)
Fixpoint outs {S A B} (G : S -> A -> turn S B) (s : S) (xs : list A) : list B :=
  match xs with
  | [] => []
  | x :: xs => match G s x with Give y s => y :: outs G s xs | Drop s => outs G s xs | Leave => [] end
  end.

Section Facts.
  Context {W : Type}.
  Notation w' := (nat * W)%type.

  Lemma started_emits : forall A B (src : iterable w' A) (g : gen w' A) (loop : gen w' A -> gen w' B) xs n,
    (forall c w, exists w1, src (c, w) = (Ret g, (c, w1))) -> emits (loop g) xs n -> emits (started src loop) xs n.
  Proof.
    intros A B src g loop xs n H E. eapply (em_skip _ (loop g) xs 0); [|exact E]. intros c w. destruct (H c w) as [w1 Q]. exists w1. one Q. reflexivity.
  Qed.

  Lemma each_emits : forall A B S (body : S -> A -> M w' (turn S B)) G,
    (forall s x c w, exists w1, body s x (c, w) = (Ret (G s x), (c, w1))) ->
    forall (g : gen w' A) xs n, emits g xs n -> forall s, exists m, m <= n /\ ((forall s x, G s x <> Leave) -> m = n) /\ emits (each body s g) (outs G s xs) m.
  Proof.
    intros A B S body G P g xs n. induction 1 as [g k H|g g1 xs k n H E IH|g g1 x xs k n H E IH]; intros s.
    - exists k. split; [lia|]. split; [reflexivity|]. apply em_stop. intros c w. destruct (H c w) as [w1 Q]. exists w1. one Q. reflexivity.
    - destruct (IH s) as (m & L & X & R). exists (k + m). split; [lia|]. split; [intros N; rewrite (X N); reflexivity|].
      eapply em_skip; [|exact R]. intros c w. destruct (H c w) as [w1 Q]. exists w1. one Q. reflexivity.
    - cbn [outs]. destruct (G s x) as [y s1|s1|] eqn:Eg.
      + destruct (IH s1) as (m & L & X & R). exists (k + m). split; [lia|]. split; [intros N; rewrite (X N); reflexivity|].
        eapply em_yield; [|exact R]. intros c w. destruct (H c w) as [w1 Q]. destruct (P s x (k + c) w1) as [w2 Q2]. exists w2. one Q. rewrite Q2, Eg. reflexivity.
      + destruct (IH s1) as (m & L & X & R). exists (k + m). split; [lia|]. split; [intros N; rewrite (X N); reflexivity|].
        eapply em_skip; [|exact R]. intros c w. destruct (H c w) as [w1 Q]. destruct (P s x (k + c) w1) as [w2 Q2]. exists w2. one Q. rewrite Q2, Eg. reflexivity.
      + exists k. split; [lia|]. split; [intros N; now destruct (N s x)|]. apply em_stop. intros c w. destruct (H c w) as [w1 Q]. destruct (P s x (k + c) w1) as [w2 Q2].
        exists w2. one Q. rewrite Q2, Eg. reflexivity.
  Qed.

  Lemma async_collect_inner : forall A B (f : A -> M w' (iterable w' B)) (g : gen w' A) ys zs n,
    emits (collect_loop f None g) zs n -> emits (collect_loop f (Some (list_gen ys)) g) (ys ++ zs) n.
  Proof.
    intros A B f g ys zs n E. induction ys as [|y ys IH].
    - cbn. apply (em_skip _ (collect_loop f None g) zs 0); [|exact E]. intros c w. exists w. reflexivity.
    - cbn. apply (em_yield _ (collect_loop f (Some (list_gen ys)) g) y (ys ++ zs) 0); [|exact IH]. intros c w. exists w. reflexivity.
  Qed.
  Lemma async_collect_emits : forall A B (f : A -> M w' (iterable w' B)) F (g : gen w' A) xs n,
    (forall x c w, exists w1, f x (c, w) = (Ret (of_list (F x)), (c, w1))) -> emits g xs n -> emits (collect_loop f None g) (flat_map F xs) n.
  Proof.
    intros A B f F g xs n P. induction 1 as [g k H|g g1 xs k n H E IH|g g1 x xs k n H E IH].
    - apply em_stop. intros c w. destruct (H c w) as [w1 Q]. exists w1. one Q. reflexivity.
    - eapply em_skip; [|exact IH]. intros c w. destruct (H c w) as [w1 Q]. exists w1. one Q. reflexivity.
    - cbn. eapply em_skip; [|apply async_collect_inner, IH]. intros c w. destruct (H c w) as [w1 Q]. destruct (P x (k + c) w1) as [w2 Q2].
      exists w2. one Q. rewrite Q2. reflexivity.
  Qed.

  Lemma append_last : forall A (ys : list A), emits (append_loop None (list_gen ys) : gen w' A) ys 0.
  Proof.
    induction ys as [|y ys IH].
    - apply em_stop. intros c w. exists w. reflexivity.
    - apply (em_yield _ (append_loop None (list_gen ys)) y ys 0 0); [|exact IH]. intros c w. exists w. reflexivity.
  Qed.
  Lemma append_emits : forall A (g : gen w' A) xs n ys, emits g xs n -> emits (append_loop (Some (of_list ys)) g) (xs ++ ys) n.
  Proof.
    intros A g xs n ys. induction 1 as [g k H|g g1 xs k n H E IH|g g1 x xs k n H E IH].
    - rewrite <- (Nat.add_0_r k). eapply em_skip; [|apply append_last]. intros c w. destruct (H c w) as [w1 Q]. exists w1. one Q. reflexivity.
    - eapply em_skip; [|exact IH]. intros c w. destruct (H c w) as [w1 Q]. exists w1. one Q. reflexivity.
    - cbn. eapply em_yield; [|exact IH]. intros c w. destruct (H c w) as [w1 Q]. exists w1. one Q. reflexivity.
  Qed.

  Lemma outs_map : forall A B (F : A -> B) xs, outs (fun _ x => Give (F x) tt) tt xs = List.map F xs.
  Proof. intros A B F xs. induction xs as [|x xs IH]; cbn; congruence. Qed.
  Lemma outs_filter : forall A (P : A -> bool) xs, outs (fun _ x => if P x then Give x tt else Drop tt) tt xs = List.filter P xs.
  Proof. intros A P xs. induction xs as [|x xs IH]; cbn; [reflexivity|]. destruct (P x); congruence. Qed.
  Lemma outs_choose : forall A B (F : A -> option B) xs, outs (fun _ x => match F x with Some y => Give y tt | None => Drop tt end) tt xs =
    flat_map (fun x => match F x with Some y => [y] | None => [] end) xs.
  Proof. intros A B F xs. induction xs as [|x xs IH]; cbn; [reflexivity|]. destruct (F x); cbn; congruence. Qed.
  Lemma outs_skip : forall A n (xs : list A) i, (0 <= i)%Z ->
    outs (fun i x => if Z.leb n i then Give x (i + 1)%Z else Drop (i + 1)%Z) i xs = skipn (Z.to_nat (n - i)) xs.
  Proof.
    intros A n xs. induction xs as [|x xs IH]; intros i I; cbn [outs]; [now rewrite skipn_nil|]. destruct (Z.leb_spec n i) as [L|L]; rewrite IH by lia.
    - replace (Z.to_nat (n - i)) with 0 by lia. replace (Z.to_nat (n - (i + 1))) with 0 by lia. reflexivity.
    - replace (Z.to_nat (n - i)) with (S (Z.to_nat (n - (i + 1)))) by lia. reflexivity.
  Qed.
  Lemma outs_take : forall A n (xs : list A) i, (0 <= i)%Z ->
    outs (fun i x => if Z.leb n i then Leave else Give x (i + 1)%Z) i xs = firstn (Z.to_nat (n - i)) xs.
  Proof.
    intros A n xs. induction xs as [|x xs IH]; intros i I; cbn [outs]; [now rewrite firstn_nil|]. destruct (Z.leb_spec n i) as [L|L].
    - replace (Z.to_nat (n - i)) with 0 by lia. reflexivity.
    - rewrite IH by lia. replace (Z.to_nat (n - i)) with (S (Z.to_nat (n - (i + 1)))) by lia. reflexivity.
  Qed.
  Lemma outs_tail : forall A (xs : list A), outs (fun first x => if first : bool then Drop false else Give x false) true xs = tl xs.
  Proof. intros A [|x xs]; [reflexivity|]. cbn. induction xs as [|y xs IH]; cbn; congruence. Qed.

  Lemma async_stage_emits : forall A B (s : stage W A B) xs ys, gives s xs ys -> forall src n, opens src xs n ->
    exists m, m <= n /\ (~ takes s -> m = n) /\ emits (async_stage (unseen_stage s) src) ys m.
  Proof.
    assert (K : forall A B S (body : S -> A -> M w' (turn S B)) G s src xs n, opens src xs n ->
      (forall s x c w, exists w1, body s x (c, w) = (Ret (G s x), (c, w1))) ->
      exists m, m <= n /\ ((forall s x, G s x <> Leave) -> m = n) /\ emits (async_for body s src) (outs G s xs) m).
    { intros A B S body G s src xs n (g & O & E) H. destruct (each_emits A B S body G H g xs n E s) as (m & L & X & R).
      exists m. split; [exact L|]. split; [exact X|]. eapply started_emits; [exact O|exact R]. }
    assert (KK : forall A B S (body : S -> A -> M w' (turn S B)) G s src xs n, opens src xs n ->
      (forall s x c w, exists w1, body s x (c, w) = (Ret (G s x), (c, w1))) -> (forall s x, G s x <> Leave) -> forall Q : Prop,
      exists m, m <= n /\ (Q -> m = n) /\ emits (async_for body s src) (outs G s xs) m).
    { intros A B S body G s src xs n O H N Q. destruct (K A B S body G s src xs n O H) as (m & L & X & R). exists m. split; [exact L|]. split; [intros _; exact (X N)|exact R]. }
    destruct 1 as [A B f F xs P|A p P xs Hp|A B f F xs P|A B f F xs P|A xs ys|A n0 xs|A n0 xs|A xs]; intros src n O; cbn [async_stage unseen_stage].
    - rewrite <- outs_map. apply KK; [exact O| |discriminate]. intros [] x c w. destruct (unseen_answers _ _ f F x c w P) as [w1 Q]. exists w1. unfold bind. rewrite Q. reflexivity.
    - rewrite <- outs_filter. apply KK; [exact O| |intros s x; destruct (P x); discriminate]. intros [] x c w. destruct (unseen_answers _ _ p P x c w Hp) as [w1 Q]. exists w1. unfold bind. rewrite Q. reflexivity.
    - rewrite <- outs_choose. apply KK; [exact O| |intros s x; destruct (F x); discriminate]. intros [] x c w. destruct (unseen_answers _ _ f F x c w P) as [w1 Q]. exists w1. unfold bind. rewrite Q. reflexivity.
    - destruct O as (g & O & E). exists n. split; [lia|]. split; [reflexivity|]. eapply started_emits; [exact O|]. apply async_collect_emits; [|exact E].
      intros x c w. destruct (unseen_answers _ _ f F x c w P) as [w1 Q]. exists w1. unfold bind. rewrite Q. reflexivity.
    - destruct O as (g & O & E). exists n. split; [lia|]. split; [reflexivity|]. eapply started_emits; [exact O|]. now apply append_emits.
    - replace (Z.to_nat n0) with (Z.to_nat (n0 - 0)) by (now rewrite Z.sub_0_r). rewrite <- outs_skip by lia. apply KK; [exact O| |intros s x; destruct (Z.leb n0 s); discriminate]. intros s x c w. exists w. reflexivity.
    - replace (Z.to_nat n0) with (Z.to_nat (n0 - 0)) by (now rewrite Z.sub_0_r). rewrite <- outs_take by lia. destruct (K A A Z (fun i x => ret (if Z.leb n0 i then Leave else Give x (i + 1)%Z)) _ 0%Z src xs n O (fun s x c w => ex_intro _ w eq_refl)) as (m & L & _ & R).
      exists m. split; [exact L|]. split; [cbn; tauto|exact R].
    - rewrite <- outs_tail. apply KK; [exact O| |intros [] x; discriminate]. intros s x c w. exists w. reflexivity.
  Qed.

  Lemma async_chain_opens : forall A B (c : chain W A B) xs n ys, amounts c xs n ys -> forall src k, opens src xs k ->
    exists m, opens (work_on_async c src) ys m /\ m <= k + n /\ (no_take c -> m = k + n).
  Proof.
    induction 1 as [A xs|A B C s c xs ys n zs G R IH]; intros src k O.
    - exists k. split; [exact O|]. split; [lia|intros _; lia].
    - destruct (async_stage_emits A B s xs ys G src k O) as (m & L & X & E).
      destruct (IH _ _ (now_opens _ _ _ _ (counted_emits _ _ _ _ E))) as (m2 & O2 & L2 & X2).
      exists m2. cbn [work_on_async]. split; [exact O2|]. split; [lia|].
      intros N. assert (T : ~ takes s /\ no_take c) by (destruct s; cbn in *; tauto). rewrite (X2 (proj2 T)), (X (proj1 T)). lia.
  Qed.

  Lemma async_chain_work : forall A B (c : chain W A B) xs n ys, amounts c xs n ys -> exists m k, m <= n /\ (no_take c -> m = n) /\
    forall fuel, k <= fuel -> forall w, exists w1, to_list fuel (work_on_async c (of_list xs)) (0, w) = (Ret ys, (m, w1)).
  Proof.
    intros A B c xs n ys R. destruct (async_chain_opens A B c xs n ys R (of_list xs) 0 (now_opens _ _ _ _ (list_emits _ xs))) as (m & (g & Og & E) & L & X).
    destruct (drain_emits _ g ys m E) as [k D]. exists m, k. split; [exact L|split; [exact X|]]. intros fuel F w.
    destruct (Og 0 w) as [w2 Q2]. destruct (D fuel F [] 0 w2) as [w3 Q3]. exists w3.
    unfold to_list. unfold bind at 1. rewrite Q2. unfold bind at 1. rewrite Q3. cbn. now rewrite Nat.add_0_r.
  Qed.
End Facts.

(** ** counting changes nothing *)
Ltac unfa := unfold step at 1 2; cbn; unfold bind, in_async.
Section Same.
  Context {W A B S : Type}.
  Lemma started_same : forall (di : iterable (nat * W) A) it (dl : gen (nat * W) A -> gen (nat * W) B) l, same_it di it ->
    (forall cg g, same cg g -> same (dl cg) (l g)) -> same (started di dl) (started it l).
  Proof.
    intros di it dl l F L. constructor. intros n w. specialize (F n w). unfa.
    destruct (di (n, w)) as [[cg|e] [n1 w1]], (it w) as [[g|e2] w2]; try contradiction; destruct F as [E F].
    - subst w2. constructor. now apply L.
    - subst e2 w2. exns e.
  Qed.
  Lemma each_same : forall (db : S -> A -> M (nat * W) (turn S B)) (b : S -> A -> M W (turn S B)), (forall s x, alike eq (db s x) (b s x)) ->
    forall s cg g, same cg g -> same (each db s cg) (each b s g).
  Proof.
    intros db b F. cofix CIH. intros s cg g [H]. constructor. intros n w. specialize (H n w). unfa. destruct H as [a cg1 g1 n1 w1 H|cg1 g1 n1 w1 H|n1 w1|e n1 w1 N].
    - specialize (F s a n1 w1). destruct (db s a (n1, w1)) as [[t|e] [n2 w2]], (b s a w1) as [[t2|e2] w3]; try contradiction; destruct F as [E F].
      + subst t2 w3. destruct t as [y s1|s1|]; constructor; apply CIH; assumption.
      + subst e2 w3. exns e.
    - constructor. apply CIH. assumption.
    - constructor.
    - over e N.
  Qed.
  Lemma async_collect_same : forall (df : A -> M (nat * W) (iterable (nat * W) B)) (f : A -> M W (iterable W B)),
    (forall x, alike same_it (df x) (f x)) ->
    forall cg g di i, same cg g -> match di, i with None, None => True | Some dh, Some h => same dh h | _, _ => False end ->
    same (collect_loop df di cg) (collect_loop f i g).
  Proof.
    intros df f F. cofix CIH. intros cg g di i H I. constructor. intros n w.
    destruct di as [dh|], i as [h|]; try contradiction; unfa.
    - destruct I as [I]. specialize (I n w). destruct I as [a cg1 g1 n1 w1 I|cg1 g1 n1 w1 I|n1 w1|e n1 w1 N].
      + constructor. apply CIH; assumption.
      + constructor. apply CIH; assumption.
      + constructor. apply CIH; [assumption|exact Logic.I].
      + over e N.
    - destruct H as [H]. specialize (H n w). destruct H as [a cg1 g1 n1 w1 H|cg1 g1 n1 w1 H|n1 w1|e n1 w1 N].
      + specialize (F a n1 w1). destruct (df a (n1, w1)) as [[dt|e] [n2 w2]], (f a w1) as [[it|e2] w3]; try contradiction; destruct F as [E F].
        * subst w3. specialize (F n2 w2). destruct (dt (n2, w2)) as [[dh|e] [n3 w3]], (it w2) as [[h|e2] w4]; try contradiction; destruct F as [E F].
          -- subst w4. constructor. apply CIH; assumption.
          -- subst e2 w4. exns e.
        * subst e2 w3. exns e.
      + constructor. apply CIH; [assumption|exact Logic.I].
      + constructor.
      + over e N.
  Qed.
  Lemma append_same : forall di i, match di, i with None, None => True | Some dt, Some it => same_it dt it | _, _ => False end ->
    forall cg (g : gen W B), same cg g -> same (append_loop di cg) (append_loop i g).
  Proof.
    cofix CIH. intros di i F cg g [H]. constructor. intros n w. specialize (H n w). unfa. destruct H as [a cg1 g1 n1 w1 H|cg1 g1 n1 w1 H|n1 w1|e n1 w1 N].
    - constructor. apply CIH; assumption.
    - constructor. apply CIH; assumption.
    - destruct di as [dt|], i as [it|]; try contradiction; [|constructor]. specialize (F n1 w1).
      destruct (dt (n1, w1)) as [[dh|e] [n2 w2]], (it w1) as [[h|e2] w3]; try contradiction; destruct F as [E F].
      + subst w3. constructor. apply CIH; [exact Logic.I|assumption].
      + subst e2 w3. exns e.
    - over e N.
  Qed.
End Same.

Lemma async_stage_same : forall W A B (s : stage W A B) di it, same_it di it -> same (async_stage (unseen_stage s) di) (async_stage s it).
Proof.
  intros W A B s. destruct s; intros di it F; cbn [unseen_stage async_stage].
  1-3: (apply started_same; [exact F|]; intros cg g; apply each_same; intros s0 x; eapply bind_alike; [apply unseen_alike|]; intros y ? <-; now apply ret_alike).
  - apply started_same; [exact F|]. intros cg g H. apply async_collect_same; [|exact H|exact Logic.I].
    intros x. eapply bind_alike; [apply unseen_alike|]. intros o ? <-. apply ret_alike, ret_alike, list_same.
  - apply started_same; [exact F|]. intros cg g H. apply append_same; [|exact H]. apply ret_alike, list_same.
  - apply started_same; [exact F|]. intros cg g. apply each_same. intros s0 x. now apply ret_alike.
  - apply started_same; [exact F|]. intros cg g. apply each_same. intros s0 x. now apply ret_alike.
  - apply started_same; [exact F|]. intros cg g. apply each_same. intros s0 x. now apply ret_alike.
Qed.
Lemma async_chain_same : forall W A B (c : chain W A B) di it, same_it di it -> same_it (work_on_async c di) (on_async c it).
Proof.
  induction c as [A|A B C s c IH]; intros di it F; cbn [work_on_async on_async]; [exact F|].
  apply IH, ret_alike, counted_same, async_stage_same, F.
Qed.
Lemma async_work_same : forall W A B (c : chain W A B) di it fuel, same_it di it -> alike eq (to_list fuel (work_on_async c di)) (to_list fuel (on_async c it)).
Proof.
  intros W A B c di it fuel F. unfold to_list. eapply bind_alike; [apply async_chain_same, F|]. intros cg g S.
  eapply bind_alike; [apply drain_same, S|]. intros r ? <-. destruct r as [l|v]; [now apply ret_alike|destruct v].
Qed.
