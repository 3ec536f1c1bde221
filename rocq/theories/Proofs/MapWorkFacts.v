(** Lemmas about the work of reading a Map. *)
From Coq Require Import List ZArith Bool Arith Lia.
From Verif.Model Require Import Base BlockCost MapTree Map MapWork.
From Verif.Spec Require Import CostSpec MapSpec MapWorkSpec.
From Verif.Proofs Require Import CostFacts MapTreeFacts MapTreeMonadic MapFacts MapMain.
Import ListNotations.
Local Open Scope nat_scope.
Local Open Scope py_scope.

Lemma costs_called : costs called tt 1.
Proof. intros c. unfold called. do 2 f_equal. lia. Qed.

Section Work.
  Context {K V : Type} `{KeyOrd K}.
  Implicit Types (m t : tree K V) (s : list (tree K V)).

  (** ** Results *)
  Lemma w_head : forall t s c, c_head (t :: s) c = (Ret t, c + length s).
  Proof. reflexivity. Qed.
  Lemma w_tail : forall t s c, c_tail (t :: s) c = (Ret s, c + length s + length s).
  Proof. reflexivity. Qed.
  Lemma w_cons : forall A (xs : list A) x c, c_cons xs x c = (Ret (x :: xs), c + length (x :: xs) + length (x :: xs)).
  Proof. reflexivity. Qed.
  Lemma collapse_same : forall f s c, fst (w_collapseLHS f s c) = collapseLHS f s.
  Proof.
    induction f as [|f IH]; intros s c; [reflexivity|]. cbn [w_collapseLHS collapseLHS]. unfold bind, called. destruct s as [|t s]; [reflexivity|].
    rewrite w_head, w_tail. destruct t; [apply IH|reflexivity|]. rewrite !w_cons. apply IH.
  Qed.
  Lemma mk_same : forall f m c, fst (w_mk_iterator f m c) = mk_iterator f m.
  Proof. intros f m c. unfold w_mk_iterator, bind, written. apply collapse_same. Qed.
  Lemma next_same : forall f s c, fst (w_iter_next f s c) = iter_next f s.
  Proof.
    intros f s c. unfold w_iter_next, iter_next, bind, called. destruct s as [|t s]; [reflexivity|]. rewrite w_tail, w_head.
    destruct t; try reflexivity. match goal with |- context [w_collapseLHS ?f ?s ?c] => pose proof (collapse_same f s c) as E; destruct (w_collapseLHS f s c) as [r c'] end.
    cbn in E. rewrite <- E. destruct r; reflexivity.
  Qed.
  Lemma drain_same : forall n f s c, fst (w_drain n f s c) = drain n f s.
  Proof.
    induction n as [|n IH]; intros f s c; [reflexivity|]. cbn [w_drain drain]. unfold bind. pose proof (next_same f s c) as E. destruct (w_iter_next f s c) as [r c']. cbn in E.
    rewrite <- E. destruct r as [[[kv s']|]|e]; try reflexivity. cbn [rbind]. specialize (IH f s' c'). destruct (w_drain n f s' c') as [r c2]. cbn in IH. rewrite <- IH. destruct r; reflexivity.
  Qed.
  Lemma to_seq_same : forall n f m c, fst (w_to_seq n f m c) = to_seq n f m.
  Proof.
    intros n f m c. unfold w_to_seq, to_seq, bind. pose proof (mk_same f m c) as E. destruct (w_mk_iterator f m c) as [r c']. cbn in E. rewrite <- E.
    destruct r as [s|e]; [|reflexivity]. apply drain_same.
  Qed.
  Lemma size_same : forall m acc c, fst (w_size acc m c) = Ret (size_aux acc m).
  Proof.
    induction m as [|k v|k v l IHl r IHr h]; intros acc c; try reflexivity. cbn [w_size size_aux]. unfold bind, called.
    specialize (IHl (acc + 1) (S c)). destruct (w_size (acc + 1) l (S c)) as [x c']. cbn in IHl. subst. apply IHr.
  Qed.
  Lemma to_list_same : forall m acc c, fst (w_to_list_loop m acc c) = Ret (to_list_loop m acc).
  Proof.
    induction m as [|k v|k v l IHl r IHr h]; intros acc c; try reflexivity. cbn [w_to_list_loop to_list_loop]. unfold bind, called.
    specialize (IHr acc (S c)). destruct (w_to_list_loop r acc (S c)) as [x c']. cbn in IHr. subst. rewrite w_cons. apply IHl.
  Qed.
  Lemma eq_loop_same : forall veq n f s1 s2 c, fst (w_eq_loop veq n f s1 s2 c) = eq_loop veq n f s1 s2.
  Proof.
    induction n as [|n IH]; intros f s1 s2 c; [reflexivity|]. cbn [w_eq_loop eq_loop]. unfold bind. pose proof (next_same f s1 c) as E. destruct (w_iter_next f s1 c) as [r c']. cbn in E.
    rewrite <- E. destruct r as [[[[k1 v1] s1']|]|e]; try reflexivity. cbn [rbind]. pose proof (next_same f s2 c') as E2. destruct (w_iter_next f s2 c') as [r c2]. cbn in E2.
    rewrite <- E2. destruct r as [[[[k2 v2] s2']|]|e]; try reflexivity. cbn [rbind]. destruct (negb _); [reflexivity|]. apply IH.
  Qed.
  Lemma eq_same : forall veq n f m1 m2 c, fst (w_map_eq veq n f m1 m2 c) = map_eq veq n f m1 m2.
  Proof.
    intros veq n f m1 m2 c. unfold w_map_eq, map_eq, bind. pose proof (mk_same f m2 c) as E. destruct (w_mk_iterator f m2 c) as [r c']. cbn in E. rewrite <- E.
    destruct r as [s2|e]; [|reflexivity]. cbn [rbind]. pose proof (mk_same f m1 c') as E1. destruct (w_mk_iterator f m1 c') as [r c2]. cbn in E1. rewrite <- E1.
    destruct r as [s1|e]; [|reflexivity]. apply eq_loop_same.
  Qed.
  Lemma hash_loop_same : forall kh vh n f x s c, fst (w_hash_loop kh vh n f x s c) = hash_loop kh vh n f x s.
  Proof.
    induction n as [|n IH]; intros f x s c; [reflexivity|]. cbn [w_hash_loop hash_loop]. unfold bind. pose proof (next_same f s c) as E. destruct (w_iter_next f s c) as [r c']. cbn in E.
    rewrite <- E. destruct r as [[[[k v] s']|]|e]; try reflexivity. cbn [rbind]. unfold w_combine_hash at 1 2. apply IH.
  Qed.
  Lemma hash_same : forall kh vh n f m c, fst (w_map_hash kh vh n f m c) = map_hash kh vh n f m.
  Proof.
    intros kh vh n f m c. unfold w_map_hash, map_hash, bind. pose proof (mk_same f m c) as E. destruct (w_mk_iterator f m c) as [r c']. cbn in E. rewrite <- E.
    destruct r as [s|e]; [|reflexivity]. apply hash_loop_same.
  Qed.

  (** ** len and to_list *)
  Fixpoint calls m : nat := match m with Node _ _ l r _ => 1 + calls l + calls r | _ => 1 end.
  Lemma calls_le : forall m, calls m <= 2 * length (elements m) + 1.
  Proof. induction m as [|k v|k v l IHl r IHr h]; cbn; try lia. rewrite app_length. cbn. lia. Qed.
  Lemma size_cost : forall m acc, costs (w_size acc m) (size_aux acc m) (calls m).
  Proof.
    induction m as [|k v|k v l IHl r IHr h]; intros acc; cbn [w_size size_aux calls].
    - eapply costs_is; [eapply costs_bind; [apply costs_called|apply costs_ret]|lia].
    - eapply costs_is; [eapply costs_bind; [apply costs_called|apply costs_ret]|lia].
    - eapply costs_is; [eapply costs_bind; [apply costs_called|eapply costs_bind; [apply IHl|apply IHr]]|lia].
  Qed.
  Lemma to_list_cost : forall m acc, exists w, costs (w_to_list_loop m acc) (to_list_loop m acc) w /\
    w = calls m + length (elements m) * (length (elements m) + 1) + 2 * length acc * length (elements m) /\ length (to_list_loop m acc) = length (elements m) + length acc.
  Proof.
    induction m as [|k v|k v l IHl r IHr h]; intros acc; cbn [w_to_list_loop to_list_loop calls elements].
    - eexists. split; [eapply costs_bind; [apply costs_called|apply costs_ret]|]. cbn. lia.
    - eexists. split; [eapply costs_bind; [apply costs_called|apply cons_cost]|]. cbn. lia.
    - destruct (IHr acc) as (w1 & C1 & E1 & L1). destruct (IHl ((k, v) :: to_list_loop r acc)) as (w2 & C2 & E2 & L2).
      eexists. split; [eapply costs_bind; [apply costs_called|eapply costs_bind; [exact C1|eapply costs_bind; [apply cons_cost|exact C2]]]|].
      rewrite app_length. cbn [length] in *. rewrite E1, E2, L2, L1. split; nia.
  Qed.

  (** ** The iterator *)
  Fixpoint level t : nat := match t with Node _ _ l r _ => S (Nat.max (level l) (level r)) | _ => 0 end.
  Fixpoint pot t : nat := match t with Node _ _ l r _ => pot l + pot r + 2 | _ => 1 end.
  Fixpoint pots s : nat := match s with [] => 0 | t :: s => pot t + pots s end.
  Fixpoint fit (b : nat) s : Prop := match s with [] => True | t :: rest => length s + 2 * level t <= b /\ fit b rest end.
  Lemma level_depth : forall t, level t <= depth t.
  Proof. induction t; cbn; lia. Qed.
  Lemma pot_le : forall t, pot t <= 3 * length (elements t) + 1.
  Proof. induction t as [|k v|k v l IHl r IHr h]; cbn; try lia. rewrite app_length. cbn. lia. Qed.

  Lemma collapse_cost : forall b f s s', fit b s -> collapseLHS f s = Ret s' ->
    exists w, costs (w_collapseLHS f s) s' w /\ fit b s' /\ pots s' <= pots s /\ w <= (9 * b + 1) * (pots s - pots s' + 1) /\ w <= (9 * b + 1) * f.
  Proof.
    intros b. induction f as [|f IH]; intros s s' F E; [discriminate|]. cbn [collapseLHS] in E. cbn [w_collapseLHS].
    destruct s as [|t s]; [injection E as <-; eexists; split; [eapply costs_bind; [apply costs_called|apply costs_ret]|cbn; lia]|].
    cbn [fit] in F. destruct F as [F1 F2]. cbn [length] in F1.
    assert (C3 : forall X (k : tree K V -> list (tree K V) -> M nat X) x n, costs (k t s) x n -> costs (do _ <- called; do m <- c_head (t :: s); do rest <- c_tail (t :: s); k m rest) x (1 + (length s + (2 * length s + n)))).
    { intros X k x n C. eapply costs_bind; [apply costs_called|]. eapply costs_bind; [apply head_cost|]. eapply costs_bind; [apply tail_cost|]. exact C. }
    destruct t as [|k v|k v l r h].
    - destruct (IH s s' F2 E) as (w & C & F' & P & W1 & W2). eexists. split; [apply (C3 _ (fun m rest => match m with Node key value l r _ => _ | Leaf _ _ => _ | Empty => _ end)); cbn; exact C|].
      split; [exact F'|]. cbn [pots pot]. cbn [level] in F1. split; [lia|]. split; nia.
    - injection E as <-. eexists. split; [apply (C3 _ (fun m rest => match m with Node key value l r _ => _ | Leaf _ _ => _ | Empty => _ end)); cbn; apply costs_ret|].
      split; [cbn [fit length]; split; assumption|]. split; [lia|]. cbn [level] in F1. split; nia.
    - cbn [level] in F1. destruct (IH (l :: Leaf k v :: r :: s) s') as (w & C & F' & P & W1 & W2); [|exact E|].
      { cbn [fit length level]. repeat split; try lia. exact F2. }
      eexists. split.
      + apply (C3 _ (fun m rest => match m with Node key value l r _ => _ | Leaf _ _ => _ | Empty => _ end)). cbn.
        eapply costs_bind; [apply cons_cost|]. eapply costs_bind; [apply cons_cost|]. eapply costs_bind; [apply cons_cost|]. exact C.
      + split; [exact F'|]. cbn [pots pot] in *. unfold Block.cons. cbn [length]. split; [lia|]. split; nia.
  Qed.
  Lemma collapse_more : forall f s s' j, collapseLHS f s = Ret s' -> collapseLHS (f + j) s = Ret s' /\ forall c, w_collapseLHS (f + j) s c = w_collapseLHS f s c.
  Proof.
    induction f as [|f IH]; intros s s' j E; [discriminate|]. cbn [collapseLHS] in E. cbn [Nat.add collapseLHS w_collapseLHS].
    destruct s as [|t s]; [split; [exact E|reflexivity]|]. destruct t as [|k v|k v l r h].
    - destruct (IH _ _ j E) as [E1 E2]. split; [exact E1|]. intros c. unfold bind, called. rewrite w_head, w_tail. apply E2.
    - split; [exact E|reflexivity].
    - destruct (IH _ _ j E) as [E1 E2]. split; [exact E1|]. intros c. unfold bind, called. rewrite w_head, w_tail, !w_cons. apply E2.
  Qed.

  Lemma next_cost : forall b f s r, fit b s -> iter_next f s = Ret r -> exists w, costs (w_iter_next f s) r w /\
    match r with
    | None => s = [] /\ w = 1
    | Some (_, s') => fit b s' /\ pots s' < pots s /\ w <= (9 * b + 1) * (pots s - pots s') + 3 * b + 1
    end.
  Proof.
    intros b f s r F E. unfold iter_next in E. unfold w_iter_next. destruct s as [|t s]; [injection E as <-; eexists; split; [eapply costs_bind; [apply costs_called|apply costs_ret]|split; [reflexivity|lia]]|].
    destruct t as [|k v|k v l r' h]; try discriminate. destruct (collapseLHS f s) as [s'|] eqn:C; [|discriminate]. injection E as <-. cbn [fit] in F. destruct F as [F1 F2].
    destruct (collapse_cost b f s s' F2 C) as (w & Cw & F' & P & W & _). eexists. split.
    - eapply costs_bind; [apply costs_called|]. eapply costs_bind; [apply tail_cost|]. eapply costs_bind; [apply head_cost|]. eapply costs_bind; [exact Cw|apply costs_ret].
    - split; [exact F'|]. cbn [pots pot length] in *. split; nia.
  Qed.
  Lemma drain_cost : forall b n f s l, fit b s -> drain n f s = Ret l -> exists w, costs (w_drain n f s) l w /\ w <= (9 * b + 1) * pots s + (3 * b + 1) * length l + 1.
  Proof.
    intros b n f. induction n as [|n IH]; intros s l F E; [discriminate|]. cbn [drain] in E. cbn [w_drain].
    destruct (iter_next f s) as [o|] eqn:N; [|discriminate]. cbn [rbind] in E. destruct (next_cost b f s o F N) as (w & C & P). destruct o as [[kv s']|].
    - destruct (drain n f s') as [rest|] eqn:D; [|discriminate]. injection E as <-. destruct P as (F' & P1 & W). destruct (IH s' rest F' D) as (w2 & C2 & W2).
      eexists. split; [eapply costs_bind; [exact C|]; eapply costs_bind; [exact C2|apply costs_ret]|]. cbn [length]. nia.
    - injection E as <-. destruct P as [-> ->]. eexists. split; [eapply costs_bind; [exact C|apply costs_ret]|]. cbn. lia.
  Qed.
  Lemma mk_cost : forall f m s, mk_iterator f m = Ret s -> let b := 2 * level m + 1 in
    exists w, costs (w_mk_iterator f m) s w /\ fit b s /\ pots s <= pot m /\ w <= (9 * b + 1) * (pot m - pots s + 1) + 1.
  Proof.
    intros f m s E b. destruct (collapse_cost b f [m] s) as (w & C & F & P & W & _); [cbn; unfold b; lia|exact E|].
    eexists. split; [eapply costs_bind; [apply costs_written|exact C]|]. split; [exact F|]. cbn [pots length] in *. rewrite Nat.add_0_r in *. split; [exact P|]. lia.
  Qed.
  Lemma to_seq_cost : forall n f m l, to_seq n f m = Ret l -> length l = length (elements m) -> exists w, costs (w_to_seq n f m) l w /\ w <= 60 * (length l + 1) * (depth m + 1).
  Proof.
    intros n f m l E Q. unfold to_seq in E. destruct (mk_iterator f m) as [s|] eqn:M; [|discriminate]. cbn [rbind] in E.
    destruct (mk_cost f m s M) as (w & C & F & P & W). destruct (drain_cost _ n f s l F E) as (w2 & C2 & W2).
    eexists. split; [eapply costs_bind; [exact C|exact C2]|]. pose proof (pot_le m) as PL. rewrite <- Q in PL. pose proof (level_depth m) as LD. nia.
  Qed.
  Lemma eq_loop_cost : forall veq b1 b2 n f s1 s2 r, fit b1 s1 -> fit b2 s2 -> eq_loop veq n f s1 s2 = Ret r ->
    exists w, costs (w_eq_loop veq n f s1 s2) r w /\ w <= (12 * b1 + 2) * pots s1 + (12 * b2 + 2) * pots s2 + 2.
  Proof.
    intros veq b1 b2 n f. induction n as [|n IH]; intros s1 s2 r F1 F2 E; [discriminate|]. cbn [eq_loop] in E. cbn [w_eq_loop].
    destruct (iter_next f s1) as [o|] eqn:N1; [|discriminate]. cbn [rbind] in E. destruct (next_cost b1 f s1 o F1 N1) as (w1 & C1 & P1). destruct o as [[[k1 v1] s1']|].
    - destruct P1 as (F1' & P1 & W1). destruct (iter_next f s2) as [o|] eqn:N2; [|discriminate]. cbn [rbind] in E. destruct (next_cost b2 f s2 o F2 N2) as (w2 & C2 & P2). destruct o as [[[k2 v2] s2']|].
      + destruct P2 as (F2' & P2 & W2). destruct (negb (eqb k1 k2 && veq v1 v2)) eqn:Q.
        * injection E as <-. eexists. split; [eapply costs_bind; [exact C1|]; cbv beta iota; eapply costs_bind; [exact C2|]; cbv beta iota; rewrite Q; apply costs_ret|]. nia.
        * destruct (IH s1' s2' r F1' F2' E) as (w & C & W).
          eexists. split; [eapply costs_bind; [exact C1|]; cbv beta iota; eapply costs_bind; [exact C2|]; cbv beta iota; rewrite Q; exact C|]. nia.
      + injection E as <-. destruct P2 as [-> ->]. eexists. split; [eapply costs_bind; [exact C1|]; cbv beta iota; eapply costs_bind; [exact C2|apply costs_ret]|]. cbn [pots]. nia.
    - injection E as <-. destruct P1 as [-> ->]. eexists. split; [eapply costs_bind; [exact C1|apply costs_ret]|]. lia.
  Qed.
  Lemma eq_cost : forall veq n f m1 m2 r, map_eq veq n f m1 m2 = Ret r -> exists w, costs (w_map_eq veq n f m1 m2) r w /\
    w <= 100 * ((length (elements m1) + 1) * (depth m1 + 1) + (length (elements m2) + 1) * (depth m2 + 1)).
  Proof.
    intros veq n f m1 m2 r E. unfold map_eq in E. destruct (mk_iterator f m2) as [s2|] eqn:M2; [|discriminate]. cbn [rbind] in E. destruct (mk_iterator f m1) as [s1|] eqn:M1; [|discriminate]. cbn [rbind] in E.
    destruct (mk_cost f m1 s1 M1) as (w1 & C1 & F1 & P1 & W1). destruct (mk_cost f m2 s2 M2) as (w2 & C2 & F2 & P2 & W2). destruct (eq_loop_cost veq _ _ n f s1 s2 r F1 F2 E) as (w & C & W).
    eexists. split; [eapply costs_bind; [exact C2|]; cbv beta; eapply costs_bind; [exact C1|exact C]|].
    assert (G : forall (m : tree K V) x p, x <= (9 * (2 * level m + 1) + 1) * (pot m - p + 1) + 1 -> p <= pot m -> x + (12 * (2 * level m + 1) + 2) * p + 1 <= 100 * ((length (elements m) + 1) * (depth m + 1))).
    { intros m x p X Y. pose proof (pot_le m) as A. pose proof (level_depth m) as B. set (e := length (elements m)) in *. set (d := depth m) in *. set (lv := level m) in *. set (q := pot m) in *. clearbody e d lv q.
      assert (S1 : x + (12 * (2 * lv + 1) + 2) * p + 1 <= (24 * lv + 14) * (q + 1) + 2) by (replace q with (p + (q - p)) in * by lia; set (z := q - p) in *; clearbody z; replace (p + z - p) with z in * by lia; nia). assert (S2 : (24 * lv + 14) * (q + 1) <= (24 * d + 14) * (3 * e + 2)) by (apply Nat.mul_le_mono; lia). nia. }
    specialize (G m1 w1 (pots s1) W1 P1) as G1. specialize (G m2 w2 (pots s2) W2 P2) as G2. lia.
  Qed.

  Lemma iterating_fit : forall f m s, iterating f m s -> depth m + 2 <= f -> fit (2 * level m + 1) s /\ ready s /\ spaced s /\ shallow (depth m) s.
  Proof.
    intros f m s I D. induction I as [s E|s kv s' I IH E].
    - destruct (mk_cost f m s E) as (w & _ & F & _). destruct (mk_iterator_ok m f D) as (s2 & E2 & R & Sp & Sh & _). rewrite E in E2. injection E2 as <-. auto.
    - destruct IH as (F & R & Sp & Sh). destruct (next_cost _ f s _ F E) as (w & _ & F' & _). split; [exact F'|].
      pose proof (iter_next_ok s f (depth m) R Sp Sh D) as N. destruct (fringe s) as [|kv2 rest]; [rewrite N in E; discriminate|].
      destruct N as (s2 & N & R2 & Sp2 & Sh2 & _). rewrite E in N. injection N as <- <-. auto.
  Qed.
  Lemma one_next_cost : forall f m s, iterating f m s -> depth m + 2 <= f -> exists r w, iter_next f s = Ret r /\ costs (w_iter_next f s) r w /\ w <= 18 * (depth m + 2) * (depth m + 2).
  Proof.
    intros f m s I D. destruct (iterating_fit f m s I D) as (F & R & Sp & Sh). pose proof (level_depth m) as LD.
    destruct s as [|t s]; [exists None, 1; split; [reflexivity|split; [intros c; unfold w_iter_next, bind, called, ret; do 2 f_equal; lia|generalize (depth m); intros; nia]]|].
    destruct t as [|k v|k v l r h]; try discriminate. cbn [fit] in F. destruct F as [F1 F2].
    destruct (collapse_ok' s (depth m + 2) (depth m)) as (s' & C & _); [destruct s; cbn in Sp |- *; tauto|inversion Sh; assumption|lia|].
    destruct (collapse_more _ _ _ (f - (depth m + 2)) C) as [C1 C2]. replace (depth m + 2 + (f - (depth m + 2))) with f in * by lia.
    destruct (collapse_cost _ _ _ _ F2 C) as (w & Cw & _ & _ & _ & W).
    exists (Some ((k, v), s')). eexists. split; [cbn [iter_next]; rewrite C1; reflexivity|]. split.
    - unfold w_iter_next. eapply costs_bind; [apply costs_called|]. eapply costs_bind; [apply tail_cost|]. eapply costs_bind; [apply head_cost|]. eapply costs_bind; [intros c; rewrite C2; apply Cw|apply costs_ret].
    - cbn [length level] in *. nia.
  Qed.
End Work.
