(** Tree operations that call user functions, and the iterator. *)
From Coq Require Import List ZArith Bool Arith Lia Sorting.Sorted.
From Verif.Model Require Import Base MapTree.
From Verif.Spec Require Import MapSpec ListM.
From Verif.Proofs Require Import KeyOrdFacts MapTreeFacts.
Import ListNotations.
Local Open Scope nat_scope.
Local Open Scope py_scope.

Definition uncurry {A B C} (f : A -> B -> C) (p : A * B) : C := f (fst p) (snd p).

Ltac mstep :=
  repeat (unfold bind, ret, lift, raise; simpl;
          match goal with
          | |- context [match ?x ?w with (_, _) => _ end] => destruct (x w) as [[?|?] ?] eqn:?; simpl
          end; auto).

(** monadic list functions over concatenation *)
Section ListMFacts.
  Context {W A B : Type}.

  Lemma iterM_app : forall (f : A -> M W unit) l1 l2 w,
    iterM f (l1 ++ l2) w = bind (iterM f l1) (fun _ => iterM f l2) w.
  Proof.
    induction l1 as [|x l1 IH]; intros l2 w; simpl; auto.
    unfold bind in *. destruct (f x w) as [[u|e] w1]; auto.
  Qed.

  Lemma mapM_app : forall (f : A -> M W B) l1 l2 w,
    mapM f (l1 ++ l2) w = bind (mapM f l1) (fun a => bind (mapM f l2) (fun b => ret (a ++ b))) w.
  Proof.
    induction l1 as [|x l1 IH]; intros l2 w; simpl.
    - unfold bind, ret. destruct (mapM f l2 w) as [[u|e] w1]; auto.
    - unfold bind in *. destruct (f x w) as [[u|e] w1]; auto.
      rewrite IH. destruct (mapM f l1 w1) as [[u1|e] w2]; auto.
      unfold ret. destruct (mapM f l2 w2) as [[u2|e] w3]; auto.
  Qed.

  Lemma filterM_app : forall (p : A -> M W bool) l1 l2 w,
    filterM p (l1 ++ l2) w = bind (filterM p l1) (fun a => bind (filterM p l2) (fun b => ret (a ++ b))) w.
  Proof.
    induction l1 as [|x l1 IH]; intros l2 w; simpl.
    - unfold bind, ret. destruct (filterM p l2 w) as [[u|e] w1]; auto.
    - unfold bind in *. destruct (p x w) as [[u|e] w1]; auto.
      rewrite IH. destruct (filterM p l1 w1) as [[u1|e] w2]; auto.
      unfold ret. destruct (filterM p l2 w2) as [[u2|e] w3]; auto.
      destruct u; auto.
  Qed.

  Lemma partitionM_app : forall (p : A -> M W bool) l1 l2 w,
    partitionM p (l1 ++ l2) w =
    bind (partitionM p l1) (fun a => bind (partitionM p l2)
      (fun b => ret (fst a ++ fst b, snd a ++ snd b))) w.
  Proof.
    induction l1 as [|x l1 IH]; intros l2 w; simpl.
    - unfold bind, ret. destruct (partitionM p l2 w) as [[[u u']|e] w1]; auto.
    - unfold bind in *. destruct (p x w) as [[u|e] w1]; auto.
      rewrite IH. destruct (partitionM p l1 w1) as [[[u1 u1']|e] w2]; auto.
      unfold ret. destruct (partitionM p l2 w2) as [[[u2 u2']|e] w3]; auto.
      destruct u; auto.
  Qed.

  Lemma foldM_app : forall (f : B -> A -> M W B) l1 l2 b w,
    foldM f b (l1 ++ l2) w = bind (foldM f b l1) (fun b => foldM f b l2) w.
  Proof.
    induction l1 as [|x l1 IH]; intros l2 b w; simpl; auto.
    unfold bind in *. destruct (f b x w) as [[u|e] w1]; auto.
  Qed.

  Lemma firstM_app : forall (f : A -> M W (option B)) l1 l2 w,
    firstM f (l1 ++ l2) w =
    bind (firstM f l1) (fun o => match o with Some y => ret (Some y) | None => firstM f l2 end) w.
  Proof.
    induction l1 as [|x l1 IH]; intros l2 w; simpl; auto.
    unfold bind in *. destruct (f x w) as [[[u|]|e] w1]; auto.
  Qed.

  Lemma existsM_app : forall (p : A -> M W bool) l1 l2 w,
    existsM p (l1 ++ l2) w =
    bind (existsM p l1) (fun b => if b : bool then ret true else existsM p l2) w.
  Proof.
    induction l1 as [|x l1 IH]; intros l2 w; simpl; auto.
    unfold bind in *. destruct (p x w) as [[[]|e] w1]; auto.
  Qed.

  Lemma forallM_app : forall (p : A -> M W bool) l1 l2 w,
    forallM p (l1 ++ l2) w =
    bind (forallM p l1) (fun b => if b : bool then forallM p l2 else ret false) w.
  Proof.
    induction l1 as [|x l1 IH]; intros l2 w; simpl; auto.
    unfold bind in *. destruct (p x w) as [[[]|e] w1]; auto.
  Qed.
End ListMFacts.

Section Visits.
  Context {K V W : Type}.
  Implicit Types (m l r : tree K V).

  Lemma iter_iterM : forall (f : K -> V -> M W unit) m w,
    iter f m w = iterM (uncurry f) (elements m) w.
  Proof.
    induction m as [|k v|k v l IHl r IHr h]; intros w; simpl; auto.
    - unfold bind, ret, uncurry; simpl. destruct (f k v w) as [[[]|e] w1]; auto.
    - rewrite iterM_app. unfold bind. rewrite <- IHl. destruct (iter f l w) as [[u|e] w1]; auto.
      simpl. unfold bind, uncurry; simpl. destruct (f k v w1) as [[u1|e] w2]; auto.
  Qed.

  Lemma try_pick_firstM : forall {R} (f : K -> V -> M W (option R)) m w,
    try_pick f m w = firstM (uncurry f) (elements m) w.
  Proof.
    induction m as [|k v|k v l IHl r IHr h]; intros w; simpl; auto.
    - unfold bind, ret, uncurry; simpl. destruct (f k v w) as [[[x|]|e] w1]; auto.
    - rewrite firstM_app. unfold bind. rewrite <- IHl.
      destruct (try_pick f l w) as [[[x|]|e] w1]; auto.
      simpl. unfold bind, uncurry; simpl. destruct (f k v w1) as [[[x|]|e] w2]; auto.
  Qed.

  Lemma exists_existsM : forall (f : K -> V -> M W bool) m w,
    exists_ f m w = existsM (uncurry f) (elements m) w.
  Proof.
    induction m as [|k v|k v l IHl r IHr h]; intros w; simpl; auto.
    - unfold bind, ret, uncurry; simpl. destruct (f k v w) as [[[]|e] w1]; auto.
    - rewrite existsM_app. unfold bind. rewrite <- IHl.
      destruct (exists_ f l w) as [[[]|e] w1]; auto.
      simpl. unfold bind, uncurry; simpl. destruct (f k v w1) as [[[]|e] w2]; auto.
  Qed.

  Lemma forall_forallM : forall (f : K -> V -> M W bool) m w,
    forall_ f m w = forallM (uncurry f) (elements m) w.
  Proof.
    induction m as [|k v|k v l IHl r IHr h]; intros w; simpl; auto.
    - unfold bind, ret, uncurry; simpl. destruct (f k v w) as [[[]|e] w1]; auto.
    - rewrite forallM_app. unfold bind. rewrite <- IHl.
      destruct (forall_ f l w) as [[[]|e] w1]; auto.
      simpl. unfold bind, uncurry; simpl. destruct (f k v w1) as [[[]|e] w2]; auto.
  Qed.

  Lemma fold_foldM : forall {R} (f : R -> K * V -> M W R) m x w,
    fold f x m w = foldM f x (elements m) w.
  Proof.
    induction m as [|k v|k v l IHl r IHr h]; intros x w; simpl; auto.
    - unfold bind, ret; simpl. destruct (f x (k, v) w) as [[y|e] w1]; auto.
    - rewrite foldM_app. unfold bind. rewrite <- IHl.
      destruct (fold f x l w) as [[y|e] w1]; auto.
      simpl. unfold bind; simpl. destruct (f y (k, v) w1) as [[z|e] w2]; auto.
  Qed.

  Lemma fold_back_foldM : forall {R} (f : K * V -> R -> M W R) m x w,
    fold_back f m x w = foldM (fun x kv => f kv x) x (rev (elements m)) w.
  Proof.
    induction m as [|k v|k v l IHl r IHr h]; intros x w; simpl; auto.
    - unfold bind, ret; simpl. destruct (f (k, v) x w) as [[y|e] w1]; auto.
    - rewrite rev_app_distr. simpl. rewrite <- app_assoc. simpl.
      rewrite foldM_app. unfold bind. rewrite <- IHr.
      destruct (fold_back f r x w) as [[y|e] w1]; auto.
      simpl. unfold bind; simpl. destruct (f (k, v) y w1) as [[z|e] w2]; auto.
  Qed.

  (** [map]: same keys, heights and shape, values replaced in order *)
  Lemma map_mapM : forall {R} (f : K -> V -> M W R) m w,
    match mapM (fun kv => bind (f (fst kv) (snd kv)) (fun y => ret (fst kv, y))) (elements m) w with
    | (Ret l', w') => exists t, map f m w = (Ret t, w') /\ elements t = l' /\
                      height t = height m /\ (hok m -> hok t) /\
                      depth t = depth m /\ (balanced m -> balanced t)
    | (Raise e, w') => map f m w = (Raise e, w')
    end.
  Proof.
    induction m as [|k v|k v l IHl r IHr h]; intros w; simpl.
    - eexists; repeat split; auto.
    - unfold bind, ret; simpl. destruct (f k v w) as [[y|e] w1]; auto.
      eexists; repeat split; auto.
    - rewrite mapM_app. unfold bind at 1. specialize (IHl w).
      destruct (mapM _ (elements l) w) as [[l'|e] w1] eqn:E.
      + destruct IHl as (tl & Etl & El & Hl & Kl & Dl & Bl). simpl.
        unfold bind, ret in *. rewrite Etl. simpl.
        destruct (f k v w1) as [[y|e] w2]; auto.
        specialize (IHr w2).
        destruct (mapM _ (elements r) w2) as [[r'|e] w3].
        * destruct IHr as (tr & Etr & Er & Hr & Kr & Dr & Br). rewrite Etr.
          eexists; split; [reflexivity|]. simpl. rewrite El, Er, Hl, Hr, Dl, Dr. intuition.
        * now rewrite IHr.
      + unfold bind at 1. now rewrite IHl.
  Qed.
End Visits.

Section Build.
  Context {K V : Type} `{KeyOrd K}.
  Implicit Types (m t l r : tree K V).

  Definition Wf m : Prop := hok m /\ ascending (elements m).

  Definition ins_all (ys : list (K * V)) (acc : list (K * V)) : list (K * V) :=
    fold_left (fun a kv => al_insert (fst kv) (snd kv) a) ys acc.

  Lemma ins_all_app : forall a b acc, ins_all (a ++ b) acc = ins_all b (ins_all a acc).
  Proof. intros. unfold ins_all. apply fold_left_app. Qed.

  Lemma Wf_add : forall k v m, Wf m -> exists t, add k v m = Ret t /\ Wf t /\ elements t = al_insert k v (elements m).
  Proof.
    intros k v m [Hh S]. destruct (add_ok k v m Hh S) as (t & E & Ht & El & _).
    exists t. repeat split; auto. rewrite El. now apply ascending_al_insert.
  Qed.

  Lemma filter_aux_ok : forall {W} (p : K -> V -> M W bool) m acc w, Wf acc ->
    match filterM (uncurry p) (elements m) w with
    | (Ret ys, w') => exists t, filter_aux p m acc w = (Ret t, w') /\ Wf t /\ elements t = ins_all ys (elements acc)
    | (Raise e, w') => filter_aux p m acc w = (Raise e, w')
    end.
  Proof.
    induction m as [|k v|k v l IHl r IHr h]; intros acc w Hacc; simpl.
    - eexists; repeat split; eauto; apply Hacc.
    - unfold filter1, bind, ret, lift, uncurry; simpl. destruct (p k v w) as [[[]|e] w1]; auto.
      + destruct (Wf_add k v acc Hacc) as (t & -> & Ht & El). eexists; split; [reflexivity|]. auto.
      + eexists; split; [reflexivity|]. auto.
    - rewrite filterM_app. unfold bind at 1. specialize (IHl acc w Hacc).
      destruct (filterM _ (elements l) w) as [[yl|e] w1].
      + destruct IHl as (tl & Etl & Htl & Eltl).
        simpl. unfold filter1, bind, ret, lift, uncurry in *. simpl. rewrite Etl.
        destruct (p k v w1) as [[[]|e] w2]; auto.
        * destruct (Wf_add k v tl Htl) as (t & -> & Ht & El).
          specialize (IHr t w2 Ht). destruct (filterM _ (elements r) w2) as [[yr|e] w3]; auto.
          destruct IHr as (tr & Etr & Htr & Eltr). rewrite Etr. eexists; split; [reflexivity|].
          split; auto. rewrite Eltr, El, Eltl, ins_all_app. reflexivity.
        * specialize (IHr tl w2 Htl). destruct (filterM _ (elements r) w2) as [[yr|e] w3]; auto.
          destruct IHr as (tr & Etr & Htr & Eltr). rewrite Etr. eexists; split; [reflexivity|].
          split; auto. rewrite Eltr, Eltl, ins_all_app. reflexivity.
      + unfold bind at 1. now rewrite IHl.
  Qed.

  Lemma al_insert_last : forall k v (l : list (K * V)), all_lt l k -> al_insert k v l = l ++ [(k, v)].
  Proof.
    intros k v l L. rewrite <- (app_nil_r l) at 1. now rewrite al_insert_app_skip.
  Qed.

  Lemma al_insert_first : forall k v (l : list (K * V)), all_gt l k -> al_insert k v l = (k, v) :: l.
  Proof. intros k v [|[a b] l] G; simpl; auto. inversion G; subst. simpl in *. now rewrite H2. Qed.

  Lemma ins_all_ascending : forall ys acc, ascending (acc ++ ys) -> ins_all ys acc = acc ++ ys.
  Proof.
    induction ys as [|[k v] ys IH]; intros acc S; simpl.
    - now rewrite app_nil_r.
    - pose proof S as S'. apply ascending_app in S'. destruct S' as (_ & _ & L & _).
      rewrite al_insert_last by auto. rewrite IH; rewrite <- app_assoc; auto.
  Qed.

  Lemma ins_all_descending : forall ys acc, ascending (rev ys ++ acc) -> ins_all ys acc = rev ys ++ acc.
  Proof.
    induction ys as [|[k v] ys IH]; intros acc S; simpl; auto.
    simpl in S. rewrite <- app_assoc in S. simpl in S.
    pose proof S as S'. apply ascending_app in S'. destruct S' as (_ & _ & _ & G).
    rewrite al_insert_first by auto. rewrite IH by auto. now rewrite <- app_assoc.
  Qed.

  Inductive subseq {A} : list A -> list A -> Prop :=
  | sub_nil : subseq [] []
  | sub_skip : forall x a b, subseq a b -> subseq a (x :: b)
  | sub_take : forall x a b, subseq a b -> subseq (x :: a) (x :: b).

  Lemma subseq_app : forall {A} (a b c d : list A), subseq a b -> subseq c d -> subseq (a ++ c) (b ++ d).
  Proof. induction 1; simpl; intros; auto; [apply sub_skip|apply sub_take]; auto. Qed.

  Lemma subseq_nil : forall {A} (l : list A), subseq [] l.
  Proof. induction l; constructor; auto. Qed.

  Lemma subseq_rev : forall {A} (a b : list A), subseq a b -> subseq (rev a) (rev b).
  Proof.
    induction 1; simpl; [constructor| |].
    - rewrite <- (app_nil_r (rev a)). apply subseq_app; auto. apply subseq_nil.
    - apply subseq_app; auto. apply sub_take. constructor.
  Qed.

  Lemma subseq_Forall : forall {A} (P : A -> Prop) a b, subseq a b -> Forall P b -> Forall P a.
  Proof. induction 1; intros F; auto; inversion F; subst; auto. Qed.

  Lemma subseq_ascending : forall a b : list (K * V), subseq a b -> ascending b -> ascending a.
  Proof.
    unfold ascending. induction 1; intros S; auto; inversion S; subst; auto.
    constructor; auto. eapply subseq_Forall; eauto.
  Qed.

  Lemma filterM_subseq : forall {W A} (p : A -> M W bool) (xs : list A) w ys w',
    filterM p xs w = (Ret ys, w') -> subseq ys xs.
  Proof.
    induction xs as [|x xs IH]; intros w ys w' E; simpl in E.
    - injection E as <- <-. constructor.
    - unfold bind, ret in E. destruct (p x w) as [[b|e] w1]; [|discriminate].
      destruct (filterM p xs w1) as [[zs|e] w2] eqn:E2; [|discriminate].
      injection E as <- <-. destruct b; [apply sub_take|apply sub_skip]; eauto.
  Qed.

  Lemma partitionM_subseq : forall {W A} (p : A -> M W bool) (xs : list A) w ys zs w',
    partitionM p xs w = (Ret (ys, zs), w') -> subseq ys xs /\ subseq zs xs.
  Proof.
    induction xs as [|x xs IH]; intros w ys zs w' E; simpl in E.
    - injection E as <- <- <-. split; constructor.
    - unfold bind, ret in E. destruct (p x w) as [[b|e] w1]; [|discriminate].
      destruct (partitionM p xs w1) as [[[ys' zs']|e] w2] eqn:E2; [|discriminate].
      destruct (IH _ _ _ _ E2). injection E as E3 <-.
      destruct b; injection E3 as <- <-; split; ((apply sub_take; auto; fail) || (apply sub_skip; auto; fail)).
  Qed.

  Lemma filter_ok : forall {W} (p : K -> V -> M W bool) m w, Wf m ->
    match filterM (uncurry p) (elements m) w with
    | (Ret ys, w') => exists t, filter p m w = (Ret t, w') /\ Wf t /\ elements t = ys
    | (Raise e, w') => filter p m w = (Raise e, w')
    end.
  Proof.
    intros W p m w [Hh S]. unfold filter.
    pose proof (filter_aux_ok p m Empty w) as F.
    destruct (filterM (uncurry p) (elements m) w) as [[ys|e] w'] eqn:E.
    - destruct F as (t & -> & Ht & El). { split; simpl; auto. constructor. }
      eexists; split; [reflexivity|]. split; auto. rewrite El. simpl.
      apply ins_all_ascending. simpl. eapply subseq_ascending; eauto. eapply filterM_subseq; eauto.
    - apply F. split; simpl; auto. constructor.
  Qed.

  Lemma partition_aux_ok : forall {W} (p : K -> V -> M W bool) m acc1 acc2 w, Wf acc1 -> Wf acc2 ->
    match partitionM (uncurry p) (rev (elements m)) w with
    | (Ret (ys, zs), w') =>
        exists t1 t2, partition_aux p m (acc1, acc2) w = (Ret (t1, t2), w') /\ Wf t1 /\ Wf t2 /\
          elements t1 = ins_all ys (elements acc1) /\ elements t2 = ins_all zs (elements acc2)
    | (Raise e, w') => partition_aux p m (acc1, acc2) w = (Raise e, w')
    end.
  Proof.
    induction m as [|k v|k v l IHl r IHr h]; intros acc1 acc2 w W1 W2; simpl.
    - do 2 eexists; split; [reflexivity|]; auto.
    - unfold bind, ret, lift, uncurry; simpl. destruct (p k v w) as [[[]|e] w1]; auto.
      + destruct (Wf_add k v acc1 W1) as (t & -> & Ht & El). do 2 eexists; split; [reflexivity|]. auto.
      + destruct (Wf_add k v acc2 W2) as (t & -> & Ht & El). do 2 eexists; split; [reflexivity|]. auto.
    - rewrite rev_app_distr. simpl. rewrite <- app_assoc. simpl.
      rewrite partitionM_app. unfold bind at 1. specialize (IHr acc1 acc2 w W1 W2).
      destruct (partitionM _ (rev (elements r)) w) as [[[yl zl]|e] w1].
      + destruct IHr as (tl & tl2 & Etl & Htl & Htl2 & Eltl & Eltl2).
        simpl. unfold partition1, bind, ret, lift, uncurry in *. simpl. rewrite Etl.
        destruct (p k v w1) as [[[]|e] w2]; auto.
        * destruct (Wf_add k v tl Htl) as (t & -> & Ht & El).
          specialize (IHl t tl2 w2 Ht Htl2). destruct (partitionM _ (rev (elements l)) w2) as [[[yr zr]|e] w3]; auto.
          destruct IHl as (tr & tr2 & Etr & Htr & Htr2 & Eltr & Eltr2). rewrite Etr.
          do 2 eexists; split; [reflexivity|]. simpl.
          repeat split; try apply Htr; try apply Htr2.
          -- rewrite Eltr, El, Eltl, ins_all_app. reflexivity.
          -- rewrite Eltr2, Eltl2, ins_all_app. reflexivity.
        * destruct (Wf_add k v tl2 Htl2) as (t & -> & Ht & El).
          specialize (IHl tl t w2 Htl Ht). destruct (partitionM _ (rev (elements l)) w2) as [[[yr zr]|e] w3]; auto.
          destruct IHl as (tr & tr2 & Etr & Htr & Htr2 & Eltr & Eltr2). rewrite Etr.
          do 2 eexists; split; [reflexivity|]. simpl.
          repeat split; try apply Htr; try apply Htr2.
          -- rewrite Eltr, Eltl, ins_all_app. reflexivity.
          -- rewrite Eltr2, El, Eltl2, ins_all_app. reflexivity.
      + unfold bind at 1. now rewrite IHr.
  Qed.

  Lemma partition_ok : forall {W} (p : K -> V -> M W bool) m w, Wf m ->
    match partitionM (uncurry p) (rev (elements m)) w with
    | (Ret (ys, zs), w') =>
        exists t1 t2, partition p m w = (Ret (t1, t2), w') /\ Wf t1 /\ Wf t2 /\
          elements t1 = rev ys /\ elements t2 = rev zs
    | (Raise e, w') => partition p m w = (Raise e, w')
    end.
  Proof.
    intros W p m w [Hh S]. unfold partition.
    assert (WE : Wf Empty) by (split; simpl; auto; constructor).
    pose proof (partition_aux_ok p m Empty Empty w WE WE) as F.
    destruct (partitionM (uncurry p) (rev (elements m)) w) as [[[ys zs]|e] w'] eqn:E; auto.
    destruct (partitionM_subseq _ _ _ _ _ _ E) as [S1 S2].
    apply subseq_rev in S1, S2. rewrite rev_involutive in S1, S2.
    destruct F as (t1 & t2 & -> & Ht1 & Ht2 & El1 & El2).
    do 2 eexists; split; [reflexivity|]. split; auto. split; auto.
    rewrite El1, El2. simpl.
    rewrite !ins_all_descending; rewrite !app_nil_r; auto; eapply subseq_ascending; eauto.
  Qed.

  (** [change] *)
  Fixpoint ends_at_empty (k : K) m : bool :=
    match m with
    | Empty => true
    | Leaf _ _ => false
    | Node key _ l r _ =>
        if ltb k key then ends_at_empty k l else if eqb k key then false else ends_at_empty k r
    end.

  Lemma ends_at_empty_absent : forall k m, ascending (elements m) -> ends_at_empty k m = true ->
    assoc k (elements m) = None.
  Proof.
    induction m as [|key value|key value l IHl r IHr h]; intros S E; simpl in *; try discriminate; auto.
    rewrite assoc_node by auto. apply ascending_node in S. destruct S.
    destruct (ltb k key) eqn:L.
    - rewrite (ltb_eqb_false _ _ L). auto.
    - destruct (eqb k key); [discriminate|]. auto.
  Qed.

  Lemma al_insert_node_eq : forall k v key value (l1 l2 : list (K * V)),
    ascending (l1 ++ (key, value) :: l2) -> eqb k key = true ->
    al_insert k v (l1 ++ (key, value) :: l2) = l1 ++ (k, v) :: l2.
  Proof.
    intros k v key value l1 l2 S E. apply ascending_app in S. destruct S as (_ & _ & L & G).
    rewrite al_insert_app_skip by (apply (all_lt_eqb _ key k); auto; now rewrite eqb_sym).
    simpl. pose proof E as E'. apply eqb_incomparable in E'. destruct E' as [-> _]. now rewrite E.
  Qed.

  Lemma al_insert_node_gt : forall k v key value (l1 l2 : list (K * V)),
    ascending (l1 ++ (key, value) :: l2) -> ltb key k = true ->
    al_insert k v (l1 ++ (key, value) :: l2) = l1 ++ (key, value) :: al_insert k v l2.
  Proof.
    intros k v key value l1 l2 S E. apply ascending_app in S. destruct S as (_ & _ & L & G).
    rewrite al_insert_app_skip by (apply (all_lt_trans _ key k); auto).
    simpl. rewrite (ltb_asym _ _ E), (ltb_eqb_false' _ _ E). reflexivity.
  Qed.

  Lemma al_remove_node : forall k key value (l1 l2 : list (K * V)),
    ascending (l1 ++ (key, value) :: l2) ->
    al_remove k (l1 ++ (key, value) :: l2) =
    if ltb k key then al_remove k l1 ++ (key, value) :: l2
    else if eqb k key then l1 ++ l2
    else l1 ++ (key, value) :: al_remove k l2.
  Proof.
    intros k key value l1 l2 S. apply ascending_app in S. destruct S as (_ & _ & L & G).
    rewrite al_remove_app. unfold al_remove at 2. simpl. fold (al_remove k l2).
    destruct (ltb k key) eqn:Lt.
    - rewrite (ltb_eqb_false _ _ Lt). simpl. rewrite (al_remove_all_gt k l2); auto. eapply all_gt_trans; eauto.
    - destruct (eqb k key) eqn:E; simpl.
      + assert (eqb key k = true) by now rewrite eqb_sym.
        rewrite (al_remove_all_lt k l1), (al_remove_all_gt k l2); auto.
        eapply all_gt_eqb; eauto. eapply all_lt_eqb; eauto.
      + rewrite (al_remove_all_lt k l1); auto. eapply all_lt_trans; [|exact L]. now apply ltb_total.
  Qed.

  Lemma change_ok : forall {W} k (u : option V -> M W (option V)) m w, Wf m ->
    match u (option_map snd (assoc k (elements m))) w with
    | (Raise e, w') => change k u m w = (Raise e, w')
    | (Ret (Some v), w') =>
        exists t, change k u m w = (Ret t, w') /\ hok t /\ elements t = al_insert k v (elements m)
                  /\ height t <= S (height m)
    | (Ret None, w') =>
        if ends_at_empty k m then change k u m w = (Raise EffectErrorExn, w')
        else exists t, change k u m w = (Ret t, w') /\ hok t /\ elements t = al_remove k (elements m)
                  /\ height t <= height m
    end.
  Proof.
    intros W k u m w [Hh S]. revert w.
    induction m as [|key value|key value l IHl r IHr h]; intros w; simpl change.
    - simpl. unfold bind, ret, raise. destruct (u None w) as [[[v|]|e] w']; auto.
      eexists; repeat split; auto.
    - simpl. unfold assoc, al_remove; simpl. unfold bind, ret.
      destruct (ltb k key) eqn:L.
      + rewrite (ltb_eqb_false _ _ L). simpl.
        destruct (u None w) as [[[v|]|e] w']; auto; eexists; (split; [reflexivity|]); simpl; auto 10.
      + destruct (eqb k key) eqn:E; simpl.
        * destruct (u (Some value) w) as [[[v|]|e] w']; auto; eexists; (split; [reflexivity|]); simpl; auto 10.
        * destruct (u None w) as [[[v|]|e] w']; auto; eexists; (split; [reflexivity|]); simpl; auto 10.
    - cbn [elements] in *. rewrite assoc_node, al_remove_node by auto.
      pose proof (ascending_node _ _ _ _ S) as [Sl Sr].
      destruct Hh as (Hl & Hr & Eh & H2). cbn [ends_at_empty].
      destruct (ltb k key) eqn:L.
      + rewrite (ltb_eqb_false _ _ L). specialize (IHl Hl Sl w). unfold bind, lift.
        destruct (u _ w) as [[[v|]|e] w'].
        * destruct IHl as (t & -> & Ht & Et & Hle).
          destruct (rebalance_ok t key value r Ht Hr) as (t' & -> & Ht' & Et' & Hle').
          eexists; split; [reflexivity|]. repeat split; auto; [|cbn [height] in *; lia].
          rewrite Et', Et, al_insert_app_lt; auto.
        * destruct (ends_at_empty k l).
          -- now rewrite IHl.
          -- destruct IHl as (t & -> & Ht & Et & Hle).
             destruct (rebalance_ok t key value r Ht Hr) as (t' & -> & Ht' & Et' & Hle').
             eexists; split; [reflexivity|]. repeat split; auto; [|cbn [height] in *; lia].
             rewrite Et', Et; auto.
        * now rewrite IHl.
      + destruct (eqb k key) eqn:E; cbn [option_map snd].
        * unfold bind, ret, lift. destruct (u (Some value) w) as [[[v|]|e] w']; auto.
          -- eexists; split; [reflexivity|]. cbn [hok height elements]. repeat split; auto.
             symmetry. now apply al_insert_node_eq.
          -- destruct (del_root_ok l r Hl Hr) as (t & Et & Ht & Elt & Hht). unfold del_root in Et.
             assert (height t <= height (Node key value l r h)) by (cbn [height]; lia).
             destruct (is_empty l); [injection Et as <-; eauto|].
             destruct (is_empty r); [injection Et as <-; eauto|]. rewrite Et. eauto.
        * assert (Lk : ltb key k = true) by (now apply ltb_total).
          specialize (IHr Hr Sr w). unfold bind, lift.
          destruct (u _ w) as [[[v|]|e] w'].
          -- destruct IHr as (t & -> & Ht & Et & Hle).
             destruct (rebalance_ok l key value t Hl Ht) as (t' & -> & Ht' & Et' & Hle').
             eexists; split; [reflexivity|]. repeat split; auto; [|cbn [height] in *; lia].
             rewrite Et', Et, al_insert_node_gt; auto.
          -- destruct (ends_at_empty k r).
             ++ now rewrite IHr.
             ++ destruct IHr as (t & -> & Ht & Et & Hle).
                destruct (rebalance_ok l key value t Hl Ht) as (t' & -> & Ht' & Et' & Hle').
                eexists; split; [reflexivity|]. repeat split; auto; [|cbn [height] in *; lia].
                rewrite Et', Et; auto.
          -- now rewrite IHr.
  Qed.

  (** the explicit-stack iterator *)
  Definition is_leaf t : bool := match t with Leaf _ _ => true | _ => false end.
  Fixpoint spaced (s : list (tree K V)) : Prop :=
    match s with
    | a :: ((b :: _) as s') => (is_leaf a = true \/ is_leaf b = true) /\ spaced s'
    | _ => True
    end.
  Definition fringe (s : list (tree K V)) : list (K * V) := flat_map elements s.
  Definition shallow (d : nat) (s : list (tree K V)) : Prop := Forall (fun t => depth t <= d) s.
  Definition ready (s : list (tree K V)) : Prop :=
    match s with [] => True | t :: _ => is_leaf t = true end.

  Lemma collapse_leaf_head : forall f s, ready s -> collapseLHS (S f) s = Ret s.
  Proof. intros f [|[|k v|] s] R; simpl in *; auto; discriminate. Qed.

  Lemma collapse_ok : forall t s f d, spaced (t :: s) -> shallow d (t :: s) -> depth t + 2 <= f ->
    exists s', collapseLHS f (t :: s) = Ret s' /\ ready s' /\ spaced s' /\ shallow d s' /\
      fringe s' = elements t ++ fringe s.
  Proof.
    induction t as [|k v|k v l IHl r IHr h]; intros s f d Sp Sh Hf.
    - simpl in Hf. destruct f as [|[|f]]; try lia. simpl collapseLHS.
      assert (ready s). { destruct s as [|b s]; simpl in *; auto. destruct Sp as [[?|?] _]; auto; discriminate. }
      exists s. split. { change (collapseLHS (S f) s = Ret s). now apply collapse_leaf_head. }
      repeat split; auto; simpl.
      + destruct s; simpl in *; tauto.
      + now inversion Sh.
    - destruct f as [|f]; [simpl in Hf; lia|]. exists (Leaf k v :: s). repeat split; auto.
    - simpl in Hf. destruct f as [|f]; [lia|]. cbn [collapseLHS].
      destruct (IHl (Leaf k v :: r :: s) f d) as (s' & E & R & Sp' & Sh' & F).
      + destruct s as [|b s]; simpl in *; auto. destruct Sp as [[?|?] ?]; [discriminate|]. auto.
      + inversion Sh; subst. cbn [depth] in *. constructor; [lia|]. constructor; [simpl; lia|]. constructor; [lia|auto].
      + lia.
      + exists s'. repeat split; auto. rewrite F. simpl. rewrite <- app_assoc. reflexivity.
  Qed.

  Lemma collapse_ok' : forall s f d, spaced s -> shallow d s -> d + 2 <= f ->
    exists s', collapseLHS f s = Ret s' /\ ready s' /\ spaced s' /\ shallow d s' /\ fringe s' = fringe s.
  Proof.
    intros [|t s] f d Sp Sh Hf.
    - destruct f; [lia|]. exists []. repeat split; auto.
    - apply collapse_ok; auto. inversion Sh; subst. lia.
  Qed.

  Lemma iter_next_ok : forall s f d, ready s -> spaced s -> shallow d s -> d + 2 <= f ->
    match fringe s with
    | [] => iter_next f s = Ret None
    | kv :: rest => exists s', iter_next f s = Ret (Some (kv, s')) /\ ready s' /\ spaced s' /\ shallow d s' /\ fringe s' = rest
    end.
  Proof.
    intros [|[|k v|] s] f d R Sp Sh Hf; simpl in *; auto; try discriminate.
    destruct (collapse_ok' s f d) as (s' & E & R' & Sp' & Sh' & F); auto.
    - destruct s; simpl in *; tauto.
    - now inversion Sh.
    - exists s'. rewrite E. simpl. rewrite F. auto.
  Qed.

  Lemma mk_iterator_ok : forall m f, depth m + 2 <= f ->
    exists s, mk_iterator f m = Ret s /\ ready s /\ spaced s /\ shallow (depth m) s /\ fringe s = elements m.
  Proof.
    intros m f Hf. unfold mk_iterator.
    destruct (collapse_ok' [m] f (depth m)) as (s & E & R & Sp & Sh & F); simpl; auto.
    - constructor; auto.
    - exists s. rewrite F. simpl. rewrite app_nil_r. auto 10.
  Qed.

  Lemma drain_ok : forall n s f d, ready s -> spaced s -> shallow d s -> d + 2 <= f ->
    length (fringe s) < n -> drain n f s = Ret (fringe s).
  Proof.
    induction n as [|n IH]; intros s f d R Sp Sh Hf Hn; [lia|]. simpl.
    pose proof (iter_next_ok s f d R Sp Sh Hf) as I.
    destruct (fringe s) as [|kv rest] eqn:E.
    - now rewrite I.
    - destruct I as (s' & -> & R' & Sp' & Sh' & F). simpl.
      rewrite (IH s' f d), F; auto. rewrite F. simpl in Hn. lia.
  Qed.
End Build.
