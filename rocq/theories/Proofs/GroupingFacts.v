(** Lemmas about tables built with Map.change. *)
From Coq Require Import List Arith Bool Lia Permutation Sorting.Sorted.
From Verif.Model Require Import Base PyList OptionResult Block MapTree Map.
From Verif.Spec Require Import MapSpec ListM GroupingSpec.
From Verif.Proofs Require Import KeyOrdFacts MapTreeFacts MapTreeMonadic MapFacts MapMain.
Import ListNotations.
Local Open Scope nat_scope.
Local Open Scope list_scope.
Local Open Scope py_scope.

Section Table.
  Context {K V A W : Type} {KO : KeyOrd K}.
  Implicit Types (m : tree K V) (d : K -> option V) (w : W).

  Lemma table_pf : forall (key : A -> M W K) (step : option V -> A -> M W V) xs m d w, Reach m -> (forall k, try_find k m = d k) ->
    match updates key step d xs w with
    | (Ret d1, w1) => exists m1, table key step m xs w = (Ret m1, w1) /\ Reach m1 /\ forall k, try_find k m1 = d1 k
    | (Raise e, w1) => table key step m xs w = (Raise e, w1)
    end.
  Proof.
    intros key step. unfold table, Block.fold. induction xs as [|x xs IH]; intros m d w R E; cbn [updates for_in].
    - cbn. exists m. auto.
    - unfold bind. destruct (key x w) as [[k|e] w1]; [|reflexivity]. cbv beta iota. rewrite <- (E k). destruct (step (try_find k m) x w1) as [[v|e] w2] eqn:S; cbv beta iota.
      + destruct (C04_some_pf W m k (fun o => do v <- step o x; ret (Some v)) w1 v w2 R) as (m1 & C & _ & T); [unfold bind; rewrite S; reflexivity|].
        unfold bind in C. rewrite C. apply IH; [eapply R_change; [exact R|exact C]|]. intros k1. rewrite T. unfold updated. rewrite E. reflexivity.
      + assert (C := C04_raise_pf W m k (fun o => do v <- step o x; ret (Some v)) w1 e w2 R). unfold bind in C. rewrite S in C. rewrite (C eq_refl). reflexivity.
  Qed.
  Lemma try_find_cong : forall m a b, eqb a b = true -> try_find a m = try_find b m.
  Proof.
    intros m a b E. induction m as [|k v|k v l IHl r IHr h]; cbn; [reflexivity| |]; rewrite ?(ltb_eqb_l _ _ k E), (eqb_cong_l _ _ k E), ?IHl, ?IHr; reflexivity.
  Qed.
  (** with functions that have no effects *)
  Definition respects (d : K -> option V) : Prop := forall a b, eqb a b = true -> d a = d b.
  Lemma updates_pure : forall (key : A -> K) (step : option V -> A -> V) xs d w, respects d -> exists d1,
    updates (fun x => ret (key x)) (fun o x => ret (step o x)) d xs w = (Ret d1, w) /\
    forall k, d1 k = fold_left (fun o x => Some (step o x)) (of_key key k xs) (d k).
  Proof.
    intros key step. induction xs as [|x xs IH]; intros d w R; cbn [updates].
    - exists d. auto.
    - unfold bind, ret at 1 2. cbv beta iota. destruct (IH (updated (key x) (step (d (key x)) x) d) w) as (d1 & E & F).
      { intros a b Q. unfold updated. rewrite (eqb_cong_l _ _ (key x) Q), (R _ _ Q). reflexivity. }
      exists d1. split; [exact E|]. intros k. rewrite F. unfold of_key, updated. cbn [List.filter].
      destruct (eqb k (key x)) eqn:Q; [|reflexivity]. cbn [fold_left]. rewrite (R _ _ Q). reflexivity.
  Qed.
  Lemma table_pure_pf : forall (key : A -> K) (step : option V -> A -> V) xs m w, Reach m ->
    exists m1, table (fun x => ret (key x)) (fun o x => ret (step o x)) m xs w = (Ret m1, w) /\ Reach m1 /\
      forall k, try_find k m1 = fold_left (fun o x => Some (step o x)) (of_key key k xs) (try_find k m).
  Proof.
    intros key step xs m w R. destruct (updates_pure key step xs (fun k => try_find k m) w (fun a b => try_find_cong m a b)) as (d1 & E & F).
    pose proof (table_pf (fun x => ret (key x)) (fun o x => ret (step o x)) xs m _ w R (fun k => eq_refl)) as T. rewrite E in T. destruct T as (m1 & T1 & T2 & T3).
    exists m1. split; [exact T1|]. split; [exact T2|]. intros k. rewrite T3. apply F.
  Qed.
End Table.

Section Unions.
  Context {K V W : Type} {KO : KeyOrd K}.
  Implicit Types (m : tree K V) (w : W).
  Lemma foldM_for_in : forall A S (f : S -> A -> M W S) l s w, foldM f s l w = for_in l s f w.
  Proof. induction l as [|x l IH]; intros s w; [reflexivity|]. cbn. unfold bind. destruct (f s x w) as [[s1|e] w1]; [apply IH|reflexivity]. Qed.
  Lemma union_table : forall (f : option V -> V -> M W V) m1 m2 w, union f m1 m2 w = table (fun kv => ret (fst kv)) (fun o kv => f o (snd kv)) m2 (to_list m1) w.
  Proof. intros f m1 m2 w. unfold union. rewrite C12_fold_pf, foldM_for_in. reflexivity. Qed.
  Lemma one_of_key : forall (l : list (K * V)) k, ascending l -> of_key fst k l = match assoc k l with Some kv => [kv] | None => [] end.
  Proof.
    unfold of_key, assoc. intros l k S. induction S as [|[a b] l S IH F]; [reflexivity|]. cbn. destruct (eqb k a) eqn:E; [|exact IH]. rewrite IH.
    fold (assoc k l). rewrite assoc_all_gt; [reflexivity|]. apply (all_gt_eqb l a k); [rewrite eqb_sym; exact E|exact F].
  Qed.
  Lemma union_pf : forall (f : option V -> V -> V) m1 m2 w, Reach m1 -> Reach m2 ->
    exists m, union (fun o v => ret (f o v)) m1 m2 w = (Ret m, w) /\ Reach m /\
      forall k, try_find k m = match try_find k m1 with Some v => Some (f (try_find k m2) v) | None => try_find k m2 end.
  Proof.
    intros f m1 m2 w R1 R2. rewrite union_table. destruct (table_pure_pf fst (fun o kv => f o (snd kv)) (to_list m1) m2 w R2) as (m & T & R & F). exists m. split; [exact T|]. split; [exact R|].
    intros k. destruct (C05_pf m1 R1) as (S & _ & _). rewrite F, one_of_key by exact S. destruct (Reach_Wf V m1 R1) as [Hh S1]. rewrite (try_find_assoc k m1 S1), <- to_list_elements. destruct (assoc k (to_list m1)) as [[a b]|]; reflexivity.
  Qed.
End Unions.

Section Groups.
  Context {K A : Type} {KO : KeyOrd K} (key : A -> K).
  Lemma count_fold : forall (l : list A) o, fold_left (fun o x => Some (count_step o x)) l o = match l with [] => o | _ => Some (opt_default_value o 0 + length l) end.
  Proof.
    induction l as [|x l IH]; intros o; [reflexivity|]. cbn [fold_left]. rewrite IH. unfold count_step. cbn [opt_default_value]. destruct l; cbn [length]; f_equal; lia.
  Qed.
  Lemma group_fold : forall (l : list A) o, fold_left (fun o x => Some (group_step o x)) l o = match l with [] => o | _ => Some (opt_default_value o [] ++ l) end.
  Proof.
    induction l as [|x l IH]; intros o; [reflexivity|]. cbn [fold_left]. rewrite IH. unfold group_step, Block.append. cbn [opt_default_value]. destruct l; [reflexivity|]. rewrite <- app_assoc. reflexivity.
  Qed.
  Lemma not_of_key : forall V (l : list (K * V)) x xs, Forall (fun kv => eqb (fst kv) (key x) = false) l ->
    flat_map (fun kv => of_key key (fst kv) (x :: xs)) l = flat_map (fun kv => of_key key (fst kv) xs) l.
  Proof. induction 1 as [|kv l E F IH]; [reflexivity|]. cbn [flat_map]. rewrite IH. unfold of_key at 1. cbn [List.filter]. rewrite E. reflexivity. Qed.
  Lemma groups_all : forall V (l : list (K * V)) xs, ascending l -> (forall x, In x xs -> exists kv, In kv l /\ eqb (key x) (fst kv) = true) ->
    Permutation (flat_map (fun kv => of_key key (fst kv) xs) l) xs.
  Proof.
    intros V l xs S. induction xs as [|x xs IH]; intros C; [induction l as [|kv l IHl]; [constructor|]; cbn; apply IHl; [inversion S; assumption|intros x []]|].
    destruct (C x (or_introl eq_refl)) as (kv & I & E). apply in_split in I. destruct I as (l1 & l2 & ->). assert (D : forall y, In y l1 \/ In y l2 -> eqb (fst y) (key x) = false).
    { intros y Y. destruct (eqb (fst y) (key x)) eqn:Q; [|reflexivity]. exfalso. rewrite (eqb_cong_r _ _ (fst y) E) in Q. clear IH C.
      induction l1 as [|a l1 IH1]; cbn in S; inversion S as [|a1 l3 S1 F]; subst; rewrite Forall_forall in F.
      - destruct Y as [[]|Y]. rewrite (ltb_eqb_false' _ _ (F _ Y)) in Q. discriminate.
      - destruct Y as [[->|Y]|Y]; [|apply IH1; [exact S1|left; exact Y]|apply IH1; [exact S1|right; exact Y]]. rewrite (ltb_eqb_false _ _ (F kv ltac:(apply in_or_app; right; left; reflexivity))) in Q. discriminate. }
    rewrite flat_map_app. cbn [flat_map]. rewrite !not_of_key by (apply Forall_forall; intros y Y; apply D; auto). unfold of_key at 2. cbn [List.filter]. rewrite eqb_sym, E. cbn [List.app]. etransitivity; [symmetry; apply Permutation_middle|].
    constructor. specialize (IH (fun y Y => C y (or_intror Y))). rewrite flat_map_app in IH. cbn [flat_map] in IH. exact IH.
  Qed.
  Lemma values_pf : forall V (g : list A -> V) (m : tree K V) xs, Reach m -> (forall k, try_find k m = match of_key key k xs with [] => None | l => Some (g l) end) ->
    List.map snd (to_list m) = List.map (fun kv => g (of_key key (fst kv) xs)) (to_list m) /\ Permutation (flat_map (fun kv => of_key key (fst kv) xs) (to_list m)) xs.
  Proof.
    intros V g m xs R T. destruct (C05_pf m R) as (S & F & _). split.
    - apply map_ext_in. intros [k v] I. cbn [fst snd]. assert (X : try_find k m = Some v) by (apply F; exists k; split; [apply eqb_refl|exact I]). rewrite T in X. destruct (of_key key k xs); congruence.
    - apply groups_all; [exact S|]. intros x I. assert (X : exists v, try_find (key x) m = Some v).
      { rewrite T. assert (J : In x (of_key key (key x) xs)) by (apply filter_In; split; [exact I|apply eqb_refl]). destruct (of_key key (key x) xs); [destruct J|eauto]. }
      destruct X as [v X]. apply F in X. destruct X as (k1 & Q & J). exists (k1, v). auto.
  Qed.
End Groups.
