(** C106: a Map whose keys compare in any way stays whole. *)
From Coq Require Import List Bool Arith Lia.
From Verif.Model Require Import Base MapTree MapCmp Map.
From Verif.Spec Require Import MapSpec MapCmpSpec.
From Verif.Proofs Require Import MapTreeFacts MapFacts MapCmpFacts MapCmpFacts2.
Import ListNotations.
Local Open Scope nat_scope.

(** ** example keys *)
(** Floats with a NaN ([None]), which is neither less than nor equal to anything. *)
Definition nan_lt (a b : option nat) : bool := match a, b with Some x, Some y => x <? y | _, _ => false end.
Definition nan_eq (a b : option nat) : bool := match a, b with Some x, Some y => x =? y | _, _ => false end.
(** frozensets of booleans: [<] is the proper subset. *)
Definition set_eq (a b : bool * bool) : bool := Bool.eqb (fst a) (fst b) && Bool.eqb (snd a) (snd b).
Definition set_lt (a b : bool * bool) : bool := implb (fst a) (fst b) && implb (snd a) (snd b) && negb (set_eq a b).
(** Numbers ([inl]) and strings ([inr]): [<] between the two raises TypeError. *)
Definition mix_lt (a b : nat + nat) : M nat bool :=
  match a, b with inl x, inl y => ret (x <? y) | inr x, inr y => ret (x <? y) | _, _ => raise TypeError end.
Definition mix_eq (a b : nat + nat) : M nat bool :=
  match a, b with inl x, inl y => ret (x =? y) | inr x, inr y => ret (x =? y) | _, _ => ret false end.
Definition adds {K} (lt eq : K -> K -> bool) (xs : list (K * nat)) (m : tree K nat) : tree K nat :=
  match fst (of_list_c (W := unit) (answers lt) (answers eq) m xs tt) with Ret t => t | Raise _ => Empty end.

(** ** add *)
Theorem C106_add : forall (W K V : Type) (lt eq : K -> K -> M W bool) (m : tree K V) k v w, ReachC m ->
  match add_c lt eq k v m w with
  | (Ret m', _) => with_item eq k v (to_list m) (to_list m')
  | (Raise e, w') => from_comparison lt eq k (to_list m) e w'
  end.
Proof.
  intros W K V lt eq m k v w R. pose proof (add_c_spec lt eq k v m (ReachC_hok K V m R) w) as Sp.
  destruct (add_c lt eq k v m w) as [[t|e] w']; rewrite ?to_list_elements; [apply Sp|exact Sp].
Qed.
Print Assumptions C106_add.
Example C106_add_ex : to_list (adds nan_lt nan_eq [(Some 1, 10); (None, 20); (Some 0, 30); (None, 40); (Some 1, 50)] Empty)
  = [(Some 1, 10); (None, 20); (Some 0, 30); (None, 40); (Some 1, 50)].
Proof. vm_compute. reflexivity. Qed.
Example C106_add_raises_ex : fst (add_c mix_lt mix_eq (inr 1) 5 (Node (inl 2) 7 Empty (Leaf (inl 3) 8) 2) 0) = Raise TypeError.
Proof. vm_compute. reflexivity. Qed.

(** ** remove *)
Theorem C106_remove : forall (W K V : Type) (lt eq : K -> K -> M W bool) (m : tree K V) k w, ReachC m ->
  match remove_c lt eq k m w with
  | (Ret m', _) => without_item eq k (to_list m) (to_list m')
  | (Raise e, w') => from_comparison lt eq k (to_list m) e w'
  end.
Proof.
  intros W K V lt eq m k w R. pose proof (remove_c_spec lt eq k m (ReachC_hok K V m R) w) as Sp.
  destruct (remove_c lt eq k m w) as [[t|e] w']; rewrite ?to_list_elements; [apply Sp|exact Sp].
Qed.
Print Assumptions C106_remove.
Example C106_remove_ex :
  let m := adds nan_lt nan_eq [(Some 1, 10); (None, 20); (Some 0, 30); (Some 2, 40)] Empty in
  match remove_c (W := unit) (answers nan_lt) (answers nan_eq) (Some 0) m tt with
  | (Ret m', _) => to_list m = [(Some 1, 10); (None, 20); (Some 0, 30); (Some 2, 40)] /\ to_list m' = [(Some 1, 10); (None, 20); (Some 2, 40)]
  | _ => False
  end
  /\ match remove_c (W := unit) (answers nan_lt) (answers nan_eq) None m tt with (Ret m', _) => to_list m' = to_list m | _ => False end.
Proof. vm_compute. auto. Qed.

(** ** change *)
Theorem C106_change : forall (W K V : Type) (lt eq : K -> K -> M W bool) (m : tree K V) k u w, ReachC m ->
  match change_c lt eq k u m w with
  | (Ret m', w') => changed_item eq u k w' (to_list m) (to_list m')
  | (Raise e, w') => from_comparison lt eq k (to_list m) e w' \/ (exists o w1, u o w1 = (Raise e, w'))
                     \/ (e = EffectErrorExn /\ exists w1, u None w1 = (Ret None, w'))
  end.
Proof.
  intros W K V lt eq m k u w R. pose proof (change_c_spec lt eq k u m (ReachC_hok K V m R) w) as Sp.
  destruct (change_c lt eq k u m w) as [[t|e] w']; rewrite ?to_list_elements; [apply Sp|exact Sp].
Qed.
Print Assumptions C106_change.
Example C106_change_ex :
  match change_c (W := unit) (answers nan_lt) (answers nan_eq) None (fun o => ret (Some (match o with Some v => v + 1 | None => 99 end)))
          (adds nan_lt nan_eq [(Some 1, 10); (None, 20); (Some 0, 30)] Empty) tt with
  | (Ret m', _) => to_list m' = [(Some 1, 10); (None, 20); (Some 0, 30); (None, 99)]
  | _ => False
  end.
Proof. vm_compute. reflexivity. Qed.

(** ** lookups *)
Theorem C106_lookup : forall (W K V : Type) (lt eq : K -> K -> M W bool) (m : tree K V) k w,
  match try_find_c lt eq k m w with
  | (Ret (Some v), _) => exists k0, In (k0, v) (to_list m) /\ said_yes eq k k0
  | (Ret None, _) => True
  | (Raise e, w') => from_comparison lt eq k (to_list m) e w'
  end
  /\ match mem_c lt eq k m w with
     | (Ret true, _) => exists k0 v, In (k0, v) (to_list m) /\ said_yes eq k k0
     | (Ret false, _) => True
     | (Raise e, w') => from_comparison lt eq k (to_list m) e w'
     end
  /\ find_c lt eq k m w =
       match try_find_c lt eq k m w with
       | (Ret (Some v), w') => (Ret v, w')
       | (Ret None, w') => (Raise KeyError, w')
       | (Raise e, w') => (Raise e, w')
       end.
Proof.
  intros W K V lt eq m k w. rewrite to_list_elements. split; [exact (try_find_c_spec lt eq k m w)|]. split; [exact (mem_c_spec lt eq k m w)|].
  unfold find_c, bind. destruct (try_find_c lt eq k m w) as [[[v|]|e] w']; reflexivity.
Qed.
Print Assumptions C106_lookup.
Example C106_lookup_ex :
  let m := adds nan_lt nan_eq [(Some 1, 10); (None, 20); (Some 0, 30); (Some 2, 40)] Empty in
  fst (try_find_c (W := unit) (answers nan_lt) (answers nan_eq) (Some 2) m tt) = Ret (Some 40)
  /\ fst (find_c (W := unit) (answers nan_lt) (answers nan_eq) None m tt) = Raise KeyError
  /\ fst (mem_c (W := unit) (answers nan_lt) (answers nan_eq) (Some 2) m tt) = Ret true.
Proof. vm_compute. auto. Qed.

(** ** filter *)
Theorem C106_filter : forall (W K V : Type) (lt eq : K -> K -> M W bool) (p : K -> V -> M W bool) (m m' : tree K V) w w',
  filter_c lt eq p m w = (Ret m', w') ->
  forall k v, In (k, v) (to_list m') -> In (k, v) (to_list m) /\ exists w1 w2, p k v w1 = (Ret true, w2).
Proof.
  intros W K V lt eq p m m' w w' E k v Ik. rewrite !to_list_elements in *.
  destruct (filter_aux_c_in lt eq p m Empty w m' w' Logic.I E) as [_ F]. destruct (F (k, v) Ik) as [J|[J P]]; [destruct J|]. split; [exact J|exact P].
Qed.
Print Assumptions C106_filter.
Example C106_filter_ex :
  match filter_c (W := unit) (answers nan_lt) (answers nan_eq) (fun _ v => ret (negb (v =? 10))) (adds nan_lt nan_eq [(Some 1, 10); (None, 20); (Some 0, 30); (None, 40)] Empty) tt with
  | (Ret m', _) => to_list m' = [(None, 20); (Some 0, 30); (None, 40)]
  | _ => False
  end.
Proof. vm_compute. reflexivity. Qed.

(** ** shape *)
Theorem C106_shape : forall (K V : Type) (m : tree K V), ReachC m -> height m = depth m /\ len m = length (to_list m).
Proof.
  intros K V m R. split; [apply hok_depth, ReachC_hok, R|]. unfold len. now rewrite size_elements, to_list_elements.
Qed.
Print Assumptions C106_shape.
Theorem C106_log : forall (K V : Type) (m : tree K V), ReachAddC m -> depth m <= 2 * Nat.log2 (len m + 1) + 1.
Proof. exact ReachAddC_log. Qed.
Print Assumptions C106_log.
(** a hundred NaNs *)
Example C106_log_ex :
  let m := adds nan_lt nan_eq (repeat (None, 0) 100) Empty in
  ReachAddC m /\ len m = 100 /\ depth m = 8 /\ 2 * Nat.log2 (len m + 1) + 1 = 13.
Proof.
  split; [|vm_compute; auto].
  apply (RAC_of_list unit nat (answers nan_lt) (answers nan_eq) (repeat (None, 0) 100) tt _ tt). vm_compute. reflexivity.
Qed.

(** ** how often keys are compared *)
Theorem C106_comparisons : forall (W K V : Type) (lt eq : K -> K -> M W bool) (m : tree K V) k v n w,
  (exists c, c <= 2 * depth m /\ add_c (counted lt) (counted eq) k v m (n, w) = (fst (add_c lt eq k v m w), (n + c, snd (add_c lt eq k v m w))))
  /\ (exists c, c <= 2 * depth m /\ remove_c (counted lt) (counted eq) k m (n, w) = (fst (remove_c lt eq k m w), (n + c, snd (remove_c lt eq k m w))))
  /\ (exists c, c <= 2 * depth m /\ try_find_c (counted lt) (counted eq) k m (n, w) = (fst (try_find_c lt eq k m w), (n + c, snd (try_find_c lt eq k m w))))
  /\ (exists c, c <= 2 * depth m /\ mem_c (counted lt) (counted eq) k m (n, w) = (fst (mem_c lt eq k m w), (n + c, snd (mem_c lt eq k m w))))
  /\ (forall u, exists c, c <= 2 * depth m /\
        change_c (counted lt) (counted eq) k (uncounted u) m (n, w) = (fst (change_c lt eq k u m w), (n + c, snd (change_c lt eq k u m w)))).
Proof.
  intros W K V lt eq m k v n w. split; [apply add_c_asks|]. split; [apply remove_c_asks|]. split; [apply try_find_c_asks|]. split; [apply mem_c_asks|].
  intros u. apply change_c_asks.
Qed.
Print Assumptions C106_comparisons.
Example C106_comparisons_ex :
  let m := adds nan_lt nan_eq (repeat (None, 0) 100) Empty in
  fst (snd (mem_c (counted (W := unit) (answers nan_lt)) (counted (answers nan_eq)) None m (0, tt))) = 14 /\ 2 * depth m = 16.
Proof. vm_compute. auto. Qed.

(** Building a map from n items, and filter and partition of a map of n items, compare
    O(n log n) times; the callbacks compare no keys themselves. *)
Theorem C106_comparisons_all : forall (W K V : Type) (lt eq : K -> K -> M W bool) (xs : list (K * V)) (m : tree K V) (p : K -> V -> M W bool) n w,
  (exists c, c <= length xs * (4 * Nat.log2 (length xs + 1) + 2) /\
        of_list_c (counted lt) (counted eq) Empty xs (n, w) = (fst (of_list_c lt eq Empty xs w), (n + c, snd (of_list_c lt eq Empty xs w))))
  /\ (exists c, c <= len m * (4 * Nat.log2 (len m + 1) + 2) /\
        filter_c (counted lt) (counted eq) (fun k => uncounted (p k)) m (n, w) = (fst (filter_c lt eq p m w), (n + c, snd (filter_c lt eq p m w))))
  /\ (exists c, c <= len m * (4 * Nat.log2 (len m + 1) + 2) /\
        partition_c (counted lt) (counted eq) (fun k => uncounted (p k)) m (n, w) = (fst (partition_c lt eq p m w), (n + c, snd (partition_c lt eq p m w)))).
Proof. intros. unfold len. rewrite size_elements. apply bulk. Qed.
Print Assumptions C106_comparisons_all.
Example C106_comparisons_all_ex :
  let xs := List.map (fun i => (i, i)) (seq 0 50) in
  fst (snd (of_list_c (counted (W := unit) (answers Nat.ltb)) (counted (answers Nat.eqb)) Empty xs (0, tt))) = 502 /\
  50 * (4 * Nat.log2 51 + 2) = 1100.
Proof. vm_compute. auto. Qed.

(** ** keys with an order *)
Theorem C106_ordered_keys : forall (W K V : Type) (OK : KeyOrd K) (m : tree K V) k v (w : W),
  add_c (answers ltb) (answers eqb) k v m w = (add k v m, w)
  /\ remove_c (answers ltb) (answers eqb) k m w = (remove k m, w)
  /\ (forall u, change_c (answers ltb) (answers eqb) k u m w = change k u m w)
  /\ try_find_c (answers ltb) (answers eqb) k m w = (Ret (try_find k m), w)
  /\ find_c (answers ltb) (answers eqb) k m w = (find k m, w)
  /\ mem_c (answers ltb) (answers eqb) k m w = (Ret (mem k m), w)
  /\ (forall p, filter_c (answers ltb) (answers eqb) p m w = filter p m w)
  /\ (forall p, partition_c (answers ltb) (answers eqb) p m w = partition p m w)
  /\ (forall xs, of_list_c (answers ltb) (answers eqb) Empty xs w = (of_list (V := V) xs, w)).
Proof.
  intros W K V OK m k v w. split; [apply add_c_agrees|]. split; [apply remove_c_agrees|]. split; [intros; apply change_c_agrees|].
  split; [apply try_find_c_agrees|]. split; [apply find_c_agrees|]. split; [apply mem_c_agrees|].
  split; [intros; apply filter_aux_c_agrees|]. split; [intros; apply partition_aux_c_agrees|]. intros; apply of_list_c_agrees.
Qed.
Print Assumptions C106_ordered_keys.

(** ** the key that was just added *)
Theorem C106_just_added : forall (W K V : Type) (lt eq : K -> K -> bool) (m m' : tree K V) k v (w w' : W),
  ReachAddC m -> eq k k = true -> (forall k0, lt k k0 = true -> eq k k0 = false) ->
  add_c (answers lt) (answers eq) k v m w = (Ret m', w') ->
  try_find_c (answers lt) (answers eq) k m' w = (Ret (Some v), w) /\ mem_c (answers lt) (answers eq) k m' w = (Ret true, w).
Proof.
  intros W K V lt eq m m' k v w w' R Re Ex A. destruct (ReachAddC_good K V m R) as [Hh B].
  destruct (add_c_path lt eq k v m Hh B w m' w' A) as [P _].
  assert (F : try_find_c (answers lt) (answers eq) k m' w = (Ret (Some v), w)) by (apply onpath_found; auto).
  split; [exact F|]. rewrite (mem_c_found lt eq k Ex). rewrite F. reflexivity.
Qed.
Print Assumptions C106_just_added.
Theorem C106_in_is_found : forall (W K V : Type) (lt eq : K -> K -> bool) (m : tree K V) k (w : W),
  (forall k0, lt k k0 = true -> eq k k0 = false) ->
  mem_c (answers lt) (answers eq) k m w = (Ret (match fst (try_find_c (answers lt) (answers eq) k m w) with Ret (Some _) => true | _ => false end), w).
Proof. intros W K V lt eq m k w Ex. exact (mem_c_found lt eq k Ex m w). Qed.
Print Assumptions C106_in_is_found.
(** The frozensets satisfy the hypotheses; {1} and {2} are incomparable. *)
Example C106_just_added_ex :
  (forall k, set_eq k k = true) /\ (forall k k0, set_lt k k0 = true -> set_eq k k0 = false)
  /\ let m := adds set_lt set_eq [((true, false), 1); ((true, true), 3)] Empty in
     ReachAddC m /\
     match add_c (W := unit) (answers set_lt) (answers set_eq) (false, true) 2 m tt with
     | (Ret m', _) => fst (try_find_c (W := unit) (answers set_lt) (answers set_eq) (false, true) m' tt) = Ret (Some 2)
     | _ => False
     end.
Proof.
  split; [intros [[|] [|]]; reflexivity|]. split; [intros [[|] [|]] [[|] [|]]; vm_compute; congruence|]. cbv zeta. split.
  - apply (RAC_of_list unit nat (answers set_lt) (answers set_eq) [((true, false), 1); ((true, true), 3)] tt _ tt). vm_compute. reflexivity.
  - vm_compute. reflexivity.
Qed.

(** ** what is not promised *)
(** A NaN is not found after it was added; the key {1} is lost when {2} is added; after a
    remove even the key just added may not be found; a lookup with a key of another type
    gives Nothing in a map of one item and raises TypeError in a larger one. *)
Definition odd_lt (a b : nat) : bool := if a =? 99 then negb ((b =? 2) || (b =? 99)) else a <? b.
Theorem C106_limits :
  (exists (K : Type) (lt eq : K -> K -> bool) (k : K) (m : tree K nat), ReachAddC m /\ In (k, 1) (to_list m) /\
     try_find_c (W := unit) (answers lt) (answers eq) k m tt = (Ret None, tt))
  /\ (exists (K : Type) (lt eq : K -> K -> bool) (k1 k2 : K) (m m' : tree K nat),
        (forall k, eq k k = true) /\ (forall k k0, lt k k0 = true -> eq k k0 = false) /\ (forall a b c, lt a b = true -> lt b c = true -> lt a c = true) /\
        ReachAddC m /\ try_find_c (W := unit) (answers lt) (answers eq) k1 m tt = (Ret (Some 1), tt) /\
        add_c (answers lt) (answers eq) k2 2 m tt = (Ret m', tt) /\ eq k2 k1 = false /\
        In (k1, 1) (to_list m') /\ try_find_c (W := unit) (answers lt) (answers eq) k1 m' tt = (Ret None, tt))
  /\ (exists (lt : nat -> nat -> bool) (k : nat) (m m' : tree nat nat),
        (forall k, lt k k = false) /\ ReachC m /\
        add_c (answers lt) (answers Nat.eqb) k 1 m tt = (Ret m', tt) /\ try_find_c (answers lt) (answers Nat.eqb) k m' tt = (Ret None, tt))
  /\ (exists (K : Type) (lt eq : K -> K -> M nat bool) (k : K) (m m' : tree K nat), ReachAddC m /\ ReachAddC m' /\
        try_find_c lt eq k m 0 = (Ret None, 0) /\ try_find_c lt eq k m' 0 = (Raise TypeError, 0)).
Proof.
  split; [|split; [|split]].
  - exists (option nat), nan_lt, nan_eq, None, (Leaf None 1). split; [|split; [left; reflexivity|reflexivity]].
    apply (RAC_of_list unit nat (answers nan_lt) (answers nan_eq) [(None, 1)] tt _ tt). reflexivity.
  - exists (bool * bool)%type, set_lt, set_eq, (true, false), (false, true), (Leaf (true, false) 1), (Node (false, true) 2 (Leaf (true, false) 1) Empty 2).
    split; [intros [[|] [|]]; reflexivity|]. split; [intros [[|] [|]] [[|] [|]]; vm_compute; congruence|].
    split; [intros [[|] [|]] [[|] [|]] [[|] [|]]; vm_compute; congruence|].
    split; [apply (RAC_of_list unit nat (answers set_lt) (answers set_eq) [((true, false), 1)] tt _ tt); reflexivity|].
    repeat (split; [vm_compute; auto; fail|]). vm_compute. reflexivity.
  - pose (t := adds odd_lt Nat.eqb [(4, 0); (3, 0); (1, 0); (0, 0); (2, 0)] Empty).
    pose (m := match remove_c (W := unit) (answers odd_lt) (answers Nat.eqb) 3 t tt with (Ret m, _) => m | _ => Empty end).
    pose (m' := match add_c (W := unit) (answers odd_lt) (answers Nat.eqb) 99 1 m tt with (Ret m, _) => m | _ => Empty end).
    exists odd_lt, 99, m, m'. split.
    + intros k. unfold odd_lt. destruct (k =? 99) eqn:E; [apply Nat.eqb_eq in E; subst; reflexivity|apply Nat.ltb_irrefl].
    + split; [|split; vm_compute; reflexivity].
      apply (RC_remove unit nat (answers odd_lt) (answers Nat.eqb) t 3 tt m tt); [|vm_compute; reflexivity].
      apply (RC_of_list unit nat (answers odd_lt) (answers Nat.eqb) [(4, 0); (3, 0); (1, 0); (0, 0); (2, 0)] tt t tt). vm_compute. reflexivity.
  - exists (nat + nat)%type, mix_lt, mix_eq, (inr 1), (Leaf (inl 1) 0), (Node (inl 2) 0 (Leaf (inl 1) 0) Empty 2).
    split; [apply (RAC_of_list nat nat mix_lt mix_eq [(inl 1, 0)] 0 _ 0); reflexivity|].
    split; [apply (RAC_of_list nat nat mix_lt mix_eq [(inl 1, 0); (inl 2, 0)] 0 _ 0); reflexivity|].
    split; reflexivity.
Qed.
Print Assumptions C106_limits.
