(** C142: counting, grouping and merging with Map.change and a fold. *)
From Coq Require Import List Arith Bool Lia Permutation.
From Verif.Model Require Import Base PyList OptionResult Block MapTree Map.
From Verif.Spec Require Import MapSpec ListM KeyInstances GroupingSpec.
From Verif.Proofs Require Import KeyOrdFacts MapMain GroupingFacts.
Import ListNotations.
Local Open Scope nat_scope.
Local Open Scope list_scope.
Local Open Scope py_scope.

(** Whatever the functions do: they are called for one element after the other, first the key
    and then the step with what the key is bound to so far; the table holds what they made, and
    the first exception ends it. *)
Theorem C142_table : forall (K V A W : Type) (KO : KeyOrd K) (key : A -> M W K) (step : option V -> A -> M W V) (start : tree K V) xs w, Reach start ->
  match updates key step (fun k => try_find k start) xs w with
  | (Ret d, w1) => exists m, table key step start xs w = (Ret m, w1) /\ Reach m /\ ascending (to_list m) /\ forall k, try_find k m = d k
  | (Raise e, w1) => table key step start xs w = (Raise e, w1)
  end.
Proof.
  intros K V A W KO key step start xs w R. pose proof (table_pf key step xs start _ w R (fun k => eq_refl)) as T. destruct (updates key step (fun k => try_find k start) xs w) as [[d|e] w1]; [|exact T].
  destruct T as (m & T & R1 & F). exists m. split; [exact T|]. split; [exact R1|]. split; [exact (proj1 (C05_pf m R1))|exact F].
Qed.
Print Assumptions C142_table.
(** Without effects: a key is bound to the steps over its own elements, in their order. *)
Theorem C142_table_pure : forall (K V A W : Type) (KO : KeyOrd K) (key : A -> K) (step : option V -> A -> V) (start : tree K V) xs (w : W), Reach start ->
  exists m, table (fun x => ret (key x)) (fun o x => ret (step o x)) start xs w = (Ret m, w) /\ Reach m /\
    forall k, try_find k m = fold_left (fun o x => Some (step o x)) (of_key key k xs) (try_find k start).
Proof. intros K V A W KO key step start xs w R. exact (table_pure_pf key step xs start w R). Qed.
Print Assumptions C142_table_pure.

(** Counting: every key that occurs is bound to the number of its elements, and the numbers add up
    to the length. *)
Theorem C142_counts : forall (K A W : Type) (KO : KeyOrd K) (key : A -> K) xs (w : W),
  exists m, table (fun x => ret (key x)) (fun o x => ret (count_step o x)) Empty xs w = (Ret m, w) /\ Reach m /\
    (forall k, try_find k m = match length (of_key key k xs) with 0 => None | n => Some n end) /\
    MapTree.fold (fun s kv => ret (s + snd kv)) 0 m w = (Ret (length xs), w).
Proof.
  intros K A W KO key xs w. destruct (table_pure_pf key count_step xs (Empty : tree K nat) w (R_empty nat)) as (m & T & R & F). exists m. split; [exact T|]. split; [exact R|].
  assert (G : forall k, try_find k m = match of_key key k xs with [] => None | l => Some (length l) end) by (intros k; rewrite F, count_fold; cbn [try_find]; destruct (of_key key k xs); reflexivity).
  split; [intros k; rewrite G; destruct (of_key key k xs); reflexivity|]. destruct (values_pf key nat (@length A) m xs R G) as [E P]. rewrite C12_fold_pf.
  assert (X : forall l s, foldM (fun s kv => ret (s + snd kv)) s l w = (Ret (s + list_sum (List.map (@snd K nat) l)), w)).
  { induction l as [|[k v] l IH]; intros s; cbn; [rewrite Nat.add_0_r; reflexivity|]. unfold bind, ret at 1. cbv beta iota. rewrite IH. f_equal. f_equal. cbn. unfold list_sum. cbn. lia. }
  rewrite X, E. f_equal. f_equal. cbn. rewrite <- (Permutation_length P). clear. generalize (to_list m) as l. induction l as [|kv l IH]; [reflexivity|]. cbn [flat_map List.map list_sum fold_right]. rewrite app_length. unfold list_sum in *. cbn [fold_right]. rewrite IH. reflexivity.
Qed.
Print Assumptions C142_counts.

(** Grouping: every key that occurs is bound to its elements in their order, and the groups
    together are all the elements. *)
Theorem C142_groups : forall (K A W : Type) (KO : KeyOrd K) (key : A -> K) xs (w : W),
  exists m, table (fun x => ret (key x)) (fun o x => ret (group_step o x)) Empty xs w = (Ret m, w) /\ Reach m /\
    (forall k, try_find k m = match of_key key k xs with [] => None | l => Some l end) /\
    Permutation (List.concat (List.map snd (to_list m))) xs.
Proof.
  intros K A W KO key xs w. destruct (table_pure_pf key group_step xs (Empty : tree K (block A)) w (R_empty (block A))) as (m & T & R & F). exists m. split; [exact T|]. split; [exact R|].
  assert (G : forall k, try_find k m = match of_key key k xs with [] => None | l => Some l end) by (intros k; rewrite F, group_fold; cbn [try_find]; destruct (of_key key k xs); reflexivity).
  split; [exact G|]. destruct (values_pf key (block A) (fun l => l) m xs R) as [E P]; [intros k; rewrite G; destruct (of_key key k xs); reflexivity|]. rewrite E, <- flat_map_concat_map. exact P.
Qed.
Print Assumptions C142_groups.

(** Merging: the keys of both, and where both have a value, the function of the two. *)
Theorem C142_union : forall (K V W : Type) (KO : KeyOrd K) (f : option V -> V -> V) (m1 m2 : tree K V) (w : W), Reach m1 -> Reach m2 ->
  exists m, union (fun o v => ret (f o v)) m1 m2 w = (Ret m, w) /\ Reach m /\
    forall k, try_find k m = match try_find k m1 with Some v => Some (f (try_find k m2) v) | None => try_find k m2 end.
Proof. intros K V W KO f m1 m2 w R1 R2. exact (union_pf f m1 m2 w R1 R2). Qed.
Print Assumptions C142_union.
Definition combined {V} (c : V -> V -> V) (o : option V) (v : V) : V := match o with Some u => c v u | None => v end.
(** So merging inherits the laws of the function. *)
Theorem C142_union_laws : forall (K V W : Type) (KO : KeyOrd K) (c : V -> V -> V) (m1 m2 m3 : tree K V) (w : W), Reach m1 -> Reach m2 -> Reach m3 ->
  let u a b := union (W := W) (fun o v => ret (combined c o v)) a b in
  ((forall a b, c a b = c b a) -> exists r1 r2, u m1 m2 w = (Ret r1, w) /\ u m2 m1 w = (Ret r2, w) /\ forall k, try_find k r1 = try_find k r2) /\
  ((forall a b d, c a (c b d) = c (c a b) d) ->
     exists r1 r2, (do a <- u m1 m2; u a m3) w = (Ret r1, w) /\ (do b <- u m2 m3; u m1 b) w = (Ret r2, w) /\ forall k, try_find k r1 = try_find k r2).
Proof.
  intros K V W KO c m1 m2 m3 w R1 R2 R3 u. destruct (union_pf (combined c) m1 m2 w R1 R2) as (a & A1 & A2 & A3). destruct (union_pf (combined c) m2 m1 w R2 R1) as (b & B1 & B2 & B3). destruct (union_pf (combined c) m2 m3 w R2 R3) as (d & D1 & D2 & D3).
  destruct (union_pf (combined c) a m3 w A2 R3) as (r & E1 & E2 & E3). destruct (union_pf (combined c) m1 d w R1 D2) as (s & F1 & F2 & F3). split; intros L.
  - exists a, b. split; [exact A1|]. split; [exact B1|]. intros k. rewrite A3, B3. destruct (try_find k m1), (try_find k m2); cbn; rewrite ?(L v v0); reflexivity.
  - exists r, s. subst u. cbv beta. unfold bind. rewrite A1, D1. split; [exact E1|]. split; [exact F1|]. intros k. rewrite E3, F3, A3, D3. destruct (try_find k m1), (try_find k m2), (try_find k m3); cbn; rewrite ?L; reflexivity.
Qed.
Print Assumptions C142_union_laws.
(** And counting can be split: the counts of two parts merged by + are the counts of the whole. *)
Theorem C142_split : forall (K A W : Type) (KO : KeyOrd K) (key : A -> K) xs ys (w : W),
  let counts l := table (W := W) (fun x => ret (key x)) (fun o x => ret (count_step o x)) Empty l in
  exists m m1, counts (xs ++ ys) w = (Ret m, w) /\ (do a <- counts xs; do b <- counts ys; union (fun o v => ret (combined Nat.add o v)) a b) w = (Ret m1, w) /\
    forall k, try_find k m = try_find k m1.
Proof.
  intros K A W KO key xs ys w counts. destruct (C142_counts K A W KO key (xs ++ ys) w) as (m & T & R & F & _). destruct (C142_counts K A W KO key xs w) as (a & T1 & R1 & F1 & _). destruct (C142_counts K A W KO key ys w) as (b & T2 & R2 & F2 & _).
  destruct (union_pf (combined Nat.add) a b w R1 R2) as (r & U1 & U2 & U3). exists m, r. subst counts. cbv beta. unfold bind. rewrite T1, T2. split; [exact T|]. split; [exact U1|]. intros k. rewrite F, U3, F1, F2. unfold of_key. rewrite filter_app, app_length.
  destruct (length (List.filter _ xs)) as [|n], (length (List.filter _ ys)) as [|n2]; cbn; rewrite ?Nat.add_0_r; reflexivity.
Qed.
Print Assumptions C142_split.

(** A case: numbers grouped by their last two binary digits, and counted. *)
Example C142_case : let xs := [5; 8; 3; 8; 1; 4; 8] in
  (exists m, table (W := unit) (fun x => ret (x mod 4)) (fun o x => ret (group_step o x)) Empty xs tt = (Ret m, tt) /\ to_list m = [(0, [8; 8; 4; 8]); (1, [5; 1]); (3, [3])]) /\
  (exists m, table (W := unit) (fun x => ret x) (fun o x => ret (count_step o x)) Empty xs tt = (Ret m, tt) /\ to_list m = [(1, 1); (3, 1); (4, 1); (5, 1); (8, 3)]).
Proof. split; eexists; (split; [vm_compute; reflexivity|vm_compute; reflexivity]). Qed.
(** A step that raises at the third element: the two before it were seen. *)
Example C142_raise_case : table (W := list nat) (V := nat) (fun x w => (Ret (x mod 2), w ++ [x])) (fun o x => if Nat.eqb x 3 then raise ValueError else ret (count_step o x)) Empty [1; 2; 3; 4] [] = (Raise ValueError, [1; 2; 3]).
Proof. vm_compute. reflexivity. Qed.
Example C142_union_case : exists m1 m2 m, of_list [(1, 10); (2, 20); (3, 30)] = Ret m1 /\ of_list [(3, 3); (4, 4)] = Ret m2 /\
  union (W := unit) (fun o v => ret (combined Nat.add o v)) m1 m2 tt = (Ret m, tt) /\ to_list m = [(1, 10); (2, 20); (3, 33); (4, 4)].
Proof. eexists _, _, _. split; [vm_compute; reflexivity|]. split; [vm_compute; reflexivity|]. split; vm_compute; reflexivity. Qed.
