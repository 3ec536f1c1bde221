(** Lemmas about the cost of Block operations. *)
From Coq Require Import List ZArith Bool Arith Lia.
From Verif.Model Require Import Base PyList OptionResult Block BlockCost.
From Verif.Spec Require Import CostSpec OptionResultSpec.
Import ListNotations.
Local Open Scope py_scope.

Lemma costs_ret : forall A (x : A), costs (ret x) x 0.
Proof. intros A x c. rewrite Nat.add_0_r. reflexivity. Qed.
Lemma costs_written : forall A (xs : list A), costs (written xs) xs (length xs).
Proof. intros A xs c. reflexivity. Qed.
Lemma costs_bind : forall A B (m : M nat A) (f : A -> M nat B) x y a b, costs m x a -> costs (f x) y b -> costs (bind m f) y (a + b).
Proof. intros A B m f x y a b Hm Hf c. unfold bind. rewrite Hm, Hf, Nat.add_assoc. reflexivity. Qed.
Lemma costs_starred : forall A (xs : list A), costs (starred xs) xs (2 * length xs).
Proof. intros A xs. replace (2 * length xs) with (length xs + length xs) by lia. eapply costs_bind; apply costs_written. Qed.
Lemma costs_is : forall A (m : M nat A) x a b, costs m x a -> a = b -> costs m x b.
Proof. intros; subst; auto. Qed.

Section Cost.
  Context {A B : Type}.
  Implicit Types xs : block A.
  Lemma append_cost : forall xs ys, costs (c_append xs ys) (Block.append xs ys) (match xs, ys with [], _ | _, [] => 0 | _, _ => length xs + length ys end).
  Proof.
    intros [|x xs] [|y ys]; try apply costs_ret.
    - cbn [c_append]. unfold Block.append. rewrite app_nil_r. apply costs_ret.
    - cbn [c_append]. unfold Block.append. eapply costs_is; [apply costs_written|]. now rewrite app_length.
  Qed.
  Lemma cons_cost : forall xs x, costs (c_cons xs x) (Block.cons xs x) (2 * (length xs + 1)).
  Proof. intros xs x. eapply costs_is; [apply costs_starred|]. unfold Block.cons. cbn [length]. lia. Qed.
  Lemma head_cost : forall x xs, costs (c_head (x :: xs)) x (length xs).
  Proof. intros x xs. eapply costs_is; [eapply costs_bind; [apply costs_written|apply costs_ret]|lia]. Qed.
  Lemma tail_cost : forall x xs, costs (c_tail (x :: xs)) xs (2 * length xs).
  Proof. intros x xs. apply costs_starred. Qed.
  Lemma slice_cost : forall xs start stop, exists n, costs (c_slice xs start stop) (slice xs start stop) n /\ n <= length (slice xs start stop) /\ (length (slice xs start stop) = length xs -> n = 0).
  Proof.
    intros xs start stop. unfold c_slice. destruct (Nat.eqb_spec (length (slice xs start stop)) (length xs)) as [E|E].
    - exists 0. split; [|lia]. assert (Q : slice xs start stop = xs); [|rewrite Q; apply costs_ret].
      revert E. unfold slice. intros E. set (p := match start with Some _ => _ | None => _ end) in *. set (q := match stop with Some _ => _ | None => _ end) in *.
      rewrite firstn_length, skipn_length in E. destruct xs as [|x xs]; [now rewrite skipn_nil, firstn_nil|].
      cbn [length] in E. assert (Z0 : Z.to_nat p = 0) by lia. rewrite Z0. cbn [skipn]. apply firstn_all2. cbn [length]. lia.
    - exists (length (slice xs start stop)). split; [apply costs_written|lia].
  Qed.
  Lemma choose_cost : forall (f : A -> option B) xs, costs (c_choose f xs) (flat_map (fun x => opt_to_list (f x)) xs) (3 * length (flat_map (fun x => opt_to_list (f x)) xs)).
  Proof.
    intros f xs. unfold c_choose.
    assert (G : forall acc, costs (for_in xs acc (fun acc x => do l <- written (opt_to_list (f x)); do b <- written l; ret (acc ++ b)))
              (acc ++ flat_map (fun x => opt_to_list (f x)) xs) (2 * length (flat_map (fun x => opt_to_list (f x)) xs))).
    { induction xs as [|x xs IH]; intros acc; cbn [for_in flat_map]; [rewrite app_nil_r; apply costs_ret|].
      eapply costs_is; [eapply costs_bind; [eapply costs_bind; [apply costs_written|eapply costs_bind; [apply costs_written|apply costs_ret]]|]|].
      - specialize (IH (acc ++ opt_to_list (f x))). rewrite <- app_assoc in IH. exact IH.
      - cbv beta. rewrite app_length. lia. }
    eapply costs_is; [eapply costs_bind; [apply G|apply costs_written]|]. cbn [app]. lia.
  Qed.
  Lemma partition_cost : forall (p : A -> bool) xs, costs (c_partition p xs) (List.filter p xs, List.filter (fun x => negb (p x)) xs) (2 * length xs).
  Proof.
    intros p xs. eapply costs_is; [do 4 (eapply costs_bind; [apply costs_written|]); apply costs_ret|].
    assert (E : length (List.filter p xs) + length (List.filter (fun x => negb (p x)) xs) = length xs); [|lia].
    induction xs as [|x xs IH]; [reflexivity|]. cbn. destruct (p x); cbn; lia.
  Qed.
  Lemma reduce_cost : forall (f : A -> A -> A) x xs, costs (c_reduce (x :: xs) f) (fold_left f xs x) (3 * length xs).
  Proof.
    intros f x xs. eapply costs_is; [eapply costs_bind; [apply tail_cost|eapply costs_bind; [apply head_cost|apply costs_ret]]|]. lia.
  Qed.

  (** all prefixes are copied *)
  Lemma concat_cost_singletons : forall (ys : list A) acc, acc <> [] -> exists n, costs (for_in (List.map (fun y => [y]) ys) acc (fun t s => c_append t s)) (acc ++ ys) n /\
    2 * n = length ys * (2 * length acc + length ys + 1).
  Proof.
    induction ys as [|y ys IH]; intros acc N; cbn [List.map for_in].
    - exists 0. rewrite app_nil_r. split; [apply costs_ret|reflexivity].
    - destruct (IH (acc ++ [y])) as (n & Hn & En); [now destruct acc|]. rewrite <- app_assoc in Hn.
      eexists. split; [eapply costs_bind; [apply append_cost|exact Hn]|]. rewrite app_length in En. cbn [length] in *.
      destruct acc as [|a acc]; [congruence|]. cbn [length] in *. nia.
  Qed.
  Lemma concat_pf : forall (ys : list A), ys <> [] -> exists n, costs (c_concat (List.map (fun y => [y]) ys)) ys n /\ 2 * n + 2 = length ys * (length ys + 1).
  Proof.
    intros [|y ys] N; [congruence|]. unfold c_concat. cbn [List.map for_in].
    destruct (concat_cost_singletons ys [y]) as (n & Hn & En); [discriminate|]. exists n. split.
    - eapply costs_is; [eapply costs_bind; [apply (append_cost [] [y])|exact Hn]|reflexivity].
    - cbn [length] in *. lia.
  Qed.
  Lemma concat_upper : forall (bs : list (block A)), exists n, costs (c_concat bs) (List.concat bs) n /\ n <= length bs * length (List.concat bs).
  Proof.
    intros bs. unfold c_concat.
    assert (G : forall acc, exists n, costs (for_in bs acc (fun t s => c_append t s)) (acc ++ List.concat bs) n /\ n <= length bs * (length acc + length (List.concat bs))).
    { induction bs as [|b bs IH]; intros acc; cbn [for_in List.concat].
      - exists 0. rewrite app_nil_r. split; [apply costs_ret|lia].
      - destruct (IH (acc ++ b)) as (n & Hn & En). rewrite <- app_assoc in Hn. eexists. split; [eapply costs_bind; [apply append_cost|exact Hn]|].
        rewrite !app_length in *. assert ((match acc, b with [], _ | _, [] => 0 | _, _ => length acc + length b end) <= length acc + length b) by (destruct acc, b; cbn; lia).
        cbn [length]. nia. }
    exact (G []).
  Qed.
  Lemma build_up_pf : forall xs, costs (build_up xs) xs (length xs * (length xs + 1)).
  Proof.
    intros xs. unfold build_up.
    assert (G : forall (ys acc : list A), costs (for_in ys acc (fun b x => c_cons b x)) (rev ys ++ acc) (length ys * (2 * length acc + length ys + 1))).
    { induction ys as [|y ys IH]; intros acc; [apply costs_ret|]. cbn [for_in rev].
      eapply costs_is; [eapply costs_bind; [apply cons_cost|]|].
      - unfold Block.cons. specialize (IH (y :: acc)). rewrite <- app_assoc. exact IH.
      - cbn [length]. lia. }
    eapply costs_is; [specialize (G (rev xs) []); rewrite rev_involutive, app_nil_r in G; exact G|]. rewrite rev_length. cbn [length]. lia.
  Qed.
  Lemma walk_pf : forall S (f : S -> A -> S) xs s, exists n, costs (walk (Datatypes.S (length xs)) f s xs) (fold_left f xs s) n /\ 2 * n + 3 * length xs = 3 * length xs * length xs.
  Proof.
    intros S f xs. induction xs as [|x xs IH]; intros s.
    - exists 0. split; [apply costs_ret|reflexivity].
    - destruct (IH (f s x)) as (n & Hn & En). eexists. split.
      + cbn [length walk is_empty]. eapply costs_bind; [apply head_cost|eapply costs_bind; [apply tail_cost|exact Hn]].
      + cbn [length]. nia.
  Qed.
End Cost.

Lemma costs_unique : forall A (m : M nat A) x y a b, costs m x a -> costs m y b -> a = b.
Proof. intros A m x y a b Ha Hb. specialize (Ha 0). specialize (Hb 0). rewrite Ha in Hb. cbn in Hb. congruence. Qed.

Lemma linear_pf : forall A B (xs : block A),
  (forall x, exists n, costs (c_cons xs x) (Block.cons xs x) n /\ n <= 2 * length (x :: xs)) /\
  (forall ys, exists n, costs (c_append xs ys) (Block.append xs ys) n /\ n <= length xs + length ys) /\
  (forall start stop, exists n, costs (c_slice xs start stop) (slice xs start stop) n /\ n <= length (slice xs start stop)) /\
  (forall f : A -> B, exists n, costs (c_map f xs) (List.map f xs) n /\ n <= 2 * length xs) /\
  (forall p, exists n, costs (c_filter p xs) (List.filter p xs) n /\ n <= length xs) /\
  (forall f : A -> block B, exists n, costs (c_collect f xs) (flat_map f xs) n /\ n <= length (flat_map f xs)) /\
  (forall f : A -> option B, exists n, costs (c_choose f xs) (flat_map (fun x => opt_to_list (f x)) xs) n /\ n <= 3 * length xs) /\
  (forall p, exists n, costs (c_partition p xs) (List.filter p xs, List.filter (fun x => negb (p x)) xs) n /\ n <= 2 * length xs) /\
  (forall ys : block B, exists n, costs (c_zip xs ys) (List.combine xs ys) n /\ n <= 2 * length xs) /\
  (forall S (f : S -> A -> S) s, costs (c_fold xs f s) (fold_left f xs s) 0).
Proof.
  intros A B xs. split; [|split; [|split; [|split; [|split; [|split; [|split; [|split; [|split]]]]]]]].
  - intros x. eexists. split; [apply cons_cost|]. cbn [length]. lia.
  - intros ys. eexists. split; [apply append_cost|]. destruct xs, ys; cbn [length]; lia.
  - intros start stop. destruct (slice_cost xs start stop) as (n & Hn & L & _). eauto.
  - intros f. eexists. split; [apply costs_starred|]. rewrite map_length. lia.
  - intros p. eexists. split; [apply costs_written|]. induction xs as [|x xs IH]; [auto|]. cbn [List.filter]. destruct (p x); cbn [length]; lia.
  - intros f. eexists. split; [apply costs_written|]. lia.
  - intros f. eexists. split; [apply choose_cost|]. apply Nat.mul_le_mono_l. induction xs as [|x xs IH]; [auto|]. cbn [flat_map length]. rewrite app_length. destruct (f x); cbn [opt_to_list length]; lia.
  - intros p. eexists. split; [apply partition_cost|]. lia.
  - intros ys. eexists. split; [apply costs_starred|]. unfold Block.zip. rewrite combine_length. lia.
  - intros S f s. apply costs_ret.
Qed.
Lemma apart_pf : forall A (x : A) (xs : block A),
  costs (c_head (x :: xs)) x (length xs) /\ costs (c_tail (x :: xs)) xs (2 * length xs) /\
  costs (c_try_head (x :: xs)) (Some x) 0 /\ costs (c_item (x :: xs) 0) x 0 /\
  (forall f, costs (c_reduce (x :: xs) f) (fold_left f xs x) (3 * length xs)).
Proof.
  intros A x xs. split; [|split; [|split; [|split]]].
  - apply head_cost.
  - apply tail_cost.
  - apply costs_ret.
  - intros c. rewrite Nat.add_0_r. reflexivity.
  - intros f. apply reduce_cost.
Qed.
Lemma slice_whole : forall A (xs : block A) start stop, slice xs start stop = xs -> costs (c_slice xs start stop) xs 0.
Proof. intros A xs start stop E. destruct (slice_cost xs start stop) as (n & Hn & _ & Z). rewrite E in *. rewrite (Z eq_refl) in Hn. exact Hn. Qed.
Lemma shared_pf : forall A (xs : block A),
  costs (c_append xs []) xs 0 /\ costs (c_append [] xs) xs 0 /\ costs (c_slice xs None None) xs 0 /\
  costs (c_slice xs (Some 0%Z) None) xs 0 /\ costs (c_slice xs None (Some (Z.of_nat (length xs)))) xs 0.
Proof.
  intros A xs. split; [|split; [|split; [|split]]].
  - destruct xs; apply costs_ret.
  - destruct xs; apply costs_ret.
  - apply slice_whole. unfold slice. cbn [skipn Z.to_nat]. rewrite firstn_all2; [reflexivity|lia].
  - apply slice_whole. unfold slice, slice_bound. cbn -[Z.of_nat]. rewrite firstn_all2; [destruct xs; reflexivity|]. destruct xs; cbn; lia.
  - apply slice_whole. unfold slice, slice_bound. cbn -[Z.of_nat]. destruct (Z.ltb_spec (Z.of_nat (length xs)) 0); [lia|]. rewrite firstn_all2; [reflexivity|]. lia.
Qed.
Lemma cons_refuted_pf :
  (forall bound, exists (xs : block nat) x, forall n, costs (c_cons xs x) (x :: xs) n -> bound < n) /\
  (forall A (xs : block A), costs (build_up xs) xs (length xs * (length xs + 1))).
Proof.
  split; [|intros; apply build_up_pf].
  intros bound. exists (repeat 0 bound), 0. intros n Hn. rewrite (costs_unique _ _ _ _ _ _ Hn (cons_cost _ _)), repeat_length. lia.
Qed.
Lemma walk_refuted_pf :
  (forall bound, exists xs : block nat, forall x n, (costs (c_head (x :: xs)) x n -> bound < n) /\ (costs (c_tail (x :: xs)) xs n -> bound < n)) /\
  (forall A S (f : S -> A -> S) (xs : block A) s, exists n,
     costs (walk (Datatypes.S (length xs)) f s xs) (fold_left f xs s) n /\ 2 * n + 3 * length xs = 3 * length xs * length xs) /\
  (forall k, exists xs : block nat, forall n, costs (walk (Datatypes.S (length xs)) Nat.add 0 xs) (fold_left Nat.add xs 0) n -> k * length xs < n).
Proof.
  split; [|split].
  - intros bound. exists (repeat 0 (bound + 1)). intros x n. split; intros Hn.
    + rewrite (costs_unique _ _ _ _ _ _ Hn (head_cost _ _)), repeat_length. lia.
    + rewrite (costs_unique _ _ _ _ _ _ Hn (tail_cost _ _)), repeat_length. lia.
  - intros. apply walk_pf.
  - intros k. exists (repeat 0 (k + 2)). intros n Hn. destruct (walk_pf _ Nat.add (repeat 0 (k + 2)) 0) as (n' & Hn' & E).
    rewrite (costs_unique _ _ _ _ _ _ Hn Hn'). clear Hn Hn' n. rewrite repeat_length in *. nia.
Qed.
Lemma concat_refuted_pf : forall k, exists bs : list (block nat), forall n,
  costs (c_concat bs) (List.concat bs) n -> k * (length bs + length (List.concat bs)) < n.
Proof.
  intros k. exists (List.map (fun y => [y]) (repeat 0 (4 * k + 2))). intros n Hn.
  destruct (concat_pf (repeat 0 (4 * k + 2))) as (n' & Hn' & E); [rewrite Nat.add_comm; discriminate|].
  rewrite (costs_unique _ _ _ _ _ _ Hn Hn'). clear Hn Hn' n.
  assert (C : List.concat (List.map (fun y : nat => [y]) (repeat 0 (4 * k + 2))) = repeat 0 (4 * k + 2)).
  { generalize (4 * k + 2). induction n as [|n IH]; [reflexivity|]. cbn. now f_equal. }
  rewrite C, map_length, repeat_length in *. nia.
Qed.

(** ** traverse *)
Lemma for_in_app : forall W A S (xs ys : list A) (s : S) (f : S -> A -> M W S) w, for_in (xs ++ ys) s f w = (do s1 <- for_in xs s f; for_in ys s1 f) w.
Proof.
  induction xs as [|x xs IH]; intros ys s f w; [reflexivity|]. cbn [app for_in]. unfold bind. destruct (f s x w) as [[s1|e] w1]; [|reflexivity]. apply IH.
Qed.
Fixpoint tcost {B E} (rs : list (result B E)) : nat :=
  match rs with
  | [] => 0
  | Ok _ :: rs => tcost rs + match all_ok rs with Ok [] => 2 | Ok t => 3 + length t | Err _ => 0 end
  | Err _ :: rs => tcost rs
  end.
Lemma traverse_cost : forall A B E (fn : A -> result B E) xs, costs (c_traverse fn xs) (all_ok (List.map fn xs)) (length xs + tcost (List.map fn xs)).
Proof.
  intros A B E fn xs. eapply costs_bind; [apply costs_written|]. induction xs as [|x xs IH]; [apply costs_ret|].
  intros c. cbn [rev List.map]. rewrite for_in_app. unfold bind at 1. rewrite IH. cbn [for_in]. cbn [all_ok tcost]. unfold c_folder.
  destruct (fn x) as [h|e]; [|reflexivity]. destruct (all_ok (List.map fn xs)) as [[|y t]|e]; cbn -[Nat.add length]; unfold written, ret; cbn [length]; (apply f_equal2; [reflexivity|lia]).
Qed.
Lemma tcost_all : forall B E (ys : list B), 2 * tcost (List.map (@Ok B E) ys) + 2 * (if ys then 0 else 1) = length ys * (length ys + 5).
Proof.
  intros B E. induction ys as [|y ys IH]; [reflexivity|]. cbn [List.map tcost].
  assert (Q : all_ok (List.map (@Ok B E) ys) = Ok ys) by (clear; induction ys as [|y ys IH]; [reflexivity|]; cbn; now rewrite IH).
  rewrite Q. destruct ys as [|z ys]; cbn [length] in *; [reflexivity|]. nia.
Qed.
Lemma tcost_upper : forall B E (rs : list (result B E)), 2 * tcost rs <= length rs * (length rs + 5).
Proof.
  intros B E. assert (L : forall (rs : list (result B E)) t, all_ok rs = Ok t -> length t = length rs).
  { induction rs as [|[x|e] rs IH]; intros t Q; cbn in Q; try discriminate; [now injection Q as <-|]. destruct (all_ok rs) as [u|e]; [|discriminate]. injection Q as <-. cbn. now rewrite (IH u). }
  induction rs as [|[x|e] rs IH]; cbn [tcost length]; [lia| |nia].
  destruct (all_ok rs) as [[|y t]|e] eqn:Q; try nia. apply L in Q. cbn [length] in Q. cbn [length]. nia.
Qed.
Lemma traverse_pf : forall A B E (fn : A -> result B E) xs,
  exists n, costs (c_traverse fn xs) (all_ok (List.map fn xs)) n /\ 2 * n <= length xs * (length xs + 7) /\ (forall y ys, List.map fn xs = List.map Ok (y :: ys) -> 2 * n + 2 = length xs * (length xs + 7)).
Proof.
  intros A B E fn xs. eexists. split; [apply traverse_cost|]. pose proof (tcost_upper B E (List.map fn xs)) as U. rewrite map_length in U. split; [nia|].
  intros y ys Q. rewrite Q. pose proof (tcost_all B E (y :: ys)) as T. assert (L : length xs = length (y :: ys)) by (rewrite <- (map_length fn), Q; apply map_length).
  rewrite L in *. cbv iota in T. nia.
Qed.
Lemma traverse_refuted_pf : forall k, exists xs : block nat, forall n, costs (c_traverse (fun x => Ok x : result nat nat) xs) (Ok xs) n -> k * length xs < n.
Proof.
  intros k. exists (repeat 0 (2 * k + 1)). intros n Hn. destruct (traverse_pf nat nat nat (fun x => Ok x) (repeat 0 (2 * k + 1))) as (m & Hm & _ & X).
  assert (Q : all_ok (List.map (fun x => Ok x : result nat nat) (repeat 0 (2 * k + 1))) = Ok (repeat 0 (2 * k + 1))).
  { generalize (2 * k + 1). clear. induction n as [|n IH]; [reflexivity|]. cbn. now rewrite IH. }
  rewrite Q in Hm. rewrite (costs_unique _ _ _ _ _ _ Hn Hm). clear Hn Hm n.
  replace (2 * k + 1) with (S (2 * k)) in * by lia. specialize (X 0 (repeat 0 (2 * k)) eq_refl). rewrite repeat_length in *. nia.
Qed.
