(** C118: what Block operations copy. *)
From Coq Require Import List ZArith Bool Arith Lia.
From Verif.Model Require Import Base PyList OptionResult Block BlockCost.
From Verif.Spec Require Import CostSpec OptionResultSpec.
From Verif.Proofs Require Import CostFacts.
Import ListNotations.

(** What is true: no operation copies more than three references for every element that it
    reads or returns. *)
Theorem C118_linear_partial : forall A B (xs : block A),
  (forall x, exists n, costs (c_cons xs x) (Block.cons xs x) n /\ n <= 2 * length (x :: xs)) /\
  (forall ys, exists n, costs (c_append xs ys) (Block.append xs ys) n /\ n <= length xs + length ys) /\
  (forall start stop, exists n, costs (c_slice xs start stop) (slice xs start stop) n /\ n <= length (slice xs start stop)) /\
  (forall f : A -> B, exists n, costs (c_map f xs) (List.map f xs) n /\ n <= 2 * length xs) /\
  (forall p, exists n, costs (c_filter p xs) (List.filter p xs) n /\ n <= length xs) /\
  (forall f : A -> block B, exists n, costs (c_collect f xs) (flat_map f xs) n /\ n <= length (flat_map f xs)) /\
  (forall f : A -> option B, exists n, costs (c_choose f xs) (flat_map (fun x => opt_to_list (f x)) xs) n /\ n <= 3 * length xs) /\
  (forall p, exists n, costs (c_partition p xs) (List.filter p xs, List.filter (fun x => negb (p x)) xs) n /\ n <= 2 * length xs) /\
  (forall ys : block B, exists n, costs (c_zip xs ys) (List.combine xs ys) n /\ n <= 2 * length xs) /\
  (forall S (f : S -> A -> S) s, costs (c_fold xs f s) (fold_left f xs s) 0).
Proof. exact linear_pf. Qed.
Print Assumptions C118_linear_partial.

(** The first element and the rest. *)
Theorem C118_apart_partial : forall A (x : A) (xs : block A),
  costs (c_head (x :: xs)) x (length xs) /\ costs (c_tail (x :: xs)) xs (2 * length xs) /\
  costs (c_try_head (x :: xs)) (Some x) 0 /\ costs (c_item (x :: xs) 0) x 0 /\
  (forall f, costs (c_reduce (x :: xs) f) (fold_left f xs x) (3 * length xs)).
Proof. exact apart_pf. Qed.
Print Assumptions C118_apart_partial.

(** For all blocks, also empty ones: the results and exceptions are those of the functions of
    Model/Block.v, and what raises copies nothing. *)
Theorem C118_same_results : forall A (xs : block A) (f : A -> A -> A) i c,
  fst (c_head xs c) = Block.head xs /\ fst (c_tail xs c) = Block.tail xs /\ c_item xs i c = (Block.item xs i, c) /\
  fst (c_reduce xs f c) = fst (Block.reduce xs (fun x y => ret (f x y)) c) /\
  (xs = [] -> c_head xs c = (Raise ValueError, c) /\ c_tail xs c = (Raise ValueError, c) /\ c_reduce xs f c = (Raise ValueError, c)).
Proof.
  intros A xs f i c. split; [now destruct xs|]. split; [now destruct xs|]. split; [reflexivity|]. split; [|intros ->; repeat split].
  destruct xs as [|x xs]; [reflexivity|]. destruct (apart_pf _ x xs) as (_ & _ & _ & _ & R). rewrite (R f c). cbn [fst].
  change (Block.reduce (x :: xs) (fun x y => ret (f x y)) c) with (for_in xs x (fun x y => ret (f x y)) c).
  clear R. revert x. induction xs as [|y xs IH]; intros x; [reflexivity|]. cbn [for_in fold_left]. unfold bind, ret at 1. apply IH.
Qed.
Print Assumptions C118_same_results.

(** Slices of everything and appends of nothing copy nothing. *)
Theorem C118_shared_partial : forall A (xs : block A),
  costs (c_append xs []) xs 0 /\ costs (c_append [] xs) xs 0 /\ costs (c_slice xs None None) xs 0 /\
  costs (c_slice xs (Some 0%Z) None) xs 0 /\ costs (c_slice xs None (Some (Z.of_nat (length xs)))) xs 0.
Proof. exact shared_pf. Qed.
Print Assumptions C118_shared_partial.

(** The documented claim is false: no bound on what [cons] copies holds for all lengths, and a
    Block built by prepending [n] elements, as in the documentation, copies [n * (n + 1)]
    references. *)
Theorem C118_cons_refuted :
  (forall bound, exists (xs : block nat) x, forall n, costs (c_cons xs x) (x :: xs) n -> bound < n) /\
  (forall A (xs : block A), costs (build_up xs) xs (length xs * (length xs + 1))).
Proof. exact cons_refuted_pf. Qed.
Print Assumptions C118_cons_refuted.

(** Nor for [head] and [tail]; and walking down a Block with them copies more than any multiple
    of its length. *)
Theorem C118_walk_refuted :
  (forall bound, exists xs : block nat, forall x n, (costs (c_head (x :: xs)) x n -> bound < n) /\ (costs (c_tail (x :: xs)) xs n -> bound < n)) /\
  (forall A S (f : S -> A -> S) (xs : block A) s, exists n,
     costs (walk (Datatypes.S (length xs)) f s xs) (fold_left f xs s) n /\ 2 * n + 3 * length xs = 3 * length xs * length xs) /\
  (forall k, exists xs : block nat, forall n, costs (walk (Datatypes.S (length xs)) Nat.add 0 xs) (fold_left Nat.add xs 0) n -> k * length xs < n).
Proof. exact walk_refuted_pf. Qed.
Print Assumptions C118_walk_refuted.

(** [concat] copies at most the number of its sources times the length of its result, and no
    multiple of their sum bounds it. *)
Theorem C118_concat_partial : forall A (bs : list (block A)),
  exists n, costs (c_concat bs) (List.concat bs) n /\ n <= length bs * length (List.concat bs).
Proof. exact @concat_upper. Qed.
Print Assumptions C118_concat_partial.
Theorem C118_concat_refuted : forall k, exists bs : list (block nat), forall n,
  costs (c_concat bs) (List.concat bs) n -> k * (length bs + length (List.concat bs)) < n.
Proof. exact concat_refuted_pf. Qed.
Print Assumptions C118_concat_refuted.

(** [traverse] copies a number of references quadratic in the length, and exactly
    [n (n + 7) / 2 - 1] of them when the function gives Ok for all [n] elements. *)
Theorem C118_traverse_partial : forall A B E (fn : A -> result B E) xs,
  exists n, costs (c_traverse fn xs) (all_ok (List.map fn xs)) n /\ 2 * n <= length xs * (length xs + 7) /\
  (forall y ys, List.map fn xs = List.map Ok (y :: ys) -> 2 * n + 2 = length xs * (length xs + 7)).
Proof. exact @traverse_pf. Qed.
Print Assumptions C118_traverse_partial.
Theorem C118_traverse_refuted : forall k, exists xs : block nat, forall n,
  costs (c_traverse (fun x => Ok x : result nat nat) xs) (Ok xs) n -> k * length xs < n.
Proof. exact traverse_refuted_pf. Qed.
Print Assumptions C118_traverse_refuted.
Example C118_traverse_example : costs (c_traverse (fun x => if Nat.even x then Ok x else Err x) [2; 4; 6]) (Ok [2; 4; 6]) 14 /\
  costs (c_traverse (fun x => if Nat.even x then Ok x else Err x) [2; 5; 6; 8]) (Err 5) 10.
Proof. split; intros c; cbn; unfold written, ret; cbn [length]; (apply f_equal2; [reflexivity|lia]). Qed.

Example C118_case :
  costs (c_cons [2; 3; 4] 1) [1; 2; 3; 4] 8 /\ costs (c_head [1; 2; 3; 4]) 1 3 /\
  costs (build_up [1; 2; 3; 4]) [1; 2; 3; 4] 20 /\ costs (c_concat [[1]; [2]; []; [3; 4]]) [1; 2; 3; 4] 6 /\
  costs (walk 5 Nat.add 0 [1; 2; 3; 4]) 10 18 /\ costs (c_choose (fun x => if Nat.even x then Some x else None) [1; 2; 3; 4]) [2; 4] 6.
Proof. unfold costs. repeat apply conj; intros c; cbn; unfold written, ret; cbn [length]; (apply f_equal2; [reflexivity|lia]). Qed.
