(** C115: Options and Results are iterables of their value. *)
From Coq Require Import List.
From Verif.Model Require Import Base OptionResult Gen Seq Block OptIter.
From Verif.Spec Require Import ListM SeqSpec.
From Verif.Proofs Require Import OptIterFacts SeqFacts SeqFacts3.
Import ListNotations.
Local Open Scope py_scope.

(** Iterating Some(x) or Ok(x) gives x and ends, every time. *)
Theorem C115_value_partial : forall W A E (x : A) (w : W),
  iterates (opt_iter (Some x)) w [x] (Ret tt) w /\ iterates (res_iter (Ok x : result A E)) w [x] (Ret tt) w.
Proof. intros W A E x w. split; [exact (opt_iter_pf W A (Some x) w)|exact (res_iter_pf W A E (Ok x) w)]. Qed.
Print Assumptions C115_value_partial.
Example C115_value_case : to_list 9 (opt_iter (Some 5)) tt = (Ret [5], tt) /\ to_list 9 (res_iter (Ok 5 : result nat nat)) tt = (Ret [5], tt).
Proof. split; reflexivity. Qed.

(** [v in Some(x)] asks whether x equals v. *)
Theorem C115_in_partial : forall W A E fuel (eq : A -> M W bool) (x : A),
  in_iter (S (S fuel)) eq (opt_iter (Some x)) ==m eq x /\ in_iter (S (S fuel)) eq (res_iter (Ok x : result A E)) ==m eq x.
Proof.
  intros W A E fuel eq x. split; intros w; unfold in_iter, opt_iter, res_iter, bind, ret; cbn; unfold bind, ret; destruct (eq x w) as [[[]|] ?]; reflexivity.
Qed.
Print Assumptions C115_in_partial.
Example C115_in_case : in_iter 9 (fun x => ret (Nat.eqb x 5)) (opt_iter (Some 5)) tt = (Ret true, tt) /\ in_iter 9 (fun x => ret (Nat.eqb x 6)) (opt_iter (Some 5)) tt = (Ret false, tt).
Proof. split; reflexivity. Qed.

(** seq.collect with a function that gives Options: the values up to the first Nothing, with
    the calls that were made for them; then EffectError. *)
Theorem C115_collect_partial : forall W A B (f : A -> M W (option B)) ms w, Forall no_stop ms ->
  let '(l, r, w1) := emit (List.map (fun m => do x <- m; do o <- f x; match o with Some y => ret [y] | None => raise EffectErrorExn end) ms) w in
  iterates (Seq.collect (fun x => do o <- f x; ret (opt_iter o)) (of_script ms)) w l (leaving r) w1.
Proof. exact collect_options_seq_pf. Qed.
Print Assumptions C115_collect_partial.
Example C115_collect_case : to_list 99 (Seq.collect (fun n w => (Ret (opt_iter (Some (n + 1))), S w)) (of_list [1; 2; 3])) 0 = (Ret [2; 3; 4], 3).
Proof. reflexivity. Qed.
(** seq.concat of Options *)
Theorem C115_concat_partial : forall W A (os : list (option A)) (w : W),
  let '(l, r, w1) := emit (List.map (fun o => match o with Some y => ret [y] | None => raise EffectErrorExn end) os) w in
  w1 = w /\ iterates (Seq.concat (List.map opt_iter os)) w l r w.
Proof. exact concat_options_pf. Qed.
Print Assumptions C115_concat_partial.
Example C115_concat_case : to_list 99 (Seq.concat (List.map opt_iter [Some 1; Some 2])) tt = (Ret [1; 2], tt)
  /\ to_list 99 (Seq.concat (List.map opt_iter [Some 1; None; Some 2])) tt = (Raise EffectErrorExn, tt).
Proof. split; reflexivity. Qed.
(** Block.collect: all values, if there is no Nothing *)
Theorem C115_block_collect_partial : forall W A B (F : A -> option B) xs (w : W), (forall x, In x xs -> F x <> None) ->
  collect_options xs (fun x => ret (F x)) w = (Ret (flat_map (fun x => opt_to_list (F x)) xs), w).
Proof. intros W A B F xs w. apply collect_options_block_pf. Qed.
Print Assumptions C115_block_collect_partial.
Example C115_block_collect_case : collect_options [1; 2] (fun x => ret (Some (x + 1))) tt = (Ret [2; 3], tt).
Proof. reflexivity. Qed.

(** False: Nothing and Error are not empty iterables; their iteration raises EffectError, and
    so do [in], collect and concat, which lose what the other Options hold. *)
Theorem C115_failure_refuted : forall W A E fuel (eq : A -> M W bool) (e : E) (w : W),
  iterates (opt_iter (None : option A)) w [] (Raise EffectErrorExn) w
  /\ iterates (res_iter (Err e : result A E)) w [] (Raise EffectErrorExn) w
  /\ in_iter (S fuel) eq (opt_iter None) w = (Raise EffectErrorExn, w)
  /\ in_iter (S fuel) eq (res_iter (Err e)) w = (Raise EffectErrorExn, w).
Proof. intros W A E fuel eq e w. split; [exact (opt_iter_pf W A None w)|]. split; [exact (res_iter_pf W A E (Err e) w)|]. split; reflexivity. Qed.
Print Assumptions C115_failure_refuted.
Theorem C115_block_collect_refuted : forall W A B (F : A -> option B) xs (w : W), (exists x, In x xs /\ F x = None) ->
  collect_options xs (fun x => ret (F x)) w = (Raise EffectErrorExn, w)
  /\ Block.choose xs (fun x => ret (F x)) w = (Ret (flat_map (fun x => opt_to_list (F x)) xs), w).
Proof.
  intros W A B F xs w H. split; [apply collect_options_block_pf; exact H|]. clear H.
  apply choose_options_pf.
Qed.
Print Assumptions C115_block_collect_refuted.
Example C115_failure_case : collect_options [1; 2] (fun x => ret (if Nat.eqb x 1 then Some x else None)) tt = (Raise EffectErrorExn, tt)
  /\ to_list 99 (Seq.collect (fun n => ret (opt_iter (if Nat.eqb n 1 then Some n else None))) (of_list [1; 2])) tt = (Raise EffectErrorExn, tt).
Proof. split; reflexivity. Qed.
