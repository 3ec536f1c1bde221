(** Property theorems C90 ([x is Nothing]). *)
From Coq Require Import List Lia.
From Verif.Model Require Import Base OptionResult Identity.
From Verif.Spec Require Import IdentitySpec.
From Verif.Proofs Require Import IdentityFacts.
Import ListNotations.
Local Open Scope py_scope.

(** C90. [1 <= fst w]: the module is loaded, so object 0 is its [Nothing]. *)
Theorem C90_is_partial : forall U A (p : prog U A) w o w', ordinary p -> 1 <= fst w -> eval p w = (Ret o, w') ->
  (is_nothing o <-> empty o).
Proof. exact (fun U A => C90_is_pf). Qed.
Print Assumptions C90_is_partial.
(** with copies and Option.Nothing() one direction is left *)
Theorem C90_only_empty_partial : forall U A (p : prog U A) w o w', 1 <= fst w -> eval p w = (Ret o, w') ->
  is_nothing o -> empty o.
Proof. exact (fun U A => C90_only_empty_pf). Qed.
Print Assumptions C90_only_empty_partial.
(** Option.Nothing() and every copy of an empty option are empty and not [Nothing] *)
Theorem C90_is_refuted : forall U A (p : prog U A) w o w', 1 <= fst w ->
  (eval (PNewNothing : prog U A) w = (Ret o, w') -> empty o /\ ~ is_nothing o) /\
  (forall o1 w1, eval p w = (Ret o1, w1) -> 1 <= fst w1 -> empty o1 -> eval (PCopy p) w = (Ret o, w') -> empty o /\ ~ is_nothing o).
Proof.
  intros U A p w o w' H. split.
  - intros E. injection E as <- _. unfold empty, is_nothing. cbn. split; [reflexivity|lia].
  - intros o1 w1 E1 H1 E0 E. cbn [eval] in E. unfold bind in E. rewrite E1 in E. injection E as <- _.
    unfold empty, is_nothing in *. cbn. split; [exact E0|lia].
Qed.
Print Assumptions C90_is_refuted.
(** and the objects hold the values of C37 and C39 *)
Theorem C90_values : forall U A (p : prog U A) n u, let r := eval p (n, u) in
  rmap o_case (fst r) = fst (value p u) /\ snd (snd r) = snd (value p u).
Proof. exact eval_value. Qed.
Print Assumptions C90_values.
Example C90_case :
  let p : prog nat nat := PFilter (PMap (PBind (PSome 3) (fun x => POrElse PNothing (PSome x))) (fun x u => (Ret (x + u), S u)))
                                  (fun x u => (Ret (Nat.leb x 5), u)) in
  ordinary p /\ eval p (1, 2) = (Ret (OObj 3 (Some 5)), (4, 3)) /\ eval p (1, 9) = (Ret nothing, (4, 10)) /\
  eval (PCopy p) (1, 9) = (Ret (OObj 4 None), (5, 10)) /\
  eval (POrElse (PCopy p) PNothing) (1, 9) = (Ret nothing, (5, 10)) /\
  eval (POrElse PNothing (PCopy p)) (1, 9) = (Ret (OObj 4 None), (5, 10)).
Proof.
  cbv zeta. split; [repeat constructor|]. repeat split.
Qed.
