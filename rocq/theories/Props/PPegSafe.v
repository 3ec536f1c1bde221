(** C143, continued: grammars whose functions neither raise nor have effects. *)
From Coq Require Import List Arith ZArith Lia.
From Verif.Model Require Import Base OptionResult Parser.
From Verif.Proofs Require Import PegSafe CalcFacts.
From Verif.Spec Require Import PegSpec PegSafeSpec CalcSpec.
From Verif.Props Require Import PPeg.
Import ListNotations.
Local Open Scope list_scope.

(** The library adds no exceptions and no effects of its own: if no function of the user raises or
    has an effect, a parser ends with Ok or Error and nothing else has happened, unless the
    recursion limit is met. *)
Theorem C143_safe : forall W (rules : nat -> gram W) g, (forall n, safe (rules n)) -> safe g -> forall limit depth (text : str) pos (w : W) x w1, (0 <= pos)%Z -> compile rules limit depth g (text, pos) w = (x, w1) ->
  x = Raise RecursionError \/ w1 = w /\ exists y, x = Ret y.
Proof.
  intros W rules g SR SG limit depth text pos w x w1 L E. destruct (C143_sound _ _ _ _ _ _ _ _ _ _ L E) as [X|(r & P & S)]; [left; exact X|right]. destruct (proj1 (safe_calm rules SR) _ _ _ _ _ P SG) as [-> N].
  split; [reflexivity|]. inversion S; subst; [eexists; reflexivity..|]. destruct (N _ eq_refl).
Qed.
Print Assumptions C143_safe.
(** A well-formed one then answers every text when there is room. *)
Theorem C143_safe_total : forall W (rules : nat -> gram W) (rank : nat -> nat) l g, (forall n, well_formed rules rank (Some (rank n)) (rules n)) -> well_formed rules rank l g -> (forall n, safe (rules n)) -> safe g ->
  forall s (w : W), exists n, forall limit depth (text : str) pos, n <= limit -> n <= depth -> (0 <= pos)%Z -> rest_of (text, pos) = s -> exists y, compile rules limit depth g (text, pos) w = (Ret y, w).
Proof.
  intros W rules rank l g WR WG SR SG s w. destruct (C143_total W rules rank WR l g WG s w) as (n & r & w1 & P & H). exists n. intros limit depth text pos L1 L2 L3 E. destruct (H limit depth text pos L1 L2 L3 E) as (x & C & S). rewrite C.
  destruct (proj1 (safe_calm rules SR) _ _ _ _ _ P SG) as [-> N]. inversion S; subst; [eexists; reflexivity..|]. destruct (N _ eq_refl).
Qed.
Print Assumptions C143_safe_total.
Example ex_safe : forall n, safe (calculator (W := nat) n).
Proof. intros [|[|n]]; cbn; repeat split; intros; eexists; reflexivity. Qed.
Example ex_safe_total : forall s (w : nat), exists n, forall limit depth (text : str) pos, n <= limit -> n <= depth -> (0 <= pos)%Z -> rest_of (text, pos) = s -> exists y, compile calculator limit depth (GCall 0) (text, pos) w = (Ret y, w).
Proof. apply (C143_safe_total nat calculator (fun n => 2 - n) None); [exact calc_wf|apply wf_call; exact I|exact ex_safe|exact I]. Qed.
