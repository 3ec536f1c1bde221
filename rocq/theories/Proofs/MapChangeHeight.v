(** How high change makes the tree. *)
From Coq Require Import List ZArith Lia Bool Arith Lia Sorting.Sorted.
From Verif.Model Require Import Base MapTree Map.
From Verif.Spec Require Import MapSpec ListM.
From Verif.Proofs Require Import KeyOrdFacts MapTreeFacts MapTreeMonadic MapFacts MapMain.
Import ListNotations.
Local Open Scope nat_scope.
Local Open Scope list_scope.
Local Open Scope py_scope.

Lemma C08_change_pf : forall (K V : Type) (KO : KeyOrd K) W (m : tree K V) k (u : option V -> M W (option V)) w m' w', Reach m ->
  change k u m w = (Ret m', w') -> depth m' <= S (depth m) /\ (fst (u (try_find k m) w) = Ret None -> depth m' <= depth m).
Proof.
  intros K V KO W m k u w m' w' R E. destruct (Reach_Wf V m R) as [Hh S]. pose proof (change_ok k u m w (conj Hh S)) as C.
  rewrite try_find_assoc by exact S. destruct (u (option_map snd (assoc k (elements m))) w) as [[[v|]|e] w1]; [| |congruence].
  - destruct C as (t & E1 & Ht & _ & L). assert (t = m') as -> by congruence. rewrite <- !hok_depth by auto. split; [exact L|discriminate].
  - destruct (ends_at_empty k m); [congruence|]. destruct C as (t & E1 & Ht & _ & L). assert (t = m') as -> by congruence.
    rewrite <- !hok_depth by auto. split; [lia|intros _; exact L].
Qed.
