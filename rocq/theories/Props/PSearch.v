(** C144: a breadth-first search written with tailrec, Block and Map finds shortest paths. *)
From Coq Require Import List Bool Arith Lia.
From Verif.Model Require Import Base PyList Block MapTree Map Functions.
From Verif.Spec Require Import MapSpec FunctionsSpec KeyInstances SearchSpec.
From Verif.Proofs Require Import KeyOrdFacts MapMain FunctionsFacts GroupingFacts SearchFacts.
Import ListNotations.
Local Open Scope nat_scope.
Local Open Scope list_scope.
Local Open Scope py_scope.

(** [next] gives the neighbours of a key whenever it returns, the same for equal keys; it may have
    effects and raise. *)
Definition follows {K W} `{KeyOrd K} (next : K -> M W (block K)) (succ : K -> list K) : Prop :=
  (forall k w ks w1, next k w = (Ret ks, w1) -> ks = succ k) /\ (forall a b, eqb a b = true -> succ a = succ b).

(** If the decorated function returns a map, a key is bound in it to a number exactly if that is
    the length of a shortest path to the key; and [next] was called once for each key that a path
    leads to. *)
Theorem C144_shortest : forall (K W : Type) (KO : KeyOrd K) (next : K -> M W (block K)) succ roots (w : W) n m w1, follows next succ ->
  trun (search next) n (tstart (start roots), w) = (Finished (Ret m), w1) ->
  (forall k d, try_find k m = Some d <-> (exists k1, eqb k k1 = true /\ path succ roots d k1) /\ (forall i k1, eqb k k1 = true -> path succ roots i k1 -> d <= i)) /\
  exists order, calls next order w = (Ret tt, w1) /\ distinct order /\ forall k, among k order <-> exists i k1, eqb k k1 = true /\ path succ roots i k1.
Proof.
  intros K W KO next succ roots w n m w1 [F1 F2] T. assert (E : evals (search next) (start roots) w (Ret m) w1) by (apply C46_pf; eauto).
  destruct (search_pf next succ roots F1 F2 _ _ _ _ E w [] (inv_start next succ roots w)) as [order I]. pose proof (inv_end next succ roots _ _ _ _ I) as EN. destruct I as [R C D S Wk P O L Ro Ed]. 
  assert (ALL : forall k i k1, eqb k k1 = true -> path succ roots i k1 -> exists d, try_find k m = Some d /\ d <= i).
  { intros k i k1 Q Pa. rewrite (try_find_cong m k k1 Q). eauto. }
  split.
  - intros k d. split.
    + intros Tk. split; [exact (P k d Tk)|]. intros i k1 Q Pa. destruct (ALL k i k1 Q Pa) as (d1 & T1 & Le). rewrite Tk in T1. injection T1 as <-. exact Le.
    + intros [(k1 & Q & Pa) Min]. destruct (ALL k d k1 Q Pa) as (d1 & T1 & Le). destruct (P k d1 T1) as (k2 & Q2 & Pa2). pose proof (Min d1 k2 Q2 Pa2). replace d with d1 by lia. exact T1.
  - exists order. split; [exact C|]. split; [exact D|]. intros k. rewrite <- S. split.
    + intros [d Tk]. exists d. exact (P k d Tk).
    + intros (i & k1 & Q & Pa). destruct (ALL k i k1 Q Pa) as (d & Tk & _). eauto.
Qed.
Print Assumptions C144_shortest.

(** If it raises, the exception is the first that [next] raised, called for keys that paths lead
    to, no key twice. *)
Theorem C144_raises : forall (K W : Type) (KO : KeyOrd K) (next : K -> M W (block K)) succ roots (w : W) n e w1, follows next succ ->
  trun (search next) n (tstart (start roots), w) = (Finished (Raise e), w1) ->
  exists order, calls next order w = (Raise e, w1) /\ distinct order /\ forall k, In k order -> exists i, path succ roots i k.
Proof.
  intros K W KO next succ roots w n e w1 [F1 F2] T. assert (E : evals (search next) (start roots) w (Raise e) w1) by (apply C46_pf; eauto).
  exact (search_pf next succ roots F1 F2 _ _ _ _ E w [] (inv_start next succ roots w)).
Qed.
Print Assumptions C144_raises.

(** It ends if paths lead to finitely many keys, cycles or not. *)
Theorem C144_ends : forall (K W : Type) (KO : KeyOrd K) (next : K -> M W (block K)) succ roots (w : W) U, follows next succ -> (forall i k, path succ roots i k -> among k U) ->
  exists n r w1, trun (search next) n (tstart (start roots), w) = (Finished r, w1).
Proof.
  intros K W KO next succ roots w U [F1 F2] FU. destruct (ends_pf next succ roots F1 F2 U FU (S (unseen U Empty)) _ Empty w w [] (Nat.lt_succ_diag_r _) (inv_start next succ roots w)) as (r & w1 & E).
  apply C46_pf in E. destruct E as [n E]. eauto.
Qed.
Print Assumptions C144_ends.
(** And if they lead to infinitely many it goes on for ever, unless [next] raises. *)
Theorem C144_goes_on : forall (K W : Type) (KO : KeyOrd K) (next : K -> M W (block K)) succ roots (w : W), follows next succ -> (forall k w1, exists w2, next k w1 = (Ret (succ k), w2)) ->
  (forall U, exists i k, path succ roots i k /\ ~ among k U) -> forall n r w1, trun (search next) n (tstart (start roots), w) <> (Finished r, w1).
Proof.
  intros K W KO next succ roots w F NR INF n [m|e] w1 T.
  - destruct (C144_shortest _ _ _ _ _ _ _ _ _ _ F T) as [_ (order & _ & _ & A)]. destruct (INF order) as (i & k & P & N). apply N. apply A. exists i, k. split; [apply eqb_refl|exact P].
  - destruct (C144_raises _ _ _ _ _ _ _ _ _ _ F T) as (order & C & _). clear T. revert w C. induction order as [|k order IH]; intros w C; [discriminate|]. cbn in C. unfold bind in C. destruct (NR k w) as [w2 E]. rewrite E in C. exact (IH w2 C).
Qed.
Print Assumptions C144_goes_on.
(** However long it takes, the stack does not grow. *)
Theorem C144_stack : forall (K W : Type) (KO : KeyOrd K) (next : K -> M W (block K)) roots n (w : W), Functions.depth (fst (trun (search next) n (tstart (start roots), w))) <= 3.
Proof. intros K W KO next roots n w. apply C46_depth_pf. Qed.
Print Assumptions C144_stack.

(** A graph with a cycle and a short cut; the world is the list of the keys asked for. *)
Definition edges (k : nat) : list nat := match k with 0 => [1; 2] | 1 => [3] | 2 => [4] | 3 => [4; 0] | 4 => [4; 5] | _ => [] end.
Definition asking (k : nat) : M (list nat) (block nat) := fun w => (Ret (edges k), w ++ [k]).
Example ex_follows : follows asking edges.
Proof. split; [intros k w ks w1 E; injection E as <- _; reflexivity|]. intros a b E. apply Nat.eqb_eq in E. subst. reflexivity. Qed.
Example ex_search : exists m, trun (search asking) 60 (tstart (start [0]), []) = (Finished (Ret m), [0; 1; 2; 3; 4; 5]) /\ to_list m = [(0, 0); (1, 1); (2, 1); (3, 2); (4, 2); (5, 3)].
Proof. eexists. split; reflexivity. Qed.
(** The natural numbers, one after the other: no end. *)
Example ex_goes_on : forall n r w1, trun (search (fun k (w : nat) => (Ret [S k], S w))) n (tstart (start [0]), 0) <> (Finished r, w1).
Proof.
  apply (C144_goes_on nat nat nat_key _ (fun k => [S k]) [0]).
  - split; [intros k w ks w1 E; injection E as <- _; reflexivity|]. intros a b E. apply Nat.eqb_eq in E. subst. reflexivity.
  - intros k w1. eexists. reflexivity.
  - intros U. exists (S (list_max U)), (S (list_max U)). split.
    + generalize (S (list_max U)) as n. induction n as [|n IH]; [apply path_root; left; reflexivity|eapply path_edge; [exact IH|left; reflexivity]].
    + intros (k & I & E). apply Nat.eqb_eq in E. subst k. pose proof (proj1 (list_max_le U (list_max U)) (le_n _)) as X. rewrite Forall_forall in X. specialize (X _ I). lia.
Qed.
Example ex_raises : exists order, calls (fun k (w : nat) => if Nat.eqb k 3 then (Raise KeyError, w) else (Ret (edges k), S w)) order 0 = (Raise KeyError, 3) /\ distinct order /\ forall k, In k order -> exists i, path edges [0] i k.
Proof.
  apply (C144_raises nat nat nat_key (fun k (w : nat) => if Nat.eqb k 3 then (Raise KeyError, w) else (Ret (edges k), S w)) edges [0] 0 60); [|reflexivity].
  split; [intros k w ks w1 E; destruct (Nat.eqb k 3); [discriminate|injection E as <- _; reflexivity]|]. intros a b E. apply Nat.eqb_eq in E. subst. reflexivity.
Qed.
