(** Witnesses for the refuted Map properties. *)
From Coq Require Import List ZArith Bool Arith Lia.
From Verif.Model Require Import Base MapTree Map.
From Verif.Spec Require Import MapSpec ListM KeyInstances.
From Verif.Proofs Require Import MapTreeFacts MapFacts MapMain.
Import ListNotations.
Local Open Scope nat_scope.

Lemma C04_refuted_pf :
  exists (m1 m2 m2' : tree nat nat), Reach m1 /\ Reach m2 /\ to_list m1 = to_list m2 /\
    mem 3 m1 = false /\ mem 3 m2 = false /\
    change (W := unit) 3 (fun _ => ret None) m1 tt = (Raise EffectErrorExn, tt) /\
    change (W := unit) 3 (fun _ => ret None) m2 tt = (Ret m2', tt) /\ to_list m2' = to_list m2.
Proof.
  exists (m_run [OAdd 1 1; OAdd 2 2]), (m_run [OAdd 2 2; OAdd 1 1]). eexists.
  split; [apply m_run_Reach|]. split; [apply m_run_Reach|]. repeat (split; [vm_compute; reflexivity|]). reflexivity.
Qed.

Definition lopsided : list (op nat nat) :=
  List.map (fun k => OAdd k k) (rev (seq 1 8)) ++ [ORemove 5; ORemove 6; ORemove 7].

Lemma C08_refuted_pf : exists m : tree nat nat, Reach m /\ ~ balanced m.
Proof.
  exists (m_run lopsided). split; [apply m_run_Reach|]. vm_compute. intros (_ & _ & L & _). lia.
Qed.

Lemma C14_refuted_pf : exists m : tree nat nat, Reach m /\
  exists chooser : nat -> nat -> M unit (option nat),
    (forall k v w, chooser k v w = (Ret None, w)) /\ fst (pick chooser m tt) <> Raise KeyError.
Proof.
  exists (m_run [OAdd 1 1; OAdd 2 2]). split; [apply m_run_Reach|].
  exists (fun _ _ => ret None). split; [reflexivity|discriminate].
Qed.

Lemma C15_refuted_pf : exists m1 m2 : tree nat nat, Reach m1 /\ Reach m2 /\
  (forall n fuel, 3 < n -> 5 <= fuel ->
    map_eq Nat.eqb n fuel m1 m2 = Ret true /\ map_eq Nat.eqb n fuel m2 m1 = Ret false /\
    exists h1 h2, map_hash Z.of_nat Z.of_nat n fuel m1 = Ret h1 /\ map_hash Z.of_nat Z.of_nat n fuel m2 = Ret h2 /\ h1 <> h2) /\
  to_list m1 <> to_list m2.
Proof.
  exists (m_run [OAdd 1 1]), (m_run [OAdd 1 1; OAdd 2 2]).
  split; [apply m_run_Reach|]. split; [apply m_run_Reach|]. split; [|discriminate].
  intros n fuel Hn Hf. rewrite !map_eq_prefixb by (vm_compute; lia). split; [reflexivity|]. split; [reflexivity|].
  rewrite !map_hash_ok by (vm_compute; lia). do 2 eexists. split; [reflexivity|]. split; [reflexivity|].
  vm_compute. discriminate.
Qed.

Lemma C18_refuted_pf : forall limit : nat,
  exists xs : list (nat * nat), of_seq (Some limit) xs = Raise RecursionError /\ exists m, of_list xs = Ret m.
Proof.
  intros limit. exists (repeat (1, 1) limit). destruct (C18_pf limit (repeat (1, 1) limit)) as (_ & F & E).
  split; auto. apply F. now rewrite repeat_length.
Qed.
