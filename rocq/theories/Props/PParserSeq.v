(** C147: sequence runs parsers one behind the other, and starmap hands their values to a function. *)
From Coq Require Import List Arith ZArith Lia.
From Verif.Model Require Import Base PyList OptionResult Block Parser ParserStar.
From Verif.Proofs Require Import ParserSeqFacts.
From Verif.Spec Require Import ParserSeqSpec.
Import ListNotations.
Local Open Scope list_scope.

(** Any parsers, with any effects: each begins where the one before ended, the values are in the
    order of the parsers, and the first Error or exception ends it. *)
Theorem C147_sequence : forall W A limit (ps : list (parser W A)), List.length ps < limit ->
  exists p, sequence limit ps = Ret p /\ forall i w r w1, p i w = (r, w1) <-> each ps i w r w1.
Proof.
  intros W A limit ps L. destruct (sequence_each limit ps L) as (p & E & H). exists p. split; [exact E|]. intros i w r w1. split.
  - intros X. specialize (H i w). rewrite X in H. exact H.
  - intros X. destruct (each_unique _ _ _ _ _ (H i w) _ _ X) as [<- <-]. destruct (p i w). reflexivity.
Qed.
Print Assumptions C147_sequence.

(** Two lists put together are the two in turn, whatever the second does; if the first fails, so
    do both. *)
Theorem C147_append : forall W A limit (ps qs : list (parser W A)), List.length (ps ++ qs) < limit -> exists p, sequence limit (ps ++ qs) = Ret p /\ forall i w r w1, each ps i w r w1 ->
  match r with Ret (Ok (vs, i1)) => forall r2 w2, each qs i1 w1 r2 w2 -> p i w = (behind vs r2, w2) | _ => p i w = (r, w1) end.
Proof.
  intros W A limit ps qs L. destruct (C147_sequence W A limit (ps ++ qs) L) as (p & E & H). exists p. split; [exact E|]. intros i w r w1 P. destruct r as [[[vs i1]|e]|e].
  - intros r2 w2 Q. apply H. eapply each_app; eassumption.
  - apply H. apply each_app_stop; [exact P|exact I].
  - apply H. apply each_app_stop; [exact P|exact I].
Qed.
Print Assumptions C147_append.

(** starmap calls the function once, with the values of all parsers, if all matched; otherwise it
    is not called and the Error or exception is passed on. *)
Theorem C147_starmap : forall W A C limit (ps : list (parser W A)) (f : list A -> M W C), List.length ps < limit ->
  exists p, sequence limit ps = Ret p /\ forall i w r w1, each ps i w r w1 ->
  starmap_args f (unpackable p) i w = with_all f r w1 /\ forall vs i1, r = Ret (Ok (vs, i1)) -> List.length vs = List.length ps.
Proof.
  intros W A C limit ps f L. destruct (C147_sequence W A limit ps L) as (p & E & H). exists p. split; [exact E|]. intros i w r w1 X. split; [|intros vs i1 ->; exact (each_length _ _ _ _ _ _ X)]. rewrite star_eq. apply H in X. rewrite X. reflexivity.
Qed.
Print Assumptions C147_starmap.

(** A value that cannot be unpacked is a TypeError, and the function is not called. *)
Theorem C147_not_iterable : forall W X C (f : list X -> M W C) (p : parser W (star X)) i w x i1 w1, p i w = (Ret (Ok (NotIterable x, i1)), w1) -> starmap_args f p i w = (Raise TypeError, w1).
Proof. intros W X C f p i w x i1 w1 E. unfold starmap_args, Parser.map, Base.bind. rewrite E. reflexivity. Qed.
Print Assumptions C147_not_iterable.

(** False for long lists: as many parsers as the stack has room for are a RecursionError as soon
    as sequence is called. *)
Theorem C147_long_refuted : forall W A limit (ps : list (parser W A)), limit <= List.length ps -> sequence limit ps = Raise RecursionError.
Proof. intros W A. exact sequence_long. Qed.
Print Assumptions C147_long_refuted.

(** "a-b": three characters, and a function of three arguments that counts its calls. *)
Definition three : list (parser nat str) := [pchar [97]; pchar [45]; pchar [98]].
Definition outer (l : list str) : M nat str := fun n => match l with [x; _; y] => (Ret (x ++ y), S n) | _ => (Raise TypeError, n) end.
Example ex_three : exists p, sequence 9 three = Ret p /\ p ([97; 45; 98; 99], 0%Z) 0 = (Ret (Ok ([[97]; [45]; [98]], ([97; 45; 98; 99], 3%Z))), 0) /\
  starmap_args outer (unpackable p) ([97; 45; 98; 99], 0%Z) 0 = (Ret (Ok ([97; 98], ([97; 45; 98; 99], 3%Z))), 1).
Proof. eexists. split; [reflexivity|]. split; reflexivity. Qed.
Example ex_three_error : exists p e, sequence 9 three = Ret p /\ starmap_args outer (unpackable p) ([97; 45; 99], 0%Z) 0 = (Ret (Err e), 0).
Proof. eexists. eexists. split; reflexivity. Qed.
(** Four parsers for a function of three arguments. *)
Example ex_four : exists p, sequence 9 (three ++ [pchar [99]]) = Ret p /\ starmap_args outer (unpackable p) ([97; 45; 98; 99], 0%Z) 0 = (Raise TypeError, 0).
Proof. eexists. split; reflexivity. Qed.
Example ex_long : sequence 3 three = Raise RecursionError.
Proof. apply C147_long_refuted. cbn. lia. Qed.
