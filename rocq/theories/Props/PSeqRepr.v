(** Property theorems about printing sequences. *)
From Coq Require Import List ZArith String Lia.
From Verif.Model Require Import Base Gen Seq SeqRepr.
From Verif.Spec Require Import ListM SeqSpec.
From Verif.Proofs Require Import SeqFacts SeqFacts3 SeqReprFacts.
Import ListNotations.
Local Open Scope py_scope.

(** C85.  At most 100 elements: all of them are shown; what the source raises comes out. *)
Theorem C85_short_partial : forall W A (text : A -> string) (src : iterable W A) w l r w1, iterates src w l r w1 -> List.length l <= 100 ->
  exists m, forall fuel, m <= fuel -> repr fuel (fun x => ret (text x)) src w =
    (match r with Ret _ => Ret ("[" ++ String.concat "; " (List.map text l) ++ "]")%string | Raise e => Raise e end, w1).
Proof. intros W A. exact (@repr_short_pf W A). Qed.
Print Assumptions C85_short_partial.
(** More (also infinitely many): the first 100 are shown, the 101st is pulled, nothing
    after it. *)
Theorem C85_long_partial : forall W A (text : A -> string) (src : iterable W A) w l y g2 w2, pulls src w (l ++ [y]) g2 w2 -> List.length l = 100 ->
  exists m, forall fuel, m <= fuel -> repr fuel (fun x => ret (text x)) src w =
    (Ret ("[" ++ String.concat "; " (List.map text l) ++ "; ...]")%string, w2).
Proof. intros W A. exact (@repr_long_pf W A). Qed.
Print Assumptions C85_long_partial.
(** A sequence over a one-shot iterator is changed by printing it: it is empty
    afterwards, or goes on after its 101st element. *)
Theorem C85_one_shot_refuted : forall W A (text : A -> string) (g : gen W A) w,
  (forall l w1, produces g w l (Ret tt) w1 -> List.length l <= 100 -> exists m, forall fuel, m <= fuel -> exists t,
     repr fuel (fun x => ret (text x)) shared (Some g, w) = (Ret t, (None, w1)) /\ iterates shared (None, w1) (@nil A) (Ret tt) (None, w1)) /\
  (forall l y g2 w2 rest w3, pulled g w (l ++ [y]) g2 w2 -> List.length l = 100 -> produces g2 w2 rest (Ret tt) w3 -> exists m, forall fuel, m <= fuel -> exists t,
     repr fuel (fun x => ret (text x)) shared (Some g, w) = (Ret t, (Some g2, w2)) /\ iterates shared (Some g2, w2) rest (Ret tt) (None, w3)).
Proof.
  intros W A text g w. split.
  - intros l w1 P L. destruct (repr_short_pf (W := option (gen W A) * W) text shared (Some g, w) l (Ret tt) (None, w1)) as (m & H).
    + left. eexists _, _. split; [reflexivity|]. apply shared_produces, P.
    + exact L.
    + exists m. intros fuel F. eexists. split; [apply H, F|]. left. eexists _, _. split; [reflexivity|]. now apply pr_stop.
  - intros l y g2 w2 rest w3 P L Q. destruct (repr_long_pf (W := option (gen W A) * W) text shared (Some g, w) l y shared_gen (Some g2, w2)) as (m & H).
    + eexists _, _. split; [reflexivity|]. apply shared_pulled, P.
    + exact L.
    + exists m. intros fuel F. eexists. split; [apply H, F|]. left. eexists _, _. split; [reflexivity|]. apply shared_produces, Q.
Qed.
Print Assumptions C85_one_shot_refuted.
(** An infinite source is printed with 101 calls; a one-shot iterator over three elements
    is empty after it was printed. *)
Example C85_example :
  let digit := fun z : Z => if Z.even z then "0"%string else "1"%string in
  snd (repr 200 (fun x => ret (digit x)) (init_infinite (fun i (calls : nat) => (Ret i, S calls))) 0) = 101 /\
  repr 9 (fun x => ret (digit x)) shared (Some (list_gen [4%Z; 5%Z; 6%Z]), tt) = (Ret "[0; 1; 0]"%string, (None, tt)).
Proof. split; vm_compute; reflexivity. Qed.
