(** Lemmas about Seq.__repr__. *)
From Coq Require Import List ZArith String Lia.
From Verif.Model Require Import Base Gen SeqRepr.
From Verif.Spec Require Import ListM SeqSpec.
From Verif.Proofs Require Import SeqFacts.
Import ListNotations.
Local Open Scope py_scope.

Lemma sapp_assoc : forall a b c : string, ((a ++ b) ++ c = a ++ (b ++ c))%string.
Proof. induction a; intros; cbn; [reflexivity|now rewrite IHa]. Qed.
Lemma sapp_nil : forall a : string, (a ++ "" = a)%string.
Proof. induction a; cbn; [reflexivity|now rewrite IHa]. Qed.

Section Repr.
  Context {W A : Type} (text : A -> string).
  Definition tail_text (l : list A) : string := fold_right (fun x s => "; " ++ text x ++ s)%string ""%string l.
  Lemma concat_tail : forall l x, String.concat "; " (List.map text (x :: l)) = (text x ++ tail_text l)%string.
  Proof.
    induction l as [|y l IH]; intros x; [cbn; now rewrite sapp_nil|].
    change (String.concat "; " (List.map text (x :: y :: l))) with (text x ++ "; " ++ String.concat "; " (List.map text (y :: l)))%string.
    rewrite IH. reflexivity.
  Qed.
  Let body := repr_body (W := W) (fun x => ret (text x)).

  Lemma repr_tail : forall (g : gen W A) w l r w1, produces g w l r w1 -> forall n s, (1 <= n)%Z -> (n + Z.of_nat (List.length l) <= 100)%Z ->
    exists m, forall fuel, m <= fuel -> exists k, for_gen fuel g (n, s) body w =
      (match r with Ret _ => Ret (inl (k, (s ++ tail_text l)%string)) | Raise e => Raise e end, w1).
  Proof.
    intros g w l r w1 P. induction P as [g w w1 E|g w e w1 E|g w g1 w1 l r w2 E P IH|g w x g1 w1 l r w2 E P IH]; intros n s N L.
    - exists 1. intros [|fuel] F; [lia|]. exists n. cbn [for_gen]. unfold bind. rewrite E. cbn. now rewrite sapp_nil.
    - exists 1. intros [|fuel] F; [lia|]. exists n. cbn [for_gen]. unfold bind. rewrite E. reflexivity.
    - destruct (IH n s N L) as (m & H). exists (S m). intros [|fuel] F; [lia|]. cbn [for_gen]. unfold bind. rewrite E. apply H. lia.
    - cbn [List.length] in L. destruct (IH (n + 1)%Z (s ++ ("; " ++ text x))%string ltac:(lia) ltac:(lia)) as (m & H). exists (S m). intros [|fuel] F; [lia|]. cbn [for_gen].
      destruct (H fuel ltac:(lia)) as (k & K). exists k.
      unfold bind at 1. rewrite E. unfold body at 1, repr_body. destruct (Z.eqb_spec n 0); [lia|]. destruct (Z.eqb_spec n 100); [lia|].
      unfold bind, ret at 1 2. fold body. rewrite K. cbn [tail_text fold_right]. now rewrite !sapp_assoc.
  Qed.
  Lemma repr_cut : forall (g : gen W A) w l' g2 w2, pulled g w l' g2 w2 -> forall l y, l' = l ++ [y] -> forall n s, (1 <= n)%Z -> (n + Z.of_nat (List.length l) = 100)%Z ->
    exists m, forall fuel, m <= fuel -> for_gen fuel g (n, s) body w = (Ret (inr (s ++ tail_text l ++ "; ...")%string), w2).
  Proof.
    intros g w l' g2 w2 P. induction P as [g w|g w g1 w1 x l g2 w2 E P IH|g w x g1 w1 l g2 w2 E P IH]; intros l0 y Q n s N L.
    - destruct l0; discriminate.
    - destruct (IH _ _ Q n s N L) as (m & H). exists (S m). intros [|fuel] F; [lia|]. cbn [for_gen]. unfold bind. rewrite E. apply H. lia.
    - destruct l0 as [|x0 l0]; injection Q; intros; subst.
      + cbn in L. inversion P; subst. exists 1. intros [|fuel] F; [lia|]. cbn [for_gen]. unfold bind at 1. rewrite E. unfold body at 1, repr_body.
        destruct (Z.eqb_spec n 0); [lia|]. destruct (Z.eqb_spec n 100); [|lia]. reflexivity.
      + cbn [List.length] in L. destruct (IH l0 y eq_refl (n + 1)%Z (s ++ ("; " ++ text x0))%string ltac:(lia) ltac:(lia)) as (m & H). exists (S m). intros [|fuel] F; [lia|]. cbn [for_gen].
        unfold bind at 1. rewrite E. unfold body at 1, repr_body. destruct (Z.eqb_spec n 0); [lia|]. destruct (Z.eqb_spec n 100); [lia|].
        unfold bind, ret at 1 2. fold body. rewrite H by lia. cbn [tail_text fold_right]. now rewrite !sapp_assoc.
  Qed.

  Lemma repr_short_pf : forall (src : iterable W A) w l r w1, iterates src w l r w1 -> List.length l <= 100 ->
    exists m, forall fuel, m <= fuel -> repr fuel (fun x => ret (text x)) src w =
      (match r with Ret _ => Ret ("[" ++ String.concat "; " (List.map text l) ++ "]")%string | Raise e => Raise e end, w1).
  Proof.
    intros src w l r w1 [(g & w0 & O & P)|(e & O & -> & ->)] L; [|exists 0; intros fuel _; unfold repr, bind; rewrite O; reflexivity].
    assert (H : exists m, forall fuel, m <= fuel -> exists k, for_gen fuel g (0%Z, "["%string) body w0 =
      (match r with Ret _ => Ret (inl (k, ("[" ++ String.concat "; " (List.map text l))%string)) | Raise e => Raise e end, w1)).
    { clear O. induction P as [g w1 w2 E|g w1 e w2 E|g w1 g1 w2 l r w3 E P IH|g w1 x g1 w2 l r w3 E P IH].
      - exists 1. intros [|fuel] F; [lia|]. exists 0%Z. cbn [for_gen]. unfold bind. rewrite E. reflexivity.
      - exists 1. intros [|fuel] F; [lia|]. exists 0%Z. cbn [for_gen]. unfold bind. rewrite E. reflexivity.
      - destruct (IH L) as (m & H). exists (S m). intros [|fuel] F; [lia|]. cbn [for_gen]. unfold bind. rewrite E. apply H. lia.
      - cbn [List.length] in L. destruct (repr_tail _ _ _ _ _ P 1%Z ("[" ++ text x)%string ltac:(lia) ltac:(lia)) as (m & H). exists (S m). intros [|fuel] F; [lia|].
        destruct (H fuel ltac:(lia)) as (k & K). exists k. cbn [for_gen]. unfold bind at 1. rewrite E. unfold body at 1, repr_body. unfold bind, ret at 1 2. cbn [Z.eqb Z.add].
        fold body. rewrite K, concat_tail. now rewrite !sapp_assoc. }
    destruct H as (m & H). exists m. intros fuel F. destruct (H fuel F) as (k & K). unfold repr. fold body. unfold bind. rewrite O, K. destruct r as [[]|e]; [|reflexivity].
    unfold ret. now rewrite !sapp_assoc.
  Qed.
  Lemma repr_long_pf : forall (src : iterable W A) w l y g2 w2, pulls src w (l ++ [y]) g2 w2 -> List.length l = 100 ->
    exists m, forall fuel, m <= fuel -> repr fuel (fun x => ret (text x)) src w =
      (Ret ("[" ++ String.concat "; " (List.map text l) ++ "; ...]")%string, w2).
  Proof.
    intros src w l y g2 w2 (g & w0 & O & P) L. destruct l as [|x l]; [discriminate|].
    assert (H : exists m, forall fuel, m <= fuel -> for_gen fuel g (0%Z, "["%string) body w0 =
      (Ret (inr ("[" ++ String.concat "; " (List.map text (x :: l)) ++ "; ...")%string), w2)).
    { clear O. remember ((x :: l) ++ [y]) as l' eqn:Q. induction P as [g w1|g w1 g1 w2 z l' g2 w3 E P IH|g w1 z g1 w2 l' g2 w3 E P _].
      - discriminate.
      - destruct (IH Q) as (m & H). exists (S m). intros [|fuel] F; [lia|]. cbn [for_gen]. unfold bind. rewrite E. apply H. lia.
      - injection Q; intros -> ->. cbn [List.length] in L. destruct (repr_cut _ _ _ _ _ P l y eq_refl 1%Z ("[" ++ text x)%string ltac:(lia) ltac:(lia)) as (m & H). exists (S m).
        intros [|fuel] F; [lia|]. cbn [for_gen]. unfold bind at 1. rewrite E. unfold body at 1, repr_body. unfold bind, ret at 1 2. cbn [Z.eqb Z.add].
        fold body. rewrite H, concat_tail by lia. now rewrite !sapp_assoc. }
    destruct H as (m & H). exists m. intros fuel F. unfold repr. fold body. unfold bind. rewrite O, H by exact F. unfold ret. now rewrite !sapp_assoc.
  Qed.
End Repr.
