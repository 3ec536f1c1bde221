(** The statements of C123 from the lemmas about sharing. *)
From Coq Require Import List Bool Arith Lia.
From Verif.Model Require Import Base MapTree Map MapShare.
From Verif.Spec Require Import MapSpec MapShareSpec.
From Verif.Proofs Require Import KeyOrdFacts MapTreeFacts MapTreeMonadic MapFacts MapMain MapDepthFacts MapShareFacts MapShareFacts2.
Import ListNotations.
Local Open Scope nat_scope.
Local Open Scope py_scope.

Section Facts.
  Context {U K V : Type} {KO : KeyOrd K}.

  Lemma within_composed : forall (m : itree K V) cs m', within [m] cs m' -> composed m cs m'.
  Proof. intros m cs m' W t P. destruct (W t P) as [->|[I|(x & [<-|[]] & Q)]]; auto. Qed.
  Lemma within_new : forall V (cs : list (itree K V)) m', within [] cs m' -> composed IEmpty cs m'.
  Proof. intros V0 cs m' W t P. destruct (W t P) as [->|[I|(x & [] & Q)]]; auto. Qed.

  Lemma made_shares : forall (e : M (nat * U) (itree K V)) x m b n u u', made_like e x [m] b n u u' ->
    exists cs, created n cs /\ length cs <= b /\
      match x with
      | Ret x => exists m', e (n, u) = (Ret m', (n + length cs, u')) /\ forget m' = x /\ composed m cs m'
      | Raise x => e (n, u) = (Raise x, (n + length cs, u'))
      end.
  Proof.
    intros e x m b n u u' (cs & L & M). exists cs. destruct x as [x|x].
    - destruct M as (m' & [C G] & F & W). split; [exact C|]. split; [exact L|]. exists m'. split; [exact G|]. split; [exact F|]. now apply within_composed.
    - destruct M as [C G]. auto.
  Qed.

  Lemma mk_new : forall (t1 : itree K V) k v (t2 : itree K V) n (u : U) m' w, i_mk t1 k v t2 (n, u) = (Ret m', w) -> number_of m' = Some n.
  Proof. intros t1 k v t2 n u m' w. unfold i_mk. match goal with |- context [if ?b then _ else _] => destruct b end; cbn; intros E; injection E as <- <-; reflexivity. Qed.
  Lemma mk_next : forall (t1 : itree K V) k v (t2 : itree K V) n (u : U) m' n' u', i_mk t1 k v t2 (n, u) = (Ret m', (n', u')) -> n <= n'.
  Proof. intros t1 k v t2 n u m' n' u'. unfold i_mk. match goal with |- context [if ?b then _ else _] => destruct b end; cbn; intros E; injection E as <- <- <-; lia. Qed.
  Lemma mk_root : forall (t1 : itree K V) k v (t2 : itree K V) n (u : U) m' w b, b <= n -> i_mk t1 k v t2 (n, u) = (Ret m', w) -> exists i, number_of m' = Some i /\ b <= i.
  Proof. intros t1 k v t2 n u m' w b L E. exists n. split; [exact (mk_new _ _ _ _ _ _ _ _ E)|exact L]. Qed.

  Ltac step_mk := match goal with
    | E : bind (i_mk ?a ?k ?v ?b) ?f (?n, ?u) = _ |- _ =>
        unfold bind at 1 in E; let F := fresh "F" in
        destruct (i_mk a k v b (n, u)) as [[?|?] [? ?]] eqn:F; [apply mk_next in F|discriminate E]
    end.
  Lemma rebalance_root : forall (t1 : itree K V) k v (t2 : itree K V) n (u : U) m' w, i_rebalance t1 k v t2 (n, u) = (Ret m', w) -> exists i, number_of m' = Some i /\ n <= i.
  Proof.
    intros t1 k v t2 n u m' w E. unfold i_rebalance in E. cbv zeta in E.
    repeat match type of E with
      | context [if ?b then _ else _] => destruct b
      | context [match ?t with IEmpty => _ | ILeaf _ _ _ => _ | INode _ _ _ _ _ _ => _ end] => destruct t; try discriminate E
      end; repeat step_mk; (eapply mk_root; [|exact E]); lia.
  Qed.

  Lemma rebalance_state : forall (t1 : itree K V) k v (t2 : itree K V) n (u : U) r n' u', i_rebalance t1 k v t2 (n, u) = (r, (n', u')) -> n <= n'.
  Proof.
    intros t1 k v t2 n u r n' u' E. destruct (rebalance_made (U := U) t1 k v t2 n u) as (cs & _ & M).
    destruct (rebalance (forget t1) k v (forget t2)) as [x|x].
    - destruct M as (m & [_ G] & _). rewrite G in E. injection E as <- <- <-. lia.
    - destruct M as [_ G]. rewrite G in E. injection E as <- <- <-. lia.
  Qed.
  Lemma remove_state : forall k (m : itree K V) n (u : U) r n' u', i_remove k m (n, u) = (r, (n', u')) -> n <= n'.
  Proof.
    intros k m n u r n' u' E. destruct (remove_made (U := U) k m n u) as (cs & _ & M). destruct (remove k (forget m)) as [x|x].
    - destruct M as (m2 & [_ G] & _). rewrite G in E. injection E as <- <- <-. lia.
    - destruct M as [_ G]. rewrite G in E. injection E as <- <- <-. lia.
  Qed.

  Lemma remove_copies : forall k i key value l r h n (u : U) m' w, eqb k key = false ->
    i_remove k (INode (V := V) i key value l r h) (n, u) = (Ret m', w) -> exists j, number_of m' = Some j /\ n <= j.
  Proof.
    intros k i key value l r h n u m' w N E. cbn [i_remove] in E. rewrite N in E.
    destruct (ltb k key); unfold bind in E.
    - destruct (i_remove k l (n, u)) as [[l'|x] [n1 u1]] eqn:F; [|discriminate]. apply remove_state in F. apply rebalance_root in E as (j & E & L). exists j. split; [exact E|lia].
    - destruct (i_remove k r (n, u)) as [[r'|x] [n1 u1]] eqn:F; [|discriminate]. apply remove_state in F. apply rebalance_root in E as (j & E & L). exists j. split; [exact E|lia].
  Qed.
End Facts.
