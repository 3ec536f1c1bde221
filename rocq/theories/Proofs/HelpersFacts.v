(** Decorating a helper. *)
From Coq Require Import List Lia.
From Verif.Model Require Import Base OptionResult Builder Mixed Handlers.
From Verif.Spec Require Import BuilderSpec MixedSpec HandlersSpec HelpersSpec.
From Verif.Proofs Require Import HandlersFacts.
Import ListNotations.

Section Helpers.
  Context {W A Er : Type}.
  Notation V := (pyopt A).
  Notation N := (outcome A Er).
  Notation body := (prog W V N).
  Notation meaning := (@meaning W A Er).
  Definition alike (m m' : meaning) : Prop := forall w, comes_to m w = comes_to m' w.

  Lemma al_refl : forall m, alike m m.
  Proof. intros m w. reflexivity. Qed.
  Lemma al_then : forall m m' f f', alike m m' -> (forall c, alike (f c) (f' c)) -> alike (then_ m f) (then_ m' f').
  Proof.
    intros m m' f f' H HF w. specialize (H w). unfold comes_to, then_ in *. destruct (m w) as [[vs c] w1], (m' w) as [[vs' c'] w1'].
    injection H as <- <-. specialize (HF c w1). unfold comes_to in HF. destruct (f c w1) as [[us d] w2], (f' c w1) as [[us' d'] w2']. exact HF.
  Qed.
  Lemma al_effect : forall X (m : M W X) f f', (forall x, alike (f x) (f' x)) -> alike (effect m f) (effect m f').
  Proof. intros X m f f' HF w. unfold effect, comes_to. destruct (m w) as [[x|e] w1]; [exact (HF x w1)|reflexivity]. Qed.
  Lemma al_yields : forall v m m', alike m m' -> alike (yields v m) (yields v m').
  Proof. intros v m m' H w. specialize (H w). unfold comes_to, yields in *. destruct (m w) as [[vs c] w1], (m' w) as [[vs' c'] w1']. exact H. Qed.
  Lemma al_yields_drop : forall v m m', alike m m' -> alike m (yields v m').
  Proof. intros v m m' H w. specialize (H w). unfold comes_to, yields in *. destruct (m w) as [[vs c] w1], (m' w) as [[vs' c'] w1']. exact H. Qed.

  (** a decorated helper against a plain one *)
  Lemma al_helper : forall (helper : body) (m : M W N) (value : list V -> completion V N -> res N) f f',
    (forall w vs c w1, means false helper w = (vs, c, w1) -> m w = (value vs c, w1)) ->
    (forall w vs c w1, means false helper w = (vs, c, w1) ->
       match c with
       | CReturn v => exists u, value vs c = Ret u /\ inside u = Some v
       | CRaise (RFail u) => value vs c = Ret u /\ inside u = None
       | CRaise (RThrow e) => value vs c = Raise (match e with StopIterationExn => RuntimeError | _ => e end)
       | _ => exists u, value vs c = Ret u /\ inside u = Some PyNone
       end) ->
    (forall v, alike (f v) (f' v)) ->
    alike (delegate (means false helper) f)
          (effect m (fun u => match inside u with Some v => yields v (f' v) | None => at_once (CRaise (RFail u)) end)).
  Proof.
    intros helper m value f f' Hm Hv HF w. unfold comes_to, delegate, then_, effect. destruct (means false helper w) as [[vs c] w1] eqn:Q.
    rewrite (Hm _ _ _ _ Q). specialize (Hv _ _ _ _ Q).
    assert (G : forall v, (let '(_, c0, w2) := let '(us, d, w2) := f v w1 in (vs ++ us, d, w2) in (c0, w2)) = (let '(_, c0, w2) := yields v (f' v) w1 in (c0, w2))).
    { intros v. specialize (HF v w1). unfold comes_to, yields in *. destruct (f v w1) as [[us d] w2], (f' v w1) as [[us' d'] w2']. exact HF. }
    destruct c as [v|v|[u|e]|v|v].
    - destruct Hv as (u & -> & I). rewrite I. apply G.
    - destruct Hv as (u & -> & I). rewrite I. apply G.
    - destruct Hv as (-> & I). rewrite I. reflexivity.
    - rewrite Hv. destruct e; reflexivity.
    - destruct Hv as (u & -> & I). rewrite I. apply G.
    - destruct Hv as (u & -> & I). rewrite I. apply G.
  Qed.

  Lemma decorating_alike : forall p p' : body, decorating p p' -> alike (means false p) (means false p').
  Proof.
    induction 1 as [p|helper m k k' G D Hk IH|helper m k k' G D Hk IH|q q' k k' Hq IHq Hk IHk|m k k' Hk IHk|v k k' Hk IHk|m k k' Hk IHk
                   |p p' catches h h' f f' k k' Hp IHp Hh IHh Hf IHf Hk IHk|p p' exit k k' Hp IHp Hk IHk|xs v p p' k k' Hp IHp Hk IHk]; cbn [means].
    - apply al_refl.
    - apply al_helper with (value := fun vs c => expression_value (UOpt None) (fun v => UOpt (Some v)) vs (ends false c)); [| |exact IH].
      + intros w vs c w1 Q. exact (settles_same _ _ _ _ (D w) (option_call _ _ _ _ _ Q)).
      + intros w vs c w1 Q. specialize (G _ _ _ _ Q). destruct c as [v|[|v]|[u|e]|v|v]; try contradiction; cbn.
        * eexists. split; reflexivity.
        * split; [reflexivity|exact G].
        * destruct e; try reflexivity. contradiction G. reflexivity.
    - apply al_helper with (value := fun vs c => expression_value (URes (Ok PyNone)) (fun v => URes (Ok v)) vs (ends false c)); [| |exact IH].
      + intros w vs c w1 Q. exact (settles_same _ _ _ _ (D w) (result_call _ _ _ _ _ Q)).
      + intros w vs c w1 Q. specialize (G _ _ _ _ Q). destruct c as [v|[|v]|[u|e]|v|v]; try (subst vs); cbn.
        * eexists. split; reflexivity.
        * eexists. split; reflexivity.
        * eexists. split; reflexivity.
        * split; [reflexivity|exact G].
        * destruct e; try reflexivity. contradiction G. reflexivity.
        * eexists. split; reflexivity.
        * eexists. split; reflexivity.
    - unfold delegate. apply al_then; [exact IHq|]. intros [v|v|[u|[]]|v|v]; try apply al_refl; apply IHk.
    - apply al_effect. exact IHk.
    - apply al_yields, IHk.
    - apply al_effect. intros u. destruct (inside u); [apply al_yields, IHk|apply al_refl].
    - unfold and_then, finally, except. apply al_then.
      + apply al_then.
        * apply al_then; [exact IHp|]. intros [v|v|x|v|v]; try apply al_refl. destruct (catches x); [apply IHh|apply al_refl].
        * intros c. apply al_then; [exact IHf|]. intros d. apply al_refl.
      + intros [v|v|x|v|v]; try apply al_refl. apply IHk.
    - unfold and_then, with_. apply al_then.
      + apply al_then; [exact IHp|]. intros c. apply al_refl.
      + intros [v|v|x|v|v]; try apply al_refl. apply IHk.
    - unfold and_then. apply al_then; [|intros [u|u|x|u|u]; try apply al_refl; apply IHk].
      clear Hk IHk. revert v. induction xs as [|x xs IH]; intros v; [apply al_refl|]. cbn [for_]. apply al_then; [apply IHp|].
      intros [u|u|y|u|u]; try apply al_refl; apply IH.
  Qed.

  Lemma value_settled : forall zero (pure : V -> N) vs vs' c, settled_end c -> expression_value zero pure vs (ends false c) = expression_value zero pure vs' (ends false c).
  Proof. intros zero pure vs vs' [v|[|v]|[u|[]]|v|v] H; try contradiction; reflexivity. Qed.

  Lemma decorated_same : forall (p p' : body) w vs c w1, decorating p p' -> means false p w = (vs, c, w1) -> settled_end c ->
    exists vs', means false p' w = (vs', c, w1).
  Proof.
    intros p p' w vs c w1 D Q S. pose proof (decorating_alike p p' D w) as L. unfold comes_to in L. rewrite Q in L.
    destruct (means false p' w) as [[vs' c'] w1']. injection L as <- <-. exists vs'. reflexivity.
  Qed.
End Helpers.
