(** Lemmas for C110. *)
From Coq Require Import List Bool String.
From Verif.Model Require Import Base OptionResult Builder Extra TryClass.
From Verif.Spec Require Import BuilderSpec CustomBuilderSpec TrySpec.
From Verif.Proofs Require Import BuilderFacts BuilderFacts2 CustomBuilderFacts MixedFacts.
Import ListNotations.
Local Open Scope py_scope.

Ltac run m := destruct m as [[?|?] ?]; cbn; try reflexivity.

Section Facts.
  Context {W A B C E F : Type}.
  Implicit Types self : kresult A E.

  Lemma forget_map : forall X Y (self : kresult X E) (f : X -> M W Y), forget (k_map self f) ==m res_map (snd self) f.
  Proof.
    intros X Y [k [a|e]] f w; cbn; unfold forget, bind, ret, k_map; cbn; [|reflexivity]. unfold bind. run (f a w).
  Qed.
  Lemma forget_map2 : forall self (other : kresult B E) (f : A -> B -> M W C),
    forget (k_map2 self other f) ==m res_map2 (snd self) (snd other) f.
  Proof. intros [k [a|e]] other f; [exact (forget_map _ _ other (f a))|intros w; reflexivity]. Qed.
  Lemma forget_apply : forall self (function : kresult (A -> M W B) E),
    forget (k_apply self function) ==m res_apply (snd self) (snd function).
  Proof. intros self [k [f|e]]; [exact (forget_map _ _ self f)|intros w; reflexivity]. Qed.
  Lemma forget_map_error : forall self (f : E -> M W F), forget (k_map_error self f) ==m res_map_error (snd self) f.
  Proof.
    intros [k [a|e]] f w; cbn; unfold forget, bind, ret, k_map_error; cbn; [reflexivity|]. unfold bind. run (f e w).
  Qed.
  Lemma forget_bind : forall self (f : A -> M W (kresult B E)),
    forget (k_bind self f) ==m res_bind (snd self) (fun a => forget (f a)).
  Proof. intros [k [a|e]] f w; reflexivity. Qed.
  Lemma forget_filter : forall self (p : A -> M W bool) default,
    forget (k_filter self p default) ==m res_filter (snd self) p default.
  Proof.
    intros [k [a|e]] p default w; cbn; unfold forget, k_filter; cbn; unfold bind; [|reflexivity].
    destruct (p a w) as [[[|]|]]; reflexivity.
  Qed.
  Lemma forget_filter_with : forall self (p : A -> M W bool) default,
    forget (k_filter_with self p default) ==m res_filter_with (snd self) p default.
  Proof.
    intros [k [a|e]] p default w; cbn; unfold forget, k_filter_with; cbn; unfold bind; [|reflexivity].
    destruct (p a w) as [[[|]|] w1]; try reflexivity. run (default a w1).
  Qed.
  Lemma forget_or_else_with : forall self (other : E -> M W (kresult A E)),
    forget (k_or_else_with self other) ==m res_or_else_with (snd self) (fun e => forget (other e)).
  Proof. intros [k [a|e]] other w; reflexivity. Qed.

  Lemma gives_map : forall X Y (self : kresult X E) (f : X -> M W Y), gives (k_map self f) is_plain_result.
  Proof.
    intros X Y [k [a|e]] f w x w'; unfold k_map, bind, ret; cbn.
    - destruct (f a w) as [[?|?] ?]; intros [= <- _]; reflexivity.
    - intros [= <- _]; reflexivity.
  Qed.
  Lemma gives_fresh : forall self (other : kresult B E) (function : kresult (A -> M W B) E) (f : A -> B -> M W C) (g : E -> M W F),
    gives (k_map2 self other f) is_plain_result /\ gives (k_apply self function) is_plain_result /\
    gives (k_map_error self g) is_plain_result /\ is_plain_result (k_swap self).
  Proof.
    intros self other function f g. split; [|split; [|split]].
    - unfold k_map2. destruct (snd self) as [a|e]; [apply gives_map|]. intros w x w' [= <- _]; reflexivity.
    - unfold k_apply. destruct (snd function) as [a|e]; [apply gives_map|]. intros w x w' [= <- _]; reflexivity.
    - unfold k_map_error. destruct (snd self) as [a|e]; intros w x w'; unfold bind, ret; cbn.
      + intros [= <- _]; reflexivity.
      + destruct (g e w) as [[?|?] ?]; intros [= <- _]; reflexivity.
    - unfold k_swap. destruct (snd self); reflexivity.
  Qed.

  Lemma gives_filter : forall self (p : A -> M W bool) default (dw : A -> M W E),
    gives (k_filter self p default) (fun x => x = self \/ (is_plain_result x /\ snd x = Err default)) /\
    gives (k_filter_with self p dw) (fun x => x = self \/ (is_plain_result x /\ exists e, snd x = Err e)).
  Proof.
    intros [k [a|e]] p default dw; unfold k_filter, k_filter_with; cbn; split; intros w x w'; unfold bind, ret; cbn;
      try (intros [= <- _]; now left).
    - destruct (p a w) as [[[|]|] w1]; intros [= <- _]; [now left|right; split; reflexivity].
    - destruct (p a w) as [[[|]|] w1]; [intros [= <- _]; now left| |discriminate].
      destruct (dw a w1) as [[?|?] ?]; intros [= <- _]. right; split; [reflexivity|eexists; reflexivity].
  Qed.
  Lemma gives_or_else : forall self (other : kresult A E) (ow : E -> M W (kresult A E)),
    is_try self -> is_try other -> (forall e, gives (ow e) is_try) ->
    is_try (k_or_else self other) /\ gives (k_or_else_with self ow) is_try.
  Proof.
    intros [k [a|e]] other ow S O G; cbn; split; auto; unfold k_or_else_with; cbn.
    intros w x w' [= <- _]. exact S.
  Qed.
  Lemma gives_bind : forall self (f : A -> M W (kresult B E)),
    (forall a, snd self = Ok a -> k_bind self f ==m f a) /\
    (forall e, snd self = Err e -> k_bind self f ==m ret (mkError e)).
  Proof. intros [k [a|e]] f; split; cbn; intros x E1; try discriminate; injection E1 as <-; intros w; reflexivity. Qed.

  Lemma pipeline_last : forall (fns : list (A -> M W (kresult A E))) f x,
    k_pipeline (fns ++ [f]) x ==m (do r <- k_pipeline fns x; k_bind r f).
  Proof. intros fns f x w. unfold k_pipeline. now rewrite fold_left_app. Qed.

  Lemma catch_pf : forall X matches inj (fn : X -> M W (A + kresult A E)) x w,
    match fn x w with
    | (Ret (inr r), w') => k_catch matches inj fn x w = (Ret r, w')
    | (Ret (inl a), w') => k_catch matches inj fn x w = (Ret (mkOk a), w')
    | (Raise e, w') => k_catch matches inj fn x w = (if matches e then Ret (mkError (inj e)) else Raise e, w')
    end.
  Proof. intros. unfold k_catch. destruct (fn x w) as [[[?|?]|e] ?]; try reflexivity. destruct (matches e); reflexivity. Qed.
End Facts.

Lemma try_call_pf : forall W A E St (resume : St -> pyopt A -> W -> node (pyopt A) (kresult (pyopt A) E) St * W) s w r w1, r <> Raise OutOfFuel ->
  (settles (fun fuel => call_gen try_builder resume fuel s w) (r, w1) <->
   exists vs e, body_gives resume s PyNone w vs e w1 /\ r = expression_value (mkOk PyNone) mkOk vs e).
Proof.
  intros W A E St resume s w r w1 N. rewrite (custom_call_pf try_builder resume) by (exact N || (intros ? ? ? ?; reflexivity) || (intros ? ?; reflexivity)).
  split; intros (vs & e & B & ->); exists vs, e; (split; [exact B|]); [|symmetry];
    apply (mixed_value try_builder mkOk); reflexivity.
Qed.
