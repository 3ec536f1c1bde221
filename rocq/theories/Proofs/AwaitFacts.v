(** Lemmas for C103. *)
From Coq Require Import List Bool Arith Lia.
From Verif.Model Require Import Base Await.
From Verif.Spec Require Import ListM AwaitSpec.
Import ListNotations.

Section Facts.
  Context {W A : Type}.
  Implicit Types (h : objects W A) (c : coro W A).
  Lemma take_takes : forall id h c h1, take_object id h = Some (c, h1) <-> takes id h c h1.
  Proof.
    intros id h. revert id. induction h as [|o h IH]; intros id c h1; cbn.
    - split; [discriminate|]. intros (b & a & E & _). destruct b; discriminate.
    - destruct id as [|id].
      + split.
        * destruct o as [c0|]; [|discriminate]. intros E. injection E as -> <-. exists [], h. repeat split.
        * intros (b & a & E & L & E'). destruct b; [|discriminate]. cbn in *. injection E as -> ->. now subst.
      + split.
        * destruct (take_object id h) as [[c0 h0]|] eqn:T; [|discriminate]. cbn. intros E. injection E as -> <-.
          apply IH in T. destruct T as (b & a & -> & L & ->). exists (o :: b), a. cbn. repeat split. now rewrite L.
        * intros (b & a & E & L & E'). destruct b as [|o' b]; [discriminate|]. cbn in *. injection E as -> ->. injection L as L.
          assert (T : take_object id (b ++ Some c :: a) = Some (c, b ++ None :: a)) by (apply IH; exists b, a; auto).
          rewrite T. cbn. now subst.
  Qed.
  Lemma takes_fresh : forall id h c h1, takes id h c h1 -> fresh h = S (fresh h1).
  Proof.
    intros id h c h1 (b & a & -> & _ & ->). unfold fresh. rewrite !filter_app, !app_length. cbn. lia.
  Qed.
  Lemma ends_fresh : forall c w h r w' h', ends c w h r w' h' -> fresh h' <= fresh h.
  Proof. induction 1; auto. apply takes_fresh in H. lia. Qed.
  Lemma drive_ends : forall limit c w h, fresh h < limit ->
    exists r w' h', drive limit c (w, h) = (r, (w', h')) /\ ends c w h r w' h'.
  Proof.
    induction limit as [|limit IH]; [lia|]. induction c as [r|f k IHc|id k IHc]; intros w h F.
    - do 3 eexists. split; [reflexivity|]. apply ends_give.
    - destruct (IHc w (f w) h F) as (r & w' & h' & E & D). exists r, w', h'. split; [exact E|]. now apply ends_act.
    - destruct (take_object id h) as [[c h1]|] eqn:T.
      + pose proof (proj1 (take_takes _ _ _ _) T) as T'. pose proof (takes_fresh _ _ _ _ T') as FF.
        destruct (IH c w h1 ltac:(lia)) as (r1 & w2 & h2 & E1 & D1). pose proof (ends_fresh _ _ _ _ _ _ D1) as FF2.
        destruct (IHc r1 w2 h2 ltac:(lia)) as (r & w' & h' & E & D). exists r, w', h'. split.
        * cbn in E |- *. rewrite T. cbn [fst snd]. rewrite E1. exact E.
        * eapply ends_await; eauto.
      + destruct (IHc (Raise RuntimeError) w h F) as (r & w' & h' & E & D). exists r, w', h'. split.
        * cbn in E |- *. rewrite T. exact E.
        * apply ends_again; auto. intros c h1 T'. apply take_takes in T'. congruence.
  Qed.
  Lemma ends_det : forall c w h r1 w1 h1, ends c w h r1 w1 h1 -> forall r2 w2 h2, ends c w h r2 w2 h2 -> r1 = r2 /\ w1 = w2 /\ h1 = h2.
  Proof.
    induction 1; intros r2' w2' h2' D; inversion D; subst; auto.
    - apply take_takes in H. match goal with T : takes _ _ _ _ |- _ => apply take_takes in T; rewrite H in T; injection T as <- <- end.
      match goal with D1 : ends c _ _ _ _ _ |- _ => destruct (IHends1 _ _ _ D1) as (-> & -> & ->) end. auto.
    - exfalso. match goal with N : forall c h1, ~ _ |- _ => exact (N _ _ H) end.
    - exfalso. match goal with T : takes _ _ _ _ |- _ => exact (H _ _ T) end.
  Qed.
  Lemma leaving_twice : forall r : res A, leaving (leaving r) = leaving r.
  Proof. intros [a|e]; [reflexivity|]. destruct e; reflexivity. Qed.
  Lemma ends_leaves : forall c w h r w' h', ends c w h r w' h' -> leaving r = r.
  Proof. induction 1; auto. apply leaving_twice. Qed.
  Lemma run_sync_pf : forall limit id c w h h1, takes id h c h1 -> fresh h < limit ->
    exists r w' h', run_synchronously limit false id (w, h) = (r, (w', h')) /\ ends c w h1 r w' h' /\ r <> Raise StopIterationExn.
  Proof.
    intros limit id c w h h1 T F. destruct (drive_ends limit (Await id (fun r => Give r)) w h F) as (r & w' & h' & E & D).
    exists r, w', h'. split; [exact E|]. inversion D; subst.
    - match goal with D2 : ends (Give _) _ _ _ _ _ |- _ => inversion D2; subst end.
      apply take_takes in T. match goal with T2 : takes _ _ _ _ |- _ => apply take_takes in T2; rewrite T in T2; injection T2 as <- <- end.
      match goal with D1 : ends c _ _ _ _ _ |- _ => rewrite (ends_leaves _ _ _ _ _ _ D1); split; [exact D1|] end.
      match goal with D1 : ends c _ _ _ _ _ |- _ => intros Q; pose proof (ends_leaves _ _ _ _ _ _ D1) as L; rewrite Q in L; discriminate end.
    - exfalso. match goal with N : forall c h1, ~ _ |- _ => exact (N _ _ T) end.
  Qed.
  Lemma takes_once : forall id h c h1, takes id h c h1 -> forall c2 h2, ~ takes id h1 c2 h2.
  Proof.
    intros id h c h1 (b & a & -> & L & ->) c2 h2 (b2 & a2 & E & L2 & _).
    assert (b = b2 /\ None :: a = Some c2 :: a2) as [_ X]; [|discriminate].
    { revert b2 E L2. revert id L. induction b as [|x b IH]; intros id L [|y b2] E L2; cbn in *; subst; try discriminate; auto.
      injection E as -> E. injection L2 as L2. destruct (IH _ eq_refl b2 E L2) as [-> X]. auto. }
  Qed.
  Lemma gone_stays : forall id c w h r w' h', ends c w h r w' h' -> (forall c0 h0, ~ takes id h c0 h0) -> forall c0 h0, ~ takes id h' c0 h0.
  Proof.
    intros id c w h r w' h' D. induction D; auto. intros N. apply IHD2. apply IHD1. intros c0 h0 T.
    destruct H as (b & a & -> & L & ->). destruct T as (b2 & a2 & E & L2 & _).
    assert (exists b3 a3, b ++ Some c :: a = b3 ++ Some c0 :: a3 /\ length b3 = id) as (b3 & a3 & E3 & L3).
    { clear - E L2. revert b2 id E L2. induction b as [|x b IH]; intros [|y b2] id E L2; cbn in *; try discriminate.
      - injection E as <- ->. subst. exists (Some c :: b2), a2. auto.
      - injection E as -> E. subst. exists [], (b ++ Some c :: a). auto.
      - injection E as -> E. subst id. destruct (IH b2 _ E eq_refl) as (b3 & a3 & E3 & L3). exists (y :: b3), a3. cbn. rewrite E3, L3. auto. }
    apply (N c0 (b3 ++ None :: a3)). exists b3, a3. auto.
  Qed.
  Lemma run_again_pf : forall limit id w h, 0 < limit -> (forall c h1, ~ takes id h c h1) ->
    run_synchronously limit false id (w, h) = (Raise RuntimeError, (w, h)).
  Proof.
    intros [|limit] id w h L N; [lia|]. unfold run_synchronously. cbn. destruct (take_object id h) as [[c h1]|] eqn:T; [|reflexivity].
    apply take_takes in T. destruct (N _ _ T).
  Qed.
  (** objects [k], [k + 1], ... each await the next one; the last gives [a] *)
  Definition chain (a : A) (k m : nat) : objects W A :=
    repeat None k ++ map (fun i => Some (Await (S i) (fun r => Give r))) (seq k m) ++ [Some (Give (Ret a))].
  Lemma chain_takes : forall a k m, takes k (chain a k (S m)) (Await (S k) (fun r => Give r)) (chain a (S k) m).
  Proof.
    intros a k m. exists (repeat None k), (map (fun i => Some (Await (S i) (fun r => Give r))) (seq (S k) m) ++ [Some (Give (Ret a))]).
    split; [reflexivity|]. split; [apply repeat_length|]. unfold chain. cbn [repeat].
    change (None :: repeat None k) with (repeat (@None (coro W A)) (S k)).
    replace (repeat (@None (coro W A)) (S k)) with (repeat (@None (coro W A)) k ++ [None]); [now rewrite <- app_assoc|].
    clear. induction k as [|k IH]; [reflexivity|]. cbn in *. now rewrite IH.
  Qed.
  Lemma chain_long : forall limit a k m w, limit <= m -> fst (drive limit (Await k (fun r => Give r)) (w, chain a k m)) = Raise RecursionError.
  Proof.
    induction limit as [|limit IH]; intros a k m w L; [reflexivity|]. destruct m as [|m]; [lia|].
    cbn [drive snd]. rewrite (proj2 (take_takes _ _ _ _) (chain_takes a k m)). cbn [fst].
    specialize (IH a (S k) m w ltac:(lia)). destruct (drive limit (Await (S k) _) (w, chain a (S k) m)) as [r s].
    cbn in IH. subst. reflexivity.
  Qed.
  Lemma chain_ends : forall a m k w, exists h', ends (Await k (fun r => Give r)) w (chain a k m) (Ret a) w h'.
  Proof.
    intros a. induction m as [|m IH]; intros k w.
    - eexists. eapply ends_await; [|exact (ends_give (Ret a) w _)|exact (ends_give (Ret a) w _)].
      exists (repeat None k), []. unfold chain. cbn. split; [reflexivity|]. split; [apply repeat_length|reflexivity].
    - destruct (IH (S k) w) as [h' D]. exists h'. eapply ends_await; [apply chain_takes|exact D|exact (ends_give (Ret a) w _)].
  Qed.
  Lemma too_deep_pf : forall limit (w : W) (a : A), exists c h h1 h', takes 0 h c h1 /\ ends c w h1 (Ret a) w h' /\
    fst (run_synchronously limit false 0 (w, h)) = Raise RecursionError.
  Proof.
    intros limit w a. destruct (chain_ends a limit 1 w) as [h' D].
    exists (Await 1 (fun r => Give r)), (chain a 0 (S limit)), (chain a 1 limit), h'.
    split; [apply chain_takes|]. split; [exact D|]. apply chain_long. lia.
  Qed.
End Facts.
