(** Iterations that do not disturb each other. *)
From Coq Require Import List Arith Lia.
From Verif.Model Require Import Base Gen MapTree Interleave.
From Verif.Spec Require Import SeqSpec MapSpec InterleaveSpec.
From Verif.Proofs Require Import MapTreeFacts MapTreeMonadic SeqFacts2.
Import ListNotations.

Section Steady.
  Context {W A : Type} (I : W -> Prop).
  (** [next] with fuel [F] or more hands out [l] and then ends *)
  Inductive hands (F : nat) : gen W A -> list A -> Prop :=
  | h_end : forall g, (forall fuel w, F <= fuel -> I w -> exists w1, next_of fuel g w = (Ret None, w1) /\ I w1) -> hands F g []
  | h_more : forall g x g1 l, (forall fuel w, F <= fuel -> I w -> exists w1, next_of fuel g w = (Ret (Some (x, g1)), w1) /\ I w1) ->
      hands F g1 l -> hands F g (x :: l).
  Lemma hands_le : forall F F' g l, hands F g l -> F <= F' -> hands F' g l.
  Proof.
    intros F F' g l H L. induction H as [g H|g x g1 l H _ IH].
    - apply h_end. intros fuel w Lf. apply H. lia.
    - eapply h_more; [|exact IH]. intros fuel w Lf. apply H. lia.
  Qed.
  Lemma steady_hands : forall g l, steady I g l -> exists F, hands F g l.
  Proof.
    induction 1 as [g H|g g1 l H _ [F IH]|g x g1 l H _ [F IH]].
    - exists 1. apply h_end. intros [|fuel] w L Iw; [lia|]. destruct (H w Iw) as (w1 & E & I1). exists w1. cbn [next_of]. unfold bind. rewrite E. auto.
    - exists (S F). inversion IH as [g' Hn|g' x g2 l' Hn Hh]; subst.
      + apply h_end. intros [|fuel] w L Iw; [lia|]. destruct (H w Iw) as (w1 & E & I1). destruct (Hn fuel w1 ltac:(lia) I1) as (w2 & E2 & I2).
        exists w2. cbn [next_of]. unfold bind. rewrite E. auto.
      + eapply h_more; [|apply (hands_le F); [exact Hh|lia]]. intros [|fuel] w L Iw; [lia|]. destruct (H w Iw) as (w1 & E & I1). destruct (Hn fuel w1 ltac:(lia) I1) as (w2 & E2 & I2).
        exists w2. cbn [next_of]. unfold bind. rewrite E. auto.
    - exists (S F). eapply h_more; [|apply (hands_le F); [exact IH|lia]]. intros [|fuel] w L Iw; [lia|]. destruct (H w Iw) as (w1 & E & I1). exists w1.
      cbn [next_of]. unfold bind. rewrite E. auto.
  Qed.

  (** ** the table *)
  Definition entry (F : nat) (o : option (gen W A)) (l : list A) : Prop :=
    match o with Some g => hands F g l | None => l = [] end.
  Lemma put_nth : forall X j (x : X) l d, j < length l -> nth j (put j x l) d = x.
  Proof. induction j as [|j IH]; intros x [|y l] d L; cbn in *; try lia; auto. apply IH. lia. Qed.
  Lemma put_other : forall X j i (x : X) l d, i <> j -> nth i (put j x l) d = nth i l d.
  Proof. induction j as [|j IH]; intros [|i] x [|y l] d N; cbn; auto; try congruence. Qed.
  Lemma put_entry : forall F j o l t ls, Forall2 (entry F) t ls -> entry F o l -> Forall2 (entry F) (put j o t) (put j l ls).
  Proof.
    intros F j o l t ls H E. revert j. induction H as [|a b t ls Hab H IH]; intros j; destruct j; cbn; constructor; auto.
  Qed.
  Lemma entry_nth : forall F t ls j, Forall2 (entry F) t ls -> j < length ls -> exists o, nth_error t j = Some o /\ entry F o (nth j ls []).
  Proof.
    intros F t ls j H. revert j. induction H as [|a b t ls Hab H IH]; intros [|j] L; cbn in *; try lia; eauto. apply IH. lia.
  Qed.
  Lemma alone_nil : forall n, alone (A := A) [] n = repeat Ended n.
  Proof. intros n. unfold alone. rewrite firstn_nil. cbn. now rewrite Nat.sub_0_r. Qed.

  Lemma consume_ok : forall F (it : iterable W A) l, (exists g, (forall w, I w -> exists w1, it w = (Ret g, w1) /\ I w1) /\ hands F g l) ->
    forall fuel, F <= fuel -> forall es t ls w, Forall2 (entry F) t ls -> I w -> proper I (length ls) es ->
    exists os t' w', consume fuel it es t w = (os, (t', w')) /\ I w' /\ length os = length es /\
      forall j, heard j es os = alone (nth j ls l) (asked j es).
  Proof.
    intros F it l (g & O & Hg) fuel Lf. induction es as [|e es IH]; intros t ls w Ht Iw P.
    - exists [], t, w. repeat split; auto.
    - destruct e as [|j|f]; cbn [proper] in P; cbn [consume happens].
      + destruct (O w Iw) as (w1 & E & I1). rewrite E.
        destruct (IH (t ++ [Some g]) (ls ++ [l]) w1) as (os & t' & w' & E' & I' & L' & H'); auto.
        { apply Forall2_app; auto. }
        { rewrite app_length. cbn. now rewrite Nat.add_1_r. }
        rewrite E'. exists (Opened :: os), t', w'. cbn. repeat split; auto. intros j. rewrite H'. f_equal.
        destruct (lt_dec j (length ls)); [now rewrite app_nth1|]. rewrite app_nth2 by lia. rewrite (nth_overflow ls) by lia.
        destruct (j - length ls) as [|[|?]]; reflexivity.
      + destruct P as [Lj P]. destruct (entry_nth F t ls j Ht Lj) as (o & No & Eo). rewrite No.
        assert (Nj : nth j ls l = nth j ls []) by (apply nth_indep; auto).
        assert (Pl : forall x, length (put j x ls) = length ls). { clear. intros x. revert j. induction ls as [|a ls IHl]; intros [|j]; cbn; auto. }
        destruct o as [h|]; cbn [entry] in Eo.
        * destruct (nth j ls []) as [|x r] eqn:Er; inversion Eo as [g' Hn|g' x' g2 l' Hn Hh]; subst.
          -- destruct (Hn fuel w Lf Iw) as (w1 & E & I1). rewrite E.
             destruct (IH (put j None t) (put j [] ls) w1) as (os & t' & w' & E' & I' & L' & H'); auto.
             { apply put_entry; cbn; auto. } { now rewrite Pl. }
             rewrite E'. exists (Ended :: os), t', w'. cbn [length]. repeat split; auto. intros i. cbn [heard asked]. rewrite H'.
             destruct (Nat.eqb_spec j i) as [<-|Ne].
             ++ rewrite put_nth by auto. rewrite Nj, !alone_nil. reflexivity.
             ++ rewrite put_other by auto. reflexivity.
          -- destruct (Hn fuel w Lf Iw) as (w1 & E & I1). rewrite E.
             destruct (IH (put j (Some g2) t) (put j r ls) w1) as (os & t' & w' & E' & I' & L' & H'); auto.
             { apply put_entry; cbn; auto. } { now rewrite Pl. }
             rewrite E'. exists (Got x :: os), t', w'. cbn [length]. repeat split; auto. intros i. cbn [heard asked]. rewrite H'.
             destruct (Nat.eqb_spec j i) as [<-|Ne].
             ++ rewrite put_nth by auto. rewrite Nj. reflexivity.
             ++ rewrite put_other by auto. reflexivity.
        * destruct (IH t ls w) as (os & t' & w' & E' & I' & L' & H'); auto.
          rewrite E'. exists (Ended :: os), t', w'. cbn [length]. repeat split; auto. intros i. cbn [heard asked]. rewrite H'.
          destruct (Nat.eqb_spec j i) as [<-|Ne]; [|reflexivity]. rewrite Nj, Eo, !alone_nil. reflexivity.
      + destruct P as [Pf P]. destruct (IH t ls (f w)) as (os & t' & w' & E' & I' & L' & H'); auto.
        rewrite E'. exists (Done :: os), t', w'. cbn. repeat split; auto.
  Qed.

  (** ** a for loop *)
  Lemma loop_ok : forall g l, steady I g l -> exists N, forall S R (body : S -> A -> M W (S + R)) (F : S -> A -> S) fuel, N <= fuel ->
    (forall s x w, I w -> exists w1, body s x w = (Ret (inl (F s x)), w1) /\ I w1) ->
    forall s w, I w -> exists w1, for_gen fuel g s body w = (Ret (inl (fold_left F l s)), w1) /\ I w1.
  Proof.
    intros g l H. induction H as [g H|g g1 l H _ [N IH]|g x g1 l H _ [N IH]].
    - exists 1. intros S R body F [|fuel] L Hb s w Iw; [lia|]. destruct (H w Iw) as (w1 & E & I1). exists w1. cbn [for_gen]. unfold bind. rewrite E. auto.
    - exists (Datatypes.S N). intros S R body F [|fuel] L Hb s w Iw; [lia|]. destruct (H w Iw) as (w1 & E & I1). cbn [for_gen]. unfold bind. rewrite E.
      apply IH; auto; lia.
    - exists (Datatypes.S N). intros S R body F [|fuel] L Hb s w Iw; [lia|]. destruct (H w Iw) as (w1 & E & I1). cbn [for_gen]. unfold bind. rewrite E.
      destruct (Hb s x w1 I1) as (w2 & E2 & I2). rewrite E2. cbn [fold_left]. apply IH; auto; lia.
  Qed.
  Lemma fold_pairs : forall (x : A) (l : list A) acc, fold_left (fun a y => a ++ [(x, y)]) l acc = acc ++ List.map (pair x) l.
  Proof. induction l as [|y l IH]; intros acc; cbn; [now rewrite app_nil_r|]. now rewrite IH, <- app_assoc. Qed.
  Lemma fold_prod : forall (m l : list A) acc, fold_left (fun a x => a ++ List.map (pair x) m) l acc = acc ++ list_prod l m.
  Proof. induction l as [|y l IH]; intros acc; cbn; [now rewrite app_nil_r|]. now rewrite IH, <- app_assoc. Qed.
  Lemma nested_ok : forall (it : iterable W A) l, reiterable I it l ->
    exists N, forall fuel w, N <= fuel -> I w -> exists w1, nested fuel it w = (Ret (list_prod l l), w1) /\ I w1.
  Proof.
    intros it l (g & O & S). destruct (loop_ok g l S) as [N H]. exists N. intros fuel w L Iw.
    destruct (O w Iw) as (w1 & E1 & I1). unfold nested, bind at 1. rewrite E1.
    match goal with |- context [for_gen fuel g [] ?b] => destruct (H _ Empty_set b (fun acc x => acc ++ List.map (pair x) l) fuel L) with (s := @nil (A * A)) (w := w1) as (w2 & E2 & I2); [|exact I1|] end.
    - intros acc x w0 I0. destruct (O w0 I0) as (w2 & E2 & I2). unfold bind at 1. rewrite E2.
      destruct (H _ Empty_set (fun acc y => ret (inl (acc ++ [(x, y)]))) (fun acc y => acc ++ [(x, y)]) fuel L) with (s := acc) (w := w2) as (w3 & E3 & I3); auto.
      { intros s y w3 I3. exists w3. auto. }
      exists w3. split; auto. unfold bind. rewrite E3, fold_pairs. reflexivity.
    - exists w2. split; auto. unfold bind at 1. rewrite E2. rewrite fold_prod. reflexivity.
  Qed.
End Steady.

Lemma consume_pf : forall W A (I : W -> Prop) (it : iterable W A) l, reiterable I it l -> exists F, forall fuel, F <= fuel ->
  forall es w, I w -> proper I 0 es -> exists os t w', consume fuel it es [] w = (os, (t, w')) /\ I w' /\ length os = length es /\
    forall j, heard j es os = alone l (asked j es).
Proof.
  intros W A I it l (g & O & S). destruct (steady_hands I g l S) as [F H]. exists F. intros fuel Lf es w Iw P.
  destruct (consume_ok I F it l (ex_intro _ g (conj O H)) fuel Lf es [] [] w (Forall2_nil _) Iw P) as (os & t & w' & E & I' & L & Hh).
  exists os, t, w'. repeat split; auto. intros j. rewrite Hh. now destruct j.
Qed.

(** ** maps *)
Section Maps.
  Context {W K V B : Type} (I : W -> Prop).
  Implicit Types (m : tree K V).
  Lemma stack_steady : forall (pick : K * V -> B) fuel d (n : nat) s, length (fringe s) <= n -> ready s -> spaced s -> shallow d s -> d + 2 <= fuel ->
    steady I (stack_gen fuel pick s) (List.map pick (fringe s)).
  Proof.
    intros pick fuel d. induction n as [|n IH]; intros s L R Sp Sh Hf; pose proof (iter_next_ok s fuel d R Sp Sh Hf) as Hn; destruct (fringe s) as [|kv rest] eqn:E.
    - apply sd_stop. intros w Iw. exists w. split; auto. cbn. rewrite Hn. reflexivity.
    - cbn in L. lia.
    - apply sd_stop. intros w Iw. exists w. split; auto. cbn. rewrite Hn. reflexivity.
    - destruct Hn as (s' & Hn & R' & Sp' & Sh' & F). cbn [List.map]. eapply sd_yield with (g1 := stack_gen fuel pick s').
      + intros w Iw. exists w. split; auto. cbn. rewrite Hn. reflexivity.
      + rewrite <- F. apply IH; auto. rewrite F. cbn in L. lia.
  Qed.
End Maps.
Lemma to_seq_steady : forall W K V (I : W -> Prop) (m : tree K V) fuel (w : W), depth m + 2 <= fuel ->
  exists g, to_seq_object fuel m w = (Ret g, w) /\ steady I g (MapTree.to_list m).
Proof.
  intros W K V I m fuel w Hf. unfold to_seq_object. destruct (mk_iterator_ok m fuel Hf) as (s & -> & R & Sp & Sh & F).
  eexists. split; [reflexivity|]. rewrite to_list_elements, <- F.
  replace (fringe s) with (List.map (fun kv => kv) (fringe s)) by apply map_id.
  apply (stack_steady I (fun kv => kv) fuel (depth m) (length (fringe s)) s); auto.
Qed.
Lemma map_iter_pf : forall W K V (I : W -> Prop) (m : tree K V) fuel, depth m + 2 <= fuel ->
  reiterable I (map_iter fuel m) (List.map fst (MapTree.to_list m)).
Proof.
  intros W K V I m fuel Hf. unfold map_iter. destruct (mk_iterator_ok m fuel Hf) as (s & -> & R & Sp & Sh & F).
  exists (stack_gen fuel fst s). split; [intros w Iw; exists w; auto|]. rewrite to_list_elements, <- F.
  apply (stack_steady I fst fuel (depth m) (length (fringe s)) s); auto.
Qed.

(** ** one object *)
Section OneShot.
  Context {W A : Type} (I : W -> Prop).
  (** a loop over the shared object reads it to the end *)
  Lemma shared_loop : forall g l, steady I g l -> exists N, forall S R (body : S -> A -> M (option (gen W A) * W) (S + R)) (F : S -> A -> S) fuel, N <= fuel ->
    (forall s x cw, exists cw1, body s x cw = (Ret (inl (F s x)), cw1) /\ cw1 = cw) ->
    forall s w, I w -> exists w1, for_gen fuel shared_gen s body (Some g, w) = (Ret (inl (fold_left F l s)), (None, w1)) /\ I w1.
  Proof.
    intros g l H. induction H as [g H|g g1 l H _ [N IH]|g x g1 l H _ [N IH]].
    - exists 1. intros S R body F [|fuel] L Hb s w Iw; [lia|]. destruct (H w Iw) as (w1 & E & I1). exists w1. cbn [for_gen]. unfold bind. cbn [step shared_gen fst snd]. rewrite E. auto.
    - exists (Datatypes.S N). intros S R body F [|fuel] L Hb s w Iw; [lia|]. destruct (H w Iw) as (w1 & E & I1). cbn [for_gen]. unfold bind. cbn [step shared_gen fst snd]. rewrite E.
      apply IH; auto; lia.
    - exists (Datatypes.S N). intros S R body F [|fuel] L Hb s w Iw; [lia|]. destruct (H w Iw) as (w1 & E & I1). cbn [for_gen]. unfold bind. cbn [step shared_gen fst snd]. rewrite E.
      destruct (Hb s x (Some g1, w1)) as (cw2 & E2 & ->). rewrite E2. cbn [fold_left]. apply IH; auto; lia.
  Qed.
  Lemma nested_shared : forall g (x : A) (l : list A), steady I g (x :: l) ->
    exists N, forall fuel w, N <= fuel -> I w -> exists w1, nested fuel shared (Some g, w) = (Ret (List.map (pair x) l), (None, w1)) /\ I w1.
  Proof.
    intros g x l H. remember (x :: l) as l0 eqn:El. unfold nested, shared.
    assert (G : exists N, forall fuel fuel' w, N <= fuel -> N <= fuel' -> I w -> exists w1,
      for_gen fuel shared_gen [] (fun acc x => bind (ret shared_gen) (fun g' => bind (for_gen fuel' g' acc (fun acc y => ret (inl (acc ++ [(x, y)])))) (fun r => match r with inl acc => ret (inl (B := Empty_set) acc) | inr v => match v : Empty_set with end end))) (Some g, w)
      = (Ret (inl (List.map (pair x) l)), (None, w1)) /\ I w1).
    { induction H as [g H|g g1 l0 H S IH|g y g1 l0 H S _]; [discriminate| |].
      - destruct (IH El) as [N G]. exists (Datatypes.S N). intros [|fuel] fuel' w L L' Iw; [lia|]. destruct (H w Iw) as (w1 & E & I1).
        cbn [for_gen]. unfold bind at 1. cbn [step shared_gen fst snd]. rewrite E. apply G; auto; lia.
      - injection El as -> ->. destruct (shared_loop g1 l S) as [N G]. exists (Datatypes.S (Datatypes.S N)). intros [|[|fuel]] fuel' w L L' Iw; [lia|lia|]. destruct (H w Iw) as (w1 & E & I1).
        cbn [for_gen]. unfold bind at 1. cbn [step shared_gen fst snd]. rewrite E. unfold bind at 1 2 3. unfold ret at 1.
        destruct (G _ Empty_set (fun acc y => ret (inl (acc ++ [(x, y)]))) (fun acc y => acc ++ [(x, y)]) fuel') with (s := @nil (A * A)) (w := w1) as (w2 & E2 & I2); auto; [lia| |].
        { intros s y cw. exists cw. auto. }
        rewrite E2. exists w2. split; auto. rewrite fold_pairs. reflexivity. }
    destruct G as [N G]. exists N. intros fuel w L Iw. destruct (G fuel fuel w L L Iw) as (w1 & E & I1). exists w1. split; auto.
    unfold bind at 1. unfold ret at 1. unfold bind at 1. rewrite E. reflexivity.
  Qed.
End OneShot.
