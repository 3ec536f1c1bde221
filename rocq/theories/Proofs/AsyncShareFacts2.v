(** Lemmas about async generator objects that several tasks have. *)
From Coq Require Import List ZArith Bool Lia.
From Verif.Model Require Import Base PyList AsyncShare.
From Verif.Spec Require Import AsyncShareSpec.
From Verif.Proofs Require Import AsyncShareFacts.
Import ListNotations.

Section Facts.
  Context {W A : Type}.
  Implicit Types (g : pgen W A) (w : W).
  Definition sh (tw : task W A * W) : task (ostate W A * W) A * (ostate W A * W) :=
    match tw with
    | (Ready g, w) => (Ready p_shared, (Rests g, w))
    | (Suspended k, w) => (Suspended (fun r => p_object (Some (k r))), (Busy, w))
    end.
  Lemma object_next : forall resumed o w g, match resumed with Some h => Some h | None => match o with Rests h => Some h | Busy => None end end = Some g ->
    pnext (p_object resumed) (o, w) =
    match pnext g w with
    | (PYield x g, w) => (PYield x p_shared, (Rests g, w))
    | (PSkip g, w) => (PSkip p_shared, (Rests g, w))
    | (PStop g, w) => (PStop p_shared, (Rests g, w))
    | (PRaise e g, w) => (PRaise e p_shared, (Rests g, w))
    | (PWait k, w) => (PWait (fun r => p_object (Some (k r))), (Busy, w))
    end.
  Proof.
    intros resumed o w g E. cbn [pnext p_object fst snd]. unfold p_shared. rewrite E.
    destruct (pnext g w) as [[x p1|p1|p1|e p1|k] w1] eqn:N; try reflexivity.
    assert (NS := pnext_not_stop _ _ _ _ _ _ N). destruct e; try reflexivity. now destruct NS.
  Qed.
  Lemma run_shared : forall fuel g w, p_run fuel p_shared (Rests g, w) = (fst (p_run fuel g w), sh (snd (p_run fuel g w))).
  Proof.
    induction fuel as [|fuel IH]; intros g w; [reflexivity|]. cbn [p_run]. unfold p_shared at 1. rewrite (object_next None (Rests g) w g eq_refl).
    destruct (pnext g w) as [[x p1|p1|p1|e p1|k] w1]; cbn; try reflexivity. apply IH.
  Qed.
  Lemma run_resumed : forall fuel g o w, 0 < fuel -> p_run fuel (p_object (Some g)) (o, w) = (fst (p_run fuel g w), sh (snd (p_run fuel g w))).
  Proof.
    intros [|fuel] g o w L; [lia|]. cbn [p_run]. rewrite (object_next (Some g) o w g eq_refl).
    destruct (pnext g w) as [[x p1|p1|p1|e p1|k] w1]; cbn; try reflexivity. apply run_shared.
  Qed.
  Lemma run_refused : forall fuel w, p_run (S fuel) p_shared (Busy, w) = (@Failed A RuntimeError, (Ready p_shared, (Busy, w))).
  Proof. reflexivity. Qed.
  Definition fits {X Y} (o : outcome Y) (t : task X Y) : Prop :=
    match o, t with Waiting, Suspended _ => True | Impossible, _ => False | Done, _ => False | Waiting, _ => False | _, Ready _ => True | _, _ => False end.
  Lemma run_task : forall X Y fuel (g : pgen X Y) (w : X), fits (fst (p_run fuel g w)) (fst (snd (p_run fuel g w))).
  Proof.
    induction fuel as [|fuel IH]; intros g w; [exact I|]. cbn. destruct (pnext g w) as [[x p1|p1|p1|e p1|k] w1]; cbn; try exact I. apply IH.
  Qed.

  Lemma nth_put : forall X j (x : X) l i, j < length l -> nth_error (put j x l) i = if Nat.eqb i j then Some x else nth_error l i.
  Proof.
    intros X j x l. revert j. induction l as [|y l IH]; intros j i L; [cbn in L; lia|]. destruct j as [|j], i as [|i]; cbn in *; try reflexivity. apply IH. lia.
  Qed.
  Lemma put_put : forall X j (x y : X) l, put j x (put j y l) = put j x l.
  Proof. intros X j x y l. revert j. induction l as [|z l IH]; intros [|j]; cbn; try reflexivity. now rewrite IH. Qed.
  Lemma put_same : forall X j (x : X) l, nth_error l j = Some x -> put j x l = l.
  Proof. intros X j x l. revert j. induction l as [|z l IH]; intros [|j] E; cbn in *; try discriminate; [now injection E as ->|now rewrite IH]. Qed.
  Lemma put_repeat : forall X j (x : X) n, put j x (repeat x n) = repeat x n.
  Proof. intros X j x n. revert j. induction n as [|n IH]; intros [|j]; cbn; try reflexivity. now rewrite IH. Qed.
  Lemma nth_repeat_lt : forall X (x : X) n j, j < n -> nth_error (repeat x n) j = Some x.
  Proof. induction n as [|n IH]; intros [|j] L; cbn; try lia; [reflexivity|]. apply IH. lia. Qed.
  Lemma nth_repeat_ge : forall X (x : X) n j, n <= j -> nth_error (repeat x n) j = None.
  Proof. intros. apply nth_error_None. now rewrite repeat_length. Qed.

  (** The table of the tasks and the object, and the table of the one reader. *)
  Inductive both (n : nat) : option nat -> list (task (ostate W A * W) A) -> ostate W A -> task W A -> Prop :=
  | bo_rest : forall g, both n None (repeat (Ready p_shared) n) (Rests g) (Ready g)
  | bo_busy : forall j k, j < n -> both n (Some j) (put j (Suspended (fun r => p_object (Some (k r)))) (repeat (Ready p_shared) n)) Busy (Suspended k).
  Lemma both_after : forall n j (o : outcome A) t w1, j < n ->
    fits o t ->
    both n (match o with Waiting => Some j | _ => None end) (put j (fst (sh (t, w1))) (repeat (Ready p_shared) n)) (fst (snd (sh (t, w1)))) t /\ o <> Impossible.
  Proof.
    intros n j o [g|k] w1 L H; destruct o; try contradiction; (split; [|discriminate]); cbn [sh fst snd]; rewrite ?put_repeat; now constructor.
  Qed.
  Lemma sh_world : forall t w, snd (snd (sh (t, w))) = w.
  Proof. now intros [g|k] w. Qed.
  Lemma one_reader : forall fuel n, 0 < fuel -> forall es busy t o w t1, both n busy t o t1 ->
    exists es1 os1 busy', let '(os, (t', (o', w'))) := history fuel (map on_object es) t (o, w) in
      as_one n busy es os es1 os1 busy' /\ exists t1', history fuel es1 [t1] w = (os1, ([t1'], w')) /\ both n busy' t' o' t1'.
  Proof.
    intros fuel n FL. induction es as [|e es IH]; intros busy t o w t1 Bo.
    - exists [], [], busy. cbn. split; [constructor|]. exists t1. split; [reflexivity|assumption].
    - cbn [map history].
      assert (K : (exists ev1 oc t1a wa ta oa b, happens fuel (on_object e) t (o, w) = (oc, (ta, (oa, wa))) /\ happens fuel ev1 [t1] w = (oc, ([t1a], wa)) /\ both n b ta oa t1a /\
          (forall es os es1 os1 busy', as_one n b es os es1 os1 busy' -> as_one n busy (e :: es) (oc :: os) (ev1 :: es1) (oc :: os1) busy')) \/
        (exists oc, happens fuel (on_object e) t (o, w) = (oc, (t, (o, w))) /\ (forall es os es1 os1 busy', as_one n busy es os es1 os1 busy' -> as_one n busy (e :: es) (oc :: os) es1 os1 busy'))).
      { destruct e as [j|j|j x|f]; cbn [on_object happens].
        - destruct Bo as [g|i k L].
          + destruct (Nat.ltb_spec j n) as [J|J].
            * left. rewrite (nth_repeat_lt _ _ _ _ J), run_shared. assert (R := run_task W A fuel g w).
              destruct (p_run fuel g w) as [oc [ta wa]] eqn:Er. cbn [fst snd] in *. destruct (both_after n j oc ta wa J R) as [Bo NI].
              exists (Ask 0), oc, ta, wa. destruct (sh (ta, wa)) as [ta' [oa' wa']] eqn:Es. assert (Sw := sh_world ta wa). try rewrite Es in Sw; try rewrite Es in Bo; cbn in Sw, Bo. subst wa'.
              eexists _, oa', _. repeat split; try reflexivity; [|exact Bo|].
              { cbn. now rewrite Er. }
              { intros. apply ao_asked; assumption. }
            * right. rewrite (nth_repeat_ge _ _ _ _ J). eexists. split; [reflexivity|]. intros. apply ao_impossible; [now left|assumption].
          + right. rewrite nth_put by now rewrite repeat_length. destruct (Nat.eqb_spec j i) as [->|D].
            * eexists. split; [reflexivity|]. intros. apply ao_impossible; [now right|assumption].
            * destruct (Nat.ltb_spec j n) as [J|J].
              { rewrite (nth_repeat_lt _ _ _ _ J). destruct fuel as [|fuel]; [lia|]. rewrite run_refused. eexists. split.
                - f_equal. f_equal. apply put_same. rewrite nth_put by now rewrite repeat_length. destruct (Nat.eqb_spec j i) as [->|_]; [now destruct D|]. now apply nth_repeat_lt.
                - intros. apply ao_refused; auto. }
              { rewrite (nth_repeat_ge _ _ _ _ J). eexists. split; [reflexivity|]. intros. apply ao_impossible; [now left|assumption]. }
        - destruct Bo as [g|i k L].
          + right. assert (X : match nth_error (repeat (@Ready (ostate W A * W) A p_shared) n) j with Some (Suspended _) => False | _ => True end)
              by (destruct (Nat.ltb_spec j n) as [J|J]; [now rewrite (nth_repeat_lt _ _ _ _ J)|now rewrite (nth_repeat_ge _ _ _ _ J)]).
            destruct (nth_error (repeat (@Ready (ostate W A * W) A p_shared) n) j) as [[|]|]; try contradiction;
              (eexists; split; [reflexivity|]; intros; apply ao_impossible; [discriminate|assumption]).
          + rewrite nth_put by now rewrite repeat_length. destruct (Nat.eqb_spec j i) as [->|D].
            * left. rewrite (run_resumed fuel (k None) Busy w FL). assert (R := run_task W A fuel (k None) w).
              destruct (p_run fuel (k None) w) as [oc [ta wa]] eqn:Er. cbn [fst snd] in *. destruct (both_after n i oc ta wa L R) as [Bo NI].
              exists (Goes 0), oc, ta, wa. destruct (sh (ta, wa)) as [ta' [oa' wa']] eqn:Es. assert (Sw := sh_world ta wa). try rewrite Es in Sw; try rewrite Es in Bo; cbn in Sw, Bo. subst wa'.
              eexists _, oa', _. repeat split; try reflexivity; [|rewrite put_put; exact Bo|].
              { cbn. now rewrite Er. }
              { intros. apply (ao_resumed n i (Goes i)); auto. }
            * right. assert (X : match nth_error (repeat (@Ready (ostate W A * W) A p_shared) n) j with Some (Suspended _) => False | _ => True end)
                by (destruct (Nat.ltb_spec j n) as [J|J]; [now rewrite (nth_repeat_lt _ _ _ _ J)|now rewrite (nth_repeat_ge _ _ _ _ J)]).
              destruct (nth_error (repeat (@Ready (ostate W A * W) A p_shared) n) j) as [[|]|]; try contradiction;
                (eexists; split; [reflexivity|]; intros; apply ao_impossible; [congruence|assumption]).
        - destruct Bo as [g|i k L].
          + right. assert (X : match nth_error (repeat (@Ready (ostate W A * W) A p_shared) n) j with Some (Suspended _) => False | _ => True end)
              by (destruct (Nat.ltb_spec j n) as [J|J]; [now rewrite (nth_repeat_lt _ _ _ _ J)|now rewrite (nth_repeat_ge _ _ _ _ J)]).
            destruct (nth_error (repeat (@Ready (ostate W A * W) A p_shared) n) j) as [[|]|]; try contradiction;
              (eexists; split; [reflexivity|]; intros; apply ao_impossible; [discriminate|assumption]).
          + rewrite nth_put by now rewrite repeat_length. destruct (Nat.eqb_spec j i) as [->|D].
            * left. rewrite (run_resumed fuel (k (Some x)) Busy w FL). assert (R := run_task W A fuel (k (Some x)) w).
              destruct (p_run fuel (k (Some x)) w) as [oc [ta wa]] eqn:Er. cbn [fst snd] in *. destruct (both_after n i oc ta wa L R) as [Bo NI].
              exists (Throw 0 x), oc, ta, wa. destruct (sh (ta, wa)) as [ta' [oa' wa']] eqn:Es. assert (Sw := sh_world ta wa). try rewrite Es in Sw; try rewrite Es in Bo; cbn in Sw, Bo. subst wa'.
              eexists _, oa', _. repeat split; try reflexivity; [|rewrite put_put; exact Bo|].
              { cbn. now rewrite Er. }
              { intros. apply (ao_resumed n i (Throw i x)); eauto. }
            * right. assert (X : match nth_error (repeat (@Ready (ostate W A * W) A p_shared) n) j with Some (Suspended _) => False | _ => True end)
                by (destruct (Nat.ltb_spec j n) as [J|J]; [now rewrite (nth_repeat_lt _ _ _ _ J)|now rewrite (nth_repeat_ge _ _ _ _ J)]).
              destruct (nth_error (repeat (@Ready (ostate W A * W) A p_shared) n) j) as [[|]|]; try contradiction;
                (eexists; split; [reflexivity|]; intros; apply ao_impossible; [congruence|assumption]).
        - left. exists (Other f), Done, t1, (f w). eexists t, o, busy. cbn. repeat split; try assumption. intros. now apply ao_other. }
      destruct K as [(ev1 & oc & t1a & wa & ta & oa & b & E1 & E2 & Bb & Ao)|(oc & E1 & Ao)].
      + specialize (IH b ta oa wa t1a Bb). destruct IH as (es1 & os1 & busy' & IH). rewrite E1.
        destruct (history fuel (map on_object es) ta (oa, wa)) as [os [t' [o' w']]] eqn:H. destruct IH as (A1 & t1' & H1 & B1).
        exists (ev1 :: es1), (oc :: os1), busy'. split; [now apply Ao|]. exists t1'. split; [|assumption]. cbn. now rewrite E2, H1.
      + specialize (IH busy t o w t1 Bo). destruct IH as (es1 & os1 & busy' & IH). rewrite E1.
        destruct (history fuel (map on_object es) t (o, w)) as [os [t' [o' w']]] eqn:H. destruct IH as (A1 & t1' & H1 & B1).
        exists es1, os1, busy'. split; [now apply Ao|]. exists t1'. split; assumption.
  Qed.
  Lemma one_reader_from_rest : forall fuel n es g w os t o w', 0 < fuel ->
    history fuel (map on_object es) (repeat (Ready p_shared) n) (Rests g, w) = (os, (t, (o, w'))) ->
    exists es1 os1 busy t1, as_one n None es os es1 os1 busy /\ history fuel es1 [Ready g] w = (os1, ([t1], w')) /\
      o = match t1 with Ready g => Rests g | Suspended _ => Busy end.
  Proof.
    intros fuel n es g w os t o w' FL H. destruct (one_reader fuel n FL es None _ _ w _ (bo_rest n g)) as (es1 & os1 & b & K). rewrite H in K.
    destruct K as (A1 & t1 & H1 & B1). exists es1, os1, b, t1. repeat split; try assumption. now destruct B1.
  Qed.

  (** ** after an exception *)
  Definition dies_task (t : task W A) : Prop :=
    match t with
    | Ready g => dies g
    | Suspended k => dies (k None) /\ forall e w, e <> StopIterationExn -> exists w1, pnext (k (Some e)) w = (PRaise e p_over, w1)
    end.
  Lemma run_dies : forall fuel g w, dies g -> dies_task (fst (snd (p_run fuel g w))) /\ (ending (fst (p_run fuel g w)) -> fst (snd (p_run fuel g w)) = Ready p_over).
  Proof.
    induction fuel as [|fuel IH]; intros g w D; [cbn; split; [assumption|]; intros N; now destruct N|]. cbn. destruct D as [D]. specialize (D w).
    destruct (pnext g w) as [[x p1|p1|p1|e p1|k] w1]; inversion D; subst; cbn; try (split; [auto using over_dies|]; try contradiction; reflexivity).
    now apply IH.
  Qed.
  Lemma throw_dies : forall fuel k w e, dies_task (Suspended k) -> e <> StopIterationExn ->
    exists w1, happens (S fuel) (Throw 0 e) [Suspended k] w = (Failed e, ([Ready p_over], w1)).
  Proof. intros fuel k w e [_ D] N. destruct (D e w N) as [w1 E]. exists w1. cbn. now rewrite E. Qed.
  Lemma over_run : forall fuel w, 0 < fuel -> p_run fuel p_over w = (@Ended A, (Ready p_over, w)).
  Proof. intros [|fuel] w L; [lia|reflexivity]. Qed.
  Lemma happens_dies : forall fuel e t w, 0 < fuel -> plain e -> dies_task t -> exists t1, fst (snd (happens fuel e [t] w)) = [t1] /\ dies_task t1 /\
    (ending (fst (happens fuel e [t] w)) -> t1 = Ready p_over) /\ (t = Ready p_over -> t1 = Ready p_over).
  Proof.
    intros fuel e t w FL N D. destruct e as [[|j]|[|j]|[|j] x|f]; cbn [happens nth_error];
      try (exists t; cbn; repeat split; solve [assumption|tauto]); try (exists t; destruct j; cbn; repeat split; solve [assumption|tauto]).
    - destruct t as [g|k]; [|exists (Suspended k); cbn; repeat split; first [apply D|tauto]]. destruct (run_dies fuel g w D) as [D1 D2].
      assert (O := fun E : Ready g = Ready p_over => over_run fuel w FL). destruct (p_run fuel g w) as [o [t1 w1]] eqn:R. exists t1. cbn in *. repeat split; try assumption.
      intros E. injection E as ->. rewrite over_run in R by assumption. now injection R.
    - destruct t as [g|k]; [exists (Ready g); cbn; repeat split; first [apply D|tauto]|]. destruct D as [D _]. destruct (run_dies fuel (k None) w D) as [D1 D2].
      destruct (p_run fuel (k None) w) as [o [t1 w1]]. exists t1. cbn in *. repeat split; try assumption. discriminate.
    - destruct t as [g|k]; [exists (Ready g); cbn; repeat split; first [apply D|tauto]|]. destruct D as [_ D]. destruct (D x w N) as [w1 E]. destruct fuel as [|fuel]; [lia|].
      exists (Ready p_over). cbn. rewrite E. cbn. repeat split. apply over_dies.
  Qed.
  Lemma history_dies : forall fuel es t w os t' w', 0 < fuel -> Forall plain es -> dies_task t -> history fuel es [t] w = (os, (t', w')) ->
    exists t1, t' = [t1] /\ dies_task t1 /\ (Exists ending os \/ t = Ready p_over -> t1 = Ready p_over).
  Proof.
    intros fuel es t w os t' w' FL. revert t w os t' w'. induction es as [|e es IH]; intros t w os t' w' P D H.
    - injection H as <- <- <-. exists t. repeat split; [assumption|]. intros [E|E]; [inversion E|assumption].
    - cbn in H. inversion P; subst. destruct (happens_dies fuel e t w FL H2 D) as (t1 & E1 & D1 & G1 & G2).
      destruct (happens fuel e [t] w) as [o [ta wa]]. cbn in E1, G1. subst ta.
      destruct (history fuel es [t1] wa) as [os1 [tb wb]] eqn:Eh. injection H as <- <- <-.
      destruct (IH t1 wa os1 tb wb H3 D1 Eh) as (t2 & -> & D2 & G). exists t2. repeat split; [assumption|].
      intros [E|E]; [|apply G; right; now apply G2]. inversion E; subst; apply G; [right; now apply G1|now left].
  Qed.
  Lemma shared_over : forall fuel n es w, 0 < fuel ->
    history fuel (map on_object es) (repeat (Ready p_shared) n) (Rests p_over, w) = (map (@of_over W A n) es, (repeat (Ready p_shared) n, (Rests p_over, others es w))).
  Proof.
    intros fuel n es w FL. revert w. induction es as [|e es IH]; intros w; [reflexivity|]. cbn [map history].
    assert (H : happens fuel (on_object e) (repeat (Ready p_shared) n) (Rests p_over, w) = (@of_over W A n e, (repeat (Ready p_shared) n, (Rests p_over, others [e] w)))).
    { assert (X : forall j, nth_error (repeat (@Ready (ostate W A * W) A p_shared) n) j = if Nat.ltb j n then Some (Ready p_shared) else None)
        by (intros j; destruct (Nat.ltb_spec j n) as [J|J]; [now rewrite (nth_repeat_lt _ _ _ _ J)|now rewrite (nth_repeat_ge _ _ _ _ J)]).
      destruct e as [j|j|j x|f]; cbn [on_object happens of_over others fold_left]; rewrite ?X; try (destruct (Nat.ltb j n); reflexivity); [|reflexivity].
      destruct (Nat.ltb j n); [|reflexivity]. rewrite run_shared, over_run by assumption. cbn. now rewrite put_repeat. }
    rewrite H, IH. reflexivity.
  Qed.
  Lemma as_one_got : forall n b (es : list (event W)) (os : list (outcome A)) es1 os1 b', as_one n b es os es1 os1 b' -> got os = got os1.
  Proof. induction 1; unfold got in *; cbn; try congruence. Qed.

  (** ** queues *)
  Definition on_queue (xs : list A) (t : task W A) : Prop :=
    t = Ready (p_queue xs false) \/
    exists x rest, xs = x :: rest /\ t = Suspended (fun r => match r with None => p_queue xs true | Some e => PGen (fun w => (PRaise e (p_queue xs false), w)) end).
  Lemma queue_happens : forall fuel e xs t w, 0 < fuel -> on_queue xs t ->
    exists t1 rest, fst (snd (happens fuel e [t] w)) = [t1] /\ on_queue rest t1 /\ xs = got [fst (happens fuel e [t] w)] ++ rest.
  Proof.
    intros [|fuel] e xs t w FL Q; [lia|].
    assert (Same : forall o w1, o = Impossible \/ o = Done -> exists t1 rest, fst (snd (o, ([t], w1 : W))) = [t1] /\ on_queue rest t1 /\ xs = @got A [o] ++ rest)
      by (intros o w1 [-> | ->]; exists t, xs; now repeat split).
    destruct e as [[|j]|[|j]|[|j] x|f]; cbn [happens nth_error]; try (destruct j; apply Same; now left); [| | |apply Same; now right].
    - destruct Q as [->|(x & rest & -> & ->)]; [|apply Same; now left]. destruct xs as [|x xs]; cbn.
      + eexists _, []. repeat split. now left.
      + eexists _, (x :: xs). repeat split. right. exists x, xs. now split.
    - destruct Q as [->|(x & rest & -> & ->)]; [apply Same; now left|]. cbn. eexists _, rest. repeat split. now left.
    - destruct Q as [->|(y & rest & -> & ->)]; [apply Same; now left|].
      destruct x; cbn; eexists _, (y :: rest); (repeat split; now left).
  Qed.
  Lemma queue_history : forall fuel es xs t w, 0 < fuel -> on_queue xs t -> exists rest, xs = got (fst (history fuel es [t] w)) ++ rest.
  Proof.
    intros fuel es xs t w FL. revert xs t w. induction es as [|e es IH]; intros xs t w Q; [now exists xs|]. cbn.
    destruct (queue_happens fuel e xs t w FL Q) as (t1 & rest & E1 & Q1 & ->). destruct (happens fuel e [t] w) as [o [ta wa]]. cbn in E1 |- *. subst ta.
    destruct (IH rest t1 wa Q1) as (r & ->). destruct (history fuel es [t1] wa) as [os tw]. cbn. exists r. rewrite app_nil_r. apply app_assoc.
  Qed.
End Facts.
