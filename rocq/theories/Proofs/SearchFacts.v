(** Facts about breadth-first search. *)
From Coq Require Import List Bool Arith Lia Wf_nat.
From Verif.Model Require Import Base PyList Block MapTree Map Functions.
From Verif.Spec Require Import MapSpec ListM FunctionsSpec SearchSpec.
From Verif.Proofs Require Import KeyOrdFacts MapMain GroupingFacts.
Import ListNotations.
Local Open Scope nat_scope.
Local Open Scope list_scope.
Local Open Scope py_scope.

Section Facts.
  Context {K W : Type} {KO : KeyOrd K} (next : K -> M W (block K)) (succ : K -> list K) (roots : list K).
  Hypothesis next_ok : forall k w ks w1, next k w = (Ret ks, w1) -> ks = succ k.
  Hypothesis succ_ok : forall a b, eqb a b = true -> succ a = succ b.
  Notation path := (path succ roots).
  Implicit Types (w : W) (work : list (K * nat)) (seen : tree K nat) (order : list K).

  Lemma map_pairs : forall (ks : list K) (d : nat) w, Block.map ks (fun n => ret (n, d)) w = (Ret (List.map (fun n => (n, d)) ks), w).
  Proof.
    intros ks d w. unfold Block.map.
    assert (X : forall (acc : list (K * nat)) (u : W), for_calls ks acc (fun n => ret (n, d)) (fun acc _ y => ret (acc ++ [y])) u = (Ret (acc ++ List.map (fun n => (n, d)) ks), u)); [|apply X].
    induction ks as [|k ks IH]; intros acc u; cbn [for_calls List.map]; [rewrite app_nil_r; reflexivity|]. unfold ret at 1. unfold bind, ret at 1. rewrite IH, <- app_assoc. reflexivity.
  Qed.
  Lemma calls_app : forall l1 l2 w, calls next (l1 ++ l2) w = (do _ <- calls next l1; calls next l2) w.
  Proof. induction l1 as [|k l1 IH]; intros l2 w; [reflexivity|]. cbn. unfold bind in *. destruct (next k w) as [[ks|e] w1]; [apply IH|reflexivity]. Qed.
  Lemma distinct_snoc : forall order k, distinct order -> ~ among k order -> distinct (order ++ [k]).
  Proof.
    unfold distinct. induction order as [|a order IH]; intros k D N; cbn; [constructor; constructor|]. inversion D; subst. constructor.
    - apply Forall_app. split; [assumption|]. constructor; [|constructor]. destruct (eqb a k) eqn:E; [|reflexivity]. destruct N. exists a. split; [left; reflexivity|]. rewrite eqb_sym. exact E.
    - apply IH; [assumption|]. intros (k1 & I & E). apply N. exists k1. split; [right; exact I|exact E].
  Qed.

  (** What is known when the search stands at [(work, seen)]. *)
  Record inv (w0 : W) work seen order w : Prop := {
    i_reach : Reach seen;
    i_calls : calls next order w0 = (Ret tt, w);
    i_distinct : distinct order;
    i_seen : forall k, (exists d, try_find k seen = Some d) <-> among k order;
    i_work : forall k d, In (k, d) work -> path d k;
    i_paths : forall k d, try_find k seen = Some d -> exists k1, eqb k k1 = true /\ path d k1;
    i_order : forall k, In k order -> exists d, path d k;
    i_levels : exists D l1 l2, work = l1 ++ l2 /\ Forall (fun x : K * nat => snd x = D) l1 /\ Forall (fun x : K * nat => snd x = S D) l2 /\ forall k d, try_find k seen = Some d -> d <= D;
    i_roots : forall k, In k roots -> (exists d, try_find k seen = Some d /\ d <= 0) \/ In (k, 0) work;
    i_edges : forall x d k, try_find x seen = Some d -> In k (succ x) -> (exists d1, try_find k seen = Some d1 /\ d1 <= S d) \/ In (k, S d) work }.
  Lemma levels_head : forall x d rest seen, (exists D l1 l2, (x, d) :: rest = l1 ++ l2 /\ Forall (fun x : K * nat => snd x = D) l1 /\ Forall (fun x : K * nat => snd x = S D) l2 /\ forall k d, try_find k seen = Some d -> d <= D) ->
    (exists l1 l2, rest = l1 ++ l2 /\ Forall (fun x : K * nat => snd x = d) l1 /\ Forall (fun x : K * nat => snd x = S d) l2) /\ forall k d1, try_find k seen = Some d1 -> d1 <= d.
  Proof.
    intros x d rest seen (D & l1 & l2 & E & A & B & C). destruct l1 as [|y l1].
    - cbn in E. subst l2. inversion B; subst. cbn in *. subst d. split; [exists rest, []; rewrite app_nil_r; auto|]. intros k d1 T. pose proof (C _ _ T). lia.
    - cbn in E. injection E as <- ->. inversion A; subst. cbn in *. split; [exists l1, l2; auto|exact C].
  Qed.
  Lemma mem_seen : forall w0 work seen order w k, inv w0 work seen order w -> mem k seen = true <-> exists d, try_find k seen = Some d.
  Proof. intros w0 work seen order w k I. apply (C09_pf seen k (i_reach _ _ _ _ _ I)). Qed.

  Lemma inv_skip : forall w0 x d rest seen order w, inv w0 ((x, d) :: rest) seen order w -> mem x seen = true -> inv w0 rest seen order w.
  Proof.
    intros w0 x d rest seen order w I Mx. destruct (proj1 (mem_seen _ _ _ _ _ x I) Mx) as [d0 T0]. destruct I as [R C D S Wk P O L Ro Ed]. destruct (levels_head _ _ _ _ L) as [(l1 & l2 & E & A & B) Le].
    constructor; auto.
    - intros k d1 I. apply Wk. right. exact I.
    - exists d, l1, l2. auto.
    - intros k I. destruct (Ro k I) as [X|[X|X]]; [auto| |auto]. injection X as -> ->. left. exists d0. split; [exact T0|]. exact (Le _ _ T0).
    - intros y d1 k T I. destruct (Ed y d1 k T I) as [X|[X|X]]; [auto| |auto]. injection X as -> ->. left. exists d0. split; [exact T0|]. exact (Le _ _ T0).
  Qed.
  Lemma inv_visit : forall w0 x d rest seen order w ks w1, inv w0 ((x, d) :: rest) seen order w -> mem x seen = false -> next x w = (Ret ks, w1) ->
    exists seen1, add x d seen = Ret seen1 /\ inv w0 (rest ++ List.map (fun n => (n, d + 1)) ks) seen1 (order ++ [x]) w1.
  Proof.
    intros w0 x d rest seen order w ks w1 I Mx N. assert (N0 : forall d1, try_find x seen <> Some d1) by (intros d1 T; rewrite (proj2 (mem_seen _ _ _ _ _ x I) (ex_intro _ d1 T)) in Mx; discriminate).
    pose proof (next_ok _ _ _ _ N) as ->. destruct I as [R C D S Wk P O L Ro Ed]. destruct (levels_head _ _ _ _ L) as [(l1 & l2 & E & A & B) Le]. destruct (C02_pf seen x d R) as (seen1 & AD & T & _). exists seen1. split; [exact AD|].
    assert (OLD : forall k d1, try_find k seen = Some d1 -> try_find k seen1 = Some d1).
    { intros k d1 X. rewrite T. destruct (eqb k x) eqn:Q; [|exact X]. rewrite (try_find_cong seen _ _ Q) in X. destruct (N0 _ X). }
    constructor.
    - eapply R_add; eassumption.
    - rewrite calls_app. unfold bind. rewrite C. cbn. unfold bind. rewrite N. reflexivity.
    - apply distinct_snoc; [exact D|]. intros X. apply S in X. destruct X as [d1 X]. destruct (N0 _ X).
    - intros k. rewrite T. destruct (eqb k x) eqn:Q.
      + split; [|intros _; eauto]. intros _. exists x. split; [apply in_or_app; right; left; reflexivity|exact Q].
      + rewrite S. split; intros (k1 & I & E1).
        * exists k1. split; [apply in_or_app; left; exact I|exact E1].
        * apply in_app_or in I. destruct I as [I|[->|[]]]; [exists k1; auto|]. rewrite E1 in Q. discriminate.
    - intros k d1 I. apply in_app_or in I. destruct I as [I|I]; [apply Wk; right; exact I|]. apply in_map_iff in I. destruct I as (n & E1 & I). injection E1 as <- <-. rewrite Nat.add_1_r. eapply path_edge; [|exact I]. apply Wk. left. reflexivity.
    - intros k d1. rewrite T. destruct (eqb k x) eqn:Q; [|apply P]. intros X. injection X as <-. exists x. split; [exact Q|]. apply Wk. left. reflexivity.
    - intros k I. apply in_app_or in I. destruct I as [I|[->|[]]]; [auto|]. exists d. apply Wk. left. reflexivity.
    - exists d, l1, (l2 ++ List.map (fun n => (n, d + 1)) (succ x)). split; [rewrite E, app_assoc; reflexivity|]. split; [exact A|]. split.
      + apply Forall_app. split; [exact B|]. apply Forall_forall. intros y I. apply in_map_iff in I. destruct I as (n & <- & _). cbn. lia.
      + intros k d1. rewrite T. destruct (eqb k x); [intros X; injection X as <-; lia|apply Le].
    - intros k I. destruct (Ro k I) as [(d1 & X & L1)|[X|X]].
      + left. exists d1. split; [apply OLD; exact X|exact L1].
      + injection X as -> ->. left. exists 0. split; [|lia]. rewrite T, eqb_refl. reflexivity.
      + right. apply in_or_app. left. exact X.
    - intros y d1 k X I. rewrite T in X. destruct (eqb y x) eqn:Q.
      + injection X as <-. right. apply in_or_app. right. apply in_map_iff. exists k. rewrite <- (succ_ok _ _ Q). split; [f_equal; lia|exact I].
      + destruct (Ed y d1 k X I) as [(d2 & Y & L1)|[Y|Y]].
        * left. exists d2. split; [apply OLD; exact Y|exact L1].
        * injection Y as -> ->. left. exists (Datatypes.S d1). split; [|lia]. rewrite T, eqb_refl. reflexivity.
        * right. apply in_or_app. left. exact Y.
  Qed.
  Lemma inv_start : forall w, inv w (List.map (fun n => (n, 0)) roots) Empty [] w.
  Proof.
    intros w. constructor.
    - apply R_empty.
    - reflexivity.
    - constructor.
    - intros k. split; [intros [d X]; discriminate|intros (k1 & [] & _)].
    - intros k d I. apply in_map_iff in I. destruct I as (n & E & I). injection E as <- <-. apply path_root. exact I.
    - discriminate.
    - intros k [].
    - exists 0, (List.map (fun n => (n, 0)) roots), []. split; [rewrite app_nil_r; reflexivity|]. split; [|split; [constructor|discriminate]]. apply Forall_forall. intros y I. apply in_map_iff in I. destruct I as (n & <- & _). reflexivity.
    - intros k I. right. apply in_map_iff. exists k. auto.
    - discriminate.
  Qed.
  Lemma inv_end : forall w0 seen order w, inv w0 [] seen order w -> forall n k, path n k -> exists d, try_find k seen = Some d /\ d <= n.
  Proof.
    intros w0 seen order w [R C D S Wk P O L Ro Ed] n k Pa. induction Pa as [k I|n k k1 _ (d & T & L1) I].
    - destruct (Ro k I) as [X|[]]. exact X.
    - destruct (Ed k d k1 T I) as [(d1 & T1 & L2)|[]]. exists d1. split; [exact T1|lia].
  Qed.

  (** One step of the search. *)
  Lemma step_eq : forall x d rest seen w, search next ((x, d) :: rest, seen) w =
    if mem x seen then (Ret (TailCall (rest, seen)), w)
    else match next x w with
         | (Ret ks, w1) => match add x d seen with Ret seen1 => (Ret (TailCall (rest ++ List.map (fun n => (n, d + 1)) ks, seen1)), w1) | Raise e => (Raise e, w1) end
         | (Raise e, w1) => (Raise e, w1)
         end.
  Proof.
    intros x d rest seen w. unfold search. cbn [Block.is_empty]. unfold bind at 1. cbn [Block.head lift fst snd]. unfold ret at 1. unfold bind at 1. cbn [Block.tail lift].
    unfold lift. cbn [fst snd]. destruct (mem x seen); [reflexivity|]. unfold bind at 1. destruct (next x w) as [[ks|e] w1]; [|reflexivity]. unfold bind at 1. rewrite map_pairs. unfold bind. destruct (add x d seen); reflexivity.
  Qed.
  Lemma search_pf : forall a w r w1, evals (search next) a w r w1 -> forall w0 order, inv w0 (fst a) (snd a) order w ->
    match r with
    | Ret m => exists order1, inv w0 [] m order1 w1
    | Raise e => exists order1, calls next order1 w0 = (Raise e, w1) /\ distinct order1 /\ forall k, In k order1 -> exists d, path d k
    end.
  Proof.
    induction 1 as [[work seen] w r w1 E|[work seen] w e w1 E|[work seen] w a1 w1 r w2 E _ IH]; intros w0 order I; cbn [fst snd] in I.
    - destruct work as [|[x d] rest]; [cbn in E; injection E as <- <-; eauto|]. rewrite step_eq in E. destruct (mem x seen); [discriminate|]. destruct (next x w) as [[ks|e] w3]; [|discriminate]. destruct (add x d seen); discriminate.
    - destruct work as [|[x d] rest]; [discriminate|]. rewrite step_eq in E. destruct (mem x seen) eqn:Mx; [discriminate|]. destruct (next x w) as [[ks|e1] w3] eqn:N.
      + destruct (inv_visit _ _ _ _ _ _ _ _ _ I Mx N) as (seen1 & AD & _). rewrite AD in E. discriminate.
      + injection E as -> ->. exists (order ++ [x]). assert (NA : ~ among x order). { intros X. apply (i_seen _ _ _ _ _ I) in X. apply (mem_seen _ _ _ _ _ x I) in X. rewrite X in Mx. discriminate. }
        destruct I as [R C D S Wk P O L Ro Ed]. split; [rewrite calls_app; unfold bind; rewrite C; cbn; unfold bind; rewrite N; reflexivity|]. split; [apply distinct_snoc; assumption|].
        intros k I. apply in_app_or in I. destruct I as [I|[->|[]]]; [auto|]. exists d. apply Wk. left. reflexivity.
    - destruct work as [|[x d] rest]; [discriminate|]. rewrite step_eq in E. destruct (mem x seen) eqn:Mx.
      + injection E as <- <-. exact (IH w0 order (inv_skip _ _ _ _ _ _ _ I Mx)).
      + destruct (next x w) as [[ks|e1] w3] eqn:N; [|discriminate]. destruct (inv_visit _ _ _ _ _ _ _ _ _ I Mx N) as (seen1 & AD & I1). rewrite AD in E. injection E as <- <-. exact (IH w0 _ I1).
  Qed.

  (** It ends if finitely many keys are reachable. *)
  Definition unseen (U : list K) seen : nat := List.length (List.filter (fun u => negb (mem u seen)) U).
  Lemma filter_less : forall (U : list K) (p q : K -> bool), (forall u, q u = true -> p u = true) -> (exists u, In u U /\ p u = true /\ q u = false) -> List.length (List.filter q U) < List.length (List.filter p U).
  Proof.
    assert (LE : forall (U : list K) (p q : K -> bool), (forall u, q u = true -> p u = true) -> List.length (List.filter q U) <= List.length (List.filter p U)).
    { induction U as [|u U IH]; intros p q I; [cbn; lia|]. cbn. specialize (IH p q I). destruct (q u) eqn:Q; [rewrite (I u Q); cbn; lia|]. destruct (p u); cbn; lia. }
    induction U as [|u U IH]; intros p q I (v & Iv & Pv & Qv); [destruct Iv|]. cbn. destruct Iv as [->|Iv].
    - rewrite Pv, Qv. cbn. pose proof (LE U p q I). lia.
    - specialize (IH p q I (ex_intro _ v (conj Iv (conj Pv Qv)))). destruct (q u) eqn:Q; [rewrite (I u Q); cbn; lia|]. destruct (p u); cbn; lia.
  Qed.
  Lemma ends_pf : forall U, (forall n k, path n k -> among k U) -> forall c work seen w w0 order, unseen U seen < c -> inv w0 work seen order w -> exists r w1, evals (search next) (work, seen) w r w1.
  Proof.
    intros U FU. induction c as [|c IH]; intros work seen w w0 order L I; [lia|]. revert w I. induction work as [|[x d] rest IHw]; intros w I.
    - do 2 eexists. apply ev_result. reflexivity.
    - destruct (mem x seen) eqn:Mx.
      + destruct (IHw w (inv_skip _ _ _ _ _ _ _ I Mx)) as (r & w1 & E). do 2 eexists. eapply ev_call; [rewrite step_eq, Mx; reflexivity|exact E].
      + destruct (next x w) as [[ks|e] w1] eqn:N; [|do 2 eexists; apply ev_raise; rewrite step_eq, Mx, N; reflexivity].
        destruct (inv_visit _ _ _ _ _ _ _ _ _ I Mx N) as (seen1 & AD & I1). pose proof I1 as I2. eapply IH in I2; [destruct I2 as (r & w2 & E); do 2 eexists; eapply ev_call; [rewrite step_eq, Mx, N, AD; reflexivity|exact E]|].
        enough (unseen U seen1 < unseen U seen) by lia. pose proof (i_reach _ _ _ _ _ I) as R. destruct (C02_pf seen x d R) as (s2 & AD2 & _ & T & _). rewrite AD in AD2. injection AD2 as <-. apply filter_less.
        * intros u. rewrite T. destruct (eqb u x); cbn; [discriminate|auto].
        * destruct (FU d x (i_work _ _ _ _ _ I x d (or_introl eq_refl))) as (u & Iu & Eu). exists u. split; [exact Iu|]. rewrite T, (eqb_sym u x), Eu. cbn. split; [|reflexivity].
          destruct (mem u seen) eqn:Mu; [|reflexivity]. apply (mem_seen _ _ _ _ _ u I) in Mu. destruct Mu as [d1 Tu]. rewrite <- (try_find_cong seen x u Eu) in Tu. rewrite (proj2 (mem_seen _ _ _ _ _ x I) (ex_intro _ d1 Tu)) in Mx. discriminate.
  Qed.
End Facts.
