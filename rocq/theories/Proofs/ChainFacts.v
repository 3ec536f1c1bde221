(** Lemmas about chains of transformations. *)
From Coq Require Import List ZArith Bool Lia.
From Verif.Model Require Import Base PyList Gen Chain.
From Verif.Model Require Block Seq AsyncSeq.
From Verif.Spec Require Import ListM SeqSpec ChainSpec.
From Verif.Proofs Require Import SeqFacts SeqFacts2 SeqFacts3 AsyncSeqFacts.
From Verif.Proofs Require BlockFacts AsyncSeqFacts2.
Import ListNotations.
Local Open Scope py_scope.

Definition opt_list {B} (o : option B) : list B := match o with Some y => [y] | None => [] end.

Section Steady.
  Context {W : Type}.
  Variable I : W -> Prop.

  Lemma gives_mapM : forall A B (f : A -> M W B) F, gives I f F -> forall xs w, I w -> exists w1, mapM f xs w = (Ret (List.map F xs), w1) /\ I w1.
  Proof.
    intros A B f F G. induction xs as [|x xs IH]; intros w Iw; cbn.
    - exists w. split; auto.
    - destruct (G x w Iw) as (w1 & E & Iw1). destruct (IH w1 Iw1) as (w2 & E2 & Iw2). exists w2. split; auto.
      unfold bind. rewrite E, E2. reflexivity.
  Qed.
  Lemma gives_filterM : forall A (p : A -> M W bool) P, gives I p P -> forall xs w, I w -> exists w1, filterM p xs w = (Ret (List.filter P xs), w1) /\ I w1.
  Proof.
    intros A p P G. induction xs as [|x xs IH]; intros w Iw; cbn.
    - exists w. split; auto.
    - destruct (G x w Iw) as (w1 & E & Iw1). destruct (IH w1 Iw1) as (w2 & E2 & Iw2). exists w2. split; auto.
      unfold bind. rewrite E, E2. reflexivity.
  Qed.

  Lemma filter_steady : forall A (p : A -> M W bool) P, gives I p P -> forall g l, steady I g l -> steady I (Seq.filter_loop p g) (List.filter P l).
  Proof.
    intros A p P G. induction 1 as [g H|g g1 l H _ IH|g x g1 l H _ IH]; cbn [List.filter].
    - apply sd_stop. intros w Iw. destruct (H w Iw) as (w1 & E & Iw1). exists w1. split; auto. cbn. unfold bind. rewrite E. reflexivity.
    - eapply sd_skip; [|exact IH]. intros w Iw. destruct (H w Iw) as (w1 & E & Iw1). exists w1. split; auto. cbn. unfold bind. rewrite E. reflexivity.
    - destruct (P x) eqn:Px; [eapply sd_yield; [|exact IH]|eapply sd_skip; [|exact IH]]; intros w Iw; destruct (H w Iw) as (w1 & E & Iw1);
        destruct (G x w1 Iw1) as (w2 & E2 & Iw2); exists w2; (split; [|exact Iw2]); cbn; unfold bind; rewrite E, E2, Px; reflexivity.
  Qed.

  Lemma each_steady : forall A B S (body : S -> A -> M W (AsyncSeq.turn S B)) F,
    (forall s x w, I w -> exists w1, body s x w = (Ret (F s x), w1) /\ I w1) ->
    forall g l, steady I g l -> forall s, steady I (AsyncSeq.each body s g) (outs F s l).
  Proof.
    intros A B S body F G. induction 1 as [g H|g g1 l H _ IH|g x g1 l H _ IH]; intros s; cbn [outs].
    - apply sd_stop. intros w Iw. destruct (H w Iw) as (w1 & E & Iw1). exists w1. split; auto. stp_ret E.
    - eapply sd_skip; [|apply IH]. intros w Iw. destruct (H w Iw) as (w1 & E & Iw1). exists w1. split; auto. stp_ret E.
    - destruct (F s x) as [y s1|s1|] eqn:X; [eapply sd_yield; [|apply IH]|eapply sd_skip; [|apply IH]|apply sd_stop];
        intros w Iw; destruct (H w Iw) as (w1 & E & Iw1); destruct (G s x w1 Iw1) as (w2 & E2 & Iw2); exists w2; (split; [|exact Iw2]);
        stp_ret E; erewrite in_async_ret by exact E2; rewrite X; reflexivity.
  Qed.
  Lemma started_reiterable : forall A B (src : iterable W A) (k : gen W A -> gen W B) l l2, reiterable I src l ->
    (forall g, steady I g l -> steady I (k g) l2) -> reiterable I (ret (AsyncSeq.started src k)) l2.
  Proof.
    intros A B src k l l2 (g & O & S) H. exists (AsyncSeq.started src k). split.
    - intros w Iw. exists w. split; auto.
    - eapply sd_skip; [|apply H, S]. intros w Iw. destruct (O w Iw) as (w1 & E & Iw1). exists w1. split; auto.
      cbn. unfold bind. erewrite in_async_ret by exact E. reflexivity.
  Qed.
  Lemma async_collect_inner : forall A B (f : A -> M W (iterable W B)) g h ys l,
    steady I h ys -> steady I (AsyncSeq.collect_loop f None g) l -> steady I (AsyncSeq.collect_loop f (Some h) g) (ys ++ l).
  Proof.
    intros A B f g h ys l H G. induction H as [h H|h h1 ys H _ IH|h y h1 ys H _ IH]; cbn [app].
    - eapply sd_skip; [|exact G]. intros w Iw. destruct (H w Iw) as (w1 & E & Iw1). exists w1. split; auto. stp_ret E.
    - eapply sd_skip; [|exact IH]. intros w Iw. destruct (H w Iw) as (w1 & E & Iw1). exists w1. split; auto. stp_ret E.
    - eapply sd_yield; [|exact IH]. intros w Iw. destruct (H w Iw) as (w1 & E & Iw1). exists w1. split; auto. stp_ret E.
  Qed.
  Lemma async_collect_steady : forall A B (f : A -> M W (list B)) F, gives I f F ->
    forall g l, steady I g l -> steady I (AsyncSeq.collect_loop (fun x => do ys <- f x; ret (of_list ys)) None g) (flat_map F l).
  Proof.
    intros A B f F G. induction 1 as [g H|g g1 l H _ IH|g x g1 l H _ IH]; cbn [flat_map].
    - apply sd_stop. intros w Iw. destruct (H w Iw) as (w1 & E & Iw1). exists w1. split; auto. stp_ret E.
    - eapply sd_skip; [|exact IH]. intros w Iw. destruct (H w Iw) as (w1 & E & Iw1). exists w1. split; auto. stp_ret E.
    - eapply sd_skip; [|apply async_collect_inner; [apply (steady_list I (F x))|exact IH]].
      intros w Iw. destruct (H w Iw) as (w1 & E & Iw1). destruct (G x w1 Iw1) as (w2 & E2 & Iw2). exists w2. split; auto.
      stp_ret E. unfold AsyncSeq.in_async at 1. unfold bind. rewrite E2. reflexivity.
  Qed.
  Lemma async_append_last : forall A g (l : list A), steady I g l -> steady I (AsyncSeq.append_loop None g) l.
  Proof.
    intros A. induction 1 as [g H|g g1 l H _ IH|g x g1 l H _ IH].
    - apply sd_stop. intros w Iw. destruct (H w Iw) as (w1 & E & Iw1). exists w1. split; auto. stp_ret E.
    - eapply sd_skip; [|exact IH]. intros w Iw. destruct (H w Iw) as (w1 & E & Iw1). exists w1. split; auto. stp_ret E.
    - eapply sd_yield; [|exact IH]. intros w Iw. destruct (H w Iw) as (w1 & E & Iw1). exists w1. split; auto. stp_ret E.
  Qed.
  Lemma async_append_steady : forall A (ys : list A) g l, steady I g l -> steady I (AsyncSeq.append_loop (Some (of_list ys)) g) (l ++ ys).
  Proof.
    intros A ys. induction 1 as [g H|g g1 l H _ IH|g x g1 l H _ IH]; cbn [app].
    - eapply sd_skip; [|apply async_append_last, (steady_list I ys)]. intros w Iw. destruct (H w Iw) as (w1 & E & Iw1). exists w1. split; auto. stp_ret E.
    - eapply sd_skip; [|exact IH]. intros w Iw. destruct (H w Iw) as (w1 & E & Iw1). exists w1. split; auto. stp_ret E.
    - eapply sd_yield; [|exact IH]. intros w Iw. destruct (H w Iw) as (w1 & E & Iw1). exists w1. split; auto. stp_ret E.
  Qed.
End Steady.

(** *** Lists: the values of the async loops *)
Lemma outs_map : forall A B (F : A -> B) l, outs (fun (_ : unit) x => AsyncSeq.Give (F x) tt) tt l = List.map F l.
Proof. induction l as [|x l IH]; cbn; [reflexivity|now rewrite IH]. Qed.
Lemma outs_filter : forall A (P : A -> bool) l, outs (fun (_ : unit) x => if P x then AsyncSeq.Give x tt else AsyncSeq.Drop tt) tt l = List.filter P l.
Proof. induction l as [|x l IH]; cbn; [reflexivity|destruct (P x); now rewrite IH]. Qed.
Lemma outs_choose : forall A B (F : A -> option B) l,
  outs (fun (_ : unit) x => match F x with Some y => AsyncSeq.Give y tt | None => AsyncSeq.Drop tt end) tt l = flat_map (fun x => opt_list (F x)) l.
Proof. induction l as [|x l IH]; cbn; [reflexivity|destruct (F x); cbn; now rewrite IH]. Qed.
Lemma outs_take : forall A n (l : list A) i, (0 <= i)%Z ->
  outs (fun i x => if Z.leb n i then AsyncSeq.Leave else AsyncSeq.Give x (i + 1)%Z) i l = firstn (Z.to_nat (n - i)) l.
Proof.
  induction l as [|x l IH]; intros i Hi; cbn [outs]; [now rewrite firstn_nil|]. destruct (Z.leb_spec n i).
  - replace (Z.to_nat (n - i)) with 0 by lia. reflexivity.
  - replace (Z.to_nat (n - i)) with (S (Z.to_nat (n - (i + 1)))) by lia. cbn [firstn]. rewrite IH by lia. reflexivity.
Qed.
Lemma outs_skip : forall A n (l : list A) i, (0 <= i)%Z ->
  outs (fun i x => if Z.leb n i then AsyncSeq.Give x (i + 1)%Z else AsyncSeq.Drop (i + 1)%Z) i l = skipn (Z.to_nat (n - i)) l.
Proof.
  induction l as [|x l IH]; intros i Hi; cbn [outs]; [now rewrite skipn_nil|]. destruct (Z.leb_spec n i).
  - rewrite IH by lia. replace (Z.to_nat (n - i)) with 0 by lia. replace (Z.to_nat (n - (i + 1))) with 0 by lia. reflexivity.
  - rewrite IH by lia. replace (Z.to_nat (n - i)) with (S (Z.to_nat (n - (i + 1)))) by lia. reflexivity.
Qed.
Lemma outs_tail_false : forall A (l : list A), outs (fun (b : bool) x => if b then AsyncSeq.Drop false else AsyncSeq.Give x false) false l = l.
Proof. induction l as [|x l IH]; cbn; [reflexivity|now rewrite IH]. Qed.

Section Stage.
  Context {W : Type}.
  Variable I : W -> Prop.

  (** What a settled stage gives on Block it gives on Seq and AsyncSeq. *)
  Lemma stage_steady : forall A B (s : stage W A B), settled I s -> forall xs w, I w ->
    exists w1, I w1 /\
    ((exists ys, block_stage s xs w = (Ret ys, w1) /\ forall src, reiterable I src xs ->
        (forall w, I w -> exists it w2, seq_stage s src w = (Ret it, w2) /\ I w2 /\ reiterable I it ys) /\
        reiterable I (ret (async_stage s src)) ys) \/
     (block_stage s xs w = (Raise ValueError, w1) /\ match s with STail => xs = [] | _ => False end)).
  Proof.
    intros A B s. destruct s as [A B f|A p|A B f|A B f|A ys|A n|A n|A]; intros H xs w Iw.
    - destruct H as (F & G). destruct (gives_mapM I _ _ f F G xs w Iw) as (w1 & E & I1). exists w1. split; [exact I1|]. left.
      exists (List.map F xs). split; [cbn; rewrite BlockFacts.map_mapM; rewrite E; [reflexivity|discriminate]|]. intros src R. split.
      + intros w0 I0. eexists _, w0. split; [reflexivity|]. split; [exact I0|]. exact (C28_map_pf I f F src xs G R).
      + apply (started_reiterable I _ _ src _ xs _ R). intros g S. rewrite <- outs_map.
        apply each_steady with (F := fun (_ : unit) x => AsyncSeq.Give (F x) tt); [|exact S]. intros [] x w0 I0. destruct (G x w0 I0) as (w2 & E2 & I2).
        exists w2. split; [|exact I2]. unfold bind. rewrite E2. reflexivity.
    - destruct H as (P & G). destruct (gives_filterM I _ p P G xs w Iw) as (w1 & E & I1). exists w1. split; [exact I1|]. left.
      exists (List.filter P xs). split; [cbn; rewrite BlockFacts.filter_pf; rewrite E; [reflexivity|discriminate]|]. intros src R. split.
      + intros w0 I0. destruct R as (g & O & S). destruct (O w0 I0) as (w2 & E2 & I2). exists (ret (Seq.filter_loop p g)), w2.
        split; [cbn; unfold Seq.filter, bind; rewrite E2; reflexivity|]. split; [exact I2|]. exists (Seq.filter_loop p g). split.
        * intros w3 I3. exists w3. split; auto.
        * exact (filter_steady I _ p P G g xs S).
      + apply (started_reiterable I _ _ src _ xs _ R). intros g S. rewrite <- outs_filter.
        apply each_steady with (F := fun (_ : unit) x => if P x then AsyncSeq.Give x tt else AsyncSeq.Drop tt); [|exact S]. intros [] x w0 I0. destruct (G x w0 I0) as (w2 & E2 & I2).
        exists w2. split; [|exact I2]. unfold bind. rewrite E2. reflexivity.
    - destruct H as (F & G). destruct (gives_mapM I _ _ f F G xs w Iw) as (w1 & E & I1). exists w1. split; [exact I1|]. left.
      exists (flat_map (fun x => opt_list (F x)) xs). split.
      { cbn [block_stage]. rewrite (BlockFacts.choose_pf W A B xs f w) by (rewrite E; discriminate). unfold bind at 1. rewrite E. unfold ret. rewrite !flat_map_concat_map, map_map. reflexivity. }
      intros src R. split.
      + intros w0 I0. eexists _, w0. split; [reflexivity|]. split; [exact I0|]. exact (C28_choose_pf I f F src xs G R).
      + apply (started_reiterable I _ _ src _ xs _ R). intros g S. rewrite <- outs_choose.
        apply each_steady with (F := fun (_ : unit) x => match F x with Some y => AsyncSeq.Give y tt | None => AsyncSeq.Drop tt end); [|exact S]. intros [] x w0 I0. destruct (G x w0 I0) as (w2 & E2 & I2).
        exists w2. split; [|exact I2]. unfold bind. rewrite E2. reflexivity.
    - destruct H as (F & G). destruct (gives_mapM I _ _ f F G xs w Iw) as (w1 & E & I1). exists w1. split; [exact I1|]. left.
      exists (flat_map F xs). split.
      { cbn [block_stage]. change (list B) with (Block.block B) in E. rewrite (BlockFacts.collect_pf W A B xs f w) by (rewrite E; discriminate). unfold bind at 1. rewrite E. unfold ret. rewrite flat_map_concat_map. reflexivity. }
      intros src R. split.
      + intros w0 I0. eexists _, w0. split; [reflexivity|]. split; [exact I0|]. apply C28_collect_pf; [|exact R].
        intros x. exists (of_list (F x)). split; [|apply C28_list_pf]. intros w2 I2. destruct (G x w2 I2) as (w3 & E3 & I3). exists w3. split; [|exact I3].
        unfold bind. rewrite E3. reflexivity.
      + apply (started_reiterable I _ _ src _ xs _ R). intros g S. apply async_collect_steady; assumption.
    - exists w. split; [exact Iw|]. left. exists (xs ++ ys). split; [reflexivity|]. intros src R. split.
      + intros w0 I0. eexists _, w0. split; [reflexivity|]. split; [exact I0|].
        assert (Q : reiterable I (Seq.append [of_list ys] src) (xs ++ List.concat [ys])).
        { apply C28_append_pf; [|exact R]. constructor; [apply C28_list_pf|constructor]. }
        cbn in Q. rewrite app_nil_r in Q. exact Q.
      + apply (started_reiterable I _ _ src _ xs _ R). intros g S. apply async_append_steady; assumption.
    - exists w. split; [exact Iw|]. left. exists (skipn (Z.to_nat n) xs). split.
      { cbn in H |- *. unfold ret. f_equal. f_equal. pose proof (BlockFacts.C20_split_pf A xs n) as E. rewrite (proj1 (BlockFacts.C20_first_pf A xs n H)) in E.
        rewrite <- (firstn_skipn (Z.to_nat n) xs) in E at 3. unfold Block.append in E. now apply app_inv_head in E. }
      intros src R. split.
      + intros w0 I0. eexists _, w0. split; [reflexivity|]. split; [exact I0|]. exact (C28_skip_pf I n src xs R).
      + apply (started_reiterable I _ _ src _ xs _ R). intros g S. replace (Z.to_nat n) with (Z.to_nat (n - 0)) by (f_equal; lia). rewrite <- outs_skip by lia.
        apply each_steady with (F := fun i x => if Z.leb n i then AsyncSeq.Give x (i + 1)%Z else AsyncSeq.Drop (i + 1)%Z); [|exact S].
        intros i x w0 I0. exists w0. split; auto.
    - exists w. split; [exact Iw|]. left. exists (firstn (Z.to_nat n) xs). split.
      { cbn in H |- *. unfold ret. f_equal. f_equal. apply (proj1 (BlockFacts.C20_first_pf A xs n H)). }
      intros src R. split.
      + intros w0 I0. eexists _, w0. split; [reflexivity|]. split; [exact I0|]. exact (C28_take_pf I n src xs R).
      + apply (started_reiterable I _ _ src _ xs _ R). intros g S. replace (Z.to_nat n) with (Z.to_nat (n - 0)) by (f_equal; lia). rewrite <- outs_take by lia.
        apply each_steady with (F := fun i x => if Z.leb n i then AsyncSeq.Leave else AsyncSeq.Give x (i + 1)%Z); [|exact S].
        intros i x w0 I0. exists w0. split; auto.
    - destruct xs as [|x xs].
      + exists w. split; [exact Iw|]. right. split; reflexivity.
      + exists w. split; [exact Iw|]. left. exists xs. split; [reflexivity|]. intros src R. split.
        * intros w0 I0. eexists _, w0. split; [reflexivity|]. split; [exact I0|]. exact (C28_skip_pf I 1%Z src (x :: xs) R).
        * apply (started_reiterable I _ _ src _ (x :: xs) _ R). intros g S. rewrite <- (outs_tail_false A xs).
          change (outs (fun (b : bool) x => if b then AsyncSeq.Drop false else AsyncSeq.Give x false) false xs) with (outs (fun (b : bool) x => if b then AsyncSeq.Drop false else AsyncSeq.Give x false) true (x :: xs)).
          apply each_steady; [|exact S]. intros b y w0 I0. exists w0. split; auto.
  Qed.

  Lemma chain_steady : forall A B (c : chain W A B), settled_chain I c -> forall xs w ys w1, I w -> on_block c xs w = (Ret ys, w1) ->
    I w1 /\ forall src, reiterable I src xs ->
      (forall w, I w -> exists it w2, on_seq c src w = (Ret it, w2) /\ I w2 /\ reiterable I it ys) /\
      reiterable I (on_async c src) ys.
  Proof.
    intros A B c. induction c as [A|A B C s c IH]; intros H xs w ys w1 Iw E; cbn in *.
    - injection E as <- <-. split; [exact Iw|]. intros src R. split; [|exact R]. intros w0 I0. exists src, w0. auto.
    - destruct H as [Hs Hc]. destruct (stage_steady _ _ s Hs xs w Iw) as (w2 & I2 & [(zs & E2 & R2)|(E2 & _)]).
      + unfold bind in E. rewrite E2 in E. destruct (IH Hc zs w2 ys w1 I2 E) as (I1 & R1). split; [exact I1|]. intros src R.
        destruct (R2 src R) as (Rs & Ra). split; [|apply R1, Ra]. intros w0 I0. destruct (Rs w0 I0) as (it & w3 & E3 & I3 & R3).
        unfold bind. rewrite E3. apply R1; assumption.
      + unfold bind in E. rewrite E2 in E. discriminate.
  Qed.
  Lemma chain_total : forall A B (c : chain W A B), settled_chain I c -> no_tail c -> forall xs w, I w ->
    exists ys w1, on_block c xs w = (Ret ys, w1).
  Proof.
    intros A B c. induction c as [A|A B C s c IH]; intros H N xs w Iw; cbn in *.
    - exists xs, w. reflexivity.
    - destruct H as [Hs Hc]. destruct N as [Ns Nc]. destruct (stage_steady _ _ s Hs xs w Iw) as (w2 & I2 & [(zs & E2 & _)|(_ & F)]).
      + unfold bind. rewrite E2. apply IH; assumption.
      + destruct s; contradiction.
  Qed.

  Lemma chain_agree_pf : forall A B (c : chain W A B) xs w ys w1, settled_chain I c -> I w -> on_block c xs w = (Ret ys, w1) ->
    (exists it w2 w3, on_seq c (of_list xs) w = (Ret it, w2) /\ iterates it w2 ys (Ret tt) w3 /\ I w3) /\
    (exists w3, iterates (on_async c (of_list xs)) w ys (Ret tt) w3 /\ I w3).
  Proof.
    intros A B c xs w ys w1 H Iw E. destruct (chain_steady A B c H xs w ys w1 Iw E) as (I1 & R). destruct (R (of_list xs) (C28_list_pf I xs)) as (Rs & Ra). split.
    - destruct (Rs w Iw) as (it & w2 & E2 & I2 & (g & O & S)). destruct (O w2 I2) as (w4 & E4 & I4). destruct (steady_produces I g ys S w4 I4) as (w3 & P & I3).
      exists it, w2, w3. split; [exact E2|]. split; [|exact I3]. left. exists g, w4. auto.
    - destruct Ra as (g & O & S). destruct (O w Iw) as (w2 & E2 & I2). destruct (steady_produces I g ys S w2 I2) as (w3 & P & I3). exists w3. split; [|exact I3].
      left. exists g, w2. auto.
  Qed.
End Stage.

(** *** One stage, any effects and exceptions *)
Section One.
  Context {W : Type}.

  Definition runs_like {A} (g : gen W A) (m : M W (list A)) (w : W) : Prop :=
    match m w with (Ret ys, w1) => produces g w ys (Ret tt) w1 | (Raise e, w1) => exists ys, produces g w ys (Raise e) w1 end.

  Lemma mapM_no_stop : forall A B (f : A -> M W B), (forall x, no_stop (f x)) -> forall xs w, fst (mapM f xs w) <> Raise StopIterationExn.
  Proof.
    intros A B f N. induction xs as [|x xs IH]; intros w; cbn; [discriminate|]. unfold bind. pose proof (N x w) as Nx. destruct (f x w) as [[y|e] w1]; [|cbn in *; congruence].
    specialize (IH w1). destruct (mapM f xs w1) as [[ys|e] w2]; [discriminate|cbn in *; congruence].
  Qed.
  Lemma filterM_no_stop : forall A (f : A -> M W bool), (forall x, no_stop (f x)) -> forall xs w, fst (filterM f xs w) <> Raise StopIterationExn.
  Proof.
    intros A f N. induction xs as [|x xs IH]; intros w; cbn; [discriminate|]. unfold bind. pose proof (N x w) as Nx. destruct (f x w) as [[y|e] w1]; [|cbn in *; congruence].
    specialize (IH w1). destruct (filterM f xs w1) as [[ys|e] w2]; [discriminate|cbn in *; congruence].
  Qed.

  Lemma runs_yield : forall A (g : gen W A) w y g1 w1 (m m1 : M W (list A)), step g w = (Ret (Yield y g1), w1) -> runs_like g1 m1 w1 ->
    m w = (do ys <- m1; ret (y :: ys)) w1 -> runs_like g m w.
  Proof.
    intros A g w y g1 w1 m m1 E R H. unfold runs_like in *. rewrite H. unfold bind, ret. destruct (m1 w1) as [[ys|e] w2].
    - eapply pr_yield; eauto.
    - destruct R as (ys & R). exists (y :: ys). eapply pr_yield; eauto.
  Qed.
  Lemma runs_skip : forall A (g : gen W A) w g1 w1 (m m1 : M W (list A)), step g w = (Ret (Skip g1), w1) -> runs_like g1 m1 w1 ->
    m w = m1 w1 -> runs_like g m w.
  Proof.
    intros A g w g1 w1 m m1 E R H. unfold runs_like in *. rewrite H. destruct (m1 w1) as [[ys|e] w2].
    - eapply pr_skip; eauto.
    - destruct R as (ys & R). exists ys. eapply pr_skip; eauto.
  Qed.
  Lemma runs_raise : forall A (g : gen W A) w e w1 (m : M W (list A)), step g w = (Raise e, w1) -> m w = (Raise e, w1) -> runs_like g m w.
  Proof. intros A g w e w1 m E H. unfold runs_like. rewrite H. exists []. now apply pr_raise. Qed.
  Lemma runs_stop : forall A (g : gen W A) w (m : M W (list A)), step g w = (Ret Stop, w) -> m w = (Ret [], w) -> runs_like g m w.
  Proof. intros A g w m E H. unfold runs_like. rewrite H. now apply pr_stop. Qed.
  Lemma runs_ext : forall A (g : gen W A) w (m m1 : M W (list A)), runs_like g m1 w -> m w = m1 w -> runs_like g m w.
  Proof. intros A g w m m1 R H. unfold runs_like in *. rewrite H. exact R. Qed.
  Lemma runs_opening : forall A B (xs : list A) (k : gen W A -> gen W B) m w, runs_like (k (list_gen xs)) m w -> iterates_like (ret (Seq.opening (of_list xs) k)) m w.
  Proof.
    intros A B xs k m w R. unfold iterates_like, runs_like in *. destruct (m w) as [[ys|e] w1].
    - left. exists (Seq.opening (of_list xs) k), w. split; [reflexivity|]. eapply pr_skip; [reflexivity|exact R].
    - destruct R as (ys & R). exists ys. left. exists (Seq.opening (of_list xs) k), w. split; [reflexivity|]. eapply pr_skip; [reflexivity|exact R].
  Qed.
  Lemma runs_started : forall A B (xs : list A) (k : gen W A -> gen W B) m w, runs_like (k (list_gen xs)) m w -> iterates_like (ret (AsyncSeq.started (of_list xs) k)) m w.
  Proof.
    intros A B xs k m w R. unfold iterates_like, runs_like in *. destruct (m w) as [[ys|e] w1].
    - left. exists (AsyncSeq.started (of_list xs) k), w. split; [reflexivity|]. eapply pr_skip; [reflexivity|exact R].
    - destruct R as (ys & R). exists ys. left. exists (AsyncSeq.started (of_list xs) k), w. split; [reflexivity|]. eapply pr_skip; [reflexivity|exact R].
  Qed.
  Lemma runs_ret : forall A (g : gen W A) m w, runs_like g m w -> iterates_like (ret g) m w.
  Proof.
    intros A g m w R. unfold iterates_like, runs_like in *. destruct (m w) as [[ys|e] w1].
    - left. exists g, w. auto.
    - destruct R as (ys & R). exists ys. left. exists g, w. auto.
  Qed.

  Definition flatM {A B} (f : A -> M W (list B)) : list A -> M W (list B) := fun xs => do yss <- mapM f xs; ret (List.concat yss).
  Lemma flatM_cons : forall A B (f : A -> M W (list B)) x xs w, flatM f (x :: xs) w = (do ys <- f x; do zs <- flatM f xs; ret (ys ++ zs)) w.
  Proof.
    intros A B f x xs w. unfold flatM. cbn. unfold bind, ret. destruct (f x w) as [[ys|e] w1]; [|reflexivity].
    destruct (mapM f xs w1) as [[yss|e] w2]; reflexivity.
  Qed.

  Lemma seq_map_runs : forall A B (f : A -> M W B), (forall x, no_stop (f x)) -> forall xs w, runs_like (Seq.map_loop f (list_gen xs)) (mapM f xs) w.
  Proof.
    intros A B f N. induction xs as [|x xs IH]; intros w.
    - apply runs_stop; reflexivity.
    - pose proof (N x w) as Nx. destruct (f x w) as [[y|e] w1] eqn:E.
      + eapply runs_yield; [|apply (IH w1)|].
        * cbn. unfold bind, in_generator, ret. cbn. rewrite E. reflexivity.
        * cbn. unfold bind at 1. rewrite E. reflexivity.
      + eapply runs_raise.
        * cbn. unfold bind, in_generator, ret. cbn. rewrite E. destruct e; try reflexivity. now contradiction Nx.
        * cbn. unfold bind. rewrite E. reflexivity.
  Qed.
  Lemma seq_filter_runs : forall A (p : A -> M W bool), (forall x, no_stop (p x)) -> forall xs w, runs_like (Seq.filter_loop p (list_gen xs)) (filterM p xs) w.
  Proof.
    intros A f N. induction xs as [|x xs IH]; intros w.
    - apply runs_stop; reflexivity.
    - pose proof (N x w) as Nx. destruct (f x w) as [[[|]|e] w1] eqn:E.
      + eapply runs_yield; [|apply (IH w1)|].
        * cbn. unfold bind, ret. cbn. rewrite E. reflexivity.
        * cbn. unfold bind at 1. rewrite E. reflexivity.
      + eapply runs_skip; [|apply (IH w1)|].
        * cbn. unfold bind, ret. cbn. rewrite E. reflexivity.
        * cbn. unfold bind, ret. rewrite E. destruct (filterM f xs w1) as [[ys|e] w2]; reflexivity.
      + eapply runs_raise.
        * cbn. unfold bind, ret. cbn. rewrite E. destruct e; try reflexivity. now contradiction Nx.
        * cbn. unfold bind. rewrite E. reflexivity.
  Qed.
  Lemma seq_collect_runs : forall A B (f : A -> M W (list B)) g, (forall x, no_stop (f x)) -> (forall x, g x ==m (do ys <- f x; ret (of_list ys))) ->
    forall xs w, runs_like (Seq.collect_loop g None (list_gen xs)) (flatM f xs) w.
  Proof.
    intros A B f g N G. induction xs as [|x xs IH]; intros w.
    - apply runs_stop; reflexivity.
    - pose proof (N x w) as Nx. destruct (f x w) as [[ys|e] w1] eqn:E.
      + specialize (IH w1). unfold runs_like in *. rewrite flatM_cons. unfold bind, ret. rewrite E.
        assert (Z : step (Seq.collect_loop g None (list_gen (x :: xs))) w = (Ret (Skip (Seq.collect_loop g (Some (list_gen ys)) (list_gen xs))), w1)).
        { cbn. unfold bind, in_generator, ret. cbn. rewrite (G x w). unfold bind. rewrite E. reflexivity. }
        destruct (flatM f xs w1) as [[zs|e] w2].
        * eapply pr_skip; [exact Z|]. now apply collect_loop_inner.
        * destruct IH as (zs & IH). exists (ys ++ zs). eapply pr_skip; [exact Z|]. now apply collect_loop_inner.
      + eapply runs_raise.
        * cbn. unfold bind, in_generator, ret. cbn. rewrite (G x w). unfold bind. rewrite E. destruct e; try reflexivity. now contradiction Nx.
        * rewrite flatM_cons. unfold bind. rewrite E. reflexivity.
  Qed.
  Lemma async_collect_runs : forall A B (f : A -> M W (list B)), (forall x, no_stop (f x)) -> forall xs w,
    runs_like (AsyncSeq.collect_loop (fun x => do ys <- f x; ret (of_list ys)) None (list_gen xs)) (flatM f xs) w.
  Proof.
    intros A B f N. set (g := fun x => do ys <- f x; ret (of_list ys)). induction xs as [|x xs IH]; intros w.
    - apply runs_stop; reflexivity.
    - pose proof (N x w) as Nx. destruct (f x w) as [[ys|e] w1] eqn:E.
      + specialize (IH w1). unfold runs_like in *. rewrite flatM_cons. unfold bind, ret. rewrite E.
        assert (Z : step (AsyncSeq.collect_loop g None (list_gen (x :: xs))) w = (Ret (Skip (AsyncSeq.collect_loop g (Some (list_gen ys)) (list_gen xs))), w1)).
        { cbn. unfold bind at 1, AsyncSeq.in_async, ret. cbn. unfold bind, g, AsyncSeq.in_async, bind. rewrite E. reflexivity. }
        destruct (flatM f xs w1) as [[zs|e] w2].
        * eapply pr_skip; [exact Z|]. eapply AsyncSeqFacts2.collect_inner_ret; [apply list_gen_produces|exact IH].
        * destruct IH as (zs & IH). exists (ys ++ zs). eapply pr_skip; [exact Z|]. eapply AsyncSeqFacts2.collect_inner_ret; [apply list_gen_produces|exact IH].
      + eapply runs_raise.
        * cbn. unfold bind at 1, AsyncSeq.in_async, ret. cbn. unfold bind, g, AsyncSeq.in_async, bind. rewrite E. destruct e; try reflexivity. now contradiction Nx.
        * rewrite flatM_cons. unfold bind. rewrite E. reflexivity.
  Qed.

  (** the async loops that hand out at most one element per turn *)
  Definition turn_of {B} (o : option B) : AsyncSeq.turn unit B := match o with Some y => AsyncSeq.Give y tt | None => AsyncSeq.Drop tt end.
  Lemma async_each_runs : forall A B (body : unit -> A -> M W (AsyncSeq.turn unit B)) (h : A -> M W (option B)), (forall x, no_stop (h x)) ->
    (forall x, body tt x ==m (do o <- h x; ret (turn_of o))) ->
    forall xs w, runs_like (AsyncSeq.each body tt (list_gen xs)) (flatM (fun x => do o <- h x; ret (opt_list o)) xs) w.
  Proof.
    intros A B body h N G. induction xs as [|x xs IH]; intros w.
    - apply runs_stop; reflexivity.
    - pose proof (N x w) as Nx. destruct (h x w) as [[[y|]|e] w1] eqn:E.
      + eapply runs_yield; [|apply (IH w1)|].
        * cbn. unfold bind at 1, AsyncSeq.in_async, ret. cbn. unfold bind. rewrite (G x w). unfold bind. rewrite E. reflexivity.
        * rewrite flatM_cons. unfold bind at 1 2. rewrite E. reflexivity.
      + eapply runs_skip; [|apply (IH w1)|].
        * cbn. unfold bind at 1, AsyncSeq.in_async, ret. cbn. unfold bind. rewrite (G x w). unfold bind. rewrite E. reflexivity.
        * rewrite flatM_cons. unfold bind at 1 2. rewrite E. cbn. unfold bind, ret. destruct (flatM _ xs w1) as [[zs|e] w2]; reflexivity.
      + eapply runs_raise.
        * cbn. unfold bind at 1, AsyncSeq.in_async, ret. cbn. unfold bind. rewrite (G x w). unfold bind. rewrite E. destruct e; try reflexivity. now contradiction Nx.
        * rewrite flatM_cons. unfold bind. rewrite E. reflexivity.
  Qed.
  Lemma flatM_some : forall A B (f : A -> M W B) xs w, mapM f xs w = flatM (fun x => do o <- (do y <- f x; ret (Some y)); ret (opt_list o)) xs w.
  Proof.
    intros A B f. induction xs as [|x xs IH]; intros w; [reflexivity|]. rewrite flatM_cons. cbn. unfold bind in *. destruct (f x w) as [[y|e] w1]; [|reflexivity].
    cbn. rewrite IH. destruct (flatM _ xs w1) as [[zs|e] w2]; reflexivity.
  Qed.
  Lemma flatM_filter : forall A (p : A -> M W bool) xs w, filterM p xs w = flatM (fun x => do o <- (do b <- p x; ret (if b : bool then Some x else None)); ret (opt_list o)) xs w.
  Proof.
    intros A f. induction xs as [|x xs IH]; intros w; [reflexivity|]. rewrite flatM_cons. cbn. unfold bind in *. destruct (f x w) as [[[|]|e] w1]; [| |reflexivity];
      cbn; rewrite IH; destruct (flatM _ xs w1) as [[zs|e] w2]; reflexivity.
  Qed.
  Lemma flatM_choose : forall A B (f : A -> M W (option B)) xs w,
    (do os <- mapM f xs; ret (flat_map (fun o => match o with Some y => [y] | None => [] end) os)) w = flatM (fun x => do o <- f x; ret (opt_list o)) xs w.
  Proof.
    intros A B f. induction xs as [|x xs IH]; intros w; [reflexivity|]. rewrite flatM_cons. cbn. unfold bind in *. destruct (f x w) as [[o|e] w1]; [|reflexivity].
    cbn. rewrite <- IH. destruct (mapM f xs w1) as [[os|e] w2]; [|reflexivity]. destruct o; reflexivity.
  Qed.

  Lemma bind_no_stop : forall A B (m : M W A) (k : A -> B), no_stop m -> no_stop (do x <- m; ret (k x)).
  Proof. intros A B m k N w. specialize (N w). unfold bind. destruct (m w) as [[x|e] w1]; [discriminate|cbn in *; congruence]. Qed.

  Lemma stage_like : forall A B (s : stage W A B), never_stops s -> forall xs w,
    (exists it, seq_stage s (of_list xs) w = (Ret it, w) /\ iterates_like it (block_stage s xs) w) /\
    iterates_like (ret (async_stage s (of_list xs))) (block_stage s xs) w.
  Proof.
    intros A B s. destruct s as [A B f|A p|A B f|A B f|A ys|A n|A n|A]; intros N xs w; [| | | |..|contradiction].
    - assert (E : block_stage (SMap f) xs w = mapM f xs w) by (apply BlockFacts.map_mapM, mapM_no_stop, N). split.
      + eexists. split; [reflexivity|]. apply runs_opening. eapply runs_ext; [|exact E]. now apply seq_map_runs.
      + apply runs_started. eapply runs_ext; [|etransitivity; [exact E|apply flatM_some]].
        apply async_each_runs; [intros x; apply bind_no_stop, N|]. intros x w0. unfold bind, ret. destruct (f x w0) as [[y|e] w1]; reflexivity.
    - assert (E : block_stage (SFilter p) xs w = filterM p xs w) by (apply BlockFacts.filter_pf, filterM_no_stop, N). split.
      + eexists. split; [reflexivity|]. apply runs_ret. eapply runs_ext; [|exact E]. now apply seq_filter_runs.
      + apply runs_started. eapply runs_ext; [|etransitivity; [exact E|apply flatM_filter]].
        apply async_each_runs; [intros x; apply bind_no_stop, N|]. intros x w0. unfold bind, ret. destruct (p x w0) as [[[|]|e] w1]; reflexivity.
    - assert (E : block_stage (SChoose f) xs w = flatM (fun x => do o <- f x; ret (opt_list o)) xs w).
      { etransitivity; [apply BlockFacts.choose_pf, mapM_no_stop, N|apply flatM_choose]. } split.
      + eexists. split; [reflexivity|]. apply runs_opening. eapply runs_ext; [|exact E]. apply seq_collect_runs; [intros x; apply bind_no_stop, N|].
        intros x w0. unfold bind, ret. destruct (f x w0) as [[[y|]|e] w1]; reflexivity.
      + apply runs_started. eapply runs_ext; [|exact E]. apply async_each_runs; [exact N|]. intros x w0. reflexivity.
    - assert (E : block_stage (SCollect f) xs w = flatM f xs w).
      { apply (BlockFacts.collect_pf W A B xs f w). exact (mapM_no_stop A (list B) f N xs w). } split.
      + eexists. split; [reflexivity|]. apply runs_opening. eapply runs_ext; [|exact E]. apply seq_collect_runs; [exact N|]. intros x w0. reflexivity.
      + apply runs_started. eapply runs_ext; [|exact E]. now apply async_collect_runs.
    - pose proof (chain_agree_pf (fun w0 => w0 = w) A A (Next (SAppend ys) Whole) xs w (xs ++ ys) w (conj Logic.I Logic.I) eq_refl eq_refl) as ((it & w2 & w3 & E & P & ->) & (w4 & Q & ->)).
      cbn in E. injection E as <- <-. split; [eexists; split; [reflexivity|]|]; assumption.
    - cbn in N. assert (B0 : on_block (Next (SSkip n) Whole) xs w = (Ret (Block.skip xs n), w)) by reflexivity.
      pose proof (chain_agree_pf (fun w0 => w0 = w) A A (Next (SSkip n) Whole) xs w _ w (conj N Logic.I) eq_refl B0) as ((it & w2 & w3 & E & P & ->) & (w4 & Q & ->)).
      cbn in E. injection E as <- <-. split; [eexists; split; [reflexivity|]|]; assumption.
    - cbn in N. assert (B0 : on_block (Next (STake n) Whole) xs w = (Ret (Block.take xs n), w)) by reflexivity.
      pose proof (chain_agree_pf (fun w0 => w0 = w) A A (Next (STake n) Whole) xs w _ w (conj N Logic.I) eq_refl B0) as ((it & w2 & w3 & E & P & ->) & (w4 & Q & ->)).
      cbn in E. injection E as <- <-. split; [eexists; split; [reflexivity|]|]; assumption.
  Qed.
End One.
