(** Lemmas about the sharing of trees: filter, partition, map, histories. *)
From Coq Require Import List Bool Arith Lia.
From Verif.Model Require Import Base MapTree Map MapShare.
From Verif.Spec Require Import MapSpec MapShareSpec.
From Verif.Proofs Require Import KeyOrdFacts MapTreeFacts MapTreeMonadic MapFacts MapMain MapDepthFacts MapShareFacts.
Import ListNotations.
Local Open Scope nat_scope.
Local Open Scope py_scope.

Section Share.
  Context {U K : Type} {KO : KeyOrd K}.

  Section Tree.
    Context {V : Type}.

    Definition madeM (e : M (nat * U) (itree K V)) (c : M U (tree K V)) (ms : list (itree K V)) (b n : nat) (u : U) : Prop :=
      made_like e (fst (c u)) ms b n u (snd (c u)).

    Lemma madeM_bind : forall e (f : itree K V -> M (nat * U) (itree K V)) c g ms a b n u, madeM e c ms a n u ->
      (forall m' n1 u1, c u = (Ret (forget m'), u1) -> madeM (f m') (g (forget m')) [m'] b n1 u1) -> madeM (bind e f) (bind c g) ms (a + b) n u.
    Proof.
      intros e f c g ms a b n u (cs & L & M) F. unfold madeM, bind at 2 3. destruct (c u) as [[m0|x] u1]; cbn [fst snd] in *.
      - destruct M as (m' & G & E & W). subst m0. destruct (F m' (n + length cs) u1 eq_refl) as (ds & L2 & M2).
        exists (cs ++ ds). split; [rewrite app_length; lia|]. destruct (g (forget m') u1) as [[m2|x] u2]; cbn [fst snd] in *.
        + destruct M2 as (m3 & G2 & E2 & W2). exists m3. split; [eapply gives_bind; eassumption|]. split; [exact E2|].
          eapply within_again; [eapply within_more; [exact W2|apply incl_appr, incl_refl]|].
          intros y [<-|[]]. eapply within_more; [exact W|apply incl_appl, incl_refl].
        + eapply gives_bind; eassumption.
      - exists cs. split; [lia|]. now apply gives_raise.
    Qed.
    Lemma madeM_more : forall e c ms b b' n u, madeM e c ms b n u -> b <= b' -> madeM e c ms b' n u.
    Proof. intros. eapply made_more; eassumption. Qed.

    Definition each_add (N : nat) : nat := 3 * room N + 1.
    Lemma good_add : forall N j k v (m : itree K V) n u, good j (forget m) -> j <= N -> made_like (i_add (U := U) k v m) (add k v (forget m)) [m] (each_add N) n u u.
    Proof.
      intros N j k v m n u G L. eapply made_more; [apply add_made|]. unfold each_add.
      pose proof (good_depth _ _ G). pose proof (room_mono j N L). lia.
    Qed.

    Lemma filter1_made : forall N j p k v (acc : itree K V) n u, good j (forget acc) -> j <= N ->
      madeM (i_filter1 p k v acc) (filter1 p k v (forget acc)) [acc] (each_add N) n u /\
      (forall t u', filter1 p k v (forget acc) u = (Ret t, u') -> good (S j) t).
    Proof.
      intros N j p k v acc n u G L. unfold madeM, i_filter1, filter1. unfold bind at 2 3 4.
      destruct (p k v u) as [[[|]|e] u1] eqn:E; cbn [fst snd ret].
      - split; [eapply made_call; [exact E|]; cbn iota; now apply (good_add N j)|]. intros t u' T. injection T as T <-. eapply add_good; eassumption.
      - split; [eapply made_call; [exact E|]; cbn iota; eapply made_more; [apply made_ret, within_self; now left|unfold each_add; lia]|].
        intros t u' T. injection T as <- <-. eapply good_le; [exact G|lia].
      - split; [now apply made_call_raise|discriminate].
    Qed.

    Lemma filter_made : forall N p (m : itree K V) j acc n u, good j (forget acc) -> j + length (elements (forget m)) <= N ->
      madeM (i_filter_aux p m acc) (filter_aux p (forget m) (forget acc)) [acc] (length (elements (forget m)) * each_add N) n u /\
      (forall t u', filter_aux p (forget m) (forget acc) u = (Ret t, u') -> good (j + length (elements (forget m))) t).
    Proof.
      intros N p. induction m as [|i key value|i key value l IHl r IHr h]; intros j acc n u G L; cbn [i_filter_aux forget filter_aux elements length].
      - split; [eapply made_more; [apply made_ret, within_self; now left|lia]|]. intros t u' T. injection T as <- <-. eapply good_le; [exact G|lia].
      - cbn [elements forget length] in L. rewrite Nat.mul_1_l, Nat.add_1_r. apply filter1_made; [exact G|lia].
      - cbn [elements forget] in L. rewrite app_length in *. cbn [length] in *.
        destruct (IHl j acc n u G) as [Ml Gl]; [lia|]. split.
        + eapply madeM_more; [eapply madeM_bind; [exact Ml|]|].
          * intros a1 n1 u1 E1. specialize (Gl _ _ E1). destruct (filter1_made N (j + length (elements (forget l))) p key value a1 n1 u1 Gl) as [M1 G1]; [lia|].
            eapply madeM_bind; [exact M1|]. intros a2 n2 u2 E2. specialize (G1 _ _ E2). apply (IHr (S (j + length (elements (forget l))))); [exact G1|lia].
          * lia.
        + intros t u'. unfold bind at 1. destruct (filter_aux p (forget l) (forget acc) u) as [[a1|e] u1] eqn:E1; [|discriminate].
          specialize (Gl a1 u1 eq_refl). unfold bind.
          destruct (filter1 p key value a1 u1) as [[a2|e] u2] eqn:E2; [|discriminate]. intros E3.
          (* the accumulators are forgotten trees *)
          destruct Ml as (cs & _ & M). cbn [madeM] in M. rewrite E1 in M. cbn [fst] in M. destruct M as (t1 & _ & F1 & _). subst a1.
          destruct (filter1_made N _ p key value t1 0 u1 Gl) as [M1 G1]; [lia|]. specialize (G1 _ _ E2).
          destruct M1 as (cs2 & _ & M). rewrite E2 in M. cbn [fst] in M. destruct M as (t2 & _ & F2 & _). subst a2.
          destruct (IHr (S (j + length (elements (forget l)))) t2 0 u2 G1) as [_ Gr]; [lia|]. eapply good_le; [exact (Gr _ _ E3)|lia].
    Qed.

    Lemma good_empty : good 0 (Empty : tree K V).
    Proof. repeat split; cbn; auto; constructor. Qed.

    Lemma i_filter_made : forall p (m : itree K V) n u,
      madeM (i_filter p m) (filter p (forget m)) [] (length (elements (forget m)) * each_add (length (elements (forget m)))) n u.
    Proof.
      intros p m n u. destruct (filter_made (length (elements (forget m))) p m 0 IEmpty n u) as [(cs & L & M) _]; [apply good_empty|lia|].
      exists cs. split; [exact L|]. unfold i_filter, filter. change (filter_aux p (forget m) (forget (IEmpty : itree K V)) u) with (filter_aux p (forget m) Empty u) in M.
      destruct (filter_aux p (forget m) Empty u) as [[m0|x] u1]; cbn [fst snd] in *; [|exact M].
      destruct M as (m' & G & E & W). exists m'. split; [exact G|]. split; [exact E|]. eapply within_again; [exact W|]. intros x [<-|[]]. apply within_empty.
    Qed.

    (** ** partition *)
    Definition made2 (e : M (nat * U) (itree K V * itree K V)) (c : M U (tree K V * tree K V)) (ms : list (itree K V)) (b n : nat) (u : U) : Prop :=
      exists cs, length cs <= b /\
        match c u with
        | (Ret (x, y), u') => exists t1 t2, gives e n u (Ret (t1, t2)) u' cs /\ forget t1 = x /\ forget t2 = y /\ within ms cs t1 /\ within ms cs t2
        | (Raise x, u') => gives e n u (Raise x) u' cs
        end.
    Lemma made2_bind : forall e f c g ms a b n u, made2 e c ms a n u ->
      (forall t1 t2 n1 u1, c u = (Ret (forget t1, forget t2), u1) -> made2 (f (t1, t2)) (g (forget t1, forget t2)) [t1; t2] b n1 u1) -> made2 (bind e f) (bind c g) ms (a + b) n u.
    Proof.
      intros e f c g ms a b n u (cs & L & M) F. unfold made2, bind at 1. destruct (c u) as [[[x y]|e0] u1].
      - destruct M as (t1 & t2 & G & E1 & E2 & W1 & W2). subst x y. destruct (F t1 t2 (n + length cs) u1 eq_refl) as (ds & L2 & M2).
        exists (cs ++ ds). split; [rewrite app_length; lia|]. destruct (g (forget t1, forget t2) u1) as [[[x y]|e0] u2].
        + destruct M2 as (t3 & t4 & G2 & E3 & E4 & W3 & W4). exists t3, t4. split; [eapply gives_bind; eassumption|]. split; [exact E3|]. split; [exact E4|].
          assert (Up : forall z, within [t1; t2] ds z -> within ms (cs ++ ds) z).
          { intros z W. eapply within_again; [eapply within_more; [exact W|apply incl_appr, incl_refl]|].
            intros q [<-|[<-|[]]]; (eapply within_more; [|apply incl_appl, incl_refl]); assumption. }
          split; apply Up; assumption.
        + eapply gives_bind; eassumption.
      - exists cs. split; [lia|]. now apply gives_raise.
    Qed.
    Lemma made2_more : forall e c ms b b' n u, made2 e c ms b n u -> b <= b' -> made2 e c ms b' n u.
    Proof. intros e c ms b b' n u (cs & L & M) B. exists cs. split; [lia|exact M]. Qed.

    Lemma partition1_made : forall N j p k v (a1 a2 : itree K V) n u, good j (forget a1) -> good j (forget a2) -> j <= N ->
      made2 (i_partition1 p k v (a1, a2)) (partition1 p k v (forget a1, forget a2)) [a1; a2] (each_add N) n u /\
      (forall x y u', partition1 p k v (forget a1, forget a2) u = (Ret (x, y), u') -> good (S j) x /\ good (S j) y).
    Proof.
      intros N j p k v a1 a2 n u G1 G2 L. unfold made2, i_partition1, partition1. unfold bind at 1 4.
      destruct (p k v u) as [[[|]|e] u1] eqn:E.
      - unfold bind at 1 3, lift. destruct (good_add N j k v a1 n u1 G1 L) as (cs & Lc & M). split.
        + exists cs. split; [exact Lc|]. destruct (add k v (forget a1)) as [x|x]; cbn [ret].
          * destruct M as (t & G & F & W). exists t, a2. split.
            { change cs with ([] ++ cs). eapply gives_bind; [apply gives_call; exact E|]. cbn iota. cbn [length]. rewrite Nat.add_0_r, <- (app_nil_r cs).
              eapply gives_bind; [exact G|apply gives_ret]. }
            split; [exact F|]. split; [reflexivity|]. split; [|apply within_self; cbn; auto].
            eapply within_again; [exact W|]. intros y [<-|[]]. apply within_self. now left.
          * change cs with ([] ++ cs). eapply gives_bind; [apply gives_call; exact E|]. cbn iota. cbn [length]. rewrite Nat.add_0_r. apply gives_raise, M.
        + intros x y u'. unfold bind. rewrite ?E. destruct (add k v (forget a1)) as [t|t] eqn:A; [|discriminate]. cbn [ret]. intros T. injection T as <- <- <-.
          split; [exact (add_good j k v (forget a1) t G1 A)|eapply good_le; [exact G2|lia]].
      - unfold bind at 1 3, lift. destruct (good_add N j k v a2 n u1 G2 L) as (cs & Lc & M). split.
        + exists cs. split; [exact Lc|]. destruct (add k v (forget a2)) as [x|x]; cbn [ret].
          * destruct M as (t & G & F & W). exists a1, t. split.
            { change cs with ([] ++ cs). eapply gives_bind; [apply gives_call; exact E|]. cbn iota. cbn [length]. rewrite Nat.add_0_r, <- (app_nil_r cs).
              eapply gives_bind; [exact G|apply gives_ret]. }
            split; [reflexivity|]. split; [exact F|]. split; [apply within_self; cbn; auto|].
            eapply within_again; [exact W|]. intros y [<-|[]]. apply within_self. right. now left.
          * change cs with ([] ++ cs). eapply gives_bind; [apply gives_call; exact E|]. cbn iota. cbn [length]. rewrite Nat.add_0_r. apply gives_raise, M.
        + intros x y u'. unfold bind. rewrite ?E. destruct (add k v (forget a2)) as [t|t] eqn:A; [|discriminate]. cbn [ret]. intros T. injection T as <- <- <-.
          split; [eapply good_le; [exact G1|lia]|exact (add_good j k v (forget a2) t G2 A)].
      - split; [|intros x y u'; unfold bind; rewrite ?E; discriminate]. exists []. split; [cbn; lia|]. apply gives_raise, gives_call, E.
    Qed.

    Lemma partition_made : forall N p (m : itree K V) j a1 a2 n u, good j (forget a1) -> good j (forget a2) -> j + length (elements (forget m)) <= N ->
      made2 (i_partition_aux p m (a1, a2)) (partition_aux p (forget m) (forget a1, forget a2)) [a1; a2] (length (elements (forget m)) * each_add N) n u /\
      (forall x y u', partition_aux p (forget m) (forget a1, forget a2) u = (Ret (x, y), u') ->
         good (j + length (elements (forget m))) x /\ good (j + length (elements (forget m))) y).
    Proof.
      intros N p. induction m as [|i key value|i key value l IHl r IHr h]; intros j a1 a2 n u G1 G2 L; cbn [i_partition_aux forget partition_aux elements length].
      - split.
        + exists []. split; [cbn; lia|]. cbn. exists a1, a2. split; [apply gives_ret|]. repeat split; apply within_self; cbn; auto.
        + intros x y u' T. injection T as <- <- <-. rewrite Nat.add_0_r. auto.
      - cbn [elements forget length] in L. rewrite Nat.mul_1_l, Nat.add_1_r. apply partition1_made; auto. lia.
      - cbn [elements forget] in L. rewrite app_length in *. cbn [length] in *.
        destruct (IHr j a1 a2 n u G1 G2) as [Mr Gr]; [lia|]. split.
        + eapply made2_more; [eapply made2_bind; [exact Mr|]|].
          * intros b1 b2 n1 u1 E1. destruct (Gr _ _ _ E1) as [B1 B2].
            destruct (partition1_made N (j + length (elements (forget r))) p key value b1 b2 n1 u1 B1 B2) as [M1 G3]; [lia|].
            eapply made2_bind; [exact M1|]. intros c1 c2 n2 u2 E2. destruct (G3 _ _ _ E2) as [D1 D2].
            apply (IHl (S (j + length (elements (forget r))))); [exact D1|exact D2|lia].
          * lia.
        + intros x y u'. unfold bind at 1. destruct (partition_aux p (forget r) (forget a1, forget a2) u) as [[[b1 b2]|e] u1] eqn:E1; [|discriminate].
          destruct (Gr _ _ _ eq_refl) as [B1 B2]. unfold bind.
          destruct (partition1 p key value (b1, b2) u1) as [[[c1 c2]|e] u2] eqn:E2; [|discriminate]. intros E3.
          destruct Mr as (cs & _ & M). rewrite E1 in M. destruct M as (t1 & t2 & _ & <- & <- & _).
          destruct (partition1_made N _ p key value t1 t2 0 u1 B1 B2) as [M1 G3]; [lia|]. destruct (G3 _ _ _ E2) as [D1 D2].
          destruct M1 as (cs2 & _ & M). rewrite E2 in M. destruct M as (t3 & t4 & _ & <- & <- & _).
          destruct (IHl (S (j + length (elements (forget r)))) t3 t4 0 u2 D1 D2) as [_ Gl]; [lia|].
          destruct (Gl _ _ _ E3) as [X Y]. split; (eapply good_le; [eassumption|lia]).
    Qed.
    Lemma i_partition_made : forall p (m : itree K V) n u,
      made2 (i_partition p m) (partition p (forget m)) [] (length (elements (forget m)) * each_add (length (elements (forget m)))) n u.
    Proof.
      intros p m n u. destruct (partition_made (length (elements (forget m))) p m 0 IEmpty IEmpty n u) as [(cs & L & M) _]; [apply good_empty|apply good_empty|lia|].
      exists cs. split; [exact L|]. unfold i_partition, partition. cbn [forget] in M.
      destruct (partition_aux p (forget m) (Empty, Empty) u) as [[[x y]|e] u1]; [|exact M].
      destruct M as (t1 & t2 & G & E1 & E2 & W1 & W2). exists t1, t2. split; [exact G|]. split; [exact E1|]. split; [exact E2|].
      split; (eapply within_again; [eassumption|]; intros z [<-|[<-|[]]]; apply within_empty).
    Qed.

    (** ** of_list *)
    Lemma of_list_made : forall N xs j (acc : itree K V) n u, good j (forget acc) -> j + length xs <= N ->
      made_like (i_of_list (U := U) acc xs) (of_list_from (forget acc) xs) [acc] (length xs * each_add N) n u u.
    Proof.
      intros N. induction xs as [|[k v] xs IH]; intros j acc n u G L; cbn [i_of_list of_list_from length] in *.
      - eapply made_more; [apply made_ret, within_self; now left|lia].
      - destruct (good_add N j k v acc n u G ltac:(lia)) as (cs & Lc & M). destruct (add k v (forget acc)) as [a|e] eqn:A; cbn [rbind].
        + destruct M as (t & Gt & F & W). subst a. destruct (IH (S j) t (n + length cs) u) as (ds & Ld & M2); [exact (add_good j k v (forget acc) _ G A)|lia|].
          exists (cs ++ ds). split; [rewrite app_length; lia|]. destruct (of_list_from (forget t) xs) as [z|e].
          * destruct M2 as (m' & G2 & F2 & W2). exists m'. split; [eapply gives_bind; eassumption|]. split; [exact F2|].
            eapply within_again; [eapply within_more; [exact W2|apply incl_appr, incl_refl]|]. intros y [<-|[]]. eapply within_more; [exact W|apply incl_appl, incl_refl].
          * eapply gives_bind; eassumption.
        + exists cs. split; [lia|]. now apply gives_raise.
    Qed.
  End Tree.

  (** ** map *)
  Lemma map_made : forall V R (f : K -> V -> M U R) (m : itree K V) n u, exists cs : list (itree K R), length cs <= length (elements (forget m)) /\
    match MapTree.map f (forget m) u with
    | (Ret m0, u') => exists m', gives (i_map f m) n u (Ret m') u' cs /\ forget m' = m0 /\ within [] cs m' /\ length cs = length (elements (forget m))
    | (Raise e, u') => gives (i_map f m) n u (Raise e) u' cs
    end.
  Proof.
    intros V R f. induction m as [|i key value|i key value l IHl r IHr h]; intros n u; cbn [i_map forget MapTree.map elements length].
    - exists []. split; [cbn; lia|]. exists IEmpty. split; [apply gives_ret|]. split; [reflexivity|]. split; [apply within_empty|reflexivity].
    - unfold bind at 1. destruct (f key value u) as [[v2|e] u1] eqn:E; cbn [ret].
      + exists [ILeaf n key v2]. split; [cbn; lia|]. exists (ILeaf n key v2). split.
        { change [ILeaf n key v2] with ([] ++ [ILeaf n key v2]). eapply gives_bind; [apply gives_call; exact E|]. cbn [length]. rewrite Nat.add_0_r. apply gives_leaf. }
        split; [reflexivity|]. split; [apply within_leaf; now left|reflexivity].
      + exists []. split; [cbn; lia|]. apply gives_raise, gives_call, E.
    - rewrite app_length. cbn [length]. unfold bind at 1. destruct (IHl n u) as (cs & L & M). destruct (MapTree.map f (forget l) u) as [[l2|e] u1] eqn:El.
      2: { exists cs. split; [lia|]. now apply gives_raise. }
      destruct M as (l' & G & F & W & Ln). unfold bind at 1. destruct (f key value u1) as [[v2|e] u2] eqn:E.
      2: { exists (cs ++ []). split; [rewrite app_nil_r; lia|]. eapply gives_bind; [exact G|]. apply gives_raise, gives_call, E. }
      unfold bind at 1. destruct (IHr (n + length cs) u2) as (ds & Ld & M2). destruct (MapTree.map f (forget r) u2) as [[r2|e] u3] eqn:Er.
      2: { exists (cs ++ ([] ++ ds)). split; [cbn [app]; rewrite app_length; lia|]. eapply gives_bind; [exact G|]. eapply gives_bind; [apply gives_call; exact E|].
           cbn [length]. rewrite Nat.add_0_r. now apply gives_raise. }
      destruct M2 as (r' & G2 & F2 & W2 & Ln2). cbn [ret]. set (c := INode (n + length cs + length ds) key v2 l' r' h).
      exists (cs ++ ([] ++ (ds ++ [c]))). split; [cbn [app]; rewrite !app_length; cbn [length]; lia|]. exists c. split.
      { eapply gives_bind; [exact G|]. eapply gives_bind; [apply gives_call; exact E|]. cbn [length]. rewrite Nat.add_0_r. eapply gives_bind; [exact G2|]. apply gives_node. }
      split; [cbn; now rewrite F, F2|]. split; [|cbn [app]; rewrite !app_length; cbn [length]; lia].
      apply within_node; [cbn [app]; rewrite !in_app_iff; cbn; auto| |].
      + eapply within_more; [exact W|apply incl_appl, incl_refl].
      + eapply within_more; [exact W2|]. cbn [app]. apply incl_appr, incl_appl, incl_refl.
  Qed.
End Share.

(** ** Histories: there is a list of all objects ever created *)
Section Versions.
  Context {K V : Type} {KO : KeyOrd K}.
  Definition heap_of (n : nat) (ms : list (itree K V)) (hs : list (itree K V)) : Prop :=
    length hs = n /\ created 0 hs /\ forall m, In m ms -> within [] hs m.

  Lemma heap_grow : forall n ms hs cs olds m', heap_of n ms hs -> created n cs -> incl olds ms -> within olds cs m' -> heap_of (n + length cs) (m' :: ms) (hs ++ cs).
  Proof.
    intros n ms hs cs olds m' (L & C & I) Cc In_ W. split; [now rewrite app_length, L|]. split; [apply created_app; [exact C|rewrite L; exact Cc]|].
    assert (Old : forall m, In m ms -> within [] (hs ++ cs) m).
    { intros m Im. eapply within_more; [exact (I m Im)|apply incl_appl, incl_refl]. }
    intros m [<-|Im]; [|auto]. eapply within_again; [eapply within_more; [exact W|apply incl_appr, incl_refl]|]. intros x Ix. apply Old. auto.
  Qed.

  Lemma made_heap : forall (U : Type) (e : M (nat * U) (itree K V)) x ms hs olds b n u u1 m' n' u', made_like e x olds b n u u1 -> heap_of n ms hs -> incl olds ms ->
    e (n, u) = (Ret m', (n', u')) -> exists hs', heap_of n' (m' :: ms) hs' /\ n' <= n + b /\ x = Ret (forget m').
  Proof.
    intros U e x ms hs olds b n u u1 m' n' u' (cs & L & M) H I E. destruct x as [m0|x].
    - destruct M as (m2 & [C G] & F & W). rewrite G in E. injection E as <- <- <-. subst m0. exists (hs ++ cs). split; [eapply heap_grow; eassumption|]. split; [lia|reflexivity].
    - destruct M as [C G]. rewrite G in E. discriminate.
  Qed.

  Lemma versions_heap : forall n (ms : list (itree K V)), versions n ms -> exists hs, heap_of n ms hs.
  Proof.
    induction 1 as [|n ms _ (hs & L & C & I)|U n ms m k v m' n' u u' _ (hs & H) I E|U n ms m k m' n' u u' _ (hs & H) I E|U n ms m k f m' n' u u' _ (hs & H) I E
      |U n ms m p m' n' u u' _ (hs & H) I E|U n ms m p m1 m2 n' u u' _ (hs & H) I E|U n ms m f m' n' u u' _ (hs & H) I E].
    - exists []. split; [reflexivity|]. split; [apply created_nil|intros m []].
    - exists hs. split; [exact L|]. split; [exact C|]. intros m [<-|Im]; [apply within_empty|auto].
    - destruct (made_heap U _ _ ms hs [m] _ n u _ m' n' u' (add_made k v m n u) H) as (hs' & H' & _); [intros x [<-|[]]; exact I|exact E|]. exists hs'. exact H'.
    - destruct (made_heap U _ _ ms hs [m] _ n u _ m' n' u' (remove_made k m n u) H) as (hs' & H' & _); [intros x [<-|[]]; exact I|exact E|]. exists hs'. exact H'.
    - destruct (made_heap U _ _ ms hs [m] _ n u _ m' n' u' (change_made k f m n u) H) as (hs' & H' & _); [intros x [<-|[]]; exact I|exact E|]. exists hs'. exact H'.
    - destruct (made_heap U _ _ ms hs [] _ n u _ m' n' u' (i_filter_made p m n u) H) as (hs' & H' & _); [intros x []|exact E|]. exists hs'. exact H'.
    - destruct (i_partition_made p m n u) as (cs & _ & M). destruct (partition p (forget m) u) as [[[x y]|e] u1].
      + destruct M as (t1 & t2 & [C G] & _ & _ & W1 & W2). rewrite G in E. injection E as <- <- <- <-. exists (hs ++ cs).
        destruct (heap_grow _ _ _ _ [] t2 H C (fun x (f : In x []) => match f with end) W2) as (L2 & C2 & I2).
        destruct (heap_grow _ _ _ _ [] t1 H C (fun x (f : In x []) => match f with end) W1) as (_ & _ & I1).
        split; [exact L2|]. split; [exact C2|]. intros z [<-|Iz]; [apply I1; now left|auto].
      + destruct M as [_ G]. rewrite G in E. discriminate.
    - destruct (map_made V V f m n u) as (cs & _ & M). destruct (MapTree.map f (forget m) u) as [[x|e] u1].
      + destruct M as (t & [C G] & _ & W & _). rewrite G in E. injection E as <- <- <-. exists (hs ++ cs). eapply heap_grow; [exact H|exact C| |exact W]. intros x0 [].
      + destruct M as [_ G]. rewrite G in E. discriminate.
  Qed.

  Lemma versions_coherent_pf : forall n (ms : list (itree K V)), versions n ms -> forall m1 m2 t1 t2, In m1 ms -> In m2 ms -> part t1 m1 -> part t2 m2 ->
    number_of t1 = number_of t2 -> t1 = t2.
  Proof.
    intros n ms H m1 m2 t1 t2 I1 I2 P1 P2 E. destruct (versions_heap n ms H) as (hs & _ & C & W).
    assert (Q : forall m t, In m ms -> part t m -> t = IEmpty \/ exists i, nth_error hs i = Some t /\ number_of t = Some i).
    { intros m t Im P. destruct (W m Im t P) as [->|[I|(x & [] & _)]]; auto. right. apply In_nth_error in I as (i & I). exists i. split; [exact I|]. exact (C i t I). }
    destruct (Q _ _ I1 P1) as [->|(i & N1 & E1)]; destruct (Q _ _ I2 P2) as [->|(j & N2 & E2)]; auto.
    - rewrite E2 in E. discriminate.
    - rewrite E1 in E. discriminate.
    - rewrite E1, E2 in E. injection E as <-. congruence.
  Qed.
  Lemma numbers_part : forall (m : itree K V) i, In i (numbers m) -> exists t, part t m /\ number_of t = Some i.
  Proof.
    induction m as [|j k v|j k v l IHl r IHr h]; intros i; cbn [numbers]; [intros []| |].
    - intros [<-|[]]. exists (ILeaf j k v). split; [apply part_self|reflexivity].
    - intros [<-|I]; [exists (INode j k v l r h); split; [apply part_self|reflexivity]|]. apply in_app_iff in I as [I|I].
      + destruct (IHl i I) as (t & P & E). exists t. split; [now apply part_left|exact E].
      + destruct (IHr i I) as (t & P & E). exists t. split; [now apply part_right|exact E].
  Qed.
  Lemma part_numbers : forall (m t : itree K V) i, part t m -> number_of t = Some i -> In i (numbers m).
  Proof.
    intros m t i P E. induction P as [|j k v l r h P IH|j k v l r h P IH]; cbn [numbers].
    - destruct t; cbn in *; [discriminate| |]; injection E as <-; now left.
    - right. apply in_app_iff. auto.
    - right. apply in_app_iff. auto.
  Qed.
  Lemma versions_numbers_pf : forall n (ms : list (itree K V)), versions n ms -> forall m i, In m ms -> In i (numbers m) -> i < n.
  Proof.
    intros n ms H m i I N. destruct (versions_heap n ms H) as (hs & L & C & W). destruct (numbers_part m i N) as (t & P & E).
    destruct (W m I t P) as [->|[J|(x & [] & _)]]; [discriminate|]. apply In_nth_error in J as (j & J). pose proof (C j t J) as Q. rewrite E in Q. injection Q as ->.
    rewrite <- L. apply nth_error_Some. rewrite J. discriminate.
  Qed.
  Lemma numbers_length : forall m : itree K V, length (numbers m) = length (elements (forget m)).
  Proof. induction m as [|j k v|j k v l IHl r IHr h]; cbn [numbers forget elements length]; auto. rewrite !app_length, IHl, IHr. cbn [length]. lia. Qed.

  Lemma both_pf : forall n cs (m m' : itree K V) l, created n cs -> composed m cs m' -> NoDup l -> incl l (numbers m ++ numbers m') -> length l <= length (elements (forget m)) + length cs.
  Proof.
    intros n cs m m' l C W N I. rewrite <- numbers_length.
    assert (J : incl l (numbers m ++ seq n (length cs))).
    { intros i Ii. apply I in Ii. apply in_app_iff in Ii as [Ii|Ii]; apply in_app_iff; [now left|].
      destruct (numbers_part m' i Ii) as (t & P & E). destruct (W t P) as [->|[Q|Q]]; [discriminate| |].
      - left. eapply part_numbers; eassumption.
      - right. apply In_nth_error in Q as (j & Q). pose proof (C j t Q) as X. rewrite E in X. injection X as ->. apply in_seq.
        assert (j < length cs); [|lia]. apply nth_error_Some. rewrite Q. discriminate. }
    pose proof (NoDup_incl_length N J) as X. rewrite app_length, seq_length in X. exact X.
  Qed.

  Lemma insertions_pf : forall j n (ms : list (itree K V)), insertions j n ms -> n <= j * each_add j /\ forall m, In m ms -> good j (forget m).
  Proof.
    induction 1 as [|U j n ms m k v m' n' u u' _ [L G] I E].
    - split; [lia|]. intros m [<-|[]]. apply good_empty.
    - pose proof (G m I) as Gm. destruct (good_add j j k v m n u Gm (le_n j)) as (cs & Lc & M).
      assert (Up : each_add j <= each_add (S j)) by (unfold each_add; pose proof (room_mono j (S j) (Nat.le_succ_diag_r j)); lia).
      destruct (add k v (forget m)) as [m0|x] eqn:A.
      + destruct M as (m2 & [C Gv] & F & W). rewrite Gv in E. injection E as <- <- <-. subst m0. split.
        * rewrite Nat.mul_succ_l. assert (j * each_add j <= j * each_add (S j)) by (apply Nat.mul_le_mono_l; exact Up). lia.
        * intros z [<-|Iz]; [exact (add_good j k v (forget m) _ Gm A)|eapply good_le; [exact (G z Iz)|lia]].
      + destruct M as [_ Gv]. rewrite Gv in E. discriminate.
  Qed.
End Versions.
