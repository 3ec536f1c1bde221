(** Lemmas about the sharing of trees. *)
From Coq Require Import List Bool Arith Lia.
From Verif.Model Require Import Base MapTree MapShare.
From Verif.Spec Require Import MapSpec MapShareSpec.
Import ListNotations.
Local Open Scope nat_scope.
Local Open Scope py_scope.

Section Share.
  Context {U K : Type} {KO : KeyOrd K}.

  Lemma created_nil : forall V n, created n ([] : list (itree K V)).
  Proof. intros V n [|j] t E; discriminate. Qed.
  Lemma created_one : forall V n (t : itree K V), number_of t = Some n -> created n [t].
  Proof. intros V n t E [|[|j]] t' E'; try discriminate. injection E' as <-. rewrite Nat.add_0_r. exact E. Qed.
  Lemma created_app : forall V n (cs ds : list (itree K V)), created n cs -> created (n + length cs) ds -> created n (cs ++ ds).
  Proof.
    intros V n cs ds C D j t E. destruct (Nat.lt_ge_cases j (length cs)) as [L|L].
    - apply C. now rewrite nth_error_app1 in E.
    - rewrite nth_error_app2 in E by lia. rewrite (D _ _ E). f_equal. lia.
  Qed.

  (** [e] gives [r], creating [cs] and leaving the user's state [u']. *)
  Definition gives {V A} (e : M (nat * U) A) (n : nat) (u : U) (r : res A) (u' : U) (cs : list (itree K V)) : Prop :=
    created n cs /\ e (n, u) = (r, (n + length cs, u')).

  Lemma gives_bind : forall V A B (e : M (nat * U) A) (f : A -> M (nat * U) B) n u a u1 (cs ds : list (itree K V)) r u2,
    gives e n u (Ret a) u1 cs -> gives (f a) (n + length cs) u1 r u2 ds -> gives (bind e f) n u r u2 (cs ++ ds).
  Proof.
    intros V A B e f n u a u1 cs ds r u2 [C E] [D F]. split; [now apply created_app|].
    unfold bind. rewrite E, F, app_length, Nat.add_assoc. reflexivity.
  Qed.
  Lemma gives_raise : forall V A B (e : M (nat * U) A) (f : A -> M (nat * U) B) n u x u1 (cs : list (itree K V)),
    gives e n u (Raise x) u1 cs -> gives (bind e f) n u (Raise x) u1 cs.
  Proof. intros V A B e f n u x u1 cs [C E]. split; [exact C|]. unfold bind. now rewrite E. Qed.
  Lemma gives_ret : forall V A (a : A) n u, gives (ret a) n u (Ret a) u ([] : list (itree K V)).
  Proof. intros. split; [apply created_nil|]. cbn. now rewrite Nat.add_0_r. Qed.
  Lemma gives_fail : forall V A x n u, gives (raise x : M (nat * U) A) n u (Raise x) u ([] : list (itree K V)).
  Proof. intros. split; [apply created_nil|]. cbn. now rewrite Nat.add_0_r. Qed.
  Lemma gives_call : forall V A (c : M U A) n u r u', c u = (r, u') -> gives (calling c) n u r u' ([] : list (itree K V)).
  Proof. intros V A c n u r u' E. split; [apply created_nil|]. unfold calling. cbn. rewrite E, Nat.add_0_r. reflexivity. Qed.
  Lemma gives_leaf : forall V (k : K) (v : V) n u, gives (new_leaf k v) n u (Ret (ILeaf n k v)) u [ILeaf n k v].
  Proof. intros. split; [now apply created_one|]. cbn. now rewrite Nat.add_1_r. Qed.
  Lemma gives_node : forall V (k : K) (v : V) l r h n u, gives (new_node k v l r h) n u (Ret (INode n k v l r h)) u [INode n k v l r h].
  Proof. intros. split; [now apply created_one|]. cbn. now rewrite Nat.add_1_r. Qed.

  Lemma part_trans : forall V (a b c : itree K V), part a b -> part b c -> part a c.
  Proof. intros V a b c P Q. induction Q; auto; [now apply part_left | now apply part_right]. Qed.
  Lemma part_node : forall V (t : itree K V) i k v l r h, part t (INode i k v l r h) -> t = INode i k v l r h \/ part t l \/ part t r.
  Proof. intros V t i k v l r h P. inversion P; auto. Qed.
  Lemma part_leaf : forall V (t : itree K V) i k v, part t (ILeaf i k v) -> t = ILeaf i k v.
  Proof. intros V t i k v P. now inversion P. Qed.
  Lemma part_empty : forall V (t : itree K V), part t IEmpty -> t = IEmpty.
  Proof. intros V t P. now inversion P. Qed.

  Lemma forget_height : forall V (m : itree K V), i_height m = height (forget m).
  Proof. now intros V [| |]. Qed.
  Lemma forget_empty : forall V (m : itree K V), i_is_empty m = is_empty (forget m).
  Proof. now intros V [| |]. Qed.

  (** All objects of [m'] are among the parts of the trees [ms] and [cs]. *)
  Definition within {V} (ms cs : list (itree K V)) (m' : itree K V) : Prop :=
    forall t, part t m' -> t = IEmpty \/ In t cs \/ exists m, In m ms /\ part t m.
  Lemma within_self : forall V (m : itree K V) ms cs, In m ms -> within ms cs m.
  Proof. intros V m ms cs I t P. right. right. eauto. Qed.
  Lemma within_sub : forall V (m m1 : itree K V) ms cs, In m1 ms -> part m m1 -> within ms cs m.
  Proof. intros V m m1 ms cs I P t Q. right. right. exists m1. split; auto. eapply part_trans; eassumption. Qed.
  Lemma within_empty : forall V ms cs, within ms cs (IEmpty : itree K V).
  Proof. intros V ms cs t P. left. now apply part_empty. Qed.
  Lemma within_node : forall V ms cs i k v (l r : itree K V) h, In (INode i k v l r h) cs -> within ms cs l -> within ms cs r -> within ms cs (INode i k v l r h).
  Proof. intros V ms cs i k v l r h I L R t P. destruct (part_node _ _ _ _ _ _ _ _ P) as [->|[Q|Q]]; auto. Qed.
  Lemma within_leaf : forall V ms cs i k (v : V), In (ILeaf i k v) cs -> within ms cs (ILeaf i k v).
  Proof. intros V ms cs i k v I t P. apply part_leaf in P as ->. auto. Qed.
  Lemma within_more : forall V ms cs cs' (m : itree K V), within ms cs m -> incl cs cs' -> within ms cs' m.
  Proof. intros V ms cs cs' m W I t P. destruct (W t P) as [E|[E|E]]; auto. Qed.
  Lemma within_nil : forall V ms cs (m : itree K V), within ms [] m -> within ms cs m.
  Proof. intros V ms cs m W. eapply within_more; [exact W|intros y []]. Qed.
  Lemma within_again : forall V ms ms' cs (m : itree K V), within ms cs m -> (forall x, In x ms -> within ms' cs x) -> within ms' cs m.
  Proof. intros V ms ms' cs m W I t P. destruct (W t P) as [E|[E|(x & Ix & E)]]; auto. exact (I x Ix t E). Qed.

  Section Tree.
    Context {V : Type}.
    Implicit Types (m l r t : itree K V) (cs : list (itree K V)).

    Lemma mk_gives : forall l k v r n u, exists c, gives (i_mk l k v r) n u (Ret c) u [c] /\ forget c = mk (forget l) k v (forget r) /\ within [l; r] [c] c.
    Proof.
      intros l k v r n u. unfold i_mk, mk. rewrite !forget_height. set (x := if _ <? _ then _ else _). destruct (x =? 0).
      - eexists. split; [apply gives_leaf|]. split; [reflexivity|]. apply within_leaf. now left.
      - eexists. split; [apply gives_node|]. split; [reflexivity|]. apply within_node; [now left| |]; apply within_self; cbn; auto.
    Qed.

    Definition made_like (e : M (nat * U) (itree K V)) (x : res (tree K V)) (ms : list (itree K V)) (bound n : nat) (u u' : U) : Prop :=
      exists cs, length cs <= bound /\
        match x with
        | Ret m0 => exists m', gives e n u (Ret m') u' cs /\ forget m' = m0 /\ within ms cs m'
        | Raise x => gives e n u (Raise x) u' cs
        end.

    Lemma made_more : forall e x ms b b' n u u', made_like e x ms b n u u' -> b <= b' -> made_like e x ms b' n u u'.
    Proof. intros e x ms b b' n u u' (cs & L & M) B. exists cs. split; [lia|exact M]. Qed.
    Lemma made_mk : forall l k v r n u ms, within ms [] l -> within ms [] r -> made_like (i_mk l k v r) (Ret (mk (forget l) k v (forget r))) ms 1 n u u.
    Proof.
      intros l k v r n u ms Wl Wr. destruct (mk_gives l k v r n u) as (c & G & F & W). exists [c]. split; [cbn; lia|]. exists c. split; [exact G|]. split; [exact F|].
      eapply within_again; [exact W|]. intros x [<-|[<-|[]]]; (apply within_nil; assumption).
    Qed.
    Lemma rebalance_made : forall t1 k v t2 n u, made_like (i_rebalance t1 k v t2) (rebalance (forget t1) k v (forget t2)) [t1; t2] 3 n u u.
    Proof.
      intros t1 k v t2 n u. unfold i_rebalance, rebalance. rewrite !forget_height.
      assert (NO : forall x, made_like (raise x) (Raise x) [t1; t2] 3 n u u).
      { intros x. exists []. split; [cbn; lia|]. apply gives_fail. }
      assert (W1 : within [t1; t2] [] t1) by (apply within_self; cbn; auto).
      assert (W2 : within [t1; t2] [] t2) by (apply within_self; cbn; auto).
      destruct (_ <? height (forget t2)).
      - destruct t2 as [|i2 k2 v2|i2 k2 v2 l2 r2 h2]; cbn [forget]; auto. rewrite forget_height.
        assert (P2 : forall x, part x l2 \/ part x r2 -> within [t1; INode i2 k2 v2 l2 r2 h2] [] x).
        { intros x [P|P]; (eapply within_sub; [right; now left|]); [now apply part_left|now apply part_right]. }
        destruct (_ <? height (forget l2)).
        + destruct l2 as [|il kl vl|il kl vl ll rl hl]; cbn [forget]; auto.
          destruct (mk_gives t1 k v ll n u) as (a & Ga & Fa & Wa). destruct (mk_gives rl k2 v2 r2 (n + length [a]) u) as (b & Gb & Fb & Wb).
          destruct (mk_gives a kl vl b (n + length [a] + length [b]) u) as (c & Gc & Fc & Wc).
          exists ([a] ++ ([b] ++ [c])). split; [cbn; lia|]. exists c. split; [eapply gives_bind; [exact Ga|]; eapply gives_bind; [exact Gb|exact Gc]|].
          split; [now rewrite Fc, Fa, Fb|]. eapply within_again; [eapply within_more; [exact Wc|]|].
          { intros y [<-|[]]. cbn. auto. }
          intros x [<-|[<-|[]]].
          * eapply within_again; [eapply within_more; [exact Wa|]|]; [intros y [<-|[]]; cbn; auto|].
            intros x [<-|[<-|[]]]; apply within_nil; [exact W1|]. apply P2. left. apply part_left, part_self.
          * eapply within_again; [eapply within_more; [exact Wb|]|]; [intros y [<-|[]]; cbn; auto|].
            intros x [<-|[<-|[]]]; apply within_nil; apply P2; [left; apply part_right, part_self|right; apply part_self].
        + destruct (mk_gives t1 k v l2 n u) as (a & Ga & Fa & Wa). destruct (mk_gives a k2 v2 r2 (n + length [a]) u) as (c & Gc & Fc & Wc).
          exists ([a] ++ [c]). split; [cbn; lia|]. exists c. split; [eapply gives_bind; [exact Ga|exact Gc]|]. split; [now rewrite Fc, Fa|].
          eapply within_again; [eapply within_more; [exact Wc|]|].
          { intros y [<-|[]]. cbn. auto. }
          intros x [<-|[<-|[]]].
          * eapply within_again; [eapply within_more; [exact Wa|]|]; [intros y [<-|[]]; cbn; auto|].
            intros x [<-|[<-|[]]]; apply within_nil; [exact W1|]. apply P2. left. apply part_self.
          * apply within_nil. apply P2. right. apply part_self.
      - destruct (_ <? height (forget t1)).
        + destruct t1 as [|i1 k1 v1|i1 k1 v1 l1 r1 h1]; cbn [forget]; auto. rewrite forget_height.
          assert (P1 : forall x, part x l1 \/ part x r1 -> within [INode i1 k1 v1 l1 r1 h1; t2] [] x).
          { intros x [P|P]; (eapply within_sub; [now left|]); [now apply part_left|now apply part_right]. }
          destruct (_ <? height (forget r1)).
          * destruct r1 as [|ir kr vr|ir kr vr lr rr hr]; cbn [forget]; auto.
            destruct (mk_gives l1 k1 v1 lr n u) as (a & Ga & Fa & Wa). destruct (mk_gives rr k v t2 (n + length [a]) u) as (b & Gb & Fb & Wb).
            destruct (mk_gives a kr vr b (n + length [a] + length [b]) u) as (c & Gc & Fc & Wc).
            exists ([a] ++ ([b] ++ [c])). split; [cbn; lia|]. exists c. split; [eapply gives_bind; [exact Ga|]; eapply gives_bind; [exact Gb|exact Gc]|].
            split; [now rewrite Fc, Fa, Fb|]. eapply within_again; [eapply within_more; [exact Wc|]|].
            { intros y [<-|[]]. cbn. auto. }
            intros x [<-|[<-|[]]].
            -- eapply within_again; [eapply within_more; [exact Wa|]|]; [intros y [<-|[]]; cbn; auto|].
               intros x [<-|[<-|[]]]; apply within_nil; apply P1; [left; apply part_self|right; apply part_left, part_self].
            -- eapply within_again; [eapply within_more; [exact Wb|]|]; [intros y [<-|[]]; cbn; auto|].
               intros x [<-|[<-|[]]]; apply within_nil; [|exact W2]. apply P1. right. apply part_right, part_self.
          * destruct (mk_gives r1 k v t2 n u) as (b & Gb & Fb & Wb). destruct (mk_gives l1 k1 v1 b (n + length [b]) u) as (c & Gc & Fc & Wc).
            exists ([b] ++ [c]). split; [cbn; lia|]. exists c. split; [eapply gives_bind; [exact Gb|exact Gc]|]. split; [now rewrite Fc, Fb|].
            eapply within_again; [eapply within_more; [exact Wc|]|].
            { intros y [<-|[]]. cbn. auto. }
            intros x [<-|[<-|[]]].
            -- apply within_nil. apply P1. left. apply part_self.
            -- eapply within_again; [eapply within_more; [exact Wb|]|]; [intros y [<-|[]]; cbn; auto|].
               intros x [<-|[<-|[]]]; apply within_nil; [|exact W2]. apply P1. right. apply part_self.
        + eapply made_more; [now apply made_mk|lia].
    Qed.

    Lemma within_up : forall ms cs m m0, within ms cs m -> (forall x, In x ms -> part x m0) -> within [m0] cs m.
    Proof. intros ms cs m m0 W I. eapply within_again; [exact W|]. intros x Ix. eapply within_sub; [now left|auto]. Qed.

    (** a call on one subtree followed by [rebalance] *)
    Lemma path_left : forall e x i key value l r h a n u u',
      made_like e x [l] a n u u' ->
      made_like (do l' <- e; i_rebalance l' key value r) (dor z <- x; rebalance z key value (forget r)) [INode i key value l r h] (a + 3) n u u'.
    Proof.
      intros e x i key value l r h a n u u' (cs & L & M). destruct x as [m0|x]; cbn [rbind].
      - destruct M as (l' & G & E & W). subst m0. destruct (rebalance_made l' key value r (n + length cs) u') as (ds & L2 & M2).
        exists (cs ++ ds). split; [rewrite app_length; lia|]. destruct (rebalance (forget l') key value (forget r)) as [m2|x].
        + destruct M2 as (m3 & G2 & E2 & W2). exists m3. split; [eapply gives_bind; eassumption|]. split; [exact E2|].
          eapply within_again; [eapply within_more; [exact W2|apply incl_appr, incl_refl]|].
          intros y [<-|[<-|[]]].
          * eapply within_up; [eapply within_more; [exact W|apply incl_appl, incl_refl]|]. intros y [<-|[]]. apply part_left, part_self.
          * eapply within_sub; [now left|]. apply part_right, part_self.
        + eapply gives_bind; eassumption.
      - exists cs. split; [lia|]. now apply gives_raise.
    Qed.
    Lemma path_right : forall e x i key value l r h a n u u',
      made_like e x [r] a n u u' ->
      made_like (do r' <- e; i_rebalance l key value r') (dor z <- x; rebalance (forget l) key value z) [INode i key value l r h] (a + 3) n u u'.
    Proof.
      intros e x i key value l r h a n u u' (cs & L & M). destruct x as [m0|x]; cbn [rbind].
      - destruct M as (r' & G & E & W). subst m0. destruct (rebalance_made l key value r' (n + length cs) u') as (ds & L2 & M2).
        exists (cs ++ ds). split; [rewrite app_length; lia|]. destruct (rebalance (forget l) key value (forget r')) as [m2|x].
        + destruct M2 as (m3 & G2 & E2 & W2). exists m3. split; [eapply gives_bind; eassumption|]. split; [exact E2|].
          eapply within_again; [eapply within_more; [exact W2|apply incl_appr, incl_refl]|].
          intros y [<-|[<-|[]]].
          * eapply within_sub; [now left|]. apply part_left, part_self.
          * eapply within_up; [eapply within_more; [exact W|apply incl_appl, incl_refl]|]. intros y [<-|[]]. apply part_right, part_self.
        + eapply gives_bind; eassumption.
      - exists cs. split; [lia|]. now apply gives_raise.
    Qed.

    Lemma made_leaf : forall k v ms n u, made_like (new_leaf k v) (Ret (Leaf k v)) ms 1 n u u.
    Proof. intros. eexists. split; [|eexists; split; [apply gives_leaf|split; [reflexivity|apply within_leaf; now left]]]. cbn. lia. Qed.
    Lemma made_node : forall k v l r h ms n u, within ms [] l -> within ms [] r -> made_like (new_node k v l r h) (Ret (Node k v (forget l) (forget r) h)) ms 1 n u u.
    Proof.
      intros k v l r h ms n u L R. eexists. split; [|eexists; split; [apply gives_node|split; [reflexivity|]]]; [cbn; lia|].
      apply within_node; [now left| |]; (apply within_nil; assumption).
    Qed.
    Lemma made_ret : forall m ms n u, within ms [] m -> made_like (ret m) (Ret (forget m)) ms 0 n u u.
    Proof. intros m ms n u W. exists []. split; [cbn; lia|]. exists m. split; [apply gives_ret|auto]. Qed.

    Lemma add_made : forall k v m n u, made_like (i_add k v m) (add k v (forget m)) [m] (3 * depth (forget m) + 1) n u u.
    Proof.
      intros k v. induction m as [|i key value|i key value l IHl r IHr h]; intros n u; cbn [i_add forget add depth].
      - eapply made_more; [apply made_leaf|lia].
      - destruct (ltb k key); [|destruct (eqb k key)].
        + eapply made_more; [apply (made_node k v IEmpty (ILeaf i key value)); [apply within_empty|apply within_self; now left]|lia].
        + eapply made_more; [apply made_leaf|lia].
        + eapply made_more; [apply (made_node k v (ILeaf i key value) IEmpty); [apply within_self; now left|apply within_empty]|lia].
      - destruct (ltb k key); [|destruct (eqb k key)].
        + eapply made_more; [apply path_left, IHl|lia].
        + eapply made_more; [apply made_node|lia]; (eapply within_sub; [now left|]); [apply part_left|apply part_right]; apply part_self.
        + eapply made_more; [apply path_right, IHr|lia].
    Qed.

    (** splice_out_successor *)
    Lemma splice_made : forall m n u, exists cs, length cs <= depth (forget m) /\
      match splice_out_successor (forget m) with
      | Ret (k0, v0, m0) => exists m', gives (i_splice m) n u (Ret (k0, v0, m')) u cs /\ forget m' = m0 /\ within [m] cs m'
      | Raise x => gives (i_splice m) n u (Raise x) u cs
      end.
    Proof.
      induction m as [|i key value|i key value l IHl r IHr h]; intros n u; cbn [i_splice forget splice_out_successor depth].
      - exists []. split; [cbn; lia|apply gives_fail].
      - exists []. split; [cbn; lia|]. exists IEmpty. split; [apply gives_ret|]. split; [reflexivity|apply within_empty].
      - rewrite forget_empty. destruct (is_empty (forget l)).
        + exists []. split; [cbn; lia|]. exists r. split; [apply gives_ret|]. split; [reflexivity|]. eapply within_sub; [now left|apply part_right, part_self].
        + destruct (IHl n u) as (cs & L & M). destruct (splice_out_successor (forget l)) as [[[k3 v3] l3]|x]; cbn [rbind].
          * destruct M as (l' & G & E & W). subst l3. destruct (mk_gives l' key value r (n + length cs) u) as (c & Gc & Fc & Wc).
            exists (cs ++ ([c] ++ [])). split; [rewrite app_length; cbn; lia|]. exists c.
            split; [eapply gives_bind; [exact G|]; cbn beta iota; eapply gives_bind; [exact Gc|apply gives_ret]|]. split; [exact Fc|].
            eapply within_again; [eapply within_more; [exact Wc|apply incl_appr; cbn; apply incl_refl]|].
            intros y [<-|[<-|[]]].
            -- eapply within_up; [eapply within_more; [exact W|apply incl_appl, incl_refl]|]. intros y [<-|[]]. apply part_left, part_self.
            -- eapply within_sub; [now left|apply part_right, part_self].
          * exists cs. split; [lia|]. now apply gives_raise.
    Qed.

    Lemma cut_made : forall i key value l r h n u,
      made_like (if i_is_empty l then ret r else if i_is_empty r then ret l else do (sk, sv, r') <- i_splice r; i_mk l sk sv r')
        (if is_empty (forget l) then Ret (forget r) else if is_empty (forget r) then Ret (forget l)
         else dor (sk, sv, z) <- splice_out_successor (forget r); Ret (mk (forget l) sk sv z))
        [INode i key value l r h] (depth (forget r) + 1) n u u.
    Proof.
      intros i key value l r h n u. rewrite !forget_empty.
      assert (Wl : within [INode i key value l r h] [] l) by (eapply within_sub; [now left|apply part_left, part_self]).
      assert (Wr : within [INode i key value l r h] [] r) by (eapply within_sub; [now left|apply part_right, part_self]).
      destruct (is_empty (forget l)); [eapply made_more; [now apply made_ret|lia]|]. destruct (is_empty (forget r)); [eapply made_more; [now apply made_ret|lia]|].
      destruct (splice_made r n u) as (cs & L & M). destruct (splice_out_successor (forget r)) as [[[sk sv] r0]|x]; cbn [rbind].
      - destruct M as (r' & G & E & W). subst r0. destruct (mk_gives l sk sv r' (n + length cs) u) as (c & Gc & Fc & Wc).
        exists (cs ++ [c]). split; [rewrite app_length; cbn; lia|]. exists c. split; [eapply gives_bind; [exact G|exact Gc]|]. split; [exact Fc|].
        eapply within_again; [eapply within_more; [exact Wc|apply incl_appr, incl_refl]|]. intros y [<-|[<-|[]]].
        + apply within_nil; exact Wl.
        + eapply within_up; [eapply within_more; [exact W|apply incl_appl, incl_refl]|]. intros y [<-|[]]. apply part_right, part_self.
      - exists cs. split; [lia|]. now apply gives_raise.
    Qed.

    Lemma remove_made : forall k m n u, made_like (i_remove k m) (remove k (forget m)) [m] (3 * depth (forget m) + 1) n u u.
    Proof.
      intros k. induction m as [|i key value|i key value l IHl r IHr h]; intros n u; cbn [i_remove forget remove depth].
      - eapply made_more; [apply (made_ret IEmpty), within_empty|lia].
      - destruct (eqb k key).
        + eapply made_more; [apply (made_ret IEmpty), within_empty|lia].
        + eapply made_more; [apply (made_ret (ILeaf i key value)), within_self; now left|lia].
      - destruct (ltb k key); [|destruct (eqb k key)].
        + eapply made_more; [apply path_left, IHl|lia].
        + eapply made_more; [apply cut_made|lia].
        + eapply made_more; [apply path_right, IHr|lia].
    Qed.

    Lemma made_call : forall A (c : M U A) f a x ms b n u u1 u2, c u = (Ret a, u1) -> made_like (f a) x ms b n u1 u2 -> made_like (bind (calling c) f) x ms b n u u2.
    Proof.
      intros A c f a x ms b n u u1 u2 C (cs & L & M). exists cs. split; [exact L|].
      assert (G : forall z, gives (f a) n u1 z u2 cs -> gives (bind (calling c) f) n u z u2 cs).
      { intros z G. change cs with ([] ++ cs). eapply gives_bind; [apply gives_call; exact C|]. cbn [length]. now rewrite Nat.add_0_r. }
      destruct x as [m0|x]; [destruct M as (m' & M & R); exists m'; split; auto|auto].
    Qed.
    Lemma made_call_raise : forall A (c : M U A) f e ms b n u u1, c u = (Raise e, u1) -> made_like (bind (calling c) f) (Raise e) ms b n u u1.
    Proof. intros A c f e ms b n u u1 C. exists []. split; [cbn; lia|]. apply gives_raise, gives_call, C. Qed.

    Lemma change_made : forall k f m n u, made_like (i_change k f m) (fst (change k f (forget m) u)) [m] (3 * depth (forget m) + 1) n u (snd (change k f (forget m) u)).
    Proof.
      intros k f. induction m as [|i key value|i key value l IHl r IHr h]; intros n u; cbn [i_change forget change depth].
      - unfold bind at 2 3. destruct (f None u) as [[o|e] u1] eqn:E; cbn [fst snd]; [|now apply made_call_raise].
        eapply made_call; [exact E|]. destruct o as [v|]; [eapply made_more; [apply made_leaf|lia]|]. exists []. split; [cbn; lia|apply gives_fail].
      - set (m := ILeaf i key value). change (Leaf key value) with (forget m).
        assert (Wm : within [m] [] m) by (apply within_self; now left).
        destruct (ltb k key); [|destruct (eqb k key)].
        + unfold bind at 2 3. destruct (f None u) as [[o|e] u1] eqn:E; cbn [fst snd]; [|now apply made_call_raise].
          eapply made_call; [exact E|]. destruct o as [v|]; cbn [fst snd ret].
          * eapply made_more; [apply (made_node k v IEmpty m); [apply within_empty|exact Wm]|lia].
          * eapply made_more; [now apply made_ret|lia].
        + unfold bind at 2 3. destruct (f (Some value) u) as [[o|e] u1] eqn:E; cbn [fst snd]; [|now apply made_call_raise].
          eapply made_call; [exact E|]. destruct o as [v|]; cbn [fst snd ret].
          * eapply made_more; [apply made_leaf|lia].
          * eapply made_more; [apply (made_ret IEmpty), within_empty|lia].
        + unfold bind at 2 3. destruct (f None u) as [[o|e] u1] eqn:E; cbn [fst snd]; [|now apply made_call_raise].
          eapply made_call; [exact E|]. destruct o as [v|]; cbn [fst snd ret].
          * eapply made_more; [apply (made_node k v m IEmpty); [exact Wm|apply within_empty]|lia].
          * eapply made_more; [now apply made_ret|lia].
      - destruct (ltb k key); [|destruct (eqb k key)].
        + pose proof (path_left _ _ i key value l r h _ _ _ _ (IHl n u)) as P. eapply made_more with (b' := 3 * S (Nat.max (depth (forget l)) (depth (forget r))) + 1) in P; [|lia].
          revert P. unfold bind at 3 4, lift. destruct (change k f (forget l) u) as [[y|e] u1]; cbn [fst snd rbind]; exact (fun P => P).
        + unfold bind at 3 4. destruct (f (Some value) u) as [[o|e] u1] eqn:E; cbn [fst snd]; [|now apply made_call_raise].
          eapply made_call; [exact E|]. destruct o as [v|]; cbn [fst snd ret].
          * eapply made_more; [apply made_node|lia]; (eapply within_sub; [now left|]); [apply part_left|apply part_right]; apply part_self.
          * pose proof (cut_made i key value l r h n u1) as P. eapply made_more with (b' := 3 * S (Nat.max (depth (forget l)) (depth (forget r))) + 1) in P; [|lia].
            revert P. rewrite !forget_empty. destruct (is_empty (forget l)); [exact (fun P => P)|]. destruct (is_empty (forget r)); [exact (fun P => P)|]. exact (fun P => P).
        + pose proof (path_right _ _ i key value l r h _ _ _ _ (IHr n u)) as P. eapply made_more with (b' := 3 * S (Nat.max (depth (forget l)) (depth (forget r))) + 1) in P; [|lia].
          revert P. unfold bind at 3 4, lift. destruct (change k f (forget r) u) as [[y|e] u1]; cbn [fst snd rbind]; exact (fun P => P).
    Qed.
  End Tree.
End Share.
