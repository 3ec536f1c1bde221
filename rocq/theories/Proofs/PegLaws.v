(** Facts about rewriting grammars. *)
From Coq Require Import List Bool ZArith Lia.
From Verif.Model Require Import Base OptionResult Parser.
From Verif.Proofs Require Import PegFacts.
From Verif.Spec Require Import PegSpec PegLawsSpec.
Import ListNotations.
Local Open Scope list_scope.

Section Inversion.
  Context {W : Type} (rules : nat -> gram W).
  Notation peg := (peg rules).
  Notation pegs := (pegs rules).
  (** What the derivations of each form are. *)
  Lemma peg_inv : forall g s w r w1, peg g s w r w1 ->
    match g with
    | GChar c => w1 = w /\ ((exists t, s = c :: t /\ r = Ret (Some (VStr [c], t))) \/ (r = Ret None /\ match s with d :: _ => d <> c | [] => True end))
    | GReturn v => w1 = w /\ r = Ret (Some (v, s))
    | GFail _ => w1 = w /\ r = Ret None
    | GAnd k a b => (peg a s w r w1 /\ no_value r) \/ exists v s1 w2 r1, peg a s w (Ret (Some (v, s1))) w2 /\ peg b s1 w2 r1 w1 /\ r = with_value (keep k v) r1
    | GOr a b => (peg a s w r w1 /\ r <> Ret None) \/ exists w2, peg a s w (Ret None) w2 /\ peg b s w2 r w1
    | GMap f g => exists r1 w2, peg g s w r1 w2 /\ applied f r1 w2 = (r, w1)
    | GBind f g => (peg g s w r w1 /\ no_value r) \/ exists v s1 w2, peg g s w (Ret (Some (v, s1))) w2 /\ peg (f v) s1 w2 r w1
    | GMany g => exists r1, pegs g s w r1 w1 /\ r = listed [] r1
    | GMany1 g => (peg g s w r w1 /\ no_value r) \/ exists v s1 w2 r1, peg g s w (Ret (Some (v, s1))) w2 /\ pegs g s1 w2 r1 w1 /\ r = listed [v] r1
    | GOpt g => (exists r1, peg g s w r1 w1 /\ r1 <> Ret None /\ r = with_value VSome r1) \/ (peg g s w (Ret None) w1 /\ r = Ret (Some (VNone, s)))
    | GSepBy g h => (peg g s w (Ret None) w1 /\ r = Ret (Some (VList [], s))) \/ (exists e, peg g s w (Raise e) w1 /\ r = Raise e) \/
        exists v s1 w2 r1, peg g s w (Ret (Some (v, s1))) w2 /\ pegs (GAnd Second h g) s1 w2 r1 w1 /\ r = listed [v] r1
    | GBetween a b g => peg (GAnd First (GAnd Second a g) b) s w r w1
    | GCall n => peg (rules n) s w r w1
    | GString u => w1 = w /\ ((exists t, s = u ++ t /\ r = Ret (Some (VStr u, t))) \/ (r = Ret None /\ forall t, s <> u ++ t))
    | GAnyOf c cs => w1 = w /\ ((exists d t, s = d :: t /\ In d (c :: cs) /\ r = Ret (Some (VStr [d], t))) \/ (r = Ret None /\ match s with d :: _ => ~ In d (c :: cs) | [] => True end))
    end.
  Proof. intros g s w r w1 P. destruct P; eauto 12. Qed.
  Lemma pegs_inv : forall g s w r w1, pegs g s w r w1 -> (peg g s w (Ret None) w1 /\ r = Ret ([], s)) \/ (exists e, peg g s w (Raise e) w1 /\ r = Raise e) \/
    exists v s1 w2 r1, peg g s w (Ret (Some (v, s1))) w2 /\ pegs g s1 w2 r1 w1 /\ r = one_more v r1.
  Proof. intros g s w r w1 P. destruct P; eauto 12. Qed.
End Inversion.

(** Rules that are rewritten. *)
Lemma rewrite_rules : forall W (rules1 rules2 : nat -> gram W), (forall n, agrees rules1 (rules1 n) (rules2 n)) ->
  (forall g s w r w1, peg rules2 g s w r w1 -> peg rules1 g s w r w1) /\ (forall g s w r w1, pegs rules2 g s w r w1 -> pegs rules1 g s w r w1).
Proof.
  intros W rules1 rules2 A. apply (peg_ind2 W rules2); intros; try (econstructor; eassumption). apply p_call. apply A. assumption.
Qed.

Section Laws.
  Context {W : Type} (rules : nat -> gram W).
  Notation peg := (peg rules).
  Notation pegs := (pegs rules).
  Notation agrees := (agrees rules).
  Notation quiet := (quiet rules).
  Implicit Types (a b c g h : gram W) (w : W).

  Lemma agrees_refl : forall g, agrees g g.
  Proof. intros g s w r w1. reflexivity. Qed.
  Lemma agrees_sym : forall a b, agrees a b -> agrees b a.
  Proof. intros a b A s w r w1. symmetry. apply A. Qed.
  Lemma agrees_trans : forall a b c, agrees a b -> agrees b c -> agrees a c.
  Proof. intros a b c A B s w r w1. rewrite (A s w r w1). apply B. Qed.

  Lemma pegs_sub : forall a b, (forall s w r w1, peg a s w r w1 -> peg b s w r w1) -> forall s w r w1, pegs a s w r w1 -> pegs b s w r w1.
  Proof.
    intros a b A s w r w1 P. assert (X : forall g s w r w1, pegs g s w r w1 -> g = a -> pegs b s w r w1); [|exact (X _ _ _ _ _ P eq_refl)]. clear P s w r w1.
    apply (pegs_only W rules (fun g s w r w1 => g = a -> pegs b s w r w1)); intros; subst; [eapply ps_end|eapply ps_raise|eapply ps_more]; eauto.
  Qed.
  Lemma and_sub : forall k a a1 b b1, (forall s w r w1, peg a s w r w1 -> peg a1 s w r w1) -> (forall s w r w1, peg b s w r w1 -> peg b1 s w r w1) -> forall s w r w1, peg (GAnd k a b) s w r w1 -> peg (GAnd k a1 b1) s w r w1.
  Proof. intros k a a1 b b1 A B s w r w1 P. apply peg_inv in P. destruct P as [[P N]|(v & s1 & w2 & r1 & P & Q & ->)]; [apply p_and_stop; auto|eapply p_and; eauto]. Qed.

  Lemma cong_and : forall k a a1 b b1, agrees a a1 -> agrees b b1 -> agrees (GAnd k a b) (GAnd k a1 b1).
  Proof. intros k a a1 b b1 A B s w r w1. split; apply and_sub; intros; (apply A || apply B); assumption. Qed.
  Lemma cong_or : forall a a1 b b1, agrees a a1 -> agrees b b1 -> agrees (GOr a b) (GOr a1 b1).
  Proof.
    assert (X : forall a a1 b b1, agrees a a1 -> agrees b b1 -> forall s w r w1, peg (GOr a b) s w r w1 -> peg (GOr a1 b1) s w r w1).
    { intros a a1 b b1 A B s w r w1 P. apply peg_inv in P. destruct P as [[P N]|(w2 & P & Q)]; [apply p_or_first; [apply A; exact P|exact N]|eapply p_or_second; [apply A; exact P|apply B; exact Q]]. }
    intros a a1 b b1 A B s w r w1. split; apply X; auto using agrees_sym.
  Qed.
  Lemma cong_map : forall f g h, agrees g h -> agrees (GMap f g) (GMap f h).
  Proof. assert (X : forall f g h, agrees g h -> forall s w r w1, peg (GMap f g) s w r w1 -> peg (GMap f h) s w r w1) by (intros f g h A s w r w1 P; apply peg_inv in P; destruct P as (r1 & w2 & P & E); eapply p_map; [apply A; exact P|exact E]). intros f g h A s w r w1. split; apply X; auto using agrees_sym. Qed.
  Lemma cong_bind : forall f f1 g h, (forall v, agrees (f v) (f1 v)) -> agrees g h -> agrees (GBind f g) (GBind f1 h).
  Proof.
    assert (X : forall f f1 g h, (forall v, agrees (f v) (f1 v)) -> agrees g h -> forall s w r w1, peg (GBind f g) s w r w1 -> peg (GBind f1 h) s w r w1).
    { intros f f1 g h F A s w r w1 P. apply peg_inv in P. destruct P as [[P N]|(v & s1 & w2 & P & Q)]; [apply p_bind_stop; [apply A; exact P|exact N]|eapply p_bind; [apply A; exact P|apply F; exact Q]]. }
    intros f f1 g h F A s w r w1. split; apply X; auto using agrees_sym.
  Qed.
  Lemma cong_many : forall g h, agrees g h -> agrees (GMany g) (GMany h).
  Proof.
    assert (X : forall g h, agrees g h -> forall s w r w1, peg (GMany g) s w r w1 -> peg (GMany h) s w r w1) by (intros g h A s w r w1 P; apply peg_inv in P; destruct P as (r1 & P & ->); apply p_many; eapply pegs_sub; [intros; apply A; eassumption|exact P]).
    intros g h A s w r w1. split; apply X; auto using agrees_sym.
  Qed.
  Lemma cong_many1 : forall g h, agrees g h -> agrees (GMany1 g) (GMany1 h).
  Proof.
    assert (X : forall g h, agrees g h -> forall s w r w1, peg (GMany1 g) s w r w1 -> peg (GMany1 h) s w r w1).
    { intros g h A s w r w1 P. apply peg_inv in P. destruct P as [[P N]|(v & s1 & w2 & r1 & P & Q & ->)]; [apply p_many1_stop; [apply A; exact P|exact N]|eapply p_many1; [apply A; exact P|eapply pegs_sub; [intros; apply A; eassumption|exact Q]]]. }
    intros g h A s w r w1. split; apply X; auto using agrees_sym.
  Qed.
  Lemma cong_opt : forall g h, agrees g h -> agrees (GOpt g) (GOpt h).
  Proof.
    assert (X : forall g h, agrees g h -> forall s w r w1, peg (GOpt g) s w r w1 -> peg (GOpt h) s w r w1).
    { intros g h A s w r w1 P. apply peg_inv in P. destruct P as [(r1 & P & N & ->)|[P ->]]; [eapply p_opt_some; [apply A; exact P|exact N]|eapply p_opt_none; apply A; exact P]. }
    intros g h A s w r w1. split; apply X; auto using agrees_sym.
  Qed.
  Lemma cong_sep : forall g g1 h h1, agrees g g1 -> agrees h h1 -> agrees (GSepBy g h) (GSepBy g1 h1).
  Proof.
    assert (X : forall g g1 h h1, agrees g g1 -> agrees h h1 -> forall s w r w1, peg (GSepBy g h) s w r w1 -> peg (GSepBy g1 h1) s w r w1).
    { intros g g1 h h1 A B s w r w1 P. apply peg_inv in P. destruct P as [[P ->]|[(e & P & ->)|(v & s1 & w2 & r1 & P & Q & ->)]]; [eapply p_sep_none; apply A; exact P|eapply p_sep_raise; apply A; exact P|].
      eapply p_sep; [apply A; exact P|]. eapply pegs_sub; [|exact Q]. intros. apply (cong_and Second h h1 g g1 B A). assumption. }
    intros g g1 h h1 A B s w r w1. split; apply X; auto using agrees_sym.
  Qed.
  Lemma between_eq : forall a b g, agrees (GBetween a b g) (GAnd First (GAnd Second a g) b).
  Proof. intros a b g s w r w1. split; intros P; [apply peg_inv in P; exact P|apply p_between; exact P]. Qed.
  Lemma cong_between : forall a a1 b b1 g g1, agrees a a1 -> agrees b b1 -> agrees g g1 -> agrees (GBetween a b g) (GBetween a1 b1 g1).
  Proof. intros a a1 b b1 g g1 A B G. eapply agrees_trans; [apply between_eq|]. eapply agrees_trans; [|apply agrees_sym; apply between_eq]. apply cong_and; [apply cong_and|]; assumption. Qed.

  (** The laws. *)
  Lemma or_assoc : forall a b c, agrees (GOr (GOr a b) c) (GOr a (GOr b c)).
  Proof.
    intros a b c s w r w1. split; intros P; apply peg_inv in P.
    - destruct P as [[P N]|(w2 & P & Q)]; apply peg_inv in P.
      + destruct P as [[P _]|(w3 & P & P2)]; [apply p_or_first; assumption|]. eapply p_or_second; [exact P|apply p_or_first; assumption].
      + destruct P as [[P N]|(w3 & P & P2)]; [destruct (N eq_refl)|]. eapply p_or_second; [exact P|eapply p_or_second; eassumption].
    - destruct P as [[P N]|(w2 & P & Q)]; [apply p_or_first; [apply p_or_first; assumption|exact N]|]. apply peg_inv in Q. destruct Q as [[Q N]|(w3 & Q & Q2)].
      + apply p_or_first; [eapply p_or_second; eassumption|exact N].
      + eapply p_or_second; [eapply p_or_second; eassumption|exact Q2].
  Qed.
  Lemma or_fail_left : forall m a, agrees (GOr (GFail m) a) a.
  Proof.
    intros m a s w r w1. split; intros P; [|eapply p_or_second; [apply p_fail|exact P]]. apply peg_inv in P. destruct P as [[P N]|(w2 & P & Q)]; apply peg_inv in P; destruct P as [-> E]; [destruct (N E)|exact Q].
  Qed.
  Lemma or_fail_right : forall m a, agrees (GOr a (GFail m)) a.
  Proof.
    intros m a s w r w1. split; intros P.
    - apply peg_inv in P. destruct P as [[P N]|(w2 & P & Q)]; [exact P|]. apply peg_inv in Q. destruct Q as [-> ->]. exact P.
    - destruct r as [[x|]|e]; [apply p_or_first; [exact P|discriminate]|eapply p_or_second; [exact P|apply p_fail]|apply p_or_first; [exact P|discriminate]].
  Qed.
  Lemma with_value_id : forall (f : val -> val) (r : outcome), (forall v, f v = v) -> with_value f r = r.
  Proof. intros f [[[v s]|]|e] E; cbn; rewrite ?E; reflexivity. Qed.
  Lemma return_left : forall v a, agrees (GAnd Second (GReturn v) a) a.
  Proof.
    intros v a s w r w1. split; intros P.
    - apply peg_inv in P. destruct P as [[P N]|(v1 & s1 & w2 & r1 & P & Q & ->)]; apply peg_inv in P; destruct P as [-> E]; [rewrite E in N; destruct N|]. injection E as -> ->. rewrite with_value_id by reflexivity. exact Q.
    - rewrite <- (with_value_id (keep Second v) r) by reflexivity. eapply p_and; [apply p_return|exact P].
  Qed.
  Lemma return_right : forall v a, agrees (GAnd First a (GReturn v)) a.
  Proof.
    intros v a s w r w1. split; intros P.
    - apply peg_inv in P. destruct P as [[P N]|(v1 & s1 & w2 & r1 & P & Q & ->)]; [exact P|]. apply peg_inv in Q. destruct Q as [-> ->]. exact P.
    - destruct r as [[[v1 s1]|]|e]; [|apply p_and_stop; [exact P|exact I]..]. exact (p_and rules First a (GReturn v) s w v1 s1 w1 _ w1 P (p_return rules v s1 w1)).
  Qed.
  Lemma and_assoc : forall a b c, agrees (GAnd Second (GAnd Second a b) c) (GAnd Second a (GAnd Second b c)).
  Proof.
    intros a b c s w r w1. split; intros P; apply peg_inv in P.
    - destruct P as [[P N]|(v & s1 & w2 & r1 & P & Q & ->)]; apply peg_inv in P.
      + destruct P as [[P _]|(v & s1 & w2 & r1 & P & Q & ->)]; [apply p_and_stop; assumption|]. destruct r1 as [[[v1 s2]|]|e]; cbn in N; [destruct N| |]; (eapply (p_and rules Second); [exact P|]); (apply p_and_stop; [exact Q|exact I]).
      + destruct P as [[_ []]|(v1 & s2 & w3 & r2 & P & P2 & E)]. destruct r2 as [[[v3 s3]|]|e]; try discriminate. cbn in E. injection E as -> ->. rewrite with_value_id by reflexivity. rewrite <- (with_value_id (keep Second v1) r1) by reflexivity. eapply p_and; [exact P|].
        rewrite <- (with_value_id (keep Second v3) r1) by reflexivity. eapply p_and; eassumption.
    - destruct P as [[P N]|(v & s1 & w2 & r1 & P & Q & ->)]; [apply p_and_stop; [apply p_and_stop; assumption|exact N]|]. rewrite with_value_id by reflexivity. apply peg_inv in Q. destruct Q as [[Q N]|(v1 & s2 & w3 & r2 & Q & Q2 & ->)].
      + apply p_and_stop; [|exact N]. rewrite <- (with_value_id (keep Second v) r1) by reflexivity. eapply p_and; eassumption.
      + eapply p_and; [|exact Q2]. exact (p_and rules Second a b s w v s1 w2 _ w3 P Q).
  Qed.
  Lemma many_unfold : forall g, agrees (GMany g) (GOr (GMap (fun v => ret (cons_pair v)) (GAnd Both g (GMany g))) (GReturn (VList []))).
  Proof.
    intros g s w r w1. split; intros P.
    - apply peg_inv in P. destruct P as (r1 & P & ->). apply pegs_inv in P. destruct P as [[P ->]|[(e & P & ->)|(v & s1 & w2 & r2 & P & Q & ->)]].
      + eapply p_or_second; [eapply p_map; [apply p_and_stop; [exact P|exact I]|reflexivity]|apply p_return].
      + apply p_or_first; [|discriminate]. eapply p_map; [apply p_and_stop; [exact P|exact I]|reflexivity].
      + apply p_or_first; [|destruct r2 as [[vs s2]|e]; discriminate]. eapply p_map; [eapply p_and; [exact P|apply p_many; exact Q]|]. destruct r2 as [[vs s2]|e]; reflexivity.
    - apply peg_inv in P. destruct P as [[P N]|(w2 & P & Q)]; apply peg_inv in P; destruct P as (r1 & w3 & P & E); apply peg_inv in P.
      + destruct P as [[P NV]|(v & s1 & w4 & r2 & P & Q & ->)].
        * destruct r1 as [[x|]|e]; [destruct NV| |]; injection E as <- <-; [destruct (N eq_refl)|]. change (peg (GMany g) s w (listed [] (Raise e)) w3). apply p_many. eapply ps_raise. exact P.
        * apply peg_inv in Q. destruct Q as (r3 & Q & ->). destruct r3 as [[vs s2]|e]; cbn in E; injection E as <- <-.
          -- exact (p_many rules g s w _ w3 (ps_more rules g s w v s1 w4 _ w3 P Q)).
          -- exact (p_many rules g s w _ w3 (ps_more rules g s w v s1 w4 _ w3 P Q)).
      + apply peg_inv in Q. destruct Q as [-> ->]. destruct P as [[P NV]|(v & s1 & w4 & r2 & P & Q & ->)].
        * destruct r1 as [[x|]|e]; [destruct NV| |]; try discriminate E. injection E as <-. exact (p_many rules g s w _ w3 (ps_end rules g s w w3 P)).
        * apply peg_inv in Q. destruct Q as (r3 & Q & ->). destruct r3 as [[vs s2]|e]; discriminate E.
  Qed.
  Lemma opt_eq : forall g, agrees (GOpt g) (GOr (GMap (fun v => ret (VSome v)) g) (GReturn VNone)).
  Proof.
    intros g s w r w1. split; intros P; apply peg_inv in P.
    - destruct P as [(r1 & P & N & ->)|[P ->]].
      + apply p_or_first; [|destruct r1 as [[[v s1]|]|e]; cbn; congruence]. eapply p_map; [exact P|]. destruct r1 as [[[v s1]|]|e]; reflexivity.
      + eapply p_or_second; [eapply p_map; [exact P|reflexivity]|apply p_return].
    - destruct P as [[P N]|(w2 & P & Q)]; apply peg_inv in P; destruct P as (r1 & w3 & P & E).
      + destruct r1 as [[[v s1]|]|e]; cbn in E; injection E as <- <-; [|destruct (N eq_refl)|]; [exact (p_opt_some rules g s w _ w3 P ltac:(discriminate))|exact (p_opt_some rules g s w _ w3 P ltac:(discriminate))].
      + apply peg_inv in Q. destruct Q as [-> ->]. destruct r1 as [[[v s1]|]|e]; try discriminate E. injection E as <-. apply p_opt_none. exact P.
  Qed.
  Lemma or_same : forall a, quiet a -> agrees (GOr a a) a.
  Proof.
    intros a Q s w r w1. split; intros P.
    - apply peg_inv in P. destruct P as [[P N]|(w2 & P & P2)]; [exact P|]. destruct (Q _ _ _ _ P) as [-> _]. exact P2.
    - destruct r as [[x|]|e]; [apply p_or_first; [exact P|discriminate]| |apply p_or_first; [exact P|discriminate]]. destruct (Q _ _ _ _ P) as [-> _]. eapply p_or_second; exact P.
  Qed.
  Lemma factor_left : forall k a b c, quiet a -> agrees (GOr (GAnd k a b) (GAnd k a c)) (GAnd k a (GOr b c)).
  Proof.
    intros k a b c Q s w r w1. split; intros P; apply peg_inv in P.
    - destruct P as [[P N]|(w2 & P & P2)]; apply peg_inv in P.
      + destruct P as [[P NV]|(v & s1 & w2 & r1 & P & P1 & ->)]; [apply p_and_stop; assumption|]. eapply p_and; [exact P|]. apply p_or_first; [exact P1|]. intros ->. destruct (N eq_refl).
      + apply peg_inv in P2. destruct P as [[P _]|(v & s1 & w3 & r1 & P & P1 & E)].
        * destruct (Q _ _ _ _ P) as [-> _]. destruct P2 as [[P2 NV]|(v & s1 & w3 & r1 & P2 & _ & _)]; [|destruct (peg_unique rules _ _ _ _ _ _ _ P P2) as [X _]; discriminate X]. apply p_and_stop; assumption.
        * destruct (Q _ _ _ _ P) as [-> QA]. pose proof (QA w2) as P0. destruct P2 as [[P2 NV]|(v2 & s2 & w4 & r2 & P2 & P3 & ->)]; destruct (peg_unique rules _ _ _ _ _ _ _ P0 P2) as [X Y]; [subst r; destruct NV|]. injection X as <- <-. subst w4.
          destruct r1 as [[[v3 s3]|]|e]; try discriminate E. eapply p_and; [exact P|]. eapply p_or_second; eassumption.
    - destruct P as [[P NV]|(v & s1 & w2 & r1 & P & P1 & ->)].
      + destruct r as [[x|]|e]; [destruct NV| |apply p_or_first; [apply p_and_stop; [exact P|exact I]|discriminate]]. destruct (Q _ _ _ _ P) as [-> _]. eapply p_or_second; (apply p_and_stop; [exact P|exact I]).
      + apply peg_inv in P1. destruct P1 as [[P1 N]|(w3 & P1 & P2)].
        * apply p_or_first; [eapply p_and; eassumption|]. destruct r1 as [[[v1 s2]|]|e]; cbn; congruence.
        * destruct (Q _ _ _ _ P) as [-> QA]. eapply p_or_second; [exact (p_and rules k a b s w v s1 w _ w3 P P1)|]. eapply p_and; [apply QA|exact P2].
  Qed.
  Lemma or_swap : forall a b, quiet a -> quiet b -> apart rules a b -> agrees (GOr a b) (GOr b a).
  Proof.
    assert (X : forall a b, quiet a -> quiet b -> apart rules a b -> forall s w r w1, peg (GOr a b) s w r w1 -> peg (GOr b a) s w r w1).
    { intros a b QA QB AP s w r w1 P. apply peg_inv in P. destruct P as [[P N]|(w2 & P & P2)].
      - destruct (AP s w) as [X|X]; [destruct (peg_unique rules _ _ _ _ _ _ _ P X) as [-> _]; destruct (N eq_refl)|]. eapply p_or_second; eassumption.
      - destruct (QA _ _ _ _ P) as [-> _]. destruct r as [[x|]|e]; [apply p_or_first; [exact P2|discriminate]| |apply p_or_first; [exact P2|discriminate]]. destruct (QB _ _ _ _ P2) as [-> _]. eapply p_or_second; eassumption. }
    intros a b QA QB AP s w r w1. split; apply X; auto. intros s0 w0. destruct (AP s0 w0); auto.
  Qed.
  Lemma plain_quiet : (forall n, plain (rules n)) -> (forall g s w r w1, peg g s w r w1 -> plain g -> w1 = w /\ forall w2, peg g s w2 r w2) /\ (forall g s w r w1, pegs g s w r w1 -> plain g -> w1 = w /\ forall w2, pegs g s w2 r w2).
  Proof.
    intros PL. apply (peg_ind2 W rules).
    - intros c s w _. split; [reflexivity|]. intros w2. apply p_char.
    - intros c s w N _. split; [reflexivity|]. intros w2. apply p_no_char. exact N.
    - intros v s w _. split; [reflexivity|]. intros w2. apply p_return.
    - intros m s w _. split; [reflexivity|]. intros w2. apply p_fail.
    - intros k a b s w r w1 _ IH N PG. inversion PG; subst. destruct (IH ltac:(assumption)) as [-> Q]. split; [reflexivity|]. intros w2. apply p_and_stop; auto.
    - intros k a b s w v s1 w1 r w2 _ IH1 _ IH2 PG. inversion PG; subst. destruct (IH1 ltac:(assumption)) as [-> Q1]. destruct (IH2 ltac:(assumption)) as [-> Q2]. split; [reflexivity|]. intros w2. eapply p_and; eauto.
    - intros a b s w r w1 _ IH N PG. inversion PG; subst. destruct (IH ltac:(assumption)) as [-> Q]. split; [reflexivity|]. intros w2. apply p_or_first; auto.
    - intros a b s w w1 r w2 _ IH1 _ IH2 PG. inversion PG; subst. destruct (IH1 ltac:(assumption)) as [-> Q1]. destruct (IH2 ltac:(assumption)) as [-> Q2]. split; [reflexivity|]. intros w2. eapply p_or_second; eauto.
    - intros f g s w r w1 r2 w2 _ IH A PG. remember (GMap f g) as m eqn:Em. destruct PG; try discriminate Em. injection Em as <- <-. destruct (IH PG) as [-> Q]. assert (X : w2 = w /\ forall w3, applied (fun v u => (f0 v, u)) r w3 = (r2, w3)).
      { destruct r as [[[v s1]|]|e]; cbn in A |- *; [destruct (f0 v)|..]; injection A as <- <-; split; reflexivity. }
      destruct X as [-> X]. split; [reflexivity|]. intros w3. eapply p_map; [apply Q|apply X].
    - intros f g s w r w1 _ IH N PG. inversion PG; subst. destruct (IH ltac:(assumption)) as [-> Q]. split; [reflexivity|]. intros w2. apply p_bind_stop; auto.
    - intros f g s w v s1 w1 r w2 _ IH1 _ IH2 PG. inversion PG as [| | | | | |? ? PG1 PF| | | | | | | |]; subst. destruct (IH1 PG1) as [-> Q1]. destruct (IH2 (PF v)) as [-> Q2]. split; [reflexivity|]. intros w2. eapply p_bind; eauto.
    - intros g s w r w1 _ IH PG. inversion PG; subst. destruct (IH ltac:(assumption)) as [-> Q]. split; [reflexivity|]. intros w2. apply p_many; auto.
    - intros g s w r w1 _ IH N PG. inversion PG; subst. destruct (IH ltac:(assumption)) as [-> Q]. split; [reflexivity|]. intros w2. apply p_many1_stop; auto.
    - intros g s w v s1 w1 r w2 _ IH1 _ IH2 PG. inversion PG; subst. destruct (IH1 ltac:(assumption)) as [-> Q1]. destruct (IH2 ltac:(assumption)) as [-> Q2]. split; [reflexivity|]. intros w2. eapply p_many1; eauto.
    - intros g s w r w1 _ IH N PG. inversion PG; subst. destruct (IH ltac:(assumption)) as [-> Q]. split; [reflexivity|]. intros w2. apply p_opt_some; auto.
    - intros g s w w1 _ IH PG. inversion PG; subst. destruct (IH ltac:(assumption)) as [-> Q]. split; [reflexivity|]. intros w2. apply p_opt_none; auto.
    - intros g h s w w1 _ IH PG. inversion PG; subst. destruct (IH ltac:(assumption)) as [-> Q]. split; [reflexivity|]. intros w2. apply p_sep_none; auto.
    - intros g h s w e w1 _ IH PG. inversion PG; subst. destruct (IH ltac:(assumption)) as [-> Q]. split; [reflexivity|]. intros w2. apply p_sep_raise; auto.
    - intros g h s w v s1 w1 r w2 _ IH1 _ IH2 PG. inversion PG; subst. destruct (IH1 ltac:(assumption)) as [-> Q1]. destruct (IH2 ltac:(constructor; assumption)) as [-> Q2]. split; [reflexivity|]. intros w2. eapply p_sep; eauto.
    - intros a b g s w r w1 _ IH PG. inversion PG; subst. destruct IH as [-> Q]; [repeat (constructor; try assumption)|]. split; [reflexivity|]. intros w2. apply p_between; auto.
    - intros n s w r w1 _ IH _. destruct (IH (PL n)) as [-> Q]. split; [reflexivity|]. intros w2. apply p_call; auto.
    - intros u s w _. split; [reflexivity|]. intros w2. apply p_string.
    - intros u s w N _. split; [reflexivity|]. intros w2. apply p_no_string. exact N.
    - intros c cs d s w N _. split; [reflexivity|]. intros w2. apply p_any. exact N.
    - intros c cs s w N _. split; [reflexivity|]. intros w2. apply p_no_any. exact N.
    - intros g s w w1 _ IH PG. destruct (IH PG) as [-> Q]. split; [reflexivity|]. intros w2. eapply ps_end; auto.
    - intros g s w e w1 _ IH PG. destruct (IH PG) as [-> Q]. split; [reflexivity|]. intros w2. eapply ps_raise; auto.
    - intros g s w v s1 w1 r w2 _ IH1 _ IH2 PG. destruct (IH1 PG) as [-> Q1]. destruct (IH2 PG) as [-> Q2]. split; [reflexivity|]. intros w2. eapply ps_more; eauto.
  Qed.
End Laws.
