(** Facts about the calculator. *)
From Coq Require Import List Arith ZArith Lia Wf_nat.
From Verif.Model Require Import Base OptionResult Parser.
From Verif.Proofs Require Import PegFacts PegFacts2 PegLaws PegSafe.
From Verif.Spec Require Import PegSpec PegSafeSpec CalcSpec.
Import ListNotations.
Local Open Scope list_scope.

Section Facts.
  Context {W : Type}.
  Notation peg := (peg (W := W) calculator).
  Notation pegs := (pegs (W := W) calculator).
  Notation more := (more (W := W)).
  Implicit Types (w : W) (s t rest : str) (e : expr).

  Lemma digit_in : forall d, digit d <-> In d [48; 49; 50; 51; 52; 53; 54; 55; 56; 57].
  Proof. intros d. unfold digit. cbn. lia. Qed.
  Lemma sign_no_digit : forall l c, sign l c -> ~ digit c.
  Proof. intros [|l] c S; unfold sign, digit in *; cbn in S; lia. Qed.
  Lemma sign_other : forall l m c, l < 2 -> m < 2 -> sign l c -> sign m c -> l = m.
  Proof. intros [|[|l]] [|[|m]] c L M A B; try lia; unfold sign in *; cbn in *; lia. Qed.
  Lemma digits_read : forall ds rest w, Forall digit ds -> match rest with d :: _ => ~ digit d | [] => True end -> pegs digits (ds ++ rest) w (Ret (List.map (fun d => VStr [d]) ds, rest)) w.
  Proof.
    induction ds as [|d ds IH]; intros rest w F N; cbn.
    - eapply ps_end. apply p_no_any. destruct rest as [|d rest]; [exact I|]. rewrite <- digit_in. exact N.
    - inversion F; subst. exact (ps_more calculator digits (d :: ds ++ rest) w (VStr [d]) (ds ++ rest) w _ w (p_any calculator 48 _ d _ w (proj1 (digit_in d) ltac:(assumption))) (IH rest w ltac:(assumption) N)).
  Qed.
  Lemma digits_sound : forall g s w r w1, pegs g s w r w1 -> g = digits -> forall vs rest, r = Ret (vs, rest) -> exists ds, Forall digit ds /\ vs = List.map (fun d => VStr [d]) ds /\ s = ds ++ rest.
  Proof.
    apply (pegs_only W calculator (fun g s w r w1 => g = digits -> forall vs rest, r = Ret (vs, rest) -> exists ds, Forall digit ds /\ vs = List.map (fun d => VStr [d]) ds /\ s = ds ++ rest)).
    - intros g s w w1 _ -> vs rest E. injection E as <- <-. exists []. repeat split. constructor.
    - discriminate.
    - intros g s w v s1 w1 r w2 P _ IH -> vs rest E. destruct r as [[us s2]|e]; [|discriminate]. injection E as <- <-. destruct (IH eq_refl us s2 eq_refl) as (ds & F & -> & ->). apply peg_inv in P. destruct P as [_ [(d & t & -> & D & X)|[X _]]]; [|discriminate]. injection X as -> <-.
      exists (d :: ds). split; [constructor; [apply digit_in; exact D|exact F]|split; reflexivity].
  Qed.
  Lemma codes : forall ds, List.map code (List.map (fun d => VStr [d]) ds) = ds.
  Proof. induction ds as [|d ds IH]; [reflexivity|]. cbn. rewrite IH. reflexivity. Qed.

  (** Complete. *)
  Definition reads l e s : Prop := forall rest w, stops l rest -> peg (GCall l) (s ++ rest) w (Ret (Some (VInt (eval e), rest))) w.
  Definition goes_on l e s : Prop := forall rest w vs rest1, stops (S l) rest -> pegs (more l) rest w (Ret (vs, rest1)) w ->
    exists h s1 us, peg (GCall (S l)) (s ++ rest) w (Ret (Some (VInt h, s1))) w /\ pegs (more l) s1 w (Ret (us ++ vs, rest1)) w /\ fold_left step us h = eval e.
  Lemma rule_eq : forall l, l < 2 -> calculator (W := W) l = GMap (fun v => ret (calc v)) (GAnd Both (GCall (S l)) (GMany (more l))).
  Proof. intros [|[|l]] L; [reflexivity..|lia]. Qed.
  Lemma no_more : forall l rest w, l < 2 -> stops l rest -> pegs (more l) rest w (Ret ([], rest)) w.
  Proof.
    intros l rest w L S. eapply ps_end. apply p_and_stop; [|exact I]. apply p_no_any. destruct rest as [|d rest]; [exact I|]. destruct S as [_ S]. exact (S l (le_n l) L).
  Qed.
  Lemma reads_of : forall l e s, l < 2 -> goes_on l e s -> reads l e s.
  Proof.
    intros l e s L G rest w S. assert (S1 : stops (Datatypes.S l) rest) by (destruct rest as [|d rest]; [exact I|]; destruct S as [S0 S]; split; [exact S0|]; intros m M1 M2; apply S; lia).
    destruct (G rest w [] rest S1 (no_more l rest w L S)) as (h & s1 & us & P & Q & E). rewrite app_nil_r in Q. apply p_call. rewrite (rule_eq l L).
    eapply p_map; [eapply p_and; [exact P|apply p_many; exact Q]|]. cbn. rewrite E. reflexivity.
  Qed.
  Lemma complete_calc : forall l e s, text l e s -> l <= 2 /\ reads l e s /\ (l < 2 -> goes_on l e s).
  Proof.
    induction 1 as [ds NE F|e s _ (_ & R & _)|l e s L _ (_ & R & _)|l c a b s t L SG _ (_ & _ & G) _ (_ & R & _)].
    - split; [lia|]. split; [|lia]. intros rest w S. apply p_call. apply p_or_first; [|discriminate]. destruct ds as [|d ds]; [destruct (NE eq_refl)|]. inversion F; subst.
      eapply p_map; [eapply p_many1; [apply p_any; apply digit_in; assumption|apply digits_read; [assumption|destruct rest as [|x rest]; [exact I|exact (proj1 S)]]]|]. cbn. rewrite codes. reflexivity.
    - split; [lia|]. split; [|lia]. intros rest w S. apply p_call. eapply p_or_second.
      + eapply p_map; [apply p_many1_stop; [apply p_no_any|exact I]|reflexivity]. cbn. lia.
      + apply p_between. rewrite <- !app_assoc. cbn [app]. apply (p_and calculator First _ _ _ _ (VInt (eval e)) (41 :: rest) w (Ret (Some (VStr [41], rest))) w); [|apply p_char].
        apply (p_and calculator Second _ _ _ _ (VStr [40]) (s ++ 41 :: rest) w (Ret (Some (VInt (eval e), 41 :: rest))) w); [apply p_char|]. apply R. split; [unfold digit; lia|]. intros [|[|m]] _ M SM; unfold sign in SM; cbn in SM; lia.
    - assert (G : goes_on l e s). { intros rest w vs rest1 S P. exists (eval e), rest, []. split; [apply R; exact S|]. split; [exact P|reflexivity]. }
      split; [lia|]. split; [apply reads_of; assumption|intros _; exact G].
    - specialize (G L). assert (G1 : goes_on l (Op c a b) (s ++ [c] ++ t)).
      { intros rest w vs rest1 S P. destruct (G ([c] ++ t ++ rest) w (VPair (VStr [c]) (VInt (eval b)) :: vs) rest1) as (h & s1 & us & P1 & P2 & E).
        - split; [exact (sign_no_digit l c SG)|]. intros m M1 M2 SM. pose proof (sign_other _ _ _ L M2 SG SM). lia.
        - apply (ps_more calculator (more l) _ w (VPair (VStr [c]) (VInt (eval b))) rest w (Ret (vs, rest1)) w); [|exact P].
          apply (p_and calculator Both _ _ _ _ (VStr [c]) (t ++ rest) w (Ret (Some (VInt (eval b), rest))) w); [apply p_any; exact SG|apply R; exact S].
        - exists h, s1, (us ++ [VPair (VStr [c]) (VInt (eval b))]). rewrite <- !app_assoc. split; [exact P1|]. split; [exact P2|]. rewrite fold_left_app, E. reflexivity. }
      split; [lia|]. split; [apply reads_of; assumption|intros _; exact G1].
  Qed.

  (** Sound. *)
  Definition right l (N : nat) : Prop := forall s w v rest w1, List.length s <= N -> peg (GCall l) s w (Ret (Some (v, rest))) w1 -> exists e t, text l e t /\ s = t ++ rest /\ v = VInt (eval e).
  Lemma more_right : forall l N, l < 2 -> right (S l) N -> forall g s w r w1, pegs g s w r w1 -> g = more l -> List.length s <= N -> forall us rest, r = Ret (us, rest) ->
    forall e t, text l e t -> exists e1 t1, text l e1 (t ++ t1) /\ s = t1 ++ rest /\ fold_left step us (eval e) = eval e1.
  Proof.
    intros l N L R. apply (pegs_only W calculator (fun g s w r w1 => g = more l -> List.length s <= N -> forall us rest, r = Ret (us, rest) -> forall e t, text l e t -> exists e1 t1, text l e1 (t ++ t1) /\ s = t1 ++ rest /\ fold_left step us (eval e) = eval e1)).
    - intros g s w w1 _ -> _ us rest E e t T. injection E as <- <-. exists e, []. rewrite app_nil_r. auto.
    - discriminate.
    - intros g s w v s1 w1 r w2 P _ IH -> LN us rest E e t T. destruct r as [[us1 s2]|x]; [|discriminate]. injection E as <- <-. apply peg_inv in P. destruct P as [[_ []]|(v1 & s3 & w3 & r1 & P1 & P2 & E)]. destruct r1 as [[[v2 s4]|]|x]; try discriminate. injection E as -> ->.
      apply peg_inv in P1. destruct P1 as [_ [(c & s5 & -> & SG & X)|[X _]]]; [|discriminate]. injection X as -> <-. cbn in LN. destruct (R s3 w3 v2 s4 w1 ltac:(lia) P2) as (b & tb & TB & -> & ->).
      destruct (IH eq_refl ltac:(rewrite app_length in LN; lia) us1 s2 eq_refl (Op c e b) (t ++ [c] ++ tb) (t_op l c e b t tb L SG T TB)) as (e1 & t1 & T1 & -> & F).
      exists e1, ([c] ++ tb ++ t1). rewrite <- !app_assoc in T1. split; [exact T1|]. split; [rewrite <- !app_assoc; reflexivity|exact F].
  Qed.
  Lemma level_right : forall l N, l < 2 -> right (S l) N -> right l N.
  Proof.
    intros l N L R s w v rest w1 LN P. apply peg_inv in P. rewrite (rule_eq l L) in P. apply peg_inv in P. destruct P as (r & w2 & P & E). apply peg_inv in P. destruct P as [[_ NV]|(v1 & s1 & w3 & r1 & P1 & P2 & ->)]; [destruct r as [[x|]|x]; [destruct NV|discriminate..]|].
    destruct (R s w v1 s1 w3 LN P1) as (e & t & T & -> & ->). apply peg_inv in P2. destruct P2 as (r2 & P2 & ->). destruct r2 as [[us s2]|x]; [|discriminate E]. cbn in E. injection E as <- <- <-.
    destruct (more_right l N L R _ _ _ _ _ P2 eq_refl ltac:(rewrite app_length in LN; lia) us s2 eq_refl e t (t_up l e t L T)) as (e1 & t1 & T1 & -> & F). exists e1, (t ++ t1). rewrite <- app_assoc, F. auto.
  Qed.
  Lemma factor_right : forall N, (forall M, M < N -> right 0 M) -> right 2 N.
  Proof.
    intros N IH s w v rest w1 LN P. apply peg_inv in P. cbn [calculator] in P. apply peg_inv in P. destruct P as [[P _]|(w2 & _ & P)]; apply peg_inv in P.
    - destruct P as (r & w2 & P & E). apply peg_inv in P. destruct P as [[_ NV]|(v1 & s1 & w3 & r1 & P1 & P2 & ->)]; [destruct r as [[x|]|x]; [destruct NV|discriminate..]|]. destruct r1 as [[us s2]|x]; [|discriminate E]. cbn in E. injection E as <- <- <-.
      destruct (digits_sound _ _ _ _ _ P2 eq_refl us s2 eq_refl) as (ds & F & -> & ->). apply peg_inv in P1. destruct P1 as [_ [(d & t & -> & D & X)|[X _]]]; [|discriminate]. injection X as -> <-.
      exists (Num (d :: ds)), (d :: ds). split; [apply t_num; [discriminate|constructor; [apply digit_in; exact D|exact F]]|]. split; [reflexivity|]. cbn. rewrite codes. reflexivity.
    - apply peg_inv in P. destruct P as [[_ []]|(v1 & s1 & w3 & r1 & P1 & P2 & E)]. apply peg_inv in P2. destruct P2 as [-> [(t2 & -> & ->)|[-> _]]]; [|discriminate]. injection E as -> ->.
      apply peg_inv in P1. destruct P1 as [[_ []]|(v2 & s2 & w4 & r2 & P1 & P2 & E)]. apply peg_inv in P1. destruct P1 as [-> [(t3 & -> & X)|[X _]]]; [|discriminate]. injection X as -> ->. destruct r2 as [[[v3 s3]|]|x]; try discriminate. cbn in E. injection E as -> <-.
      cbn in LN. destruct (IH (List.length t3) ltac:(lia) t3 _ v3 (41 :: t2) w3 (le_n _) P2) as (e & t & T & -> & ->). exists e, ([40] ++ t ++ [41]). split; [apply t_brackets; exact T|]. split; [cbn; rewrite <- app_assoc; reflexivity|reflexivity].
  Qed.
  Lemma sound_calc : forall N, right 0 N.
  Proof. induction N as [N IH] using lt_wf_ind. apply level_right; [lia|]. apply level_right; [lia|]. apply factor_right. exact IH. Qed.

  (** Well-formed. *)
  Lemma calc_wf : forall l, well_formed calculator (fun n => 2 - n) (Some (2 - l)) (calculator (W := W) l).
  Proof.
    assert (EF : eats (W := W) calculator (GCall 2)).
    { apply e_call. cbn. apply e_or; [apply e_map; apply e_many1; apply e_any|apply e_between; apply e_and_right; apply e_char]. }
    assert (X : forall l, l < 2 -> well_formed calculator (fun n => 2 - n) (Some (2 - l)) (calculator (W := W) l)).
    { intros l L. rewrite (rule_eq l L). apply wf_map. apply wf_and; [apply wf_call; lia|]. apply wf_many; [apply wf_and_eats; [apply wf_any|apply e_any|apply wf_call; exact I]|apply e_and_left; apply e_any]. }
    intros [|[|l]]; [apply X; lia..|]. cbn [calculator]. apply wf_or; [apply wf_map; apply wf_many1; [apply wf_any|apply e_any]|]. apply wf_between. apply wf_and; [apply wf_and_eats; [apply wf_char|apply e_char|apply wf_call; exact I]|apply wf_char].
  Qed.

  Lemma calc_calm : forall l s w r w1, peg (GCall l) s w r w1 -> calm r w w1.
  Proof.
    intros l s w r w1 P. refine (proj1 (safe_calm calculator _) _ _ _ _ _ P I). intros [|[|n]]; cbn; repeat split; intros; eexists; reflexivity.
  Qed.
End Facts.
