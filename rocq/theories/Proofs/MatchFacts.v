(** Lemmas for C109. *)
From Coq Require Import List Bool Arith String Lia.
From Verif.Model Require Import Base TaggedUnion UnionClass Match.
From Verif.Spec Require Import UnionSpec MatchSpec.
From Verif.Proofs Require Import TaggedUnionFacts UnionClassFacts.
Import ListNotations.
Local Open Scope string_scope.
Local Open Scope py_scope.

Section Facts.
  Context {W V B : Type}.
  Implicit Types t : table V.

  Lemma get_attr_getattr : forall n t,
    (forall x, getattr n t = Ret x -> get_attr n t = Some (AObj x)) /\
    (getattr n t = Raise AttributeError -> get_attr n t = None).
  Proof. intros n t. unfold getattr. destruct (get_attr n t) as [[]|]; split; intros; congruence. Qed.

  Lemma value_attrs : forall fields t, plain fields -> value_of fields t ->
    exists n v, active t = Ret (n, v) /\ In n fields /\ n <> "tag" /\
      get_attr "tag" t = Some (AObj (PStr n)) /\ get_attr n t = Some (AObj v) /\
      (forall c, In c fields -> c <> "tag" -> c <> n -> get_attr c t = None).
  Proof.
    intros fields t P H. destruct (value_of_built _ _ P H) as (n & v & -> & I & N1 & N2 & N3).
    destruct (built_reads fields n v N1 N2 N3) as (R1 & R2 & R3 & R4 & _).
    exists n, v. split; [exact R4|]. split; auto. split; auto.
    split; [now apply get_attr_getattr|]. split; [now apply get_attr_getattr|].
    intros c Ic Nt Nc. apply get_attr_getattr. destruct P as (_ & P1 & P2). apply R3; auto; intros ->; auto.
  Qed.

  Lemma all_match_one : forall (x : attr V) (p : pattern W (attr V) B), all_match [(x, p)] ==m p x.
  Proof.
    intros x p w. cbn. unfold bind, ret. destruct (p x w) as [[[bs|]|e] w']; cbn; rewrite ?app_nil_r; reflexivity.
  Qed.

  Lemma C109_case_pf : forall fields c (p : pattern W (attr V) B) t n v,
    plain fields -> value_of fields t -> In c fields -> c <> "tag" -> active t = Ret (n, v) ->
    let expected := if String.eqb n c then p (AObj v) else ret None in
    tagged_case fields c p t ==m expected /\ keyword_case fields c p t ==m expected /\
    (forall rest, fields = "tag" :: rest -> positional_case fields c p t ==m expected).
  Proof.
    intros fields c p t n v P H Ic Nc A expected.
    destruct (value_attrs fields t P H) as (n' & v' & A' & In' & Nt & Gt & Gn & Go).
    rewrite A in A'. injection A' as <- <-.
    assert (K : fetch (fun m => get_attr m t) [] [(c, p)] = Ret (if String.eqb n c then Some [(AObj v, p)] else None)).
    { cbn. destruct (String.eqb_spec n c) as [<-|Ne]; [now rewrite Gn|now rewrite Go by auto]. }
    assert (T : fetch (fun m => get_attr m t) [] [("tag", literal c); (c, p)] =
                Ret (if String.eqb n c then Some [(AObj (PStr n), literal c); (AObj v, p)] else None)).
    { cbn [fetch mem_name existsb]. rewrite Gt.
      replace (String.eqb c "tag") with false by (symmetry; now apply String.eqb_neq). cbn [orb].
      destruct (String.eqb_spec n c) as [<-|Ne]; [now rewrite Gn|now rewrite Go by auto]. }
    assert (L : forall w, (do r <- lift (Ret (if String.eqb n c then Some [(AObj (PStr n), literal c); (AObj v, p)] else None));
                 match r with None => ret None | Some ps => all_match ps end) w = expected w).
    { intros w. unfold expected. destruct (String.eqb_spec n c) as [->|Ne]; [|reflexivity].
      unfold lift, bind at 1. cbn [all_match]. unfold literal. rewrite String.eqb_refl.
      unfold bind, ret. destruct (p (AObj v) w) as [[[bs|]|e] w']; cbn; rewrite ?app_nil_r; reflexivity. }
    split; [|split].
    - intros w. unfold tagged_case, union_pattern, class_pattern. cbn [negb Nat.ltb Nat.leb List.length].
      replace (combine fields (@nil (pattern W (attr V) B))) with (@nil (string * pattern W (attr V) B)) by (now destruct fields).
      cbn [app]. rewrite T. apply L.
    - intros w. unfold keyword_case, union_pattern, class_pattern. cbn [negb Nat.ltb Nat.leb List.length].
      replace (combine fields (@nil (pattern W (attr V) B))) with (@nil (string * pattern W (attr V) B)) by (now destruct fields).
      cbn [app]. rewrite K. unfold expected. destruct (String.eqb n c); [|reflexivity].
      unfold lift, bind at 1. apply all_match_one.
    - intros rest E w. unfold positional_case, union_pattern, class_pattern. rewrite E.
      cbn [negb Nat.ltb Nat.leb List.length combine]. replace (combine rest []) with (@nil (string * pattern W (attr V) B)) by (now destruct rest).
      cbn [app]. rewrite T. apply L.
  Qed.

  Lemma select_shift : forall (cases : list (M W (option (list B)) * (list B -> M W bool))) i,
    select (S i) cases ==m (do r <- select i cases; ret (option_map (fun x => (S (fst x), snd x)) r)).
  Proof.
    induction cases as [|[p g] cases IH]; intros i w; [reflexivity|].
    cbn [select]. unfold bind in *. cbn beta. destruct (p w) as [[[bs|]|e] w1]; auto.
    - destruct (g bs w1) as [[[|]|e] w2]; auto. apply IH.
    - apply IH.
  Qed.

End Facts.

Section Facts2.
  Context {W V : Type}.
  Implicit Types t : table V.

  Lemma C109_exhaustive_pf : forall fields cs t n v,
    plain fields -> value_of fields t -> (forall c, In c cs -> In c fields /\ c <> "tag") -> active t = Ret (n, v) ->
    let statement := select (W := W) 0 (List.map (fun c => (tagged_case fields c bound t, no_guard)) cs) in
    (~ In n cs -> statement ==m ret None) /\
    (In n cs -> exists i, first_at n cs i /\ statement ==m ret (Some (i, [AObj v]))).
  Proof.
    intros fields cs t n v P H Hc A. induction cs as [|c cs IH]; cbn [List.map].
    - cbn zeta. split; [intros _ w; reflexivity|intros []].
    - cbn zeta in *. cbn [select].
      destruct IH as [IH1 IH2]; [intros; apply Hc; now right|].
      destruct (Hc c (or_introl eq_refl)) as [Ic Nc].
      destruct (C109_case_pf (W := W) fields c bound t n v P H Ic Nc A) as (E & _).
      destruct (String.eqb_spec n c) as [<-|Ne].
      + split; [intros F; exfalso; apply F; now left|]. intros _. exists 0. split.
        * split; [reflexivity|]. intros j L; lia.
        * intros w. unfold bind at 1. rewrite E. reflexivity.
      + split.
        * intros F w. unfold bind at 1. rewrite E. cbn [ret]. rewrite select_shift. unfold bind.
          rewrite IH1; [reflexivity|]. intros I. apply F. now right.
        * intros [->|I]; [congruence|]. destruct (IH2 I) as (i & (F1 & F2) & Es). exists (S i). split.
          -- split; [exact F1|]. intros [|j] L; cbn; [congruence|]. apply F2. lia.
          -- intros w. unfold bind at 1. rewrite E. cbn [ret]. rewrite select_shift. unfold bind. now rewrite Es.
  Qed.

  Lemma C109_guard_pf : forall fields c guard cases t n v,
    plain fields -> value_of fields t -> In c fields -> c <> "tag" -> active t = Ret (n, v) ->
    select (W := W) 0 ((tagged_case fields c bound t, guard) :: cases) ==m
    (if String.eqb n c then (do g <- guard [AObj v]; if g : bool then ret (Some (0, [AObj v])) else select 1 cases) else select 1 cases).
  Proof.
    intros fields c guard cases t n v P H Ic Nc A w.
    destruct (C109_case_pf (W := W) fields c bound t n v P H Ic Nc A) as (E & _).
    cbn [select]. unfold bind at 1. rewrite E. destruct (String.eqb n c); reflexivity.
  Qed.

  Lemma C109_option_pf : forall t n v, value_of option_fields t -> active t = Ret (n, v) ->
    (n = "some" /\ option_match (W := W) t ==m ret (Some (0, [AObj v]))) \/
    (n = "none" /\ option_match (W := W) t ==m ret (Some (1, []))).
  Proof.
    intros t n v H A. destruct (option_values t H) as (n' & v' & -> & A' & D). rewrite A in A'. injection A' as <- <-.
    destruct D as [-> | ->]; [left|right]; split; auto; intros w; reflexivity.
  Qed.
  Lemma C109_result_pf : forall t n v, value_of result_fields t -> active t = Ret (n, v) ->
    (n = "ok" /\ result_match (W := W) t ==m ret (Some (0, [AObj v]))) \/
    (n = "error" /\ result_match (W := W) t ==m ret (Some (1, [AObj v]))).
  Proof.
    intros t n v H A. destruct (result_values t H) as (n' & v' & -> & A' & D). rewrite A in A'. injection A' as <- <-.
    destruct D as [-> | ->]; [left|right]; split; auto; intros w; reflexivity.
  Qed.

  Lemma C109_positional_pf : forall B c0 rest (q p : pattern W (attr V) B) t n v, let fields := "tag" :: c0 :: rest in
    plain fields -> value_of fields t -> active t = Ret (n, v) ->
    union_pattern fields [q; p] [] t ==m
    (if String.eqb n c0
     then (do r <- q (AObj (PStr n));
           match r with None => ret None | Some bs => do r <- p (AObj v); ret (option_map (fun cs => (bs ++ cs)%list) r) end)
     else ret None).
  Proof.
    intros B c0 rest q p t n v fields P H A w.
    destruct (value_attrs fields t P H) as (n' & v' & A' & In' & Nt & Gt & Gn & Go).
    rewrite A in A'. injection A' as <- <-.
    assert (N0 : c0 <> "tag") by (intros ->; destruct P as [P _]; inversion P as [|? ? N]; apply N; now left).
    unfold union_pattern, class_pattern, fields.
    cbn [negb combine List.length Nat.ltb Nat.leb].
    replace (combine rest []) with (@nil (string * pattern W (attr V) B)) by (now destruct rest).
    cbn [app fetch mem_name existsb]. rewrite Gt.
    replace (String.eqb c0 "tag") with false by (symmetry; now apply String.eqb_neq). cbn [orb].
    destruct (String.eqb_spec n c0) as [<-|Ne].
    - rewrite Gn. unfold lift, bind at 1. cbn [rbind option_map all_match]. unfold bind, ret.
      destruct (q (AObj (PStr n)) w) as [[[bs|]|e] w1]; try reflexivity.
      destruct (p (AObj v) w1) as [[[cs|]|e] w2]; cbn; rewrite ?app_nil_r; reflexivity.
    - rewrite Go; auto. right; now left.
  Qed.

  Lemma C109_too_many_pf : forall B fields (ps : list (pattern W (attr V) B)) ks t, List.length fields < List.length ps ->
    union_pattern fields ps ks t ==m raise TypeError.
  Proof.
    intros B fields ps ks t L w. unfold union_pattern, class_pattern. cbn [negb].
    replace (Nat.ltb (List.length fields) (List.length ps)) with true by (symmetry; now apply Nat.ltb_lt). reflexivity.
  Qed.

  Lemma C109_twice_pf : forall B rest (q p : pattern W (attr V) B) t n v, let fields := "tag" :: rest in
    plain fields -> value_of fields t -> active t = Ret (n, v) ->
    union_pattern fields [q] [("tag", p)] t ==m raise TypeError.
  Proof.
    intros B rest q p t n v fields P H A w.
    destruct (value_attrs fields t P H) as (n' & v' & A' & In' & Nt & Gt & Gn & Go).
    unfold union_pattern, class_pattern, fields. cbn [negb List.length Nat.ltb Nat.leb combine].
    replace (combine rest []) with (@nil (string * pattern W (attr V) B)) by (now destruct rest).
    cbn [app fetch mem_name existsb]. rewrite Gt. reflexivity.
  Qed.

  Lemma C109_assigned_pf : forall d t n v c x, plain (d_fields d) -> d_frozen d = false -> value_of (d_fields d) t -> active t = Ret (n, v) ->
    In c (d_fields d) -> c <> "tag" -> c <> n ->
    let t' := snd (assign d c (AObj x) t) in
    fst (assign d c (AObj x) t) = Ret tt /\
    keyword_case (W := W) (d_fields d) n bound t' ==m ret (Some [AObj v]) /\
    keyword_case (W := W) (d_fields d) c bound t' ==m ret (Some [AObj x]) /\
    tagged_case (W := W) (d_fields d) c bound t' ==m ret None.
  Proof.
    intros d t n v c x P Fr H A Ic Nc Ne t'. unfold t', assign. rewrite Fr. cbn [fst snd].
    destruct (value_attrs _ t P H) as (n' & v' & A' & In' & Nt & Gt & Gn & Go).
    rewrite A in A'. injection A' as <- <-. split; auto.
    assert (Gc : forall t, get_attr c (set_attr c (AObj x) t) = Some (AObj x)).
    { clear. induction t as [|[m b] t IH]; cbn; [now rewrite String.eqb_refl|].
      destruct (String.eqb_spec m c) as [->|Ne]; cbn; [now rewrite String.eqb_refl|].
      destruct (String.eqb_spec m c); [congruence|auto]. }
    assert (K : forall m a, get_attr m (set_attr c (AObj x) t) = Some a ->
      keyword_case (W := W) (d_fields d) m bound (set_attr c (AObj x) t) ==m ret (Some [a])).
    { intros m a E w. unfold keyword_case, union_pattern, class_pattern. cbn [negb Nat.ltb Nat.leb List.length].
      replace (combine (d_fields d) (@nil (pattern W (attr V) (attr V)))) with (@nil (string * pattern W (attr V) (attr V))) by (now destruct (d_fields d)).
      cbn [app fetch mem_name existsb]. rewrite E. reflexivity. }
    split; [apply K; now rewrite get_set_other by auto|]. split; [now apply K|].
    intros w. unfold tagged_case, union_pattern, class_pattern. cbn [negb Nat.ltb Nat.leb List.length].
    replace (combine (d_fields d) (@nil (pattern W (attr V) (attr V)))) with (@nil (string * pattern W (attr V) (attr V))) by (now destruct (d_fields d)).
    cbn [app fetch mem_name existsb].
    rewrite get_set_other by auto. rewrite Gt.
    replace (String.eqb c "tag") with false by (symmetry; now apply String.eqb_neq). cbn [orb]. rewrite Gc.
    unfold lift, bind at 1. cbn [rbind option_map all_match]. unfold literal.
    replace (String.eqb n c) with false by (symmetry; apply String.eqb_neq; auto). reflexivity.
  Qed.
End Facts2.

Section Collections.
  Context {W A B : Type}.
  Implicit Types ps : list (pattern W A B).

  Lemma all_match_tried : forall ps xs w r w', tried ps xs w r w' -> all_match (combine xs ps) w = (r, w').
  Proof.
    intros ps xs w r w' H. induction H as [w|p ps x xs w r w' E N|p ps x xs w bs w1 r w2 E H IH]; cbn; auto.
    - unfold bind at 1. rewrite E. destruct r as [[bs|]|e]; auto. now destruct (N bs).
    - unfold bind at 1. rewrite E. unfold bind. rewrite IH. destruct r as [[cs|]|e]; reflexivity.
  Qed.

  Lemma tried_exists : forall ps xs w, List.length ps = List.length xs -> exists r w', tried ps xs w r w'.
  Proof.
    induction ps as [|p ps IH]; intros [|x xs] w L; try discriminate.
    - do 2 eexists. constructor.
    - destruct (p x w) as [[[bs|]|e] w1] eqn:E.
      + destruct (IH xs w1) as (r & w2 & T); [cbn in L; lia|]. do 2 eexists. eapply tried_more; eauto.
      + do 2 eexists. eapply tried_stop; eauto. discriminate.
      + do 2 eexists. eapply tried_stop; eauto. discriminate.
  Qed.

  Lemma block_one : forall (p : pattern W (list A) B) xs w, block_pattern [p] xs w = p xs w.
  Proof.
    intros p xs w. unfold block_pattern, class_pattern. cbn. unfold bind, ret, lift.
    destruct (p xs w) as [[[bs|]|e] w1]; cbn; rewrite ?app_nil_r; reflexivity.
  Qed.

  Lemma C109_fixed_pf : forall ps xs,
    (List.length xs <> List.length ps -> block_pattern [sequence_pattern ps None []] xs ==m ret None) /\
    (List.length xs = List.length ps -> forall w, exists r w', tried ps xs w r w' /\ block_pattern [sequence_pattern ps None []] xs w = (r, w')).
  Proof.
    intros ps xs.
    split.
    - intros L w. rewrite block_one. unfold sequence_pattern. cbn [List.length]. rewrite Nat.add_0_r.
      destruct (Nat.eqb_spec (List.length xs) (List.length ps)); [congruence|reflexivity].
    - intros L w. destruct (tried_exists ps xs w) as (r & w' & T); auto. exists r, w'. split; auto.
      rewrite block_one. unfold sequence_pattern. cbn [List.length]. rewrite Nat.add_0_r, L, Nat.eqb_refl, app_nil_r.
      now apply all_match_tried.
  Qed.

  Lemma C109_star_pf : forall (before : list (pattern W A B)) (show : list A -> list B) (after : list (pattern W A B)) (xs : list A),
    (List.length xs < List.length before + List.length after ->
       block_pattern [sequence_pattern before (Some show) after] xs ==m ret None) /\
    (forall hd mid tl, xs = (hd ++ mid ++ tl)%list -> List.length hd = List.length before -> List.length tl = List.length after -> forall w,
       (forall r w1, tried before hd w r w1 -> (forall bs, r <> Ret (Some bs)) ->
          block_pattern [sequence_pattern before (Some show) after] xs w = (r, w1)) /\
       (forall bs w1 r w2, tried before hd w (Ret (Some bs)) w1 -> tried after tl w1 r w2 ->
          block_pattern [sequence_pattern before (Some show) after] xs w =
          (match r with Ret (Some cs) => Ret (Some (bs ++ show mid ++ cs)%list) | r => r end, w2))).
  Proof.
    intros before show after xs. split.
    - intros L w. rewrite block_one. unfold sequence_pattern.
      replace (Nat.ltb _ _) with true by (symmetry; now apply Nat.ltb_lt). reflexivity.
    - intros hd mid tl E Lh Lt w.
      assert (Lx : List.length xs = List.length hd + List.length mid + List.length tl) by (subst xs; rewrite !app_length; lia).
      assert (Q : Nat.ltb (List.length xs) (List.length before + List.length after) = false) by (apply Nat.ltb_ge; lia).
      assert (F : firstn (List.length before) xs = hd).
      { subst xs. rewrite firstn_app, firstn_all2 by lia. rewrite Lh, Nat.sub_diag. cbn. apply app_nil_r. }
      assert (G : skipn (List.length xs - List.length after) xs = tl).
      { rewrite Lx. replace (_ - _) with (List.length (hd ++ mid)) by (rewrite app_length; lia).
        subst xs. rewrite app_assoc, skipn_app, skipn_all, Nat.sub_diag. reflexivity. }
      assert (M : firstn (List.length xs - List.length after - List.length before) (skipn (List.length before) xs) = mid).
      { subst xs. rewrite skipn_app, skipn_all2 by lia. rewrite Lh, Nat.sub_diag. cbn [app skipn].
        rewrite Lx. replace (_ - _) with (List.length mid) by lia. rewrite firstn_app, firstn_all, Nat.sub_diag. cbn. apply app_nil_r. }
      split.
      + intros r w1 T N. rewrite block_one. unfold sequence_pattern. rewrite Q, F. unfold bind at 1.
        rewrite (all_match_tried _ _ _ _ _ T). destruct r as [[bs|]|e]; auto. now destruct (N bs).
      + intros bs w1 r w2 T1 T2. rewrite block_one. unfold sequence_pattern. rewrite Q, F. unfold bind at 1.
        rewrite (all_match_tried _ _ _ _ _ T1), G, M. unfold bind, ret.
        rewrite (all_match_tried _ _ _ _ _ T2). destruct r as [[cs|]|e]; reflexivity.
  Qed.

  Lemma C109_seq_pf : forall X (p : pattern W X B) x, seq_pattern [p] x ==m ret None.
  Proof. intros X p x w. reflexivity. Qed.
  Lemma C109_array_pf : forall X (p : pattern W X B) (qs : list (pattern W X B)) value typecode, List.length qs <= 1 ->
    array_pattern (p :: qs) value typecode ==m ret None.
  Proof. intros X p [|q [|q' ps]] value typecode L w; try reflexivity. cbn in L. lia. Qed.
End Collections.
