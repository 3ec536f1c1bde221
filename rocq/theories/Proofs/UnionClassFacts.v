(** Lemmas for C91, C93 and C94. *)
From Coq Require Import List Bool ZArith Arith String Lia.
From Verif.Model Require Import Base TaggedUnion UnionClass.
From Verif.Spec Require Import ListM UnionSpec.
From Verif.Proofs Require Import KeyOrdFacts TaggedUnionFacts.
Import ListNotations.
Local Open Scope string_scope.
Local Open Scope py_scope.

Lemma option_plain : plain option_fields.
Proof. split; [repeat constructor; cbn; intuition congruence|split; cbn; intuition congruence]. Qed.
Lemma result_plain : plain result_fields.
Proof. split; [repeat constructor; cbn; intuition congruence|split; cbn; intuition congruence]. Qed.
Lemma cls_plain : forall c, plain (d_fields (cls_decl c)).
Proof. intros []; [apply option_plain|apply result_plain|apply result_plain]. Qed.

Section Facts.
  Context {V W : Type}.
  Implicit Types t : table V.

  Lemma option_values : forall t, value_of option_fields t ->
    exists n v, t = built option_fields n v /\ active t = Ret (n, v) /\ (n = "some" \/ n = "none").
  Proof.
    intros t H. destruct (value_of_built _ _ option_plain H) as (n & v & -> & I & N1 & N2 & N3).
    exists n, v. split; auto. split; [apply built_reads; auto|]. cbn in I. intuition congruence.
  Qed.
  Lemma result_values : forall t, value_of result_fields t ->
    exists n v, t = built result_fields n v /\ active t = Ret (n, v) /\ (n = "ok" \/ n = "error").
  Proof.
    intros t H. destruct (value_of_built _ _ result_plain H) as (n & v & -> & I & N1 & N2 & N3).
    exists n, v. split; auto. split; [apply built_reads; auto|]. cbn in I. intuition congruence.
  Qed.

  Lemma C91_option_pf : forall (pstr : pyobj V -> M W string) t, value_of option_fields t ->
    (exists v, active t = Ret ("some", v) /\ str COption pstr t ==m (do s <- pstr v; ret ("Some " ++ s))) \/
    (exists v, active t = Ret ("none", v) /\ str COption pstr t ==m ret "Nothing").
  Proof.
    intros pstr t H. destruct (option_values t H) as (n & v & -> & A & [-> | ->]); [left|right];
      exists v; (split; [exact A|]); intros w; reflexivity.
  Qed.

  Lemma C91_result_pf : forall c (pstr : pyobj V -> M W string) t, c <> COption -> value_of result_fields t ->
    let word yes no := match c with CTry => no | _ => yes end in
    (exists v, active t = Ret ("ok", v) /\ str c pstr t ==m (do s <- pstr v; ret (word "Ok " "Success " ++ s))) \/
    (exists v, active t = Ret ("error", v) /\ str c pstr t ==m (do s <- pstr v; ret (word "Error " "Failure " ++ s))).
  Proof.
    intros c pstr t Nc H. destruct (result_values t H) as (n & v & -> & A & [-> | ->]); [left|right];
      exists v; (split; [exact A|]); intros w; destruct c; try congruence; reflexivity.
  Qed.

  Lemma C91_repr_pf : forall c (pstr prepr : pyobj V -> M W string) t n v,
    value_of (d_fields (cls_decl c)) t -> active t = Ret (n, v) ->
    repr c pstr prepr t ==m
    (do s <- prepr v; ret (match c with COption => "Option(" | _ => "Result(" end ++ n ++ "=" ++ s ++ ")")).
  Proof.
    intros c pstr prepr t n v _ A w. unfold repr, py_repr.
    replace (method (cls_decl c) SRepr) with Generated by (destruct c; reflexivity).
    unfold tu_repr, bind, lift. rewrite A. cbn [snd fst].
    destruct (prepr v w) as [[s|e] w1]; destruct c; reflexivity.
  Qed.

  Lemma fst_bind_ret : forall {A B} (m : M W A) (f : A -> B) w r, fst ((do x <- m; ret (f x)) w) = Ret r ->
    exists x, fst (m w) = Ret x /\ r = f x.
  Proof.
    intros A B m f w r. unfold bind, ret. destruct (m w) as [[x|e] w1]; cbn; intros [= <-]. eauto.
  Qed.

  Lemma C91_repr_differs_pf : forall c (pstr prepr : pyobj V -> M W string) t w w' s s',
    value_of (d_fields (cls_decl c)) t ->
    fst (str c pstr t w) = Ret s -> fst (repr c pstr prepr t w') = Ret s' -> s <> s'.
  Proof.
    intros c pstr prepr t w w' s s' H Es Er.
    assert (A : exists n v, active t = Ret (n, v)).
    { destruct (value_of_built _ _ (cls_plain c) H) as (n & v & -> & I & N1 & N2 & N3).
      exists n, v. apply built_reads; auto. }
    destruct A as (n & v & A). rewrite (C91_repr_pf c pstr prepr t n v H A w') in Er.
    apply fst_bind_ret in Er. destruct Er as (x & _ & ->).
    destruct c.
    - destruct (C91_option_pf pstr t H) as [(u & _ & E)|(u & _ & E)]; rewrite (E w) in Es.
      + apply fst_bind_ret in Es. destruct Es as (y & _ & ->). discriminate.
      + cbn in Es. injection Es as <-. discriminate.
    - destruct (C91_result_pf CResult pstr t ltac:(discriminate) H) as [(u & _ & E)|(u & _ & E)];
        rewrite (E w) in Es; apply fst_bind_ret in Es; destruct Es as (y & _ & ->); discriminate.
    - destruct (C91_result_pf CTry pstr t ltac:(discriminate) H) as [(u & _ & E)|(u & _ & E)];
        rewrite (E w) in Es; apply fst_bind_ret in Es; destruct Es as (y & _ & ->); discriminate.
  Qed.

  Lemma C91_determined_pf : forall c (show : pyobj V -> string) t1 t2 w1 w2 s,
    (forall x y, show x = show y -> x = y) ->
    value_of (d_fields (cls_decl c)) t1 -> value_of (d_fields (cls_decl c)) t2 ->
    (forall t x, t = t1 \/ t = t2 -> active t = Ret ("none", x) -> x = PNone) ->
    fst (str (W := W) c (fun x => ret (show x)) t1 w1) = Ret s -> fst (str (W := W) c (fun x => ret (show x)) t2 w2) = Ret s ->
    t1 = t2.
  Proof.
    intros c show t1 t2 w1 w2 s Inj H1 H2 Ty E1 E2.
    assert (K : c = COption \/ c <> COption) by (destruct c; auto; right; discriminate).
    destruct K as [->|Nc].
    - destruct (option_values t1 H1) as (n1 & v1 & -> & A1 & [-> | ->]);
        destruct (option_values t2 H2) as (n2 & v2 & -> & A2 & [-> | ->]); cbn in E1, E2.
      + injection E1 as <-. injection E2 as E2. apply Inj in E2. now subst.
      + rewrite <- E2 in E1. discriminate.
      + rewrite <- E2 in E1. discriminate.
      + rewrite (Ty _ v1 (or_introl eq_refl) A1), (Ty _ v2 (or_intror eq_refl) A2). reflexivity.
    - replace (d_fields (cls_decl c)) with result_fields in * by (destruct c; [congruence|reflexivity|reflexivity]).
      destruct (result_values t1 H1) as (n1 & v1 & -> & A1 & [-> | ->]);
        destruct (result_values t2 H2) as (n2 & v2 & -> & A2 & [-> | ->]); destruct c; try congruence; cbn in E1, E2;
        try (rewrite <- E2 in E1; discriminate); injection E1 as <-; injection E2 as E2; apply Inj in E2; now subst.
  Qed.

  Lemma C91_copy_pf : forall c t, c <> CTry -> value_of (d_fields (cls_decl c)) t -> copied (c, t) = Ret (c, t).
  Proof.
    intros c t Nc H. unfold copied. cbn [fst snd]. rewrite (C42_copy_pf _ _ (cls_plain c) H). cbn [rbind].
    destruct c; try congruence; reflexivity.
  Qed.

  Lemma C91_copy_try_pf : forall t (pstr : pyobj V -> M W string) w w' s s', value_of result_fields t ->
    copied (CTry, t) = Ret (CResult, t) /\
    (fst (str CTry pstr t w) = Ret s -> fst (str CResult pstr t w') = Ret s' -> s <> s').
  Proof.
    intros t pstr w w' s s' H. split.
    - unfold copied. cbn [fst snd]. now rewrite (C42_copy_pf _ _ (cls_plain CTry) H).
    - intros E1 E2.
      destruct (C91_result_pf CTry pstr t ltac:(discriminate) H) as [(u & Au & E)|(u & Au & E)];
        rewrite (E w) in E1; apply fst_bind_ret in E1; destruct E1 as (y & _ & ->);
      (destruct (C91_result_pf CResult pstr t ltac:(discriminate) H) as [(u' & Au' & E')|(u' & Au' & E')];
        rewrite (E' w') in E2; apply fst_bind_ret in E2; destruct E2 as (y' & _ & ->)); discriminate.
  Qed.

  Lemma C91_class_pf : forall (dup : pyobj V -> res (pyobj V)) c c' (t t' : table V),
    (copied (c, t) = Ret (c', t') \/ deepcopied dup (c, t) = Ret (c', t') -> c' = match c with COption => COption | _ => CResult end) /\
    (pickled dup (c, t) = Ret (c', t') -> c' = c).
  Proof.
    intros dup c c' t t'. unfold copied, deepcopied, pickled. cbn [fst snd]. split.
    - intros [E|E].
      + destruct (tu_copy _ t); cbn [rbind] in E; [|discriminate]. injection E as <- _. reflexivity.
      + destruct (tu_deepcopy _ _ t); cbn [rbind] in E; [|discriminate]. injection E as <- _. reflexivity.
    - intros E. destruct (pickle_round_trip _ _ t); cbn [rbind] in E; [|discriminate]. injection E as <- _. reflexivity.
  Qed.

  (** C93 *)
  Lemma C93_hash_pf : forall (KO : KeyOrd (pyobj V)) d (ueq : table V -> table V -> res bool) (uhash : table V -> res Z) id_hash th phash ia ib a b,
    plain (d_fields d) -> d_body d SEq = false -> d_body d SHash = false -> (d_frozen d = true \/ d_eq d = false) ->
    value_of (d_fields d) a -> value_of (d_fields d) b -> (ia = ib -> a = b) ->
    (forall x y, eqb x y = true -> phash x = phash y) ->
    py_eq d ueq eqb ia ib a b = Ret true ->
    exists h, py_hash d uhash id_hash th phash ia a = Ret h /\ py_hash d uhash id_hash th phash ib b = Ret h.
  Proof.
    intros KO d ueq uhash id_hash th phash ia ib a b P Be Bh Ok Ha Hb Same Hp E.
    unfold py_eq, method, defined in E. unfold py_hash, method, defined. rewrite Be in *. rewrite Bh.
    destruct (d_frozen d).
    - destruct (d_eq d).
      + apply (C40_hash_pf (d_fields d)); auto.
      + injection E as E. apply Nat.eqb_eq in E. specialize (Same E). subst b.
        apply (C40_hash_pf (d_fields d)); auto.
        destruct (value_of_built _ _ P Ha) as (n & v & -> & I & N1 & N2 & N3).
        rewrite tu_eq_built by auto. rewrite String.eqb_refl. cbn [andb]. f_equal. apply KeyOrdFacts.eqb_refl.
    - destruct Ok as [Ok|Ok]; [discriminate|]. rewrite Ok in E. injection E as E. apply Nat.eqb_eq in E. subst.
      cbn. eauto.
  Qed.

  Lemma C93_hash_differs_pf : forall (KO : KeyOrd (pyobj V)) d (ueq : table V -> table V -> res bool) (uhash : table V -> res Z) id_hash th phash ia ib t,
    plain (d_fields d) -> d_body d SEq = false -> d_body d SHash = false -> d_frozen d = false -> d_eq d = true ->
    value_of (d_fields d) t -> (forall i j, id_hash i = id_hash j -> i = j) -> ia <> ib ->
    py_eq d ueq eqb ia ib t t = Ret true /\
    exists h h', py_hash d uhash id_hash th phash ia t = Ret h /\ py_hash d uhash id_hash th phash ib t = Ret h' /\ h <> h'.
  Proof.
    intros KO d ueq uhash id_hash th phash ia ib t P Be Bh Fr Eq Ht Inj Ne.
    unfold py_eq, py_hash, method, defined. rewrite Eq, Fr, Be, Bh. split.
    - destruct (value_of_built _ _ P Ht) as (n & v & -> & I & N1 & N2 & N3).
      rewrite tu_eq_built by auto. rewrite String.eqb_refl. cbn [andb]. f_equal. apply KeyOrdFacts.eqb_refl.
    - do 2 eexists. split; [reflexivity|]. split; [reflexivity|]. intros E. apply Ne. now apply Inj.
  Qed.

  Lemma C93_lt_gt_pf : forall d (body : special -> table V -> table V -> res (option bool)) peq plt a b,
    d_order d = true -> d_body d SGt = false ->
    compare d body peq plt SLt a b = tu_lt peq plt a b /\ compare d body peq plt SGt a b = tu_lt peq plt b a.
  Proof.
    intros d body peq plt a b Ho Hb. unfold compare, attempt, method, defined. rewrite Ho. split.
    - destruct (tu_lt peq plt a b); reflexivity.
    - rewrite Hb. cbn [rbind reflected]. destruct (tu_lt peq plt b a); reflexivity.
  Qed.

  Lemma C93_le_ge_pf : forall d (body : special -> table V -> table V -> res (option bool)) peq plt a b,
    d_body d SLe = false -> d_body d SGe = false ->
    compare d body peq plt SLe a b = Raise TypeError /\ compare d body peq plt SGe a b = Raise TypeError.
  Proof.
    intros d body peq plt a b H1 H2. unfold compare, attempt, method, defined. rewrite H1, H2.
    cbn [rbind reflected]. rewrite H1, H2. auto.
  Qed.

  Lemma C93_own_pf : forall d (body : special -> table V -> table V -> res (option bool)) peq plt a b s s',
    (s, s') = (SLe, SGe) \/ (s, s') = (SGe, SLe) -> d_body d s = true -> d_body d s' = false ->
    compare d body peq plt s a b = (dor r <- body s a b; match r with Some r => Ret r | None => Raise TypeError end) /\
    compare d body peq plt s' a b = (dor r <- body s b a; match r with Some r => Ret r | None => Raise TypeError end).
  Proof.
    intros d body peq plt a b s s' [E|E] H1 H2; injection E as -> ->; unfold compare, attempt, method, defined; rewrite ?H1, ?H2; cbn [rbind reflected]; rewrite ?H1, ?H2;
      (split; [destruct (body _ a b) as [[r|]|e]; reflexivity|destruct (body _ b a) as [[r|]|e]; reflexivity]).
  Qed.

  (** C94 *)
  Lemma set_active_built : forall fields name (value value' : pyobj V), name <> "tag" ->
    set_attr name (AObj value') (built fields name value) = built fields name value'.
  Proof.
    intros fields name value value' N. unfold built. cbn [set_attr].
    replace (String.eqb "tag" name) with false by (symmetry; apply String.eqb_neq; auto).
    now rewrite String.eqb_refl.
  Qed.

  Lemma C94_active_pf : forall d t name value (x : pyobj V), plain (d_fields d) -> d_frozen d = false -> value_of (d_fields d) t ->
    active t = Ret (name, value) ->
    exists t', assign d name (AObj x) t = (Ret tt, t') /\ init (d_fields d) [(name, x)] = Ret t'.
  Proof.
    intros d t name value x P Fr Ht A.
    destruct (value_of_built _ _ P Ht) as (n & v & -> & I & N1 & N2 & N3).
    destruct (built_reads (d_fields d) n v N1 N2 N3) as (_ & _ & _ & R & _). rewrite R in A. injection A as -> ->.
    exists (built (d_fields d) name x). unfold assign. rewrite Fr, set_active_built by auto. split; auto.
    apply init_single; auto.
  Qed.

  Lemma active_other : forall name n a t value, active t = Ret (n, value) -> name <> n -> name <> "tag" ->
    active (set_attr name a t) = Ret (n, value).
  Proof.
    intros name n a t value A N1 N2. unfold active, get_tag, getattr in *.
    rewrite (get_set_other "tag" name) by auto.
    destruct (get_attr "tag" t) as [[[| |]| |]|]; cbn [rbind] in *; try discriminate.
    destruct (get_attr s t) as [[x| |]|] eqn:G; cbn [rbind] in *; try discriminate.
    injection A as -> ->. rewrite get_set_other by auto. now rewrite G.
  Qed.

  Lemma C94_other_pf : forall d t name n value (x : pyobj V), plain (d_fields d) -> d_frozen d = false -> value_of (d_fields d) t ->
    active t = Ret (n, value) -> In name (d_fields d) -> name <> n -> name <> "tag" ->
    exists t', assign d name (AObj x) t = (Ret tt, t') /\ active t' = Ret (n, value) /\ get_index t' = get_index t /\
      tu_copy (d_fields d) t' = Ret t.
  Proof.
    intros d t name n value x P Fr Ht A I N1 N2. unfold assign. rewrite Fr. eexists. split; [reflexivity|].
    pose proof (active_other name n (AObj x) t value A N1 N2) as A'. split; [exact A'|]. split.
    - unfold get_index. rewrite get_set_other; auto. intros <-. apply (proj1 (proj2 P)). auto.
    - pose proof (C42_copy_pf _ _ P Ht) as C. unfold tu_copy in *. rewrite A'. now rewrite A in C.
  Qed.

  Lemma retagged : forall fields a b (v x : pyobj V), a <> "tag" -> a <> "_index" -> a <> "__dataclass_fields__" ->
    b <> "tag" -> b <> "_index" -> b <> "__dataclass_fields__" -> a <> b ->
    set_attr "tag" (AObj (PStr b)) (set_attr b (AObj x) (built fields a v)) =
    [("tag", AObj (PStr b)); (a, AObj v); ("_index", AIndex (index_of a fields));
     ("__dataclass_fields__", AFields (List.filter (fun n => String.eqb n a || String.eqb n "tag") fields)); (b, AObj x)].
  Proof.
    intros fields a b v x A1 A2 A3 B1 B2 B3 N. unfold built. cbn [set_attr].
    rewrite (proj2 (String.eqb_neq "tag" b)), (proj2 (String.eqb_neq a b)), (proj2 (String.eqb_neq "_index" b)),
      (proj2 (String.eqb_neq "__dataclass_fields__" b)) by auto. reflexivity.
  Qed.

  Lemma C94_retag_pf : forall (KO : KeyOrd (pyobj V)) d t fresh a b v x l1 l2 l3,
    plain (d_fields d) -> d_frozen d = false -> d_fields d = (l1 ++ a :: l2 ++ b :: l3)%list -> a <> "tag" -> b <> "tag" ->
    In "tag" (d_fields d) -> init (d_fields d) [(a, v)] = Ret t -> init (d_fields d) [(b, x)] = Ret fresh ->
    exists t1 t2, assign d b (AObj x) t = (Ret tt, t1) /\ assign d "tag" (AObj (PStr b)) t1 = (Ret tt, t2) /\
      active t2 = Ret (b, x) /\ tu_eq eqb t2 fresh = Ret true /\ tu_eq eqb fresh t2 = Ret true /\
      tu_lt eqb ltb t2 fresh = Ret true /\
      forall dup, (forall y, dup y = Ret y) -> pickle_round_trip (d_fields d) dup t2 = Raise TypeError.
  Proof.
    intros KO d t fresh a b v x l1 l2 l3 P Fr Ef Na Nb It Ht Hf.
    assert (Ia : In a (d_fields d)) by (rewrite Ef; apply in_or_app; right; left; auto).
    assert (Ib : In b (d_fields d)).
    { rewrite Ef. apply in_or_app. right. right. apply in_or_app. right. left. auto. }
    pose proof P as (ND & Pi & Pd).
    assert (A2 : a <> "_index") by (intros ->; auto). assert (A3 : a <> "__dataclass_fields__") by (intros ->; auto).
    assert (B2 : b <> "_index") by (intros ->; auto). assert (B3 : b <> "__dataclass_fields__") by (intros ->; auto).
    assert (N : a <> b).
    { intros ->. rewrite Ef in ND. apply NoDup_remove_2 in ND. apply ND. apply in_or_app. right. apply in_or_app. right. left. auto. }
    rewrite init_single in Ht, Hf by auto. injection Ht as <-. injection Hf as <-.
    unfold assign. rewrite Fr. do 2 eexists. split; [reflexivity|]. split; [reflexivity|].
    rewrite retagged by auto.
    assert (Act : active ([("tag", AObj (PStr b)); (a, AObj v); ("_index", AIndex (index_of a (d_fields d)));
       ("__dataclass_fields__", AFields (List.filter (fun n => String.eqb n a || String.eqb n "tag") (d_fields d))); (b, AObj x)]) = Ret (b, x)).
    { unfold active, get_tag, getattr. cbn [get_attr]. change (String.eqb "tag" "tag") with true. cbv iota. cbn [rbind get_attr].
      rewrite (proj2 (String.eqb_neq "tag" b)), (proj2 (String.eqb_neq a b)), (proj2 (String.eqb_neq "_index" b)),
        (proj2 (String.eqb_neq "__dataclass_fields__" b)), String.eqb_refl by auto. reflexivity. }
    set (t2 := [("tag", AObj (PStr b)); _; _; _; _]) in *.
    destruct (built_reads (d_fields d) b x Nb B2 B3) as (R1 & R2 & _ & R3 & R4).
    assert (G1 : get_tag t2 = Ret b) by reflexivity.
    assert (G2 : getattr b t2 = Ret x).
    { unfold active in Act. rewrite G1 in Act. cbn [rbind] in Act. destruct (getattr b t2); cbn [rbind] in Act; congruence. }
    assert (Gf : get_tag (built (d_fields d) b x) = Ret b) by reflexivity.
    split; [exact Act|]. split.
    { unfold tu_eq. rewrite G1, Gf. cbn [rbind]. rewrite String.eqb_refl, G2, R2. cbn [rbind]. f_equal. apply KeyOrdFacts.eqb_refl. }
    split.
    { unfold tu_eq. rewrite G1, Gf. cbn [rbind]. rewrite String.eqb_refl, G2, R2. cbn [rbind]. f_equal. apply KeyOrdFacts.eqb_refl. }
    assert (L : index_of a (d_fields d) < index_of b (d_fields d)).
    { apply index_of_before; auto. eauto. }
    split.
    { unfold tu_lt. assert (Gi : get_index t2 = Ret (index_of a (d_fields d))).
      { unfold get_index, t2. cbn [get_attr]. change (String.eqb "tag" "_index") with false. cbv iota.
        rewrite (proj2 (String.eqb_neq a "_index")) by auto. reflexivity. }
      rewrite Gi, Act, R4, R3. cbn [rbind snd].
      replace (Nat.eqb (index_of a (d_fields d)) (index_of b (d_fields d))) with false
        by (symmetry; apply Nat.eqb_neq; lia).
      cbn [negb]. f_equal. now apply Nat.ltb_lt. }
    intros dup Hd. unfold pickle_round_trip.
    assert (Gs : getstate t2 = get_all (List.filter (fun n => String.eqb n a || String.eqb n "tag") (d_fields d)) t2).
    { unfold getstate, t2. cbn [get_attr]. change (String.eqb "tag" "__dataclass_fields__") with false.
      change (String.eqb "_index" "__dataclass_fields__") with false. cbv iota.
      rewrite (proj2 (String.eqb_neq a "__dataclass_fields__")) by auto. reflexivity. }
    rewrite Gs. clear Gs.
    assert (Gt : getattr "tag" t2 = Ret (PStr b)) by reflexivity.
    assert (Ga : getattr a t2 = Ret v).
    { unfold getattr, t2. cbn [get_attr]. rewrite (proj2 (String.eqb_neq "tag" a)) by auto. now rewrite String.eqb_refl. }
    destruct (filter_two (d_fields d) a ND Ia Na) as [E|[E|E]]; rewrite E; cbn [get_all]; rewrite ?Gt, ?Ga; cbn [rbind].
    - exfalso. assert (In "tag" [a]) as [->|[]]; auto. rewrite <- E. apply filter_In. split; auto.
      rewrite String.eqb_refl. apply orb_true_r.
    - cbn [dup_all]. rewrite !Hd. cbn [rbind]. unfold setstate, init, kw_get. cbn.
      rewrite (proj2 (String.eqb_neq a "tag")) by auto. cbn.
      rewrite (proj2 (mem_name_In a (d_fields d)) Ia). cbn.
      rewrite (proj2 (String.eqb_neq b a)) by auto. reflexivity.
    - cbn [dup_all]. rewrite !Hd. cbn [rbind]. unfold setstate, init, kw_get. cbn.
      rewrite (proj2 (String.eqb_neq a "tag")) by auto. cbn.
      rewrite (proj2 (mem_name_In a (d_fields d)) Ia). cbn.
      rewrite (proj2 (String.eqb_neq b a)) by auto. reflexivity.
  Qed.
End Facts.
