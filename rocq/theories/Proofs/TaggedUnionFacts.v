(** Lemmas about tagged unions and Option/Result. *)
From Coq Require Import List Bool ZArith Arith String Lia.
From Verif.Model Require Import Base TaggedUnion OptionResult.
From Verif.Spec Require Import UnionSpec.
From Verif.Proofs Require Import KeyOrdFacts.
Import ListNotations.
Local Open Scope string_scope.
Local Open Scope list_scope.
Local Open Scope py_scope.

Local Arguments String.eqb : simpl never.

Section TU.
  Context {V : Type}.
  Implicit Types (t : table V) (kw : kwargs (V := V)).

  Definition built (fields : list string) (name : string) (value : pyobj V) : table V :=
    [("tag", AObj (PStr name)); (name, AObj value); ("_index", AIndex (index_of name fields));
     ("__dataclass_fields__", AFields (List.filter (fun n => String.eqb n name || String.eqb n "tag") fields))].

  Lemma mem_name_In : forall n l, mem_name n l = true <-> In n l.
  Proof.
    intros n l. unfold mem_name. rewrite existsb_exists. split.
    - intros (x & I & E). apply String.eqb_eq in E. now subst.
    - intros I. exists n. split; auto. apply String.eqb_refl.
  Qed.

  Lemma mem_name_not : forall n l, mem_name n l = false <-> ~ In n l.
  Proof. intros n l. rewrite <- mem_name_In. destruct (mem_name n l); intuition congruence. Qed.

  Lemma kw_get_Some : forall n x kw, NoDup (List.map fst kw) -> In (n, x) kw -> kw_get n kw = Some x.
  Proof.
    intros n x kw. unfold kw_get. induction kw as [|[a b] kw IH]; simpl; intros ND I; [contradiction|].
    inversion ND as [|? ? NI ND']; subst. destruct (String.eqb_spec a n) as [->|Ne]; simpl.
    - destruct I as [[= ->]|I]; auto. exfalso. apply NI. change n with (fst (n, x)). now apply in_map.
    - destruct I as [[= -> ->]|I]; [congruence|auto].
  Qed.

  Lemma kw_get_None : forall n kw, (forall x, ~ In (n, x) kw) -> kw_get n kw = None.
  Proof.
    intros n kw. unfold kw_get. induction kw as [|[a b] kw IH]; simpl; intros N; auto.
    destruct (String.eqb_spec a n) as [->|Ne]; simpl.
    - exfalso. apply (N b). auto.
    - apply IH. intros x I. apply (N x). auto.
  Qed.

  Lemma kw_get_In : forall n x kw, kw_get n kw = Some x -> In (n, x) kw.
  Proof.
    intros n x kw. unfold kw_get. induction kw as [|[a b] kw IH]; simpl; [discriminate|].
    destruct (String.eqb_spec a n) as [->|Ne]; simpl; [intros [= ->]|]; auto.
  Qed.

  Lemma NoDup_fst_filter : forall p kw, NoDup (List.map fst kw) -> NoDup (List.map fst (List.filter p kw)).
  Proof.
    intros p kw. induction kw as [|x kw IH]; simpl; auto. intros ND. inversion ND as [|? ? NI ND']; subst.
    destruct (p x); simpl; auto. constructor; auto. intros I. apply NI.
    apply in_map_iff in I. destruct I as (y & E & I). apply filter_In in I. rewrite <- E. now apply in_map.
  Qed.

  Definition rest kw := List.filter (fun x => negb (String.eqb (fst x) "tag")) kw.

  Lemma rest_In : forall n x kw, In (n, x) (rest kw) <-> In (n, x) kw /\ n <> "tag".
  Proof.
    intros. unfold rest. rewrite filter_In. simpl. destruct (String.eqb_spec n "tag"); simpl; intuition congruence.
  Qed.

  Lemma accepted_rest : forall fields kw name value, NoDup (List.map fst kw) ->
    accepted fields kw name value -> rest kw = [(name, value)].
  Proof.
    intros fields kw name value ND (I & Nt & _ & Only & _).
    pose proof (NoDup_fst_filter (fun x => negb (String.eqb (fst x) "tag")) kw ND) as ND'. fold (rest kw) in ND'.
    assert (A : forall n x, In (n, x) (rest kw) -> n = name).
    { intros n x Hx. apply rest_In in Hx. destruct Hx as [Hx Hn]. destruct (Only n x Hx); congruence. }
    assert (Ir : In (name, value) (rest kw)) by (apply rest_In; auto).
    destruct (rest kw) as [|[a b] l]; [contradiction|].
    assert (a = name) as -> by (apply (A a b); left; auto).
    destruct l as [|[c d] l].
    - destruct Ir as [[= ->]|[]]; auto.
    - assert (c = name) as -> by (apply (A c d); right; left; auto).
      simpl in ND'. inversion ND' as [|? ? NI _]; subst. exfalso. apply NI. left; auto.
  Qed.

  Lemma set_built : forall fields name value, name <> "tag" -> name <> "_index" -> name <> "__dataclass_fields__" ->
    set_attr "__dataclass_fields__" (AFields (List.filter (fun n => String.eqb n name || String.eqb n "tag") fields))
      (set_attr "_index" (AIndex (index_of name fields))
        (set_attr name (AObj value) (set_attr "tag" (AObj (PStr name)) []))) = built fields name value.
  Proof.
    intros fields name value N1 N2 N3. unfold built. cbn [set_attr].
    rewrite (proj2 (String.eqb_neq "tag" name)) by auto. cbn [set_attr].
    rewrite (proj2 (String.eqb_neq name "_index")) by auto.
    change (String.eqb "tag" "_index") with false. cbn [set_attr].
    rewrite (proj2 (String.eqb_neq name "__dataclass_fields__")) by auto. reflexivity.
  Qed.

  Lemma init_accepted : forall fields kw name value, plain fields -> NoDup (List.map fst kw) ->
    accepted fields kw name value -> init fields kw = Ret (built fields name value).
  Proof.
    intros fields kw name value (_ & Pi & Pd) ND Acc.
    pose proof (accepted_rest _ _ _ _ ND Acc) as R. destruct Acc as (I & Nt & If & Only & Tag).
    unfold init. fold (rest kw). rewrite R. cbn [List.length].
    replace (mem_name name fields) with true by (symmetry; now apply mem_name_In). cbn [negb Nat.eqb].
    assert (Tg : match (match kw_get "tag" kw with Some t => t | None => PNone end) with
                 | PNone => true | PStr s => String.eqb s name | PObj _ => false end = true).
    { destruct (kw_get "tag" kw) as [x|] eqn:G; auto. apply kw_get_In in G.
      destruct (Tag x G) as [-> | ->]; auto. apply String.eqb_refl. }
    rewrite Tg, set_built; auto; intros ->; auto.
  Qed.

  Lemma init_Ret : forall fields kw t, NoDup (List.map fst kw) -> init fields kw = Ret t ->
    exists name value, accepted fields kw name value.
  Proof.
    intros fields kw t ND E. unfold init in E. fold (rest kw) in E.
    destruct (rest kw) as [|[name value] l] eqn:R; [discriminate|].
    destruct (mem_name name fields) eqn:Mf; [|discriminate]. cbn [negb] in E.
    destruct (Nat.eqb (List.length ((name, value) :: l)) 1) eqn:L; [|discriminate]. cbn [negb] in E.
    apply Nat.eqb_eq in L. destruct l; [|discriminate].
    assert (Ir : In (name, value) (rest kw)) by (rewrite R; left; auto). apply rest_In in Ir.
    exists name, value. unfold accepted. destruct Ir as [I Nt].
    split; auto. split; auto. split; [now apply mem_name_In|]. split.
    - intros n x Hx. destruct (String.string_dec n "tag") as [->|Hn]; auto. left.
      assert (J : In (n, x) (rest kw)) by (apply rest_In; auto). rewrite R in J. destruct J as [[= <- <-]|[]]; auto.
    - intros x Hx. rewrite (kw_get_Some _ _ _ ND Hx) in E.
      destruct x as [|s|v]; [auto| |discriminate].
      destruct (String.eqb_spec s name) as [Es|]; [subst s; auto|discriminate].
  Qed.

  Lemma init_cases : forall fields kw, init fields kw = Raise TypeError \/ exists t, init fields kw = Ret t.
  Proof.
    intros. unfold init. destruct (List.filter _ kw) as [|[name value] l]; auto.
    destruct (negb (mem_name name fields)); auto. destruct (negb _); auto.
    match goal with |- context[if ?b then _ else _] => destruct b end; eauto.
  Qed.

  Lemma built_reads : forall fields name value, name <> "tag" -> name <> "_index" -> name <> "__dataclass_fields__" ->
    getattr "tag" (built fields name value) = Ret (PStr name) /\
    getattr name (built fields name value) = Ret value /\
    (forall n, n <> "tag" -> n <> name -> n <> "_index" -> n <> "__dataclass_fields__" ->
       getattr n (built fields name value) = Raise AttributeError) /\
    active (built fields name value) = Ret (name, value) /\
    get_index (built fields name value) = Ret (index_of name fields).
  Proof.
    intros fields name value N1 N2 N3.
    assert (G : getattr name (built fields name value) = Ret value).
    { unfold getattr, built. cbn [get_attr].
      replace (String.eqb "tag" name) with false by (symmetry; apply String.eqb_neq; auto).
      now rewrite String.eqb_refl. }
    repeat split; auto.
    - intros n A B C D. unfold getattr, built. cbn [get_attr].
      repeat match goal with |- context[String.eqb ?a ?b] =>
        replace (String.eqb a b) with false by (symmetry; apply String.eqb_neq; auto) end. reflexivity.
    - unfold active. change (get_tag (built fields name value)) with (@Ret string name).
      cbn [rbind]. rewrite G. reflexivity.
    - unfold get_index, built. cbn [get_attr].
      replace (String.eqb "tag" "_index") with false by reflexivity.
      replace (String.eqb name "_index") with false by (symmetry; apply String.eqb_neq; auto).
      reflexivity.
  Qed.

  Lemma plain_names : forall fields kw name value, plain fields -> accepted fields kw name value ->
    name <> "tag" /\ name <> "_index" /\ name <> "__dataclass_fields__" /\ In name fields.
  Proof.
    intros fields kw name value (_ & P1 & P2) (_ & Nt & If & _). repeat split; auto; intros ->; auto.
  Qed.

  (** C41 *)
  Lemma C41_pf : forall fields kw, plain fields -> NoDup (List.map fst kw) ->
    (forall name value, accepted fields kw name value ->
       exists t, init fields kw = Ret t /\
         getattr "tag" t = Ret (PStr name) /\ getattr name t = Ret value /\
         (forall n, In n fields -> n <> "tag" -> n <> name -> getattr n t = Raise AttributeError)) /\
    ((forall name value, ~ accepted fields kw name value) -> init fields kw = Raise TypeError).
  Proof.
    intros fields kw P ND. split.
    - intros name value Acc. exists (built fields name value).
      destruct (plain_names _ _ _ _ P Acc) as (N1 & N2 & N3 & _).
      destruct (built_reads fields name value N1 N2 N3) as (R1 & R2 & R3 & _).
      split; [now apply (init_accepted fields kw)|]. repeat split; auto.
      intros n I Nt Nn. destruct P as (_ & P1 & P2). apply R3; auto; intros ->; auto.
    - intros No. destruct (init_cases fields kw) as [->|(t & E)]; auto.
      destruct (init_Ret _ _ _ ND E) as (name & value & Acc). exfalso. apply (No _ _ Acc).
  Qed.

  Lemma init_single : forall fields name value, plain fields -> In name fields -> name <> "tag" ->
    init fields [(name, value)] = Ret (built fields name value).
  Proof.
    intros fields name value P If Nt. apply (init_accepted fields [(name, value)]); auto.
    - simpl. constructor; auto. constructor.
    - unfold accepted. split; [left; auto|]. split; auto. split; auto. split.
      + intros n x [[= <- <-]|[]]. auto.
      + intros x [[= -> ->]|[]]. congruence.
  Qed.

  Lemma value_of_built : forall fields t, plain fields -> value_of fields t ->
    exists name value, t = built fields name value /\ In name fields /\
      name <> "tag" /\ name <> "_index" /\ name <> "__dataclass_fields__".
  Proof.
    intros fields t P (kw & ND & E). destruct (init_Ret _ _ _ ND E) as (name & value & Acc).
    pose proof (init_accepted _ _ _ _ P ND Acc) as E'. rewrite E in E'. injection E' as ->.
    destruct (plain_names _ _ _ _ P Acc) as (? & ? & ? & ?). exists name, value. auto.
  Qed.

  Lemma filter_two : forall fields name, NoDup fields -> In name fields -> name <> "tag" ->
    let l := List.filter (fun n => String.eqb n name || String.eqb n "tag") fields in
    l = [name] \/ l = ["tag"; name] \/ l = [name; "tag"].
  Proof.
    intros fields name ND If Nt l.
    assert (NDl : NoDup l) by (apply NoDup_filter; auto).
    assert (Il : In name l) by (apply filter_In; split; auto; rewrite String.eqb_refl; auto).
    assert (Al : forall x, In x l -> x = name \/ x = "tag").
    { intros x I. apply filter_In in I. destruct I as [_ I]. apply orb_true_iff in I.
      destruct I as [I|I]; apply String.eqb_eq in I; auto. }
    clearbody l. destruct l as [|a [|b [|c l]]].
    - contradiction.
    - destruct Il as [->|[]]; auto.
    - inversion NDl as [|? ? NI ND']; subst.
      destruct (Al a), (Al b); subst; simpl; auto; simpl in *; try tauto.
    - exfalso. inversion NDl as [|? ? NI ND']; subst. inversion ND' as [|? ? NI2 _]; subst.
      destruct (Al a), (Al b), (Al c); subst; simpl in *; auto; tauto.
  Qed.

  Lemma get_all_built : forall fields name value names, name <> "tag" -> name <> "_index" -> name <> "__dataclass_fields__" ->
    (forall n, In n names -> n = name \/ n = "tag") ->
    get_all names (built fields name value) =
    Ret (List.map (fun n => (n, if String.eqb n name then value else PStr name)) names).
  Proof.
    intros fields name value names N1 N2 N3. destruct (built_reads fields name value N1 N2 N3) as (R1 & R2 & _).
    induction names as [|n names IH]; intros A; [reflexivity|].
    cbn [get_all]. rewrite IH by (intros; apply A; right; auto).
    destruct (A n (or_introl eq_refl)) as [-> | ->].
    - rewrite R2. cbn. now rewrite String.eqb_refl.
    - rewrite R1. cbn. replace (String.eqb "tag" name) with false by (symmetry; apply String.eqb_neq; auto). reflexivity.
  Qed.

  Lemma getstate_built : forall fields name value, plain fields -> In name fields ->
    name <> "tag" -> name <> "_index" -> name <> "__dataclass_fields__" ->
    exists s, getstate (built fields name value) = Ret s /\
      (s = [(name, value)] \/ s = [("tag", PStr name); (name, value)] \/ s = [(name, value); ("tag", PStr name)]).
  Proof.
    intros fields name value (ND & _ & _) If N1 N2 N3. unfold getstate.
    assert (G : get_attr "__dataclass_fields__" (built fields name value) =
      Some (AFields (List.filter (fun n => String.eqb n name || String.eqb n "tag") fields))).
    { unfold built. cbn [get_attr].
      replace (String.eqb name "__dataclass_fields__") with false by (symmetry; apply String.eqb_neq; auto). reflexivity. }
    rewrite G. rewrite get_all_built; auto.
    - eexists; split; [reflexivity|].
      destruct (filter_two fields name ND If N1) as [-> | [-> | ->]]; cbn;
        rewrite ?String.eqb_refl; replace (String.eqb "tag" name) with false by (symmetry; apply String.eqb_neq; auto); auto.
    - intros n I. apply filter_In in I. destruct I as [_ I]. apply orb_true_iff in I.
      destruct I as [I|I]; apply String.eqb_eq in I; auto.
  Qed.

  (** C42 *)
  Lemma C42_copy_pf : forall fields t, plain fields -> value_of fields t -> tu_copy fields t = Ret t.
  Proof.
    intros fields t P Hv. destruct (value_of_built _ _ P Hv) as (name & value & -> & If & N1 & N2 & N3).
    unfold tu_copy. destruct (built_reads fields name value N1 N2 N3) as (_ & _ & _ & R & _). rewrite R. cbn [rbind].
    now apply init_single.
  Qed.

  Lemma C42_deepcopy_pf : forall fields t dup name value, plain fields -> value_of fields t -> active t = Ret (name, value) ->
    match dup value with
    | Ret value' => exists t', tu_deepcopy fields dup t = Ret t' /\ value_of fields t' /\ active t' = Ret (name, value')
    | Raise e => tu_deepcopy fields dup t = Raise e
    end.
  Proof.
    intros fields t dup name value P Hv Ha. destruct (value_of_built _ _ P Hv) as (name' & value' & -> & If & N1 & N2 & N3).
    destruct (built_reads fields name' value' N1 N2 N3) as (_ & _ & _ & R & _). rewrite R in Ha. injection Ha as -> ->.
    unfold tu_deepcopy. rewrite R. cbn [rbind snd fst]. destruct (dup value) as [v|e]; cbn [rbind]; auto.
    rewrite init_single by auto. eexists; split; [reflexivity|]. split.
    - exists [(name, v)]. split; [simpl; constructor; auto; constructor|now apply init_single].
    - destruct (built_reads fields name v N1 N2 N3) as (_ & _ & _ & R' & _). auto.
  Qed.

  Lemma C42_pickle_pf : forall fields t dup name value, plain fields -> value_of fields t -> active t = Ret (name, value) ->
    (forall s, dup (PStr s) = Ret (PStr s)) ->
    match dup value with
    | Ret value' => exists t', pickle_round_trip fields dup t = Ret t' /\ value_of fields t' /\ active t' = Ret (name, value')
    | Raise e => pickle_round_trip fields dup t = Raise e
    end.
  Proof.
    intros fields t dup name value P Hv Ha Hs. destruct (value_of_built _ _ P Hv) as (name' & value' & -> & If & N1 & N2 & N3).
    destruct (built_reads fields name' value' N1 N2 N3) as (_ & _ & _ & R & _). rewrite R in Ha. injection Ha as -> ->.
    unfold pickle_round_trip. destruct (getstate_built fields name value P If N1 N2 N3) as (s & -> & Cs). cbn [rbind].
    destruct (dup value) as [v|e] eqn:D.
    - assert (X : exists s', dup_all dup s = Ret s' /\ NoDup (List.map fst s') /\ accepted fields s' name v).
      { destruct Cs as [-> | [-> | ->]]; cbn; rewrite D, ?Hs; cbn; eexists; (split; [reflexivity|]);
          (split; [cbn; repeat constructor; cbn; intuition congruence|]);
          unfold accepted; cbn; intuition (try congruence). }
      destruct X as (s' & -> & ND & Acc). cbn [rbind]. unfold setstate. rewrite (init_accepted fields s' name v) by auto.
      eexists; split; [reflexivity|]. split.
      + exists s'. split; auto. now apply init_accepted.
      + destruct (built_reads fields name v N1 N2 N3) as (_ & _ & _ & R' & _). auto.
    - destruct Cs as [-> | [-> | ->]]; cbn; rewrite D, ?Hs; reflexivity.
  Qed.

  (** histories of attribute assignment and deletion on a frozen value *)
  Lemma get_set_other : forall n n' a t, n <> n' -> get_attr n (set_attr n' a t) = get_attr n t.
  Proof.
    induction t as [|[m b] t IH]; intros N; simpl.
    - replace (String.eqb n' n) with false by (symmetry; apply String.eqb_neq; auto). auto.
    - destruct (String.eqb_spec m n') as [->|N']; simpl.
      + replace (String.eqb n' n) with false by (symmetry; apply String.eqb_neq; auto). auto.
      + destruct (String.eqb m n); auto.
  Qed.
  Lemma get_del_other : forall n n' t, n <> n' -> get_attr n (del_attr n' t) = get_attr n t.
  Proof.
    unfold del_attr. induction t as [|[m b] t IH]; intros N; simpl; auto.
    destruct (String.eqb_spec m n') as [->|N']; simpl.
    - replace (String.eqb n' n) with false by (symmetry; apply String.eqb_neq; auto). auto.
    - destruct (String.eqb m n); auto.
  Qed.

  Lemma astep_other : forall fields m t n, n <> amut_name m -> get_attr n (snd (astep fields m t)) = get_attr n t.
  Proof.
    intros fields [n' a|n'] t n N; simpl in *.
    - unfold frozen_setattr. destruct (mem_name n' fields); simpl; auto. now apply get_set_other.
    - unfold frozen_delattr. destruct (mem_name n' fields); simpl; auto.
      destruct (get_attr n' t); simpl; auto. now apply get_del_other.
  Qed.

  Lemma get_set_same : forall n a t, get_attr n (set_attr n a t) = Some a.
  Proof.
    induction t as [|[m b] t IH]; simpl; [now rewrite String.eqb_refl|]. destruct (String.eqb m n) eqn:E; simpl; now rewrite ?E, ?String.eqb_refl.
  Qed.
  Lemma get_del_same : forall n t, get_attr n (del_attr n t) = None.
  Proof.
    unfold del_attr. induction t as [|[m b] t IH]; simpl; auto. destruct (String.eqb m n) eqn:E; simpl; [assumption|now rewrite E].
  Qed.
  Lemma C42_other_pf : forall fields m t, ~ In (amut_name m) fields ->
    match m with
    | ASet n a => fst (astep fields m t) = Ret tt /\ get_attr n (snd (astep fields m t)) = Some a
    | ADel n => (get_attr n t = None -> astep fields m t = (Raise AttributeError, t)) /\
                (get_attr n t <> None -> fst (astep fields m t) = Ret tt /\ get_attr n (snd (astep fields m t)) = None)
    end /\ forall n, n <> amut_name m -> get_attr n (snd (astep fields m t)) = get_attr n t.
  Proof.
    intros fields m t N. split; [|intros n D; now apply astep_other].
    destruct m as [n a|n]; simpl in *; unfold frozen_setattr, frozen_delattr;
      (destruct (mem_name n fields) eqn:E; [apply mem_name_In in E; now destruct N|]); simpl.
    - split; [reflexivity|apply get_set_same].
    - destruct (get_attr n t) eqn:G; (split; [congruence|]); intros X; [|now destruct X]. split; [reflexivity|apply get_del_same].
  Qed.

  Lemma C42_frozen_step_pf : forall fields m t, In (amut_name m) fields ->
    astep fields m t = (Raise TypeError, t).
  Proof.
    intros fields [n a|n] t I; simpl in *; unfold frozen_setattr, frozen_delattr;
      replace (mem_name n fields) with true by (symmetry; now apply mem_name_In); auto.
  Qed.

  Lemma C42_frozen_pf : forall fields ms t n, In n fields -> get_attr n (arun fields ms t) = get_attr n t.
  Proof.
    intros fields ms. unfold arun. induction ms as [|m ms IH]; intros t n I; simpl; auto.
    rewrite IH by auto. destruct (String.string_dec n (amut_name m)) as [->|N].
    - now rewrite C42_frozen_step_pf.
    - now apply astep_other.
  Qed.

  (** C40 *)
  Context `{KO : KeyOrd (pyobj V)}.
  Notation lt := (tu_lt eqb ltb).
  Notation eq := (tu_eq eqb).

  Lemma tu_eq_built : forall fields n1 v1 n2 v2,
    n1 <> "tag" -> n1 <> "_index" -> n1 <> "__dataclass_fields__" ->
    n2 <> "tag" -> n2 <> "_index" -> n2 <> "__dataclass_fields__" ->
    eq (built fields n1 v1) (built fields n2 v2) = Ret (String.eqb n1 n2 && eqb v1 v2).
  Proof.
    intros fields n1 v1 n2 v2 A1 A2 A3 B1 B2 B3.
    destruct (built_reads fields n1 v1 A1 A2 A3) as (R1 & R2 & _).
    destruct (built_reads fields n2 v2 B1 B2 B3) as (Q1 & Q2 & _).
    unfold tu_eq, get_tag. rewrite R1, Q1. cbn [rbind].
    destruct (String.eqb_spec n1 n2) as [->|]; auto. rewrite R2, Q2. reflexivity.
  Qed.

  Lemma tu_lt_built : forall fields n1 v1 n2 v2,
    n1 <> "tag" -> n1 <> "_index" -> n1 <> "__dataclass_fields__" ->
    n2 <> "tag" -> n2 <> "_index" -> n2 <> "__dataclass_fields__" ->
    lt (built fields n1 v1) (built fields n2 v2) =
    Ret (if Nat.eqb (index_of n1 fields) (index_of n2 fields) then ltb v1 v2
         else Nat.ltb (index_of n1 fields) (index_of n2 fields)).
  Proof.
    intros fields n1 v1 n2 v2 A1 A2 A3 B1 B2 B3.
    destruct (built_reads fields n1 v1 A1 A2 A3) as (_ & _ & _ & R1 & R2).
    destruct (built_reads fields n2 v2 B1 B2 B3) as (_ & _ & _ & Q1 & Q2).
    unfold tu_lt. rewrite R1, R2, Q1, Q2. cbn [rbind snd].
    destruct (Nat.eqb (index_of n1 fields) (index_of n2 fields)); cbn [negb]; auto.
    destruct (eqb v1 v2) eqn:E; auto. apply eqb_incomparable in E. now rewrite (proj1 E).
  Qed.

  Lemma index_of_inj : forall fields n1 n2, In n1 fields -> In n2 fields ->
    index_of n1 fields = index_of n2 fields -> n1 = n2.
  Proof.
    induction fields as [|a l IH]; intros n1 n2 I1 I2 E; simpl in *; [contradiction|].
    destruct (String.eqb_spec a n1), (String.eqb_spec a n2); try congruence.
    injection E as E. destruct I1, I2; try congruence. auto.
  Qed.

  Lemma index_of_before : forall fields n1 n2, NoDup fields -> In n1 fields -> In n2 fields ->
    (index_of n1 fields < index_of n2 fields <-> exists l1 l2 l3, fields = l1 ++ n1 :: l2 ++ n2 :: l3).
  Proof.
    induction fields as [|a l IH]; intros n1 n2 ND I1 I2; simpl in *; [contradiction|].
    inversion ND as [|? ? NI ND']; subst.
    destruct (String.eqb_spec a n1) as [E1|N1], (String.eqb_spec a n2) as [E2|N2].
    - subst n1 n2. split; [lia|]. intros (l1 & l2 & l3 & E). exfalso.
      destruct l1 as [|b l1]; simpl in E; injection E; intros; subst;
        apply NI, in_or_app; right; left; auto.
    - subst n1. split; [|lia]. intros _. destruct I2 as [|I2]; [congruence|].
      apply in_split in I2. destruct I2 as (l2 & l3 & ->). exists [], l2, l3. auto.
    - subst n2. split; [lia|]. intros (l1 & l2 & l3 & E). exfalso.
      destruct l1 as [|b l1]; simpl in E; injection E; intros; subst; [congruence|].
      apply NI, in_or_app. right. right. apply in_or_app. right. left; auto.
    - destruct I1 as [|I1], I2 as [|I2]; try congruence. rewrite <- Nat.succ_lt_mono, (IH n1 n2) by auto. split.
      + intros (l1 & l2 & l3 & ->). exists (a :: l1), l2, l3. auto.
      + intros (l1 & l2 & l3 & E). destruct l1 as [|b l1]; simpl in E; injection E; intros; subst; [congruence|eauto].
  Qed.

  Lemma C40_lt_pf : forall fields a b n1 v1 n2 v2, plain fields -> value_of fields a -> value_of fields b ->
    active a = Ret (n1, v1) -> active b = Ret (n2, v2) ->
    exists r, lt a b = Ret r /\
      (n1 = n2 -> r = ltb v1 v2) /\
      (n1 <> n2 -> (r = true <-> exists l1 l2 l3, fields = l1 ++ n1 :: l2 ++ n2 :: l3)).
  Proof.
    intros fields a b n1 v1 n2 v2 P Ha Hb Aa Ab.
    destruct (value_of_built _ _ P Ha) as (n1' & v1' & -> & I1 & N1 & N2 & N3).
    destruct (value_of_built _ _ P Hb) as (n2' & v2' & -> & I2 & Q1 & Q2 & Q3).
    destruct (built_reads fields n1' v1' N1 N2 N3) as (_ & _ & _ & R1 & _). rewrite R1 in Aa. injection Aa as -> ->.
    destruct (built_reads fields n2' v2' Q1 Q2 Q3) as (_ & _ & _ & R2 & _). rewrite R2 in Ab. injection Ab as -> ->.
    rewrite tu_lt_built by auto. eexists; split; [reflexivity|]. split.
    - intros ->. now rewrite Nat.eqb_refl.
    - intros Ne. destruct (Nat.eqb_spec (index_of n1 fields) (index_of n2 fields)) as [E|E].
      + exfalso. apply Ne. now apply (index_of_inj fields).
      + rewrite Nat.ltb_lt. apply index_of_before; auto. apply P.
  Qed.

  Lemma C40_order_pf : forall fields a b c, plain fields ->
    value_of fields a -> value_of fields b -> value_of fields c ->
    exists ab ba bc ac eab eba ebc eac,
      lt a b = Ret ab /\ lt b a = Ret ba /\ lt b c = Ret bc /\ lt a c = Ret ac /\
      eq a b = Ret eab /\ eq b a = Ret eba /\ eq b c = Ret ebc /\ eq a c = Ret eac /\
      lt a a = Ret false /\ eq a a = Ret true /\
      eba = eab /\ (eab = true -> ebc = true -> eac = true) /\
      (ab = true -> bc = true -> ac = true) /\
      (ab = true -> ba = false) /\
      (eab = true <-> ab = false /\ ba = false) /\
      (eab = true -> ac = bc).
  Proof.
    intros fields a b c P Ha Hb Hc.
    destruct (value_of_built _ _ P Ha) as (n1 & v1 & -> & I1 & A1 & A2 & A3).
    destruct (value_of_built _ _ P Hb) as (n2 & v2 & -> & I2 & B1 & B2 & B3).
    destruct (value_of_built _ _ P Hc) as (n3 & v3 & -> & I3 & C1 & C2 & C3).
    do 8 eexists. rewrite !tu_lt_built, !tu_eq_built by auto.
    do 8 (split; [reflexivity|]).
    rewrite !Nat.eqb_refl, ltb_irrefl, String.eqb_refl, eqb_refl.
    pose proof (index_of_inj fields n1 n2 I1 I2) as J12.
    pose proof (index_of_inj fields n2 n3 I2 I3) as J23.
    pose proof (index_of_inj fields n1 n3 I1 I3) as J13.
    split; auto. split; auto.
    split. { rewrite (eqb_sym v2 v1), String.eqb_sym. reflexivity. }
    split.
    { rewrite !andb_true_iff, !String.eqb_eq. intros [-> E1] [-> E2]. split; auto. now rewrite (eqb_cong_l _ _ _ E1). }
    split.
    { destruct (Nat.eqb_spec (index_of n1 fields) (index_of n2 fields)) as [E|E];
        destruct (Nat.eqb_spec (index_of n2 fields) (index_of n3 fields)) as [F|F];
        destruct (Nat.eqb_spec (index_of n1 fields) (index_of n3 fields)) as [G|G]; try lia;
        rewrite ?Nat.ltb_lt; intros; try lia.
      eapply ltb_trans; eauto. }
    split.
    { rewrite (Nat.eqb_sym (index_of n2 fields)).
      destruct (Nat.eqb_spec (index_of n1 fields) (index_of n2 fields)) as [E|E].
      - apply ltb_asym.
      - rewrite Nat.ltb_lt, Nat.ltb_ge. lia. }
    split.
    { rewrite andb_true_iff, String.eqb_eq, (Nat.eqb_sym (index_of n2 fields)).
      destruct (Nat.eqb_spec (index_of n1 fields) (index_of n2 fields)) as [E|E].
      - rewrite eqb_incomparable. intuition.
      - rewrite !Nat.ltb_ge. split; [intros [-> _]; congruence|lia]. }
    rewrite andb_true_iff, String.eqb_eq. intros [-> E]. now rewrite (ltb_eqb_l _ _ _ E).
  Qed.

  Lemma C40_hash_pf : forall fields cls th phash a b, plain fields -> value_of fields a -> value_of fields b ->
    (forall x y, eqb x y = true -> phash x = phash y) ->
    eq a b = Ret true -> exists h, tu_hash cls th phash a = Ret h /\ tu_hash cls th phash b = Ret h.
  Proof.
    intros fields cls th phash a b P Ha Hb Hp.
    destruct (value_of_built _ _ P Ha) as (n1 & v1 & -> & I1 & A1 & A2 & A3).
    destruct (value_of_built _ _ P Hb) as (n2 & v2 & -> & I2 & B1 & B2 & B3).
    rewrite tu_eq_built by auto. intros [= E]. apply andb_true_iff in E. destruct E as [E1 E2].
    apply String.eqb_eq in E1. subst n2.
    unfold tu_hash. destruct (built_reads fields n1 v1 A1 A2 A3) as (_ & _ & _ & -> & _).
    destruct (built_reads fields n1 v2 A1 A2 A3) as (_ & _ & _ & -> & _). cbn [rbind fst snd].
    rewrite (Hp _ _ E2). eauto.
  Qed.
End TU.
