(** Lemmas about the pydantic schemas. *)
From Coq Require Import List String Bool.
From Verif.Model Require Import Base Pydantic.
From Verif.Spec Require Import PydanticSpec.
Import ListNotations.
Local Open Scope py_scope.

Scheme typed_mut := Induction for typed Sort Prop with typed_all_mut := Induction for typed_all Sort Prop.

Section P.
  Context {base atom : Type}.
  Notation val := (pv atom).
  Variables check check_json : base -> val -> res val.
  Variable contains_atom : atom -> string -> res bool.
  Variable prefers_ok : val -> bool.
  Variable good : base -> val -> Prop.
  Notation validate := (validate check contains_atom prefers_ok).
  Notation validate_json := (validate_json check_json).
  Notation typed := (typed good).

  Section RoundTrip.
    Hypothesis stable : forall b v, good b v -> check b v = Ret v /\ outsider v.
    Lemma outsider_dump : forall v : val, outsider v -> dump v = v.
    Proof. now intros []. Qed.
    Lemma told_dump : forall t v, told_apart good t -> typed t v -> dump v <> PNone.
    Proof.
      intros t v T Ty. inversion Ty; subst; cbn in T; try contradiction; cbn [dump]; try discriminate.
      destruct (stable _ _ H) as [_ O]. rewrite outsider_dump by exact O. intros ->. contradiction.
    Qed.
    Lemma dump_outsider : forall t v, typed t v -> outsider (dump v).
    Proof.
      intros t v Ty. induction Ty; cbn [dump outsider]; try exact I; try assumption. destruct (stable _ _ H) as [_ O]. now rewrite outsider_dump.
    Qed.
    Lemma dump_typed : forall t v, typed t v -> writable good t -> validate t (dump v) = Ret v.
    Proof.
      apply (typed_mut _ _ good (fun t v _ => writable good t -> validate t (dump v) = Ret v)
        (fun t l _ => writable good t -> items (validate t) (List.map dump l) = Ret l)); cbn [writable].
      - intros b v G _. destruct (stable _ _ G) as [C O]. cbn. now rewrite outsider_dump.
      - reflexivity.
      - intros t v Ty IH [T Wr]. specialize (IH Wr). pose proof (told_dump _ _ T Ty) as N. pose proof (dump_outsider _ _ Ty) as O. cbn [dump Pydantic.validate].
        destruct (dump v); try contradiction; try (rewrite IH; reflexivity).
      - intros t u v Ty IH [W1 W2]. cbn. unfold validate_case, either. cbn. rewrite (IH W1). reflexivity.
      - intros t u v Ty IH [W1 W2]. cbn. unfold validate_case, either. cbn. rewrite (IH W2). cbn. reflexivity.
      - intros t l Ty IH Wr. cbn [dump Pydantic.validate]. rewrite (IH Wr). reflexivity.
      - reflexivity.
      - intros t v l Ty IH1 Tl IH2 Wr. cbn [List.map items]. now rewrite (IH1 Wr), (IH2 Wr).
    Qed.
  End RoundTrip.
  Section Json.
    Hypothesis stable : forall b v, good b v -> check_json b v = Ret v /\ outsider v.
    Lemma dump_json : forall t v, typed t v -> flat good t -> validate_json t (dump v) = Ret v.
    Proof.
      apply (typed_mut _ _ good (fun t v _ => flat good t -> validate_json t (dump v) = Ret v)
        (fun t l _ => flat good t -> items (validate_json t) (List.map dump l) = Ret l)); cbn [flat].
      - intros b v G _. destruct (stable _ _ G) as [C O]. cbn. now rewrite outsider_dump.
      - reflexivity.
      - intros t v Ty IH T. destruct t as [b| | |]; try contradiction. inversion Ty as [b0 v0 G| | | | |]; subst. destruct (stable _ _ G) as [_ O].
        cbn [dump Pydantic.validate_json]. rewrite outsider_dump by exact O. destruct v; try reflexivity. contradiction.
      - contradiction.
      - contradiction.
      - intros t l Ty IH T. cbn [dump Pydantic.validate_json]. rewrite (IH T). reflexivity.
      - reflexivity.
      - intros t v l Ty IH1 Tl IH2 T. cbn [List.map items]. now rewrite (IH1 T), (IH2 T).
    Qed.
  End Json.
  Lemma json_result_fails : forall t u v, exists e, validate_json (TResult t u) v = Raise e.
  Proof.
    intros t u v. cbn. destruct (typed_dict "ok" (validate_json t) v) as [|[]]; eauto. destruct (typed_dict "error" (validate_json u) v); eauto.
  Qed.
  Lemma json_result_dump : forall t u v, 
    (forall x y, v = POk x -> validate_json t (dump x) = Ret y -> validate_json (TResult t u) (dump v) = Raise TypeError) /\
    (forall x y, v = PError x -> validate_json u (dump x) = Ret y -> validate_json (TResult t u) (dump v) = Raise TypeError).
  Proof. intros t u v. split; intros x y -> E; cbn; rewrite E; reflexivity. Qed.

  Section Types.
    Hypothesis sound : forall b d v, data d -> check b d = Ret v -> good b v.
    Lemma data_find : forall d name x, data_all (List.map snd d) -> find_key name d = Some x -> data (atom := atom) x.
    Proof.
      intros d name x. unfold find_key. induction d as [|[k y] d IH]; intros D; cbn [List.map snd] in D; [discriminate|]. inversion D; subst. cbn [find fst].
      destruct (String.eqb k name); [|auto]. cbn. now intros [= <-].
    Qed.
    Lemma case_typed : forall t name wrap v y, data v -> (forall d x, data d -> validate t d = Ret x -> typed t x) ->
      validate_case contains_atom name wrap (validate t) v = Ret y -> exists x, y = wrap x /\ typed t x.
    Proof.
      intros t name wrap v y D IH. unfold validate_case. destruct (contains contains_atom v name) as [[]|]; try discriminate. cbn [rbind].
      destruct v; cbn [subscript]; try discriminate. inversion D; subst. destruct (find_key name d) as [x|] eqn:E; [|discriminate]. cbn [rbind].
      destruct (validate t x) as [z|] eqn:V; [|discriminate]. cbn [rbind]. intros [= <-]. exists z. split; [reflexivity|]. eapply IH; [|exact V]. eapply data_find; eauto.
    Qed.
    Lemma items_typed : forall t, (forall d x, data d -> validate t d = Ret x -> typed t x) -> forall l ys, data_all l -> items (validate t) l = Ret ys -> typed_all good t ys.
    Proof.
      intros t IH. induction l as [|x l IHl]; intros ys D E; cbn in E; [injection E as <-; constructor|]. inversion D; subst.
      destruct (validate t x) as [y|[]] eqn:V; try discriminate; destruct (items (validate t) l) as [zs|] eqn:I; try discriminate. injection E as <-. constructor; eauto.
    Qed.
    Lemma validate_typed : forall t d v, data d -> validate t d = Ret v -> typed t v.
    Proof.
      induction t as [b|t IH|t IHt u IHu|t IH]; intros d v D E.
      - constructor. eapply sound; eauto.
      - assert (C : (d = PNone /\ v = PNothing) \/ exists x, validate t d = Ret x /\ v = PSome x).
        { destruct D; cbn [Pydantic.validate] in E; try (left; split; congruence); right;
            match type of E with rbind ?m _ = _ => destruct m as [x|] eqn:V; [|discriminate] end; cbn in E; exists x; split; congruence. }
        destruct C as [[-> ->]|(x & V & ->)]; [apply ty_nothing|]. apply ty_some. eapply IH; eassumption.
      - assert (E1 : either prefers_ok d (validate_case contains_atom "error" PError (validate u) d) (validate_case contains_atom "ok" POk (validate t) d) = Ret v)
          by (destruct D; exact E).
        destruct (validate_case contains_atom "error" PError (validate u) d) as [x|e1] eqn:V1, (validate_case contains_atom "ok" POk (validate t) d) as [y|e2] eqn:V2.
        + apply (case_typed _ _ _ _ _ D IHu) in V1. apply (case_typed _ _ _ _ _ D IHt) in V2. destruct V1 as (x1 & -> & T1), V2 as (y1 & -> & T2).
          cbn in E1. injection E1 as <-. destruct (prefers_ok d); now constructor.
        + apply (case_typed _ _ _ _ _ D IHu) in V1. destruct V1 as (x1 & -> & T1). assert (v = PError x1) by (cbn in E1; destruct e2, (prefers_ok d); congruence). subst. now constructor.
        + apply (case_typed _ _ _ _ _ D IHt) in V2. destruct V2 as (y1 & -> & T2). assert (v = POk y1) by (cbn in E1; destruct e1; congruence). subst. now constructor.
        + cbn in E1. destruct e1; congruence.
      - destruct D as [| | |l D|]; cbn [Pydantic.validate] in E; try discriminate. destruct (items (validate t) l) as [ys|] eqn:I; [|discriminate]. injection E as <-. constructor. eapply items_typed; eauto.
    Qed.
  End Types.

  Section Errors.
    Hypothesis value_error : forall b d e, check b d = Raise e -> e = ValueError.
    Lemma items_error : forall t, (forall d e, validate t d = Raise e -> e = ValueError) -> forall l e, items (validate t) l = Raise e -> e = ValueError.
    Proof.
      intros t IH. induction l as [|x l IHl]; intros e E; cbn in E; [discriminate|]. destruct (validate t x) as [y|e1] eqn:V.
      - destruct (items (validate t) l); [discriminate|]. injection E as <-. now apply IHl.
      - apply IH in V. subst. destruct (items (validate t) l); injection E as <-; [reflexivity|]. now apply IHl.
    Qed.
    Lemma validate_error : forall t d e, without_result t -> validate t d = Raise e -> e = ValueError.
    Proof.
      induction t as [b|t IH|t IHt u IHu|t IH]; intros d e N E; cbn [without_result] in N; [eapply value_error; exact E| |contradiction|].
      - assert (C : validate t d = Raise e).
        { destruct d; cbn [Pydantic.validate] in E; try discriminate; match type of E with rbind ?m _ = _ => destruct m as [x|e0] eqn:V; [discriminate|] end; cbn in E; congruence. }
        eapply IH; eauto.
      - destruct d; cbn [Pydantic.validate] in E; try discriminate; try congruence. destruct (items (validate t) l) as [|e0] eqn:I; [discriminate|]. cbn in E. injection E as <-.
        eapply items_error; [|exact I]. eauto.
    Qed.
    Lemma case_error : forall t name wrap d e, without_result t -> validate_case contains_atom name wrap (validate t) (PDict d) = Raise e -> e = ValueError.
    Proof.
      intros t name wrap d e N. unfold validate_case. cbn [contains rbind subscript]. destruct (find_key name d) as [x|]; [|cbn; congruence]. cbn [rbind].
      destruct (validate t x) eqn:V; [discriminate|]. cbn. intros [= <-]. eapply validate_error; eauto.
    Qed.
    Lemma validate_result_error : forall t u d e, without_result t -> without_result u -> validate (TResult t u) (PDict d) = Raise e -> e = ValueError.
    Proof.
      intros t u d e N1 N2 E. cbn [Pydantic.validate] in E. unfold either in E.
      destruct (validate_case contains_atom "error" PError (validate u) (PDict d)) as [x|e1] eqn:V1, (validate_case contains_atom "ok" POk (validate t) (PDict d)) as [y|e2] eqn:V2; try discriminate;
        try (apply case_error in V1; [subst|exact N2]); try (apply case_error in V2; [subst|exact N1]); congruence.
    Qed.
  End Errors.
End P.

Section JsonErrors.
  Context {base atom : Type}.
  Notation val := (pv atom).
  Variable check_json : base -> val -> res val.
  Hypothesis value_error : forall b d e, check_json b d = Raise e -> e = ValueError.
  Notation validate_json := (validate_json check_json).
  Lemma json_items_error : forall t, (forall d e, validate_json t d = Raise e -> e = ValueError) -> forall l e, items (validate_json t) l = Raise e -> e = ValueError.
  Proof.
    intros t IH. induction l as [|x l IHl]; intros e E; cbn in E; [discriminate|]. destruct (validate_json t x) as [y|e1] eqn:V.
    - destruct (items (validate_json t) l); [discriminate|]. injection E as <-. now apply IHl.
    - apply IH in V. subst. destruct (items (validate_json t) l); injection E as <-; [reflexivity|]. now apply IHl.
  Qed.
  Lemma json_error : forall t d e, without_result t -> validate_json t d = Raise e -> e = ValueError.
  Proof.
    induction t as [b|t IH|t IHt u IHu|t IH]; intros d e N E; cbn [without_result] in N; [eapply value_error; exact E| |contradiction|].
    - cbn in E. destruct d; discriminate E.
    - destruct d; cbn [Pydantic.validate_json] in E; try congruence. destruct (items (validate_json t) l) as [|e1] eqn:I; [discriminate|]. cbn in E. injection E as <-.
      eapply json_items_error; [|exact I]. intros d e2. now apply IH.
  Qed.
  Lemma find_key_in : forall (d : list (string * val)) k x, NoDup (List.map fst d) -> (find_key k d = Some x <-> In (k, x) d).
  Proof.
    intros d k x. unfold find_key. induction d as [|[k1 y] d IH]; intros ND; cbn [List.map fst] in ND; [split; [discriminate|intros []]|]. inversion ND as [|? ? N1 N2]; subst.
    cbn [find fst In]. destruct (String.eqb_spec k1 k) as [->|N].
    - cbn. split; [intros [= <-]; auto|]. intros [[= ->]|I]; [reflexivity|]. exfalso. apply N1. apply in_map_iff. exists (k, x). auto.
    - rewrite (IH N2). split; [auto|]. intros [[= E _]|I]; [contradiction|exact I].
  Qed.
  Definition fits (name : string) (t : ty base) (d : val) : Prop :=
    exists m s x y, d = PDict m /\ find_key "tag" m = Some (PStr s) /\ find_key name m = Some x /\ validate_json t x = Ret y.
  Lemma typed_dict_fits : forall name t d, without_result t ->
    (typed_dict name (validate_json t) d = Ret tt /\ fits name t d) \/ (typed_dict name (validate_json t) d = Raise ValueError /\ ~ fits name t d).
  Proof.
    intros name t d N. unfold typed_dict, fits.
    destruct d; try (right; split; [reflexivity|]; intros (m & s1 & x & y & E & _); discriminate E). rename d into m.
    destruct (find_key name m) as [x|] eqn:F; [|right; split; [reflexivity|]; intros (m1 & s & x & y & E & _ & F1 & _); injection E as <-; congruence].
    destruct (validate_json t x) as [y|e] eqn:V; cbn [rbind].
    - destruct (find_key "tag" m) as [w|] eqn:T; [|right; split; [reflexivity|]; intros (m1 & s & x1 & y1 & E & T1 & _); injection E as <-; congruence].
      destruct w; try (right; split; [reflexivity|]; intros (m1 & s1 & x1 & y1 & E & T1 & _); injection E as <-; congruence).
      left. split; [reflexivity|]. exists m, s, x, y. auto.
    - pose proof (json_error _ _ _ N V) as ->. right. split; [reflexivity|]. intros (m1 & s1 & x1 & y1 & E & _ & F1 & V1). injection E as <-. congruence.
  Qed.
  Lemma json_result_error : forall t u d, without_result t -> without_result u ->
    (validate_json (TResult t u) d = Raise TypeError /\ (fits "ok" t d \/ fits "error" u d)) \/
    (validate_json (TResult t u) d = Raise ValueError /\ ~ (fits "ok" t d \/ fits "error" u d)).
  Proof.
    intros t u d N1 N2. cbn [Pydantic.validate_json].
    destruct (typed_dict_fits "ok" t d N1) as [[-> F]|[-> F]]; [left; auto|]. destruct (typed_dict_fits "error" u d N2) as [[-> F2]|[-> F2]]; [left; auto|]. right. split; [reflexivity|]. intros [X|X]; contradiction.
  Qed.
  Lemma json_result_dict : forall t u m, without_result t -> without_result u -> NoDup (List.map fst m) ->
    let fitting := exists s x y, In ("tag", PStr s)%string m /\ (In ("ok", x)%string m /\ validate_json t x = Ret y \/ In ("error", x)%string m /\ validate_json u x = Ret y) in
    (validate_json (TResult t u) (PDict m) = Raise TypeError /\ fitting) \/ (validate_json (TResult t u) (PDict m) = Raise ValueError /\ ~ fitting).
  Proof.
    intros t u m N1 N2 ND fitting. assert (E : fitting <-> fits "ok" t (PDict m) \/ fits "error" u (PDict m)).
    { unfold fitting, fits. split.
      - intros (s & x & y & T & [[F V]|[F V]]); [left|right]; exists m, s, x, y; rewrite !find_key_in by exact ND; auto.
      - intros [(m1 & s & x & y & E & T & F & V)|(m1 & s & x & y & E & T & F & V)]; injection E as <-; rewrite find_key_in in T, F by exact ND; exists s, x, y; auto. }
    rewrite E. apply json_result_error; assumption.
  Qed.
  Lemma json_result_other : forall t u d, without_result t -> without_result u -> (forall m, d <> PDict m) -> validate_json (TResult t u) d = Raise ValueError.
  Proof.
    intros t u d N1 N2 N. destruct (json_result_error t u d N1 N2) as [[_ [(m & _ & _ & _ & E & _)|(m & _ & _ & _ & E & _)]]|[E _]]; [destruct (N m E)|destruct (N m E)|exact E].
  Qed.
End JsonErrors.
