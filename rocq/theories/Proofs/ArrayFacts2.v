(** Lemmas about TypedArray: callbacks, positions, ranges, ownership. *)
From Coq Require Import List ZArith Bool Lia.
From Verif.Model Require Import Base PyList OptionResult Array.
From Verif.Model Require Block.
From Verif.Spec Require Import ListM BlockSpec ArraySpec.
From Verif.Proofs Require Import BlockFacts ArrayFacts.
Import ListNotations.
Local Open Scope py_scope.

Definition elemsM {W F U} (x : M W (tarray F U)) : M W (list (pyval F U)) := do b <- x; ret (a_elems b).

Lemma mapM_Forall : forall W A B (P : B -> Prop) (f : A -> M W B) xs w ys w1,
  (forall x w y w1, f x w = (Ret y, w1) -> P y) -> mapM f xs w = (Ret ys, w1) -> Forall P ys.
Proof.
  intros W A B P f xs; induction xs as [|x xs IH]; intros w ys w1 Hf E; cbn in E.
  - injection E; intros; subst; constructor.
  - unfold bind in E. destruct (f x w) as [[y|e] w2] eqn:E1; [|discriminate].
    destruct (mapM f xs w2) as [[ys'|e] w3] eqn:E2; [|discriminate]. injection E; intros; subst. constructor; eauto.
Qed.
Lemma filterM_Forall : forall W A (P : A -> Prop) (p : A -> M W bool) xs w ys w1,
  Forall P xs -> filterM p xs w = (Ret ys, w1) -> Forall P ys.
Proof.
  intros W A P p xs; induction xs as [|x xs IH]; intros w ys w1 Fa E; cbn in E.
  - injection E; intros; subst; constructor.
  - inversion Fa; subst. unfold bind in E. destruct (p x w) as [[b|e] w2]; [|discriminate].
    destruct (filterM p xs w2) as [[ys'|e] w3] eqn:E2; [|discriminate]. injection E; intros; subst.
    destruct b; [constructor|]; eauto.
Qed.

Section A.
  Context {F U : Type} `{Floats F}.
  Variable long64 : bool.
  Notation val := (pyval F U).
  Context {W : Type}.
  Implicit Types a : tarray F U.

  Lemma map_calls_pf : forall a (f : val -> M W val) w, fst (mapM f (a_elems a) w) <> Raise StopIterationExn ->
    map long64 a f w = (do ys <- mapM f (a_elems a); lift (new long64 (FromIter ys) None)) w.
  Proof.
    intros a f w N. unfold map. change (for_calls (a_elems a) [] f _) with (Block.map (a_elems a) f).
    unfold bind. rewrite map_mapM by exact N. reflexivity.
  Qed.
  Lemma map_stop_pf : forall a (f : val -> M W val) pre x post w ys w1 w2, a_elems a = pre ++ x :: post ->
    mapM f pre w = (Ret ys, w1) -> f x w1 = (Raise StopIterationExn, w2) -> map long64 a f w = (new long64 (FromIter ys) None, w2).
  Proof.
    intros a f pre x post w ys w1 w2 Q E N. unfold map. change (for_calls (a_elems a) [] f _) with (Block.map (a_elems a) f).
    unfold bind. rewrite Q, (map_stop f pre x post w ys w1 w2 E N). reflexivity.
  Qed.
  Lemma map_pf : forall a (f : val -> M W val) w, (forall x w y w1, f x w = (Ret y, w1) -> plain y) ->
    fst (mapM f (a_elems a) w) <> Raise StopIterationExn -> elemsM (map long64 a f) w = mapM f (a_elems a) w.
  Proof.
    intros a f w P N. unfold elemsM, bind. rewrite map_calls_pf by exact N. unfold bind.
    destruct (mapM f (a_elems a) w) as [[ys|e] w1] eqn:E; [|reflexivity].
    unfold new, lift. rewrite from_plain; [reflexivity|]. apply Forall_plain_first. eapply mapM_Forall; eauto.
  Qed.
  Lemma collect_loop : forall (f : val -> M W (tarray F U)) xs w,
    for_in xs [] (fun acc x => do b <- f x; ret (acc ++ a_elems b)) w =
    (do bs <- mapM f xs; ret (List.concat (List.map (@a_elems F U) bs))) w.
  Proof.
    intros f xs w.
    pose proof (for_in_ext (list val) xs [] (fun acc x => do b <- f x; ret (acc ++ a_elems b))
      (fun acc x => do ys <- elemsM (f x); ret (acc ++ ys))) as X.
    unfold bind in *. rewrite X; clear X.
    - pose proof (for_in_acc val (fun x => elemsM (f x)) xs []) as X. unfold bind in X. rewrite X; clear X.
      assert (G : forall xs w, mapM (fun x => elemsM (f x)) xs w =
        match mapM f xs w with (Ret bs, w1) => (Ret (List.map (@a_elems F U) bs), w1) | (Raise e, w1) => (Raise e, w1) end).
      { clear. induction xs as [|x xs IH]; intros w; cbn; auto. unfold elemsM, bind in *.
        destruct (f x w) as [[o|e] w1]; cbn; auto. rewrite IH. destruct (mapM f xs w1) as [[os|e] w2]; auto. }
      rewrite G. destruct (mapM f xs w) as [[bs|e] w1]; reflexivity.
    - intros s x w1. unfold elemsM, bind. destruct (f x w1) as [[b|e] w2]; reflexivity.
  Qed.
  Lemma collect_calls_pf : forall a (f : val -> M W (tarray F U)) w, fst (mapM f (a_elems a) w) <> Raise StopIterationExn ->
    collect long64 a f w = (do bs <- mapM f (a_elems a); lift (new long64 (FromIter (List.concat (List.map (@a_elems F U) bs))) None)) w.
  Proof.
    intros a f w N. pose proof (collect_loop f (a_elems a) w) as L. unfold collect. unfold bind at 1. unfold bind at 2 in L.
    rewrite for_calls_for_in; rewrite L; unfold bind.
    - destruct (mapM f (a_elems a) w) as [[bs|e] w1]; reflexivity.
    - destruct (mapM f (a_elems a) w) as [[bs|e] w1]; [discriminate|cbn in *; congruence].
  Qed.
  Lemma collect_stop_pf : forall a (f : val -> M W (tarray F U)) pre x post w bs w1 w2, a_elems a = pre ++ x :: post ->
    mapM f pre w = (Ret bs, w1) -> f x w1 = (Raise StopIterationExn, w2) ->
    collect long64 a f w = (new long64 (FromIter (List.concat (List.map (@a_elems F U) bs))) None, w2).
  Proof.
    intros a f pre x post w bs w1 w2 Q E N. unfold collect. rewrite Q. unfold bind at 1.
    erewrite for_calls_stop; [|rewrite collect_loop; unfold bind; rewrite E; reflexivity|exact N]. reflexivity.
  Qed.
  Lemma Forall_concat' : forall A (P : A -> Prop) (xss : list (list A)), Forall (Forall P) xss -> Forall P (List.concat xss).
  Proof. intros A P xss; induction 1; cbn; [constructor|apply Forall_app; auto]. Qed.
  Lemma collect_pf : forall a (f : val -> M W (tarray F U)) w,
    (forall x w b w1, f x w = (Ret b, w1) -> Forall plain (a_elems b)) -> fst (mapM f (a_elems a) w) <> Raise StopIterationExn ->
    elemsM (collect long64 a f) w = (do bs <- mapM f (a_elems a); ret (List.concat (List.map (@a_elems F U) bs))) w.
  Proof.
    intros a f w P N. unfold elemsM, bind. rewrite collect_calls_pf by exact N. unfold bind.
    destruct (mapM f (a_elems a) w) as [[bs|e] w1] eqn:E; [|reflexivity].
    unfold new, lift. rewrite from_plain; [reflexivity|]. apply Forall_plain_first. apply Forall_concat'.
    apply Forall_map. eapply mapM_Forall in E; eauto.
  Qed.
  Definition chosen (f : val -> M W (option val)) (x : val) : M W (tarray F U) :=
    do o <- f x; lift (array_from_initializer long64 (FromIter (opt_to_list o))).
  Lemma chosen_mapM : forall (f : val -> M W (option val)), (forall x w y w1, f x w = (Ret (Some y), w1) -> plain y) ->
    forall xs w, mapM (chosen f) xs w = match mapM f xs w with
      | (Ret os, w1) => (Ret (List.map (fun o => TArray KList (opt_to_list o) TAny) os), w1) | (Raise e, w1) => (Raise e, w1) end.
  Proof.
    intros f P. induction xs as [|x xs IH]; intros w2; cbn; auto. unfold bind, chosen, bind at 1.
    destruct (f x w2) as [[o|e] w3] eqn:E; auto. unfold lift.
    rewrite from_plain by (destruct o; cbn; eauto). rewrite IH. destruct (mapM f xs w3) as [[os|e] w4]; reflexivity.
  Qed.
  Lemma choose_pf : forall a (f : val -> M W (option val)) w,
    (forall x w y w1, f x w = (Ret (Some y), w1) -> plain y) -> fst (mapM f (a_elems a) w) <> Raise StopIterationExn ->
    elemsM (choose long64 a f) w = (do os <- mapM f (a_elems a); ret (flat_map (fun o => match o with Some y => [y] | None => [] end) os)) w.
  Proof.
    intros a f w P N. unfold choose. change (fun x => do o <- f x; _) with (chosen f). rewrite collect_pf.
    - unfold bind. rewrite (chosen_mapM f P). destruct (mapM f (a_elems a) w) as [[os|e] w1]; [|reflexivity].
      unfold ret. rewrite map_map, flat_map_concat_map. reflexivity.
    - intros x w0 b w1 E. unfold chosen, bind in E. destruct (f x w0) as [[o|e] w2] eqn:E1; [|discriminate].
      unfold lift in E. rewrite from_plain in E by (destruct o; cbn; eauto). injection E; intros; subst; cbn.
      destruct o; cbn; repeat constructor. eauto.
    - rewrite (chosen_mapM f P). destruct (mapM f (a_elems a) w) as [[os|e] w1]; [discriminate|cbn in *; congruence].
  Qed.
  Lemma choose_stop_pf : forall a (f : val -> M W (option val)) pre x post w os w1 w2, a_elems a = pre ++ x :: post ->
    (forall x w y w1, f x w = (Ret (Some y), w1) -> plain y) ->
    mapM f pre w = (Ret os, w1) -> f x w1 = (Raise StopIterationExn, w2) ->
    choose long64 a f w = (new long64 (FromIter (flat_map (fun o => match o with Some y => [y] | None => [] end) os)) None, w2).
  Proof.
    intros a f pre x post w os w1 w2 Q P E N. unfold choose. change (fun x => do o <- f x; _) with (chosen f).
    rewrite (collect_stop_pf a (chosen f) pre x post w (List.map (fun o => TArray KList (opt_to_list o) TAny) os) w1 w2 Q).
    - rewrite map_map, flat_map_concat_map. reflexivity.
    - rewrite (chosen_mapM f P), E. reflexivity.
    - unfold chosen, bind. now rewrite N.
  Qed.
  Lemma kept_kind_of : forall a, ok long64 a -> kept long64 (kind_of_typecode (a_type a)) (a_elems a).
  Proof.
    intros a [[C|[T K]] Ke]; [rewrite <- C; exact Ke|]. rewrite T. rewrite K in Ke. cbn.
    revert Ke. apply Forall_impl. intros v E. cbn [Array.store code_range] in *. destruct v as [c n| |]; try discriminate.
    destruct (between n _) eqn:B in E; [|discriminate]. apply between_iff in B.
    replace (between n (- 2 ^ 63, 2 ^ 63 - 1)%Z) with true; [exact E|]. symmetry. apply between_iff.
    destruct long64; [exact B|]. cbn in *. lia.
  Qed.
  Lemma filter_pf : forall a (p : val -> M W bool) w, made long64 a -> fst (filterM p (a_elems a) w) <> Raise StopIterationExn ->
    elemsM (filter long64 a p) w = filterM p (a_elems a) w.
  Proof.
    intros a p w D N. unfold elemsM, filter. change (for_calls (a_elems a) [] p _) with (Block.filter (a_elems a) p).
    unfold bind. rewrite BlockFacts.filter_pf by exact N. destruct (filterM p (a_elems a) w) as [[ys|e] w1] eqn:E; [|reflexivity].
    unfold lift, array_from_typecode. rewrite kept_store_all; [reflexivity|].
    eapply filterM_Forall; [|exact E]. apply kept_kind_of, made_ok, D.
  Qed.
  Lemma filter_stop_pf : forall a (p : val -> M W bool) pre x post w ys w1 w2, a_elems a = pre ++ x :: post -> made long64 a ->
    filterM p pre w = (Ret ys, w1) -> p x w1 = (Raise StopIterationExn, w2) -> elemsM (filter long64 a p) w = (Ret ys, w2).
  Proof.
    intros a p pre x post w ys w1 w2 Q D E N. unfold elemsM, filter. change (for_calls (a_elems a) [] p _) with (Block.filter (a_elems a) p).
    unfold bind. rewrite Q, (filter_stop p pre x post w ys w1 w2 E N).
    unfold lift, array_from_typecode. rewrite kept_store_all; [reflexivity|].
    eapply filterM_Forall; [|exact E]. pose proof (kept_kind_of a (made_ok _ _ D)) as K. rewrite Q in K. unfold kept in *.
    apply Forall_app in K. tauto.
  Qed.
  Lemma filter_type_pf : forall a (p : val -> M W bool) w b w1, filter long64 a p w = (Ret b, w1) -> a_type b = a_type a.
  Proof.
    intros a p w b w1 E. unfold filter, bind in E. destruct (for_calls _ _ _ _ w) as [[ys|e] w2]; [|discriminate].
    unfold lift in E. injection E; intros _ E1. apply from_tc_ok in E1. tauto.
  Qed.
  Lemma stop_iteration_pf : forall a pre x post w w1 w2, a_elems a = pre ++ x :: post ->
    (forall f ys, mapM f pre w = (Ret ys, w1) -> f x w1 = (Raise StopIterationExn, w2) ->
       map long64 a f (w : W) = (new long64 (FromIter ys) None, w2)) /\
    (forall f bs, mapM f pre w = (Ret bs, w1) -> f x w1 = (Raise StopIterationExn, w2) ->
       collect long64 a f w = (new long64 (FromIter (List.concat (List.map (@a_elems F U) bs))) None, w2)) /\
    (forall f os, (forall x w y w1, f x w = (Ret (Some y), w1) -> plain y) ->
       mapM f pre w = (Ret os, w1) -> f x w1 = (Raise StopIterationExn, w2) ->
       choose long64 a f w = (new long64 (FromIter (flat_map (fun o => match o with Some y => [y] | None => [] end) os)) None, w2)) /\
    (forall p ys, made long64 a -> filterM p pre w = (Ret ys, w1) -> p x w1 = (Raise StopIterationExn, w2) ->
       elemsM (filter long64 a p) w = (Ret ys, w2)).
  Proof.
    intros a pre x post w w1 w2 Q. repeat split; intros.
    - eapply map_stop_pf; eauto.
    - eapply collect_stop_pf; eauto.
    - eapply choose_stop_pf; eauto.
    - eapply filter_stop_pf; eauto.
  Qed.
  Lemma fold_pf : forall S a (f : S -> val -> M W S) s, fold a f s ==m foldM f s (a_elems a).
  Proof. intros; apply for_in_foldM. Qed.
  Lemma forall_pf : forall a (p : val -> M W bool), forall_ a p ==m outside (forallM p (a_elems a)).
  Proof.
    intros a p. unfold forall_. induction (a_elems a) as [|x xs IH]; intros w; auto. cbn [forallM]. unfold bind, in_generator, outside in *.
    destruct (p x w) as [[[|]|e] w1]; auto. destruct e; reflexivity.
  Qed.

  Lemma Forall_perm : forall A (P : A -> Prop) xs ys, Permutation.Permutation xs ys -> Forall P xs -> Forall P ys.
  Proof. intros A P xs ys E. rewrite !Forall_forall. intros Fa x I. apply Fa. eapply Permutation.Permutation_in; [apply Permutation.Permutation_sym; exact E|exact I]. Qed.
  Lemma sort_with_pf : forall K (KO : KeyOrd K) a (func : val -> M W K) reverse w, Forall plain (a_elems a) ->
    match mapM func (a_elems a) w with
    | (Ret keys, w1) => exists b ps, sort_with long64 a func reverse w = (Ret b, w1) /\ a_elems b = List.map snd ps /\
        stably_sorts reverse (combine keys (a_elems a)) ps
    | (Raise e, w1) => sort_with long64 a func reverse w = (Raise e, w1)
    end.
  Proof.
    intros K KO a func reverse w P. unfold sort_with. pose proof (for_in_mapM func (a_elems a) w) as L.
    unfold bind in *. rewrite L. destruct (mapM func (a_elems a) w) as [[keys|e] w1] eqn:E; auto.
    pose proof (sorted_items_pf (combine keys (a_elems a)) reverse) as S.
    assert (Q : Forall plain (List.map snd (sorted_items (combine keys (a_elems a)) reverse))).
    { destruct S as [S _]. apply (Permutation.Permutation_map snd) in S. eapply Forall_perm; [exact S|].
      clear - P. revert keys. induction (a_elems a) as [|x xs IH]; intros [|k ks]; cbn; try constructor; inversion P; subst; auto. }
    unfold lift. rewrite from_plain by (apply Forall_plain_first; exact Q). do 2 eexists. split; [reflexivity|]. split; [reflexivity|exact S].
  Qed.
  Lemma unfold_elems_eq : forall S fuel (g : S -> M W (option (val * S))) s acc w, unfold_elems fuel g s acc w = Block.unfold fuel g s acc w.
  Proof.
    intros S; induction fuel as [|fuel IH]; intros g s acc w; cbn; auto. unfold bind.
    destruct (in_generator (g s) w) as [[[[x s1]|]|e] w1]; auto.
  Qed.
  Lemma generates_plain : forall S (g : S -> M W (option (val * S))) s w r w1,
    (forall s w x s1 w1, g s w = (Ret (Some (x, s1)), w1) -> plain x) -> generates (fun s => outside (g s)) s w r w1 ->
    forall l, r = Ret l -> Forall plain l.
  Proof.
    intros S g s w r w1 P. induction 1 as [s w w1 E0|s w e w1 E0|s w x s1 w1 r w2 E0 G IH]; intros l E; try discriminate.
    - injection E; intros; subst; constructor.
    - destruct r as [l'|]; [|discriminate]. injection E; intros; subst. constructor; eauto.
      unfold outside in E0. destruct (g s w) as [[o|e] w3] eqn:Eg; cbn in E0; [|destruct e; discriminate].
      injection E0; intros; subst; eauto.
  Qed.
  Lemma unfold_pf : forall S (g : S -> M W (option (val * S))) s w r w1,
    (forall s w x s1 w1, g s w = (Ret (Some (x, s1)), w1) -> plain x) -> r <> Raise OutOfFuel ->
    ((exists fuel, elemsM (unfold long64 fuel g s) w = (r, w1)) <-> generates (fun s => outside (g s)) s w r w1).
  Proof.
    intros S g s w r w1 P N. rewrite <- BlockFacts.unfold_pf by exact N.
    assert (Q : forall fuel r w1, Block.unfold fuel g s [] w = (r, w1) -> r <> Raise OutOfFuel -> elemsM (unfold long64 fuel g s) w = (r, w1)).
    { intros fuel r0 w0 E N0. unfold elemsM, unfold, bind. rewrite unfold_elems_eq, E. destruct r0 as [l|e]; [|reflexivity].
      assert (G : generates (fun s => outside (g s)) s w (Ret l) w0) by (apply BlockFacts.unfold_pf; [exact N0|eauto]).
      unfold lift. rewrite from_plain; [reflexivity|]. apply Forall_plain_first. eapply generates_plain; eauto. }
    split; intros [fuel E]; exists fuel.
    - destruct (Block.unfold fuel g s [] w) as [r0 w0] eqn:E0.
      destruct r0 as [l|e].
      + rewrite (Q _ _ _ E0) in E by discriminate. exact E.
      + unfold elemsM, unfold, bind in E. rewrite unfold_elems_eq, E0 in E. exact E.
    - apply Q; auto.
  Qed.
  Lemma arr_eq_pf : forall (neq : val -> val -> bool) a o,
    arr_eq neq a o = true <-> Forall2 (fun x y => neq x y = false) (a_elems a) o.
  Proof.
    intros neq a o. unfold arr_eq. destruct (Nat.eqb_spec (length (a_elems a)) (length o)) as [E|E]; cbn.
    - revert o E. induction (a_elems a) as [|x xs IH]; intros [|y ys] E; try discriminate; split; intros Q; auto.
      + destruct (neq x y) eqn:N; [discriminate|]. constructor; auto. apply IH; auto.
      + inversion Q; subst. match goal with N : neq x y = false |- _ => rewrite N end. apply IH; auto.
    - split; [discriminate|]. intros Q. exfalso. apply E. clear E. induction Q; cbn; auto.
  Qed.

  (** ** storage *)
  Lemma store_iff : forall k (v x : val), store long64 k v = Ret x <-> stored long64 k v x.
  Proof.
    intros k v x. split.
    - intros E. destruct k as [| |c]; cbn [store] in E.
      + injection E; intros; subst; constructor.
      + destruct v as [o n| |]; try discriminate. destruct (between n _) eqn:B; [|discriminate]. injection E; intros; subst.
        apply between_iff in B. constructor. unfold unsigned. cbn in *. lia.
      + destruct c; cbn [code_range] in E; destruct v as [o n|o y|u]; try discriminate;
          try (destruct (between n _) eqn:B in E; [|discriminate]; injection E; intros; subst; apply between_iff in B;
               eapply st_int; [reflexivity|]; unfold signed, unsigned; destruct long64; cbn in *; lia);
          try (destruct (of_int n) eqn:Q; [|discriminate]; cbn in E; injection E; intros; subst; constructor; exact Q);
          try (injection E; intros; subst; constructor).
    - intros S. destruct S as [v|c n R|code r c n R Q|c y|c y|c n y E|c n y E]; cbn [store]; auto.
      + replace (between n (0, 255)%Z) with true; auto. symmetry. apply between_iff. unfold unsigned in R. cbn in *. lia.
      + destruct code; cbn in R; try discriminate; injection R; intros <-; cbn [code_range];
          (match goal with |- (if ?b then _ else _) = _ => replace b with true; [reflexivity|] end);
          symmetry; apply between_iff; unfold signed, unsigned in Q; destruct long64; cbn in *; lia.
      + cbn. rewrite E. reflexivity.
      + cbn. rewrite E. reflexivity.
  Qed.
  (** Which exception a refused integer raises. *)
  Lemma store_refuses : forall k (c : option icls) n, (forall x, ~ stored (U := U) long64 k (VInt c n) x) ->
    (k = KBytes -> store (U := U) long64 k (VInt c n) = Raise ValueError) /\
    (forall code r, k = KArr code -> code_type long64 code = Some r -> store (U := U) long64 k (VInt c n) = Raise OverflowError).
  Proof.
    intros k c n N. assert (Q : forall x, store (U := U) long64 k (VInt c n) <> Ret x) by (intros x E; apply store_iff in E; eapply N; eauto).
    split.
    - intros ->. cbn [store] in *. destruct (between _ _); [exfalso; eapply Q; reflexivity|reflexivity].
    - intros code r -> T. cbn [store] in *. destruct (code_range long64 code) as [r0|] eqn:R.
      + destruct (between _ _); [exfalso; eapply Q; reflexivity|reflexivity].
      + destruct code; discriminate.
  Qed.

  (** ** positions *)
  Lemma position_some : forall len i p, position len i = Some p <-> (p < len)%nat /\ (i = Z.of_nat p \/ i = Z.of_nat p - Z.of_nat len)%Z.
  Proof.
    intros len i p. unfold position. destruct (Z.ltb_spec i 0); cbn.
    - destruct (Z.leb_spec 0 (i + Z.of_nat len)), (Z.ltb_spec (i + Z.of_nat len) (Z.of_nat len)); cbn; split; intros Q;
        try discriminate; try (injection Q; intros <-); try (destruct Q); try (f_equal; lia); try lia.
    - destruct (Z.leb_spec 0 i), (Z.ltb_spec i (Z.of_nat len)); cbn; split; intros Q;
        try discriminate; try (injection Q; intros <-); try (destruct Q); try (f_equal; lia); try lia.
  Qed.
  Lemma position_none : forall len i, position len i = None <-> (i < - Z.of_nat len \/ Z.of_nat len <= i)%Z.
  Proof.
    intros len i. unfold position. destruct (Z.ltb_spec i 0); cbn;
      match goal with |- (if (?a <=? ?b)%Z && (?c <? ?d)%Z then _ else _) = None <-> _ => destruct (Z.leb_spec a b), (Z.ltb_spec c d) end; cbn; split; intros Q; try discriminate; auto; lia.
  Qed.
  Lemma split_at : forall A (xs : list A) p, (p < length xs)%nat -> exists y, xs = firstn p xs ++ y :: skipn (S p) xs.
  Proof.
    intros A xs; induction xs as [|x xs IH]; intros [|p] L; cbn in *; try lia; [eexists; reflexivity|].
    destruct (IH p) as [y E]; [lia|]. exists y. now rewrite <- E.
  Qed.
  Lemma at_pos : forall A (xs : list A) i p, position (length xs) i = Some p ->
    exists pre y post, xs = pre ++ y :: post /\ (i = Z.of_nat (length pre) \/ i = - (Z.of_nat (length post) + 1))%Z /\
      pre = firstn p xs /\ post = skipn (S p) xs.
  Proof.
    intros A xs i p E. apply position_some in E. destruct E as [L E]. destruct (split_at _ xs p L) as [y Y].
    exists (firstn p xs), y, (skipn (S p) xs). repeat split; auto.
    rewrite firstn_length, skipn_length. lia.
  Qed.

  Lemma setitem_pf : forall a i v,
    (forall x, stored long64 (a_kind a) v x -> forall y, at_index (a_elems a) i y ->
       exists pre post, a_elems a = pre ++ y :: post /\ (i = Z.of_nat (length pre) \/ i = - (Z.of_nat (length post) + 1))%Z /\
         setitem long64 a i v = (Ret tt, TArray (a_kind a) (pre ++ x :: post) (a_type a))) /\
    (forall x, stored long64 (a_kind a) v x -> (i < - Z.of_nat (length (a_elems a)) \/ Z.of_nat (length (a_elems a)) <= i)%Z ->
       setitem long64 a i v = (Raise IndexError, a)) /\
    (forall e, fst (setitem long64 a i v) = Raise e -> snd (setitem long64 a i v) = a).
  Proof.
    intros a i v. split; [|split].
    - intros x S y (pre & post & E & I). exists pre, post. split; [auto|]. split; [auto|].
      apply store_iff in S. unfold setitem. rewrite S.
      assert (P : position (length (a_elems a)) i = Some (length pre)).
      { apply position_some. rewrite E, app_length. cbn. lia. }
      rewrite P. unfold with_elems. rewrite E. f_equal. f_equal.
      rewrite firstn_app, Nat.sub_diag, firstn_all, app_nil_r. f_equal. f_equal.
      rewrite skipn_app. rewrite skipn_all2 by lia. replace (Datatypes.S (length pre) - length pre)%nat with 1%nat by lia. reflexivity.
    - intros x S I. apply store_iff in S. apply position_none in I. unfold setitem. rewrite S, I. reflexivity.
    - intros e. unfold setitem. destruct (position _ i), (store long64 (a_kind a) v); cbn; auto; discriminate.
  Qed.
  Lemma insert_pf : forall a i v,
    (forall x, stored long64 (a_kind a) v x ->
       exists pre post, a_elems a = pre ++ post /\
         insert long64 a i v = (Ret tt, TArray (a_kind a) (pre ++ x :: post) (a_type a)) /\
         Z.of_nat (length pre) = (if Z.ltb i 0 then Z.max 0 (i + Z.of_nat (length (a_elems a))) else Z.min i (Z.of_nat (length (a_elems a))))%Z) /\
    (forall e, fst (insert long64 a i v) = Raise e -> snd (insert long64 a i v) = a).
  Proof.
    intros a i v. split.
    - intros x S. apply store_iff in S. unfold insert. rewrite S.
      set (p := Z.to_nat _). exists (firstn p (a_elems a)), (skipn p (a_elems a)). rewrite firstn_skipn. repeat split.
      rewrite firstn_length. unfold p, slice_bound. destruct (Z.ltb_spec i 0); lia.
    - intros e. unfold insert. destruct (store long64 (a_kind a) v); cbn; auto; discriminate.
  Qed.
  Lemma delitem_pf : forall a i,
    (forall y, at_index (a_elems a) i y -> exists pre post, a_elems a = pre ++ y :: post /\
       (i = Z.of_nat (length pre) \/ i = - (Z.of_nat (length post) + 1))%Z /\
       delitem a i = (Ret tt, TArray (a_kind a) (pre ++ post) (a_type a)) /\
       pop a i = (Ret y, TArray (a_kind a) (pre ++ post) (a_type a))) /\
    ((i < - Z.of_nat (length (a_elems a)) \/ Z.of_nat (length (a_elems a)) <= i)%Z ->
       delitem a i = (Raise IndexError, a) /\ pop a i = (Raise IndexError, a)).
  Proof.
    intros a i. split.
    - intros y (pre & post & E & I). exists pre, post. split; auto. split; auto.
      assert (P : position (length (a_elems a)) i = Some (length pre)).
      { apply position_some. rewrite E, app_length. cbn. lia. }
      assert (D : delitem a i = (Ret tt, TArray (a_kind a) (pre ++ post) (a_type a))).
      { unfold delitem. rewrite P. unfold with_elems. rewrite E. f_equal. f_equal.
        rewrite firstn_app, Nat.sub_diag, firstn_all, app_nil_r. f_equal.
        rewrite skipn_app. rewrite skipn_all2 by lia. replace (S (length pre) - length pre)%nat with 1%nat by lia. reflexivity. }
      split; [exact D|]. unfold pop, item. replace (index (a_elems a) i) with (Ret y); [rewrite D; reflexivity|].
      symmetry. apply index_iff. exists pre, post. auto.
    - intros I. assert (Q := I). apply position_none in I. unfold pop, delitem, item. rewrite I. split; auto.
      assert (Z : index (a_elems a) i = Raise IndexError) by (apply (C19_item_pf _ (a_elems a) i); exact Q).
      rewrite Z. reflexivity.
  Qed.
  Lemma skipn_skipn' : forall A n m (xs : list A), skipn n (skipn m xs) = skipn (n + m) xs.
  Proof.
    intros A n m; revert n. induction m as [|m IH]; intros n xs; [rewrite Nat.add_0_r; reflexivity|].
    destruct xs as [|x xs]; [rewrite !skipn_nil; reflexivity|]. rewrite Nat.add_succ_r. cbn. apply IH.
  Qed.
  Lemma delslice_pf : forall a s t,
    exists pre post, a_elems a = pre ++ slice (a_elems a) s t ++ post /\ delslice a s t = (Ret tt, TArray (a_kind a) (pre ++ post) (a_type a)).
  Proof.
    intros a s t. unfold delslice, slice. set (len := Z.of_nat (length (a_elems a))).
    assert (R : forall b, (0 <= slice_bound len b <= len)%Z) by (intros b; apply slice_bound_range; lia).
    set (p := match s with Some b => slice_bound len b | None => 0%Z end).
    set (q := match t with Some b => slice_bound len b | None => len end).
    assert (Rp : (0 <= p <= len)%Z) by (unfold p; destruct s; [apply R|lia]).
    assert (Rq : (0 <= q <= len)%Z) by (unfold q; destruct t; [apply R|lia]).
    exists (firstn (Z.to_nat p) (a_elems a)), (skipn (Z.to_nat (Z.max p q)) (a_elems a)). split; [|reflexivity].
    replace (Z.to_nat (Z.max p q)) with (Z.to_nat (q - p) + Z.to_nat p)%nat by lia.
    rewrite <- skipn_skipn', firstn_skipn, firstn_skipn. reflexivity.
  Qed.

  Lemma append_pf : forall a v x, stored long64 (a_kind a) v x ->
    append long64 a v = (Ret tt, TArray (a_kind a) (a_elems a ++ [x]) (a_type a)).
  Proof.
    intros a v x S. destruct (proj1 (insert_pf a (Z.of_nat (length (a_elems a))) v) x S) as (pre & post & E & I & L).
    unfold append. rewrite I. destruct (Z.ltb_spec (Z.of_nat (length (a_elems a))) 0); [lia|].
    assert (post = []) as -> by (destruct post; auto; rewrite E, app_length in L; cbn in L; lia).
    rewrite app_nil_r in E. rewrite E. reflexivity.
  Qed.
  Lemma extend_pf : forall vs xs a, Forall2 (stored long64 (a_kind a)) vs xs ->
    extend long64 a vs = (Ret tt, TArray (a_kind a) (a_elems a ++ xs) (a_type a)).
  Proof.
    induction vs as [|v vs IH]; intros xs a S; inversion S; subst; cbn [extend].
    - rewrite app_nil_r. destruct a; reflexivity.
    - rewrite (append_pf a v y) by auto. rewrite (IH l') by auto. cbn. rewrite <- app_assoc. reflexivity.
  Qed.
  Lemma extend_refused_pf : forall vs xs a v rest, Forall2 (stored long64 (a_kind a)) vs xs -> (forall x, ~ stored long64 (a_kind a) v x) ->
    exists e, store long64 (a_kind a) v = Raise e /\ append long64 a v = (Raise e, a) /\ (forall i, insert long64 a i v = (Raise e, a)) /\
      extend long64 a (vs ++ v :: rest) = (Raise e, TArray (a_kind a) (a_elems a ++ xs) (a_type a)).
  Proof.
    intros vs xs a v rest S N. destruct (store long64 (a_kind a) v) as [x|e] eqn:SV; [destruct (N x); apply store_iff; exact SV|].
    exists e. split; [reflexivity|]. split; [unfold append, insert; rewrite SV; reflexivity|]. split; [intros i; unfold insert; rewrite SV; reflexivity|].
    clear N. revert xs a S SV. induction vs as [|w vs IH]; intros xs a S SV; inversion S; subst; cbn [extend List.app].
    - unfold append at 1, insert. rewrite SV, app_nil_r. destruct a; reflexivity.
    - rewrite (append_pf a w y) by auto. rewrite (IH l') by auto. cbn. rewrite <- app_assoc. reflexivity.
  Qed.
End A.

(** ** ranges *)
Section Range.
  Context {F U : Type} `{Floats F}.
  Notation val := (pyval F U).
  Implicit Types a : tarray F U.

  Lemma kept_range : forall long64 tc k (vs : list val) r, consistent tc k -> kept long64 k vs -> type_range tc = Some r ->
    (long64 = true -> tc <> TInt32 /\ tc <> TUint32) -> Forall (int_in r) vs.
  Proof.
    intros long64 tc k vs r C K T N. revert K. apply Forall_impl. intros v E. apply store_iff in E.
    destruct C as [->|[-> ->]].
    - destruct tc; cbn in T; try discriminate; injection T; intros <-; cbn in E; inversion E; subst;
        try (eexists; split; [reflexivity|assumption]);
        match goal with C : code_type _ _ = Some _ |- _ => cbn in C; injection C; intros; subst end;
        eexists; (split; [reflexivity|]); try assumption;
        destruct long64; try assumption; exfalso; destruct (N eq_refl); congruence.
    - cbn in T. injection T; intros <-. inversion E; subst.
      match goal with C : code_type _ _ = Some _ |- _ => cbn in C; injection C; intros; subst end.
      eexists; split; [reflexivity|]. destruct long64; [assumption|]. unfold signed in *. cbn in *. lia.
  Qed.
  Lemma made_range_pf : forall long64 a r, made long64 a -> type_range (a_type a) = Some r ->
    (long64 = true -> a_type a <> TInt32 /\ a_type a <> TUint32) -> Forall (int_in r) (a_elems a).
  Proof. intros long64 a r D T N. destruct (made_ok long64 a D) as [C K]. eapply kept_range; eauto. Qed.
  Lemma made_wide_pf : forall a, made true a ->
    (a_type a = TInt32 -> Forall (int_in (signed 64)) (a_elems a)) /\ (a_type a = TUint32 -> Forall (int_in (unsigned 64)) (a_elems a)).
  Proof.
    intros a D. destruct (made_ok true a D) as [[C|[C C']] K].
    - split; intros T; rewrite T in C; rewrite C in K; revert K; apply Forall_impl; intros v E; apply store_iff in E; inversion E; subst;
        (match goal with C : code_type _ _ = Some _ |- _ => cbn in C; injection C; intros; subst end); eexists; split; eauto.
    - split; congruence.
  Qed.

  (** which kind of storage belongs to a typecode *)
  Lemma made_kind_pf : forall long64 a, made long64 a -> consistent (a_type a) (a_kind a).
  Proof. intros long64 a D. apply (made_ok long64 a D). Qed.

  (** An integer outside the range is refused. *)
  Lemma refuse_pf : forall long64 a r c n, made long64 a -> type_range (a_type a) = Some r -> ~ r n ->
    (long64 = true -> a_type a <> TInt32 /\ a_type a <> TUint32) ->
    store (U := U) long64 (a_kind a) (VInt c n) = Raise (match a_type a with TByte => ValueError | _ => OverflowError end).
  Proof.
    intros long64 a r c n D T N L. pose proof (made_kind_pf long64 a D) as C.
    assert (Q : forall x, ~ stored (U := U) long64 (a_kind a) (VInt c n) x).
    { intros x S. apply N. assert (K : kept long64 (a_kind a) [x]).
      { constructor; [|constructor]. apply store_iff in S. eapply store_idem; eauto. }
      pose proof (kept_range long64 _ _ [x] r C K T L) as R. inversion R as [|? ? (m & -> & Rm) _]; subst.
      assert (m = n) by (apply store_iff in S; destruct C as [C|[C1 C]]; rewrite C in S;
        [destruct (a_type a); cbn in T; try discriminate|]; cbn [kind_of_typecode store code_range] in S;
        (match type of S with (if ?b then _ else _) = _ => destruct b end); congruence). congruence. }
    destruct (store_refuses long64 (a_kind a) c n Q) as [B O].
    destruct C as [C|[C1 C]].
    - destruct (a_type a); cbn in T, C; try discriminate; try (apply B; exact C); eapply O; try exact C; reflexivity.
    - rewrite C1. eapply O; [exact C|reflexivity].
  Qed.
  Lemma unchanged_pf : forall long64 a i v e, store long64 (a_kind a) v = Raise e ->
    insert long64 a i v = (Raise e, a) /\ append long64 a v = (Raise e, a) /\
    ((- Z.of_nat (length (a_elems a)) <= i < Z.of_nat (length (a_elems a)))%Z -> setitem long64 a i v = (Raise e, a)).
  Proof.
    intros long64 a i v e E. unfold append, insert. rewrite E. repeat split. intros I. unfold setitem. rewrite E.
    destruct (position (length (a_elems a)) i) eqn:P; [reflexivity|]. apply position_none in P. lia.
  Qed.

  (** Construction from integers keeps them. *)
  Lemma store_same : forall long64 k (v x : val), (forall c, k = KArr c -> code_type long64 c <> None) -> store long64 k v = Ret x -> same_value x v.
  Proof.
    intros long64 k v x N E. apply store_iff in E. inversion E; subst; try constructor;
      try (exfalso; eapply N; [reflexivity|reflexivity]).
    destruct x; constructor.
  Qed.
  Lemma store_all_same : forall long64 k (vs xs : list val), (forall c, k = KArr c -> code_type long64 c <> None) -> store_all long64 k vs = Ret xs -> Forall2 same_value xs vs.
  Proof.
    intros long64 k vs; induction vs as [|v vs IH]; intros xs N E.
    - injection E; intros; subst; constructor.
    - destruct (store_all_cons _ _ _ _ _ E) as (x & ys & E1 & E2 & ->). constructor; [eapply store_same; eauto|auto].
  Qed.
  Lemma construct_same_pf : forall long64 (i : initializer F U) tc a, new long64 i tc = Ret a -> a_type a <> TFloat -> a_type a <> TDouble ->
    Forall2 same_value (a_elems a) (init_elems i).
  Proof.
    intros long64 i [tc|] a E N1 N2; unfold new in E.
    - unfold array_from_typecode in E. destruct (store_all long64 (kind_of_typecode tc) (init_elems i)) as [xs|] eqn:S; [|discriminate].
      injection E; intros; subst. cbn in *. eapply store_all_same; [|exact S].
      intros c Q. destruct tc; cbn in *; try congruence; injection Q; intros <-; discriminate.
    - assert (R : forall vs : list val, Forall2 same_value vs vs) by (induction vs as [|[] ? ?]; constructor; auto; constructor).
      destruct i as [bs|bs|[|v vs]]; cbn [array_from_initializer] in E; try (injection E; intros; subst; apply R).
      destruct (store_all long64 (fst (infer v)) (v :: vs)) as [xs|] eqn:S; [|discriminate].
      injection E; intros; subst. cbn in *. eapply store_all_same; [|exact S].
      intros c Q. destruct v as [[[]|]|[[]|]|]; cbn in *; try congruence; injection Q; intros <-; discriminate.
  Qed.
  Lemma construct_plain_pf : forall long64 (vs : list val), plain_first vs ->
    new long64 (FromIter vs) None = Ret (TArray KList vs TAny).
  Proof. intros; apply from_plain; auto. Qed.
End Range.

(** ** storage ownership *)
Section Heap.
  Context {F U : Type} `{Floats F}.
  Variable long64 : bool.
  Implicit Types h : heap F U.

  Lemma write_nth : forall h i o j, (i < length h)%nat -> nth_error (write h i o) j = if Nat.eqb j i then Some o else nth_error h j.
  Proof.
    unfold write. intros h; induction h as [|x h IH]; intros i o j L; cbn in L; [lia|].
    destruct i as [|i]; [destruct j; reflexivity|]. destruct j as [|j]; [reflexivity|]. cbn [firstn skipn app nth_error Nat.eqb].
    apply IH. lia.
  Qed.
  Lemma mutate_ref_nth : forall h r m j, nth_error (mutate_ref long64 h r m) j =
    if Nat.eqb j (r_obj r) then option_map (fun o => let a := mutate long64 m (TArray (fst o) (snd o) (r_type r)) in (a_kind a, a_elems a)) (nth_error h j)
    else nth_error h j.
  Proof.
    intros h r m j. unfold mutate_ref, deref. destruct (nth_error h (r_obj r)) as [o|] eqn:E; cbn.
    - rewrite write_nth by (apply nth_error_Some; congruence). destruct (Nat.eqb_spec j (r_obj r)) as [->|]; [rewrite E|]; reflexivity.
    - destruct (Nat.eqb_spec j (r_obj r)) as [->|]; [rewrite E|]; reflexivity.
  Qed.
  Lemma run_isolated : forall evs h h' i, nth_error h i = nth_error h' i ->
    nth_error (run long64 h evs) i = nth_error (run long64 h' (on_object i evs)) i.
  Proof.
    induction evs as [|[r m] evs IH]; intros h h' i E; [exact E|]. cbn [run fold_left on_object List.filter fst snd].
    fold (run long64 (mutate_ref long64 h r m) evs). fold (on_object i evs).
    destruct (Nat.eqb_spec (r_obj r) i) as [Q|Q].
    - cbn [fold_left fst snd]. apply IH. rewrite !mutate_ref_nth. rewrite E. destruct (Nat.eqb i (r_obj r)); reflexivity.
    - apply IH. rewrite mutate_ref_nth. destruct (Nat.eqb_spec i (r_obj r)); [congruence|exact E].
  Qed.
  Lemma run_isolated_pf : forall evs h i, nth_error (run long64 h evs) i = nth_error (run long64 h (on_object i evs)) i.
  Proof. intros; apply run_isolated; reflexivity. Qed.
  Lemma run_untouched : forall evs h i, (forall ev, In ev evs -> r_obj (fst ev) <> i) -> nth_error (run long64 h evs) i = nth_error h i.
  Proof.
    intros evs h i N. rewrite run_isolated_pf. replace (on_object i evs) with (@nil (aref * mutation F U)); [reflexivity|].
    induction evs as [|ev evs IH]; [reflexivity|]. cbn. destruct (Nat.eqb_spec (r_obj (fst ev)) i) as [Q|Q].
    - exfalso. exact (N ev (or_introl eq_refl) Q).
    - apply IH. intros e I. apply N. right; exact I.
  Qed.

  Lemma construct_fresh : forall h obj tc h' r k vs, nth_error h obj = Some (k, vs) -> k <> KBytes \/ tc <> None ->
    construct long64 h obj tc = Ret (h', r) ->
    exists a, new long64 (FromIter vs) tc = Ret a /\ h' = h ++ [(a_kind a, a_elems a)] /\ r = ARef (length h) (a_type a).
  Proof.
    intros h obj tc h' r k vs E N C. unfold construct in C. rewrite E in C.
    assert (Q : (dor a <- new long64 (FromIter vs) tc; Ret (h ++ [(a_kind a, a_elems a)], ARef (length h) (a_type a))) = Ret (h', r)).
    { destruct k, tc; auto. exfalso. tauto. }
    destruct (new long64 (FromIter vs) tc) as [a|]; [|discriminate]. cbn in Q. injection Q; intros; subst. eauto.
  Qed.
  Lemma owns_pf : forall h obj tc h' r k vs, nth_error h obj = Some (k, vs) -> k <> KBytes \/ tc <> None ->
    construct long64 h obj tc = Ret (h', r) ->
    (forall i, (i < length h)%nat -> nth_error h' i = nth_error h i) /\ (length h <= r_obj r)%nat /\
    (forall evs, (forall ev, In ev evs -> r_obj (fst ev) = r_obj r) -> forall i, (i < length h)%nat -> nth_error (run long64 h' evs) i = nth_error h i) /\
    (forall evs, (forall ev, In ev evs -> r_obj (fst ev) <> r_obj r) -> deref (run long64 h' evs) r = deref h' r).
  Proof.
    intros h obj tc h' r k vs E N C. destruct (construct_fresh _ _ _ _ _ _ _ E N C) as (a & _ & -> & ->). cbn [r_obj].
    split; [|split; [|split]].
    - intros i L. apply nth_error_app1; exact L.
    - lia.
    - intros evs A i L. rewrite run_untouched; [apply nth_error_app1; exact L|]. intros ev I. rewrite (A ev I). lia.
    - intros evs A. unfold deref. cbn [r_obj]. rewrite run_untouched by exact A. reflexivity.
  Qed.
  Lemma derive_owns_pf : forall h r s t h' r', derive_slice long64 h r s t = Ret (h', r') ->
    (forall i, (i < length h)%nat -> nth_error h' i = nth_error h i) /\ (length h <= r_obj r')%nat.
  Proof.
    intros h r s t h' r' D. unfold derive_slice in D. destruct (nth_error h (r_obj r)) as [[k vs]|]; [|discriminate].
    set (h1 := h ++ [(k, slice vs s t)]) in *.
    assert (E1 : nth_error h1 (length h) = Some (k, slice vs s t)) by (unfold h1; rewrite nth_error_app2, Nat.sub_diag by lia; reflexivity).
    assert (P1 : forall i, (i < length h)%nat -> nth_error h1 i = nth_error h i) by (intros i L; apply nth_error_app1; exact L).
    assert (L1 : length h1 = S (length h)) by (unfold h1; rewrite app_length; cbn; lia).
    assert (K : k = KBytes \/ k <> KBytes) by (destruct k; auto; right; discriminate).
    destruct K as [->|K].
    - unfold construct in D. rewrite E1 in D. injection D; intros; subst. split; [exact P1|]. cbn. lia.
    - destruct (owns_pf _ _ _ _ _ _ _ E1 (or_introl K) D) as (A & B & _ & _). split; [|lia].
      intros i L. rewrite A by lia. apply P1; exact L.
  Qed.
  Lemma alias_pf : forall h obj bs, nth_error h obj = Some (KBytes, bs) ->
    construct long64 h obj None = Ret (h, ARef obj TByte) /\
    (forall m, nth_error (mutate_ref long64 h (ARef obj TByte) m) obj =
       Some (let a := mutate long64 m (TArray KBytes bs TByte) in (a_kind a, a_elems a))).
  Proof.
    intros h obj bs E. split; [unfold construct; rewrite E; reflexivity|]. intros m. rewrite mutate_ref_nth. cbn [r_obj].
    rewrite Nat.eqb_refl, E. reflexivity.
  Qed.
End Heap.
