(** Lemmas about the forwarding functions. *)
From Coq Require Import List ZArith Bool String Arith Lia.
From Verif.Model Require Import Base Functions Modules.
From Verif.Spec Require Import ModulesSpec.
Import ListNotations.
Local Open Scope list_scope.
Local Open Scope py_scope.

Section Bind.
  Context {V : Type}.
  Implicit Types kw : kwds V.
  Lemma take_kw_none : forall name kw, take_kw name kw = None <-> ~ In name (List.map fst kw).
  Proof.
    intros name. induction kw as [|[n v] kw IH]; cbn; [split; auto|]. destruct (String.eqb_spec n name) as [->|N].
    - split; [discriminate|]. intros H. exfalso. apply H. auto.
    - destruct (take_kw name kw) as [[x kw1]|] eqn:E.
      + split; [discriminate|]. intros H. exfalso. assert (X : Some (x, kw1) = None) by (apply IH; tauto). discriminate.
      + split; [|reflexivity]. intros _ [H|H]; [congruence|]. now apply IH.
  Qed.
  Lemma take_kw_some : forall name kw v kw1, take_kw name kw = Some (v, kw1) -> exists l r, kw = l ++ (name, v) :: r /\ kw1 = l ++ r.
  Proof.
    intros name. induction kw as [|[n x] kw IH]; intros v kw1; cbn; [discriminate|]. destruct (String.eqb_spec n name) as [->|N].
    - intros [= -> ->]. exists [], kw1. auto.
    - destruct (take_kw name kw) as [[y kw2]|] eqn:E; [|discriminate]. intros [= -> <-]. destruct (IH _ _ eq_refl) as (l & r & -> & ->).
      exists ((n, x) :: l), r. auto.
  Qed.
  Lemma take_kw_split : forall name v (l r : kwds V), ~ In name (List.map fst l) -> take_kw name (l ++ (name, v) :: r) = Some (v, l ++ r).
  Proof.
    intros name v l r. induction l as [|[n x] l IH]; intros N; cbn in *; [now rewrite String.eqb_refl|].
    destruct (String.eqb_spec n name) as [->|M]; [tauto|]. rewrite IH by tauto. reflexivity.
  Qed.
  Lemma bind_error : forall (ps : list (param V)) args kw e, bind_args ps args kw = Raise e -> e = TypeError.
  Proof.
    induction ps as [|[n d] ps IH]; intros args kw e; destruct args as [|a args]; cbn; try (intros [= <-]; reflexivity).
    - destruct kw; [discriminate|]. now intros [= <-].
    - destruct (take_kw n kw) as [[v kw1]|].
      + destruct (bind_args ps [] kw1) eqn:E; cbn; [discriminate|]. intros [= <-]. eapply IH; exact E.
      + destruct d; [|now intros [= <-]]. destruct (bind_args ps [] kw) eqn:E; cbn; [discriminate|]. intros [= <-]. eapply IH; exact E.
    - destruct (take_kw n kw); [now intros [= <-]|]. destruct (bind_args ps args kw) eqn:E; cbn; [discriminate|]. intros [= <-]. eapply IH; exact E.
  Qed.
  Lemma bind_supplied : forall (ps : list (param V)) args kw vs, NoDup (List.map fst kw) -> (bind_args ps args kw = Ret vs <-> supplied ps args kw vs).
  Proof.
    induction ps as [|[n d] ps IH]; intros args kw vs ND.
    - split.
      + destruct args, kw; cbn; try discriminate. intros [= <-]. constructor.
      + inversion 1; reflexivity.
    - split.
      + destruct args as [|a args]; cbn.
        * destruct (take_kw n kw) as [[v kw1]|] eqn:T.
          -- destruct (take_kw_some _ _ _ _ T) as (l & r & -> & ->). destruct (bind_args ps [] (l ++ r)) as [ws|] eqn:E; [|discriminate]. cbn. intros [= <-].
             constructor. apply IH in E; [exact E|]. rewrite map_app in ND |- *. cbn in ND. now apply NoDup_remove_1 in ND.
          -- destruct d as [v|]; [|discriminate]. destruct (bind_args ps [] kw) as [ws|] eqn:E; [|discriminate]. cbn. intros [= <-]. constructor; [now apply take_kw_none|]. now apply IH.
        * destruct (take_kw n kw) eqn:T; [discriminate|]. destruct (bind_args ps args kw) as [ws|] eqn:E; [|discriminate]. cbn. intros [= <-].
          constructor; [now apply take_kw_none|now apply IH].
      + inversion 1 as [|? ? ? ? ? ? ? N S|? ? ? kw1 kw2 v ws S|? ? ? ? ? N S]; subst; cbn.
        * rewrite (proj2 (take_kw_none _ _) N). apply IH in S; [|exact ND]. rewrite S. reflexivity.
        * assert (N : ~ In n (List.map fst kw1)) by (rewrite map_app in ND; cbn in ND; apply NoDup_remove_2 in ND; rewrite in_app_iff in ND; tauto).
          rewrite take_kw_split by exact N. apply IH in S; [rewrite S; reflexivity|]. rewrite map_app in ND |- *. cbn in ND. now apply NoDup_remove_1 in ND.
        * rewrite (proj2 (take_kw_none _ _) N). apply IH in S; [|exact ND]. rewrite S. reflexivity.
  Qed.
  Lemma supplied_names : forall (ps : list (param V)) args kw vs, supplied ps args kw vs -> forall n, In n (List.map fst kw) -> In n (List.map fst ps).
  Proof.
    induction 1 as [|n d ps a args kw vs N S IH|n d ps kw1 kw2 v vs S IH|n v ps kw vs N S IH]; intros m I; cbn; auto.
    rewrite map_app in I. apply in_app_iff in I. cbn in I. setoid_rewrite map_app in IH. setoid_rewrite in_app_iff in IH.
    destruct I as [I|[I|I]]; auto.
  Qed.
  Lemma supplied_length : forall (ps : list (param V)) args kw vs, supplied ps args kw vs -> List.length vs = List.length ps.
  Proof. induction 1; cbn; congruence. Qed.
  Lemma bind_app : forall (ps qs : list (param V)) vs ws, List.length vs = List.length ps -> List.length ws = List.length qs -> bind_args (ps ++ qs) (vs ++ ws) [] = Ret (vs ++ ws).
  Proof.
    induction ps as [|[n d] ps IH]; intros qs [|v vs] ws L1 L2; try discriminate L1; cbn.
    - revert ws L2. induction qs as [|[n d] qs IH]; intros [|w ws] L; try discriminate L; cbn; [reflexivity|]. rewrite IH by (cbn in L; lia). reflexivity.
    - rewrite IH by (cbn in L1; lia). reflexivity.
  Qed.
  Lemma pick_shift : forall (x : V) vs is, pick_all (x :: vs) (List.map S is) = pick_all vs is.
  Proof. intros x vs. induction is as [|i is IH]; cbn; [reflexivity|]. unfold getitem. cbn. rewrite IH. reflexivity. Qed.
  Lemma pick_seq : forall vs : list V, pick_all vs (seq 0 (List.length vs)) = Ret vs.
  Proof.
    induction vs as [|v vs IH]; cbn [List.length seq]; [reflexivity|]. cbn [pick_all]. rewrite <- seq_shift, pick_shift, IH. reflexivity.
  Qed.
  Lemma pick_app : forall (vs ws : list V) is, Forall (fun i => i < List.length vs) is -> pick_all (vs ++ ws) is = pick_all vs is.
  Proof.
    intros vs ws. induction is as [|i is IH]; intros F; cbn; [reflexivity|]. inversion F; subst. rewrite IH by assumption. unfold getitem. rewrite nth_error_app1 by assumption. reflexivity.
  Qed.
End Bind.

Fixpoint nodupb (l : list string) : bool := match l with [] => true | x :: l => negb (existsb (String.eqb x) l) && nodupb l end.
Lemma nodupb_spec : forall l, nodupb l = true -> NoDup l.
Proof.
  induction l as [|x l IH]; cbn; [constructor|]. intros H. apply andb_prop in H. destruct H as [H1 H2]. constructor; [|auto].
  intros I. assert (E : existsb (String.eqb x) l = true) by (apply existsb_exists; exists x; split; [exact I|apply String.eqb_refl]). rewrite E in H1. discriminate.
Qed.

Section Forward.
  Context {W V : Type} (method : V -> string -> list V -> M W V).
  (** The shapes of the tables. *)
  Definition shape (f : modfun V) : bool :=
    let n := List.length (f_params f) in
    match f_style f with
    | Flip k => Z.eqb k 1 && Nat.eqb (f_receiver f) 0 && Nat.ltb 0 n && (if list_eq_dec Nat.eq_dec (f_args f) (seq 1 (n - 1)) then true else false)
    | Direct => Nat.eqb (f_receiver f) 0 && Nat.ltb 0 n && (if list_eq_dec Nat.eq_dec (f_args f) (seq 1 (n - 1)) then true else false)
    | Nested => Nat.ltb 0 n && Nat.eqb (f_receiver f) (n - 1) && (if list_eq_dec Nat.eq_dec (f_args f) (seq 0 (n - 1)) then true else false)
    end && nodupb (List.map fst (f_params f)).

  Lemma body_first : forall f recv args kw, f_receiver f = 0 -> 0 < List.length (f_params f) -> f_args f = seq 1 (List.length (f_params f) - 1) ->
    NoDup (List.map fst (f_params f)) -> NoDup (List.map fst kw) -> forall w,
    (forall vs, supplied (others f) args kw vs -> body method f (recv :: args) kw w = method recv (f_method f) vs w) /\
    ((forall vs, ~ supplied (others f) args kw vs) -> body method f (recv :: args) kw w = (Raise TypeError, w)).
  Proof.
    intros f recv args kw R L A NP NK w. unfold others, body. rewrite R. cbn [firstn]. destruct (f_params f) as [|[n d] ps] eqn:P; [cbn in L; lia|]. cbn [skipn List.app].
    cbn [List.length] in A. rewrite Nat.sub_succ, Nat.sub_0_r in A. cbn [List.map fst] in NP. inversion NP as [|? ? N1 N2]; subst.
    split.
    - intros vs S. assert (T : take_kw n kw = None) by (apply take_kw_none; intros I; apply N1; eapply supplied_names; eassumption).
      pose proof (supplied_length _ _ _ _ S) as LV. apply bind_supplied in S; [|exact NK]. unfold bind, lift. cbn [bind_args]. rewrite T, S. cbn. rewrite A, <- LV, <- seq_shift, pick_shift, pick_seq. reflexivity.
    - intros N. unfold bind, lift. cbn [bind_args]. destruct (take_kw n kw); [reflexivity|]. destruct (bind_args ps args kw) as [vs|e] eqn:B; cbn.
      + exfalso. apply bind_supplied in B; [|exact NK]. eapply N; exact B.
      + apply bind_error in B. subst. reflexivity.
  Qed.
  Lemma removelast_firstn_len' : forall A (l : list A), removelast l = firstn (List.length l - 1) l.
  Proof.
    induction l as [|x l IH]; [reflexivity|]. cbn [removelast List.length]. destruct l as [|y l]; [reflexivity|]. rewrite IH. cbn [List.length]. replace (S (S (List.length l)) - 1) with (S (S (List.length l) - 1)) by lia. reflexivity.
  Qed.

  Lemma forward_pf : forall f, shape f = true -> forall recv args kw, NoDup (List.map fst kw) -> forall w,
    (forall vs, supplied (others f) args kw vs -> with_receiver method f recv args kw w = method recv (f_method f) vs w) /\
    ((forall vs, ~ supplied (others f) args kw vs) -> with_receiver method f recv args kw w = (Raise TypeError, w)).
  Proof.
    intros f SH recv args kw NK w. unfold shape in SH. apply andb_prop in SH. destruct SH as [SH ND].
    pose proof (nodupb_spec _ ND) as NP. clear ND.
    unfold with_receiver, call_fun. destruct (f_style f) as [k| |].
    - apply andb_prop in SH. destruct SH as [SH A]. apply andb_prop in SH. destruct SH as [SH L]. apply andb_prop in SH. destruct SH as [K R].
      apply Z.eqb_eq in K. apply Nat.eqb_eq in R. apply Nat.ltb_lt in L. destruct (list_eq_dec _ _ _) as [A1|]; [|discriminate]. subst k.
      destruct (body_first f recv args kw R L A1 NP NK w) as [B1 B2]. set (b := body method f) in *. clearbody b. cbn. unfold bind, ret. cbn. unfold bind, ret.
      split; [intros vs S; rewrite (B1 vs S)|intros N; rewrite (B2 N)]; [destruct (method recv (f_method f) vs w) as [[y|e] w1]; reflexivity|reflexivity].
    - apply andb_prop in SH. destruct SH as [SH A]. apply andb_prop in SH. destruct SH as [R L]. apply Nat.eqb_eq in R. apply Nat.ltb_lt in L. destruct (list_eq_dec _ _ _) as [A1|]; [|discriminate].
      destruct (body_first f recv args kw R L A1 NP NK w) as [B1 B2]. set (b := body method f) in *. clearbody b. unfold bind, ret.
      split; [intros vs S; rewrite (B1 vs S)|intros N; rewrite (B2 N)]; [destruct (method recv (f_method f) vs w) as [[y|e] w1]; reflexivity|reflexivity].
    - apply andb_prop in SH. destruct SH as [SH A]. apply andb_prop in SH. destruct SH as [L R]. apply Nat.eqb_eq in R. apply Nat.ltb_lt in L. destruct (list_eq_dec _ _ _) as [A1|]; [|discriminate].
      assert (O : others f = removelast (f_params f)).
      { unfold others. rewrite R, removelast_firstn_len'. replace (S (List.length (f_params f) - 1)) with (List.length (f_params f)) by lia. rewrite skipn_all, app_nil_r. reflexivity. }
      rewrite O. unfold nested. unfold bind, lift, ret. destruct (bind_args (removelast (f_params f)) args kw) as [us|e] eqn:B.
      + assert (LU : List.length us = List.length (f_params f) - 1).
        { apply bind_supplied in B; [|exact NK]. apply supplied_length in B. rewrite B, removelast_firstn_len', firstn_length. lia. }
        split; [|intros N; exfalso; apply bind_supplied in B; [|exact NK]; eapply N; exact B].
        intros vs S. apply bind_supplied in S; [|exact NK]. assert (us = vs) by congruence. subst us. clear S.
        cbn. unfold bind, lift, ret.
        destruct (skipn (List.length (f_params f) - 1) (f_params f)) as [|[n d] q] eqn:Q; [apply (f_equal (@List.length _)) in Q; rewrite skipn_length in Q; cbn in Q; lia|].
        assert (q = []) by (apply (f_equal (@List.length _)) in Q; rewrite skipn_length in Q; cbn in Q; destruct q; [reflexivity|cbn in Q; lia]). subst q. cbn.
        unfold body. assert (BA : bind_args (f_params f) (vs ++ [recv]) [] = Ret (vs ++ [recv])).
        { rewrite <- (firstn_skipn (List.length (f_params f) - 1) (f_params f)), Q. apply bind_app; [rewrite firstn_length; lia|reflexivity]. }
        rewrite BA. cbn. unfold bind, lift. assert (G : getitem (vs ++ [recv]) (f_receiver f) = Ret recv).
        { unfold getitem. rewrite R, nth_error_app2 by lia. replace (List.length (f_params f) - 1 - List.length vs) with 0 by lia. reflexivity. }
        rewrite G, A1. rewrite pick_app by (apply Forall_forall; intros i I; apply in_seq in I; lia).
        rewrite <- LU, pick_seq. destruct (method recv (f_method f) vs w) as [[y|e] w1]; reflexivity.
      + split; [intros vs S; apply bind_supplied in S; [|exact NK]; congruence|]. intros _. apply bind_error in B. subst. reflexivity.
  Qed.
End Forward.

Lemma table_shape : forall V (fa : V) f, In f (module_functions fa) -> shape f = true.
Proof.
  intros V fa f I. assert (H : forallb shape (module_functions fa) = true) by (vm_compute; reflexivity). rewrite forallb_forall in H. now apply H.
Qed.

(** Methods. *)
Section Methods.
  Context {W V : Type} (call_name : string -> string -> list V -> M W V) (call_value : V -> list V -> M W V) (construct : string -> V -> M W V).
  Definition mshape (m : method_of) : bool :=
    Nat.eqb (m_piped m) 0 && Nat.ltb 0 (List.length (m_params m)) && String.eqb (m_function m) (m_name m) &&
    (if list_eq_dec (list_eq_dec Nat.eq_dec) (m_args m) (List.map (fun i => [i]) (seq 1 (List.length (m_params m) - 1))) then true else false).
  Lemma groups_shift : forall (x : V) vs is, pick_groups (x :: vs) (List.map (fun i => [i]) (List.map S is)) = pick_groups vs (List.map (fun i => [i]) is).
  Proof. intros x vs. induction is as [|i is IH]; cbn; [reflexivity|]. unfold getitem. cbn. rewrite IH. reflexivity. Qed.
  Lemma groups_seq : forall vs : list V, pick_groups vs (List.map (fun i => [i]) (seq 0 (List.length vs))) = Ret (List.map (fun v => [v]) vs).
  Proof.
    induction vs as [|v vs IH]; cbn [List.length seq List.map]; [reflexivity|]. cbn [pick_groups]. rewrite <- seq_shift, groups_shift, IH. reflexivity.
  Qed.
  Lemma staged_app : forall args f x w, staged call_value f (args ++ [x]) w = (do g <- call_values call_value f (List.map (fun v => [v]) args); call_value g [x]) w.
  Proof.
    induction args as [|a args IH]; intros f x w; cbn; unfold bind, ret; cbn.
    - destruct (call_value f [x] w) as [[y|e] w1]; reflexivity.
    - destruct (call_value f [a] w) as [[y|e] w1]; [|reflexivity]. rewrite IH. reflexivity.
  Qed.
  Lemma method_pf : forall m, mshape m = true -> forall self args, S (List.length args) = List.length (m_params m) -> forall w,
    run_method call_name call_value construct m (self :: args) w =
    (do y <- piped_call call_name call_value (m_module m) (m_name m) args self; match m_wrap m with Some c => construct c y | None => ret y end) w.
  Proof.
    intros m H self args L w. unfold mshape in H. apply andb_prop in H. destruct H as [H A]. apply andb_prop in H. destruct H as [H N]. apply andb_prop in H. destruct H as [P _].
    apply Nat.eqb_eq in P. apply String.eqb_eq in N. destruct (list_eq_dec _ _ _) as [A1|]; [|discriminate]. rewrite <- L in A1. cbn [Nat.sub] in A1. rewrite Nat.sub_0_r in A1.
    unfold run_method. rewrite P, A1, N, <- seq_shift, groups_shift, groups_seq. unfold bind at 1, lift at 1. cbn [getitem nth_error]. unfold bind at 1, lift at 1.
    destruct args as [|a args]; cbn [List.map piped_call]; [reflexivity|]. unfold bind. destruct (call_name _ _ _ w) as [[f|e] w1]; [|reflexivity]. rewrite staged_app. unfold bind.
    destruct (call_values call_value f _ w1) as [[g|e] w2]; reflexivity.
  Qed.
End Methods.
Lemma methods_shape : forall m, In m (seq_methods ++ parser_methods) -> mshape m = true /\ In (m_class m, m_module m) module_of /\ (forall c, m_wrap m = Some c -> c = m_class m).
Proof.
  intros m I. assert (H : Forall (fun m => mshape m = true /\ In (m_class m, m_module m) module_of /\ (forall c, m_wrap m = Some c -> c = m_class m)) (seq_methods ++ parser_methods)).
  { unfold seq_methods, parser_methods, wrapped. cbn [List.app]. repeat (apply Forall_cons; [repeat split; [cbn; tauto|cbn; intros c [= <-]; reflexivity]|]). apply Forall_nil. }
  rewrite Forall_forall in H. now apply H.
Qed.
