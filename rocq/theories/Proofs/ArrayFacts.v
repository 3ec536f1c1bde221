(** Lemmas about TypedArray. *)
From Coq Require Import List ZArith Bool Lia.
From Verif.Model Require Import Base PyList OptionResult Array.
From Verif.Model Require Block.
From Verif.Spec Require Import ListM BlockSpec ArraySpec.
From Verif.Proofs Require Import BlockFacts.
Import ListNotations.
Local Open Scope py_scope.

Lemma between_iff : forall n r, between n r = true <-> (fst r <= n <= snd r)%Z.
Proof. intros n [a b]; unfold between; rewrite andb_true_iff, !Z.leb_le; cbn; tauto. Qed.
Lemma between_no : forall n r, between n r = false <-> ~ (fst r <= n <= snd r)%Z.
Proof. intros n r. rewrite <- between_iff. destruct (between n r); split; congruence. Qed.

Section A.
  Context {F U : Type} `{Floats F}.
  Variable long64 : bool.
  Notation val := (pyval F U).
  Notation store := (store (U := U) long64).
  Notation store_all := (store_all (U := U) long64).

  Lemma store_all_cons : forall k v vs xs, store_all k (v :: vs) = Ret xs ->
    exists x ys, store k v = Ret x /\ store_all k vs = Ret ys /\ xs = x :: ys.
  Proof.
    intros k v vs xs E. cbn [Array.store_all] in E.
    destruct (store k v) as [x|e]; [|discriminate]. cbn in E.
    destruct (store_all k vs) as [ys|e]; [|discriminate]. cbn in E.
    inversion E; eauto.
  Qed.

  (** Values read back are stored again unchanged. *)
  Lemma store_idem : forall k v x, store k v = Ret x -> store k x = Ret x.
  Proof.
    intros [| |c] v x E; cbn [Array.store] in *.
    - reflexivity.
    - destruct v as [o n|o y|u]; try discriminate. destruct (between n (0, 255)%Z) eqn:B; [|discriminate].
      inversion E; subst; clear E. cbn [Array.store]. rewrite B; reflexivity.
    - unfold Array.store in *. destruct (code_range long64 c) as [r|] eqn:R.
      + destruct v as [o n|o y|u]; try discriminate. destruct (between n r) eqn:B; [|discriminate].
        inversion E; subst; clear E. rewrite B; reflexivity.
      + destruct v as [o n|o y|u]; try discriminate.
        * destruct (of_int n) as [y|]; [|discriminate]. cbn in E. inversion E; subst; clear E.
          destruct c; cbn; try rewrite round32_idem; reflexivity.
        * inversion E; subst; clear E. destruct c; cbn; try rewrite round32_idem; reflexivity.
  Qed.
  Definition kept (k : kind) (vs : list val) : Prop := Forall (fun v => store k v = Ret v) vs.
  Lemma store_all_kept : forall k vs xs, store_all k vs = Ret xs -> kept k xs.
  Proof.
    intros k vs; induction vs as [|v vs IH]; intros xs E.
    - inversion E; constructor.
    - destruct (store_all_cons _ _ _ _ E) as (x & ys & E1 & E2 & ->). constructor; [eapply store_idem; eauto|apply IH; exact E2].
  Qed.
  Lemma kept_store_all : forall k vs, kept k vs -> store_all k vs = Ret vs.
  Proof.
    intros k vs; induction 1 as [|v vs E _ IH]; [reflexivity|]. cbn [Array.store_all]. rewrite E; cbn. rewrite IH; reflexivity.
  Qed.
  Lemma kept_list : forall vs, kept KList vs.
  Proof. intros vs; unfold kept; induction vs; constructor; auto. Qed.
  Lemma kept_plain : forall k vs, k <> KList -> kept k vs -> Forall plain vs.
  Proof.
    intros k vs N. unfold kept. apply Forall_impl. intros v E.
    destruct k as [| |c]; [congruence| |]; cbn [Array.store] in E.
    - destruct v as [o n|o y|u]; try discriminate. destruct (between _ _); [|discriminate]. injection E; intros; subst. exact I.
    - destruct (code_range long64 c) as [r|].
      + destruct v as [o n|o y|u]; try discriminate. destruct (between _ _); [|discriminate]. injection E; intros; subst. exact I.
      + destruct v as [o n|o y|u]; try discriminate.
        * destruct (of_int n); discriminate.
        * injection E; intros; subst. exact I.
  Qed.

  Lemma bytes_kept : forall bs, is_bytes bs -> kept KBytes bs.
  Proof.
    intros bs. apply Forall_impl. intros v (n & -> & R). unfold unsigned in R. cbn [Array.store].
    replace (between n (0, 255)%Z) with true; [reflexivity|]. symmetry. apply between_iff. cbn.
    change (2 ^ 8)%Z with 256%Z in R. lia.
  Qed.

  (** How typecode and storage belong together. *)
  Definition consistent (tc : typecode) (k : kind) : Prop :=
    k = kind_of_typecode tc \/ (tc = TInt64 /\ k = KArr Cl).
  Lemma infer_consistent : forall v : val, consistent (snd (infer v)) (fst (infer v)).
  Proof. intros [[[]|] n|[[]|] x|u]; cbn; unfold consistent; cbn; auto. Qed.
  Definition ok (a : tarray F U) : Prop := consistent (a_type a) (a_kind a) /\ kept (a_kind a) (a_elems a).

  Lemma from_init_ok : forall i a, proper i -> array_from_initializer long64 i = Ret a -> ok a.
  Proof.
    intros [bs|bs|[|v vs]] a P E; cbn in E.
    - injection E; intros; subst. split; [left; reflexivity|apply bytes_kept; exact P].
    - injection E; intros; subst. split; [left; reflexivity|apply bytes_kept; exact P].
    - injection E; intros; subst. split; [left; reflexivity|apply kept_list].
    - fold (store_all (fst (infer v)) (v :: vs)) in E.
      change (rbind (store_all (fst (infer v)) (v :: vs)) (fun xs => Ret (TArray (fst (infer v)) xs (snd (infer v)))) = Ret a) in E.
      destruct (store_all (fst (infer v)) (v :: vs)) as [xs|] eqn:S; [|discriminate].
      injection E; intros; subst. split; [apply infer_consistent|]. eapply store_all_kept; eauto.
  Qed.
  Lemma from_tc_ok : forall tc vs a, array_from_typecode long64 tc vs = Ret a -> ok a /\ a_type a = tc.
  Proof.
    intros tc vs a E. unfold array_from_typecode in E.
    destruct (store_all (kind_of_typecode tc) vs) as [xs|] eqn:S; [|discriminate].
    cbn in E. injection E; intros; subst. split; [|reflexivity]. split; [left; reflexivity|]. eapply store_all_kept; eauto.
  Qed.
  Lemma new_ok : forall i tc a, proper i -> new long64 i tc = Ret a -> ok a.
  Proof.
    intros i [tc|] a P E; unfold new in E; [apply (from_tc_ok tc (init_elems i)); exact E|eapply from_init_ok; eauto].
  Qed.

  (** mutations *)
  Lemma kept_app : forall k xs ys, kept k xs -> kept k ys -> kept k (xs ++ ys).
  Proof. intros; apply Forall_app; auto. Qed.
  Lemma kept_firstn : forall k n xs, kept k xs -> kept k (firstn n xs).
  Proof. intros k n xs K. rewrite <- (firstn_skipn n xs) in K. apply Forall_app in K. tauto. Qed.
  Lemma kept_skipn : forall k n xs, kept k xs -> kept k (skipn n xs).
  Proof. intros k n xs K. rewrite <- (firstn_skipn n xs) in K. apply Forall_app in K. tauto. Qed.
  Lemma kept_put : forall k v x n m xs, store k v = Ret x -> kept k xs -> kept k (firstn n xs ++ x :: skipn m xs).
  Proof. intros. apply kept_app; [apply kept_firstn; auto|]. constructor; [eapply store_idem; eauto|apply kept_skipn; auto]. Qed.

  Lemma insert_ok : forall a i v, ok a -> ok (snd (insert long64 a i v)).
  Proof.
    intros a i v [C K]. unfold insert. destruct (store (a_kind a) v) as [x|e] eqn:E; [|split; auto].
    split; [exact C|]. cbn. eapply kept_put; eauto.
  Qed.
  Lemma extend_ok : forall vs a, ok a -> ok (snd (extend long64 a vs)).
  Proof.
    induction vs as [|v vs IH]; intros a O; [exact O|]. cbn [extend].
    pose proof (insert_ok a (Z.of_nat (length (a_elems a))) v O) as O1. unfold append.
    destruct (insert long64 a (Z.of_nat (length (a_elems a))) v) as [[|] b]; [apply IH; exact O1|exact O1].
  Qed.
  Lemma kept_omit : forall k is xs i, kept k xs -> kept k (omit is i xs).
  Proof.
    intros k is. induction xs as [|x xs IH]; intros i K; [exact K|]. inversion K; subst. cbn [omit]. destruct (existsb _ is); [apply IH; auto|]. constructor; auto. apply IH; auto.
  Qed.
  Lemma kept_overwrite : forall k is ys xs, kept k ys -> kept k xs -> kept k (overwrite is ys xs).
  Proof.
    intros k. induction is as [|i is IH]; intros [|y ys] xs Ky Kx; try exact Kx. inversion Ky; subst. cbn [overwrite]. apply IH; auto.
    apply kept_app; [apply kept_firstn; exact Kx|]. constructor; auto. apply kept_skipn; exact Kx.
  Qed.
  Lemma acode_eqb_eq : forall c d, acode_eqb c d = true -> c = d.
  Proof. intros [] []; cbn; congruence. Qed.
  Lemma source_kept : forall k src ys, source_elems long64 k src = Ret ys -> kept k ys.
  Proof.
    intros [| |d] [c vs raw|vs] ys E; cbn in E; try discriminate.
    - unfold kept. apply Forall_forall. reflexivity.
    - unfold kept. apply Forall_forall. reflexivity.
    - injection E as <-. unfold kept, memory. apply Forall_map, Forall_forall. intros n _. cbn [store]. unfold between. cbn [fst snd].
      pose proof (Z.mod_pos_bound n 256 ltac:(lia)). destruct (Z.leb_spec 0 (n mod 256)), (Z.leb_spec (n mod 256) 255); try lia. reflexivity.
    - eapply store_all_kept; eauto.
    - destruct (store_all (KArr c) vs) as [xs|] eqn:Q; [|discriminate]. destruct (acode_eqb c d) eqn:D; [|discriminate]. apply acode_eqb_eq in D. subst d. injection E as <-.
      eapply store_all_kept; eauto.
  Qed.
  Lemma setslice_ok : forall a s t k src, ok a -> ok (snd (setslice long64 a s t k src)).
  Proof.
    intros a s t k src [C K]. unfold setslice. destruct (match src with SArray c vs _ => store_all (KArr c) vs | SIter vs => Ret vs end); [|split; auto].
    destruct (slice_positions _ _ _ _) as [is|]; [|split; auto]. destruct (source_elems _ _ src) as [ys|] eqn:E; [|split; auto]. apply source_kept in E.
    destruct (match k with None => true | Some k => Z.eqb k 1 end).
    - split; auto. apply kept_app; [apply kept_firstn; exact K|]. apply kept_app; [exact E|apply kept_skipn; exact K].
    - destruct (a_kind a) eqn:Q, ys; try (destruct (Nat.eqb _ _)); cbn [snd]; split; auto; cbn [a_kind a_elems with_elems]; rewrite ?Q; try apply kept_omit; try apply kept_overwrite; auto.
  Qed.
  Lemma mutate_ok : forall m a, ok a -> ok (mutate long64 m a).
  Proof.
    intros [i v|i v|i|s t|v|vs|i|s t k|s t k src] a O; cbn [mutate].
    - destruct O as [C K]. unfold setitem. destruct (position _ i) as [p|], (store (a_kind a) v) as [x|e] eqn:E; split; auto.
      apply (kept_put _ v x p (S p)); auto.
    - apply insert_ok; exact O.
    - destruct O as [C K]. unfold delitem. destruct (position _ i); split; auto. apply kept_app; [apply kept_firstn|apply kept_skipn]; exact K.
    - destruct O as [C K]. split; auto. apply kept_app; [apply kept_firstn|apply kept_skipn]; exact K.
    - apply insert_ok; exact O.
    - apply extend_ok; exact O.
    - unfold pop. destruct (item a i); [|exact O]. destruct O as [C K]. unfold delitem. destruct (position _ i); split; auto.
      apply kept_app; [apply kept_firstn|apply kept_skipn]; exact K.
    - destruct O as [C K]. unfold delstep. destruct (slice_positions _ _ _ _); split; auto. apply kept_omit; exact K.
    - apply setslice_ok; exact O.
  Qed.
  Lemma made_ok : forall a : tarray F U, made long64 a -> ok a.
  Proof. induction 1; [eapply new_ok; eauto|apply mutate_ok; auto]. Qed.

  (** Construction keeps plain elements. *)
  Lemma from_plain : forall vs : list val, plain_first vs -> array_from_initializer long64 (FromIter vs) = Ret (TArray KList vs TAny).
  Proof.
    intros [|v vs] P; [reflexivity|]. unfold array_from_initializer.
    replace (infer v) with (KList, TAny) by (destruct v as [[]| [] |]; cbn in *; tauto).
    cbn [fst snd]. rewrite (kept_store_all KList (v :: vs)) by apply kept_list. reflexivity.
  Qed.
  Lemma Forall_plain_first : forall vs : list val, Forall plain vs -> plain_first vs.
  Proof. intros vs [|v l P _]; [exact I|exact P]. Qed.
  Lemma made_plain : forall a : tarray F U, made long64 a -> a_kind a <> KList -> Forall plain (a_elems a).
  Proof. intros a D N. eapply kept_plain; eauto. apply made_ok; auto. Qed.
  Lemma Forall_slice : forall A (P : A -> Prop) xs s t, Forall P xs -> Forall P (slice xs s t).
  Proof.
    intros A P xs s t Fa. unfold slice.
    assert (S : forall n, Forall P (skipn n xs)) by (intros n; rewrite <- (firstn_skipn n xs) in Fa; apply Forall_app in Fa; tauto).
    match goal with |- Forall P (firstn ?n (skipn ?m xs)) => specialize (S m); rewrite <- (firstn_skipn n (skipn m xs)) in S; apply Forall_app in S; tauto end.
  Qed.
  Lemma rewrap_pf : forall (a : tarray F U) s t, made long64 a -> Forall plain (a_elems a) ->
    exists b, rewrap long64 (a_kind a) (slice (a_elems a) s t) = Ret b /\ a_elems b = slice (a_elems a) s t.
  Proof.
    intros a s t D P. unfold rewrap.
    assert (E := from_plain _ (Forall_plain_first _ (Forall_slice _ _ _ s t P))).
    destruct (a_kind a) as [| |c]; [rewrite E|cbn [array_from_initializer]|rewrite E]; eexists; split; reflexivity.
  Qed.

  Lemma slice_pf : forall (a : tarray F U) n, made long64 a -> Forall plain (a_elems a) ->
    (exists b, take long64 a n = Ret b /\ a_elems b = slice (a_elems a) None (Some n)) /\
    (exists b, skip long64 a n = Ret b /\ a_elems b = slice (a_elems a) (Some n) None) /\
    (exists b, take_last long64 a n = Ret b /\ a_elems b = slice (a_elems a) (Some (- n)%Z) None) /\
    (exists b, skip_last long64 a n = Ret b /\ a_elems b = slice (a_elems a) None (Some (- n)%Z)).
  Proof. intros; repeat split; apply rewrap_pf; auto. Qed.

  Lemma C34_slices_pf : forall (a : tarray F U) n, made long64 a -> Forall plain (a_elems a) ->
    exists t s, take long64 a n = Ret t /\ skip long64 a n = Ret s /\ a_elems t ++ a_elems s = a_elems a /\
      ((0 <= n)%Z -> a_elems t = firstn (Z.to_nat n) (a_elems a)) /\
      ((1 <= n)%Z -> exists t' s', take_last long64 a n = Ret t' /\ skip_last long64 a n = Ret s' /\
        a_elems s' ++ a_elems t' = a_elems a /\ a_elems t' = skipn (length (a_elems a) - Z.to_nat n) (a_elems a)).
  Proof.
    intros a n D P. destruct (slice_pf a n D P) as ((t & Et & Lt) & (s & Es & Ls) & (t' & Et' & Lt') & (s' & Es' & Ls')).
    exists t, s. rewrite Lt, Ls. repeat split; auto.
    - apply (C20_split_pf _ (a_elems a) n).
    - intros N. apply (C20_first_pf _ (a_elems a) n N).
    - intros N. exists t', s'. rewrite Lt', Ls'. destruct (C21_pf _ (a_elems a) n N) as (A1 & A2 & A3 & A4). repeat split; auto.
  Qed.

  Lemma tail_head_pf : forall a : tarray F U, made long64 a -> Forall plain (a_elems a) ->
    match a_elems a with
    | [] => head a = Raise ValueError /\ tail long64 a = Raise ValueError /\ try_head a = None /\ is_empty a = true
    | x :: xs => head a = Ret x /\ (exists b, tail long64 a = Ret b /\ a_elems b = xs) /\ try_head a = Some x /\ is_empty a = false
    end.
  Proof.
    intros a D P. unfold head, tail, try_head, is_empty. destruct (a_elems a) as [|x xs]; [repeat split|].
    inversion P; subst. repeat split. rewrite from_plain by (apply Forall_plain_first; auto). eexists; split; reflexivity.
  Qed.
End A.
