(** Lemmas for C90. *)
From Coq Require Import List Lia.
From Verif.Model Require Import Base OptionResult Identity.
From Verif.Spec Require Import IdentitySpec.
Import ListNotations.
Local Open Scope py_scope.

Section Facts.
  Context {U A : Type}.
  Implicit Types (p : prog U A) (o : oobj A) (w : store U).

  Lemma bind_Ret : forall {X Y} (m : M (store U) X) (f : X -> M (store U) Y) w y w',
    (do x <- m; f x) w = (Ret y, w') -> exists x w1, m w = (Ret x, w1) /\ f x w1 = (Ret y, w').
  Proof. intros X Y m f w y w' E. unfold bind in E. destruct (m w) as [[x|e] w1]; [eauto|discriminate]. Qed.
  Lemma call_next : forall {B} (m : M U B) w, fst (snd (call m w)) = fst w.
  Proof. intros B m w. unfold call. destruct (m (snd w)). reflexivity. Qed.

  (** [strict]: only the singleton is empty; otherwise only the implication that the
      singleton is empty is kept. *)
  Definition good (strict : bool) (o : oobj A) : Prop :=
    (is_nothing o -> empty o) /\ (strict = true -> empty o -> is_nothing o).

  Lemma good_nothing : forall s, good s nothing.
  Proof. intros s. split; reflexivity. Qed.
  Lemma good_new : forall s (c : option A) w o w', 1 <= fst w -> (s = true -> c <> None) -> new c w = (Ret o, w') ->
    good s o /\ fst w <= fst w'.
  Proof.
    intros s c w o w' H N E. unfold new in E. injection E as <- <-. unfold good, is_nothing, empty. cbn.
    split; [split|]; try lia. intros Hs Hc. now specialize (N Hs).
  Qed.

  Lemma obj_map_good : forall s (o : oobj A) (f : A -> M U A) w r w', 1 <= fst w -> obj_map o f w = (Ret r, w') ->
    good s r /\ fst w <= fst w'.
  Proof.
    intros s o f w r w' H E. unfold obj_map in E. destruct (o_case o) as [x|].
    - apply bind_Ret in E. destruct E as (y & w1 & E1 & E2). pose proof (call_next (f x) w) as C. rewrite E1 in C. cbn in C. unfold store in *.
      destruct (good_new s (Some y) w1 r w') as [G L]; auto; try lia; try discriminate. rewrite <- C. auto.
    - injection E as <- <-. split; [apply good_nothing|lia].
  Qed.

  Lemma eval_good : forall s p, (s = true -> ordinary p) -> forall w o w', 1 <= fst w -> eval p w = (Ret o, w') ->
    good s o /\ fst w <= fst w'.
  Proof.
    intros s. induction p as [|x|find|p IH f|p IHp f q IHq|p IHp f q IHq|p IHp f IHf|p IHp q IHq|p IHp q IHq|p IH f| |p IH];
      intros O w o w' H E; cbn [eval] in E.
    - injection E as <- <-. split; [apply good_nothing|lia].
    - apply (good_new s) in E; auto; discriminate.
    - apply bind_Ret in E. destruct E as (c & w1 & E1 & E2). pose proof (call_next find w) as C. rewrite E1 in C. cbn in C. unfold store in *.
      unfold obj_of in E2. destruct c as [x|].
      + apply (good_new s) in E2; try lia; try discriminate. rewrite <- C. auto.
      + injection E2 as <- <-. split; [apply good_nothing|lia].
    - apply bind_Ret in E. destruct E as (o1 & w1 & E1 & E2).
      destruct (IH ltac:(intros S; specialize (O S); inversion O; auto) w o1 w1 H E1) as [_ L].
      destruct (obj_map_good s o1 f w1 o w' ltac:(lia) E2). split; auto; lia.
    - apply bind_Ret in E. destruct E as (o1 & w1 & E1 & E). apply bind_Ret in E. destruct E as (o2 & w2 & E2 & E3).
      destruct (IHp ltac:(intros S; specialize (O S); inversion O; auto) w o1 w1 H E1) as [_ L1].
      destruct (IHq ltac:(intros S; specialize (O S); inversion O; auto) w1 o2 w2 ltac:(lia) E2) as [_ L2].
      unfold obj_map2 in E3. destruct (o_case o1) as [x|]; [destruct (o_case o2) as [y|]|];
        try (injection E3 as <- <-; split; [apply good_nothing|lia]).
      apply bind_Ret in E3. destruct E3 as (z & w3 & E3 & E4). pose proof (call_next (f x y) w2) as C. rewrite E3 in C. cbn in C. unfold store in *.
      apply (good_new s) in E4; try lia; try discriminate. destruct E4. split; auto; lia.
    - apply bind_Ret in E. destruct E as (o1 & w1 & E1 & E). apply bind_Ret in E. destruct E as (o2 & w2 & E2 & E3).
      destruct (IHp ltac:(intros S; specialize (O S); inversion O; auto) w o1 w1 H E1) as [_ L1].
      destruct (IHq ltac:(intros S; specialize (O S); inversion O; auto) w1 o2 w2 ltac:(lia) E2) as [_ L2].
      unfold obj_apply in E3. destruct (o_case o2) as [g|].
      + destruct (obj_map_good s o1 (f g) w2 o w' ltac:(lia) E3). split; auto; lia.
      + injection E3 as <- <-; split; [apply good_nothing|lia].
    - apply bind_Ret in E. destruct E as (o1 & w1 & E1 & E2).
      destruct (IHp ltac:(intros S; specialize (O S); inversion O; auto) w o1 w1 H E1) as [_ L1].
      unfold obj_bind in E2. destruct (o_case o1) as [x|].
      + destruct (IHf x ltac:(intros S; specialize (O S); inversion O; auto) w1 o w' ltac:(lia) E2). split; auto; lia.
      + injection E2 as <- <-; split; [apply good_nothing|lia].
    - apply bind_Ret in E. destruct E as (o1 & w1 & E1 & E). apply bind_Ret in E. destruct E as (o2 & w2 & E2 & E3).
      destruct (IHp ltac:(intros S; specialize (O S); inversion O; auto) w o1 w1 H E1) as [G1 L1].
      destruct (IHq ltac:(intros S; specialize (O S); inversion O; auto) w1 o2 w2 ltac:(lia) E2) as [G2 L2].
      unfold obj_or_else in E3. destruct (o_case o1); injection E3 as <- <-; split; auto; lia.
    - apply bind_Ret in E. destruct E as (o1 & w1 & E1 & E2).
      destruct (IHp ltac:(intros S; specialize (O S); inversion O; auto) w o1 w1 H E1) as [G1 L1].
      unfold obj_or_else_with in E2. destruct (o_case o1).
      + injection E2 as <- <-. split; auto.
      + destruct (IHq ltac:(intros S; specialize (O S); inversion O; auto) w1 o w' ltac:(lia) E2). split; auto; lia.
    - apply bind_Ret in E. destruct E as (o1 & w1 & E1 & E2).
      destruct (IH ltac:(intros S; specialize (O S); inversion O; auto) w o1 w1 H E1) as [G1 L1].
      unfold obj_filter in E2. destruct (o_case o1) as [x|].
      + apply bind_Ret in E2. destruct E2 as (b & w2 & E2 & E3). pose proof (call_next (f x) w1) as C. rewrite E2 in C. cbn in C. unfold store in *.
        destruct b; injection E3 as <- <-; (split; [|lia]); auto using good_nothing.
      + injection E2 as <- <-; split; [apply good_nothing|lia].
    - apply (good_new s) in E; auto. intros S. specialize (O S). inversion O.
    - apply bind_Ret in E. destruct E as (o1 & w1 & E1 & E2).
      assert (Ns : s = false).
      { destruct s; auto. specialize (O eq_refl). inversion O. }
      destruct (IH ltac:(intros S; congruence) w o1 w1 H E1) as [G1 L1].
      unfold obj_copy in E2. apply (good_new s) in E2; try lia; try congruence. destruct E2. split; auto; lia.
  Qed.
End Facts.

Lemma C90_is_pf : forall {U A} (p : prog U A) w o w', ordinary p -> 1 <= fst w -> eval p w = (Ret o, w') ->
  (is_nothing o <-> empty o).
Proof. intros U A p w o w' O H E. destruct (eval_good true p (fun _ => O) w o w' H E) as [[A1 A2] _]. split; auto. Qed.
Lemma C90_only_empty_pf : forall {U A} (p : prog U A) w o w', 1 <= fst w -> eval p w = (Ret o, w') ->
  is_nothing o -> empty o.
Proof.
  intros U A p w o w' H E. destruct (eval_good false p ltac:(discriminate) w o w' H E) as [[A1 A2] _]. auto.
Qed.

(** Forgetting the identities. *)
Definition forgets {U A} (r : res (oobj A) * store U) (v : res (option A) * U) : Prop := rmap o_case (fst r) = fst v /\ snd (snd r) = snd v.
Lemma forgets_bind : forall U A (m : M (store U) (oobj A)) (k : oobj A -> M (store U) (oobj A)) (m' : M U (option A)) (k' : option A -> M U (option A)) n u,
  forgets (m (n, u)) (m' u) -> (forall o n u, forgets (k o (n, u)) (k' (o_case o) u)) -> forgets (bind m k (n, u)) (bind m' k' u).
Proof.
  intros U A m k m' k' n u [H1 H2] K. unfold bind. destruct (m (n, u)) as [[o|e] [n1 u1]], (m' u) as [[v|e'] u2]; cbn in *; try discriminate.
  - injection H1 as <-. subst u2. apply K.
  - injection H1 as <-. subst u2. split; reflexivity.
Qed.
Lemma forgets_call : forall U A (m : M U A) n u, forgets (A := A) ((do y <- call m; new_some y) (n, u)) ((do y <- m; ret (Some y)) u).
Proof. intros U A m n u. unfold call, bind. cbn. destruct (m u) as [[y|e] u1]; split; reflexivity. Qed.
Lemma eval_value : forall U A (p : prog U A) n u, forgets (eval p (n, u)) (value p u).
Proof.
  assert (R : forall U A (o : oobj A) n (u : U) v, o_case o = v -> forgets (ret o (n, u)) (ret v u)) by (intros U A o n u v <-; split; reflexivity).
  intros U A p. induction p as [|x|f|p IH f|p IH f q IHq|p IH run q IHq|p IH f IHf|p IH q IHq|p IH q IHq|p IH f| |p IH]; intros n u; cbn [eval value].
  - now apply R.
  - split; reflexivity.
  - unfold call, bind, obj_of. cbn. destruct (f u) as [[[y|]|e] u1]; split; reflexivity.
  - apply forgets_bind; [apply IH|]. intros o n1 u1. unfold obj_map, opt_map. destruct (o_case o); [apply forgets_call|now apply R].
  - apply forgets_bind; [apply IH|]. intros o n1 u1. apply (forgets_bind _ _ _ _ _ (fun other => opt_map2 (o_case o) f other)); [apply IHq|]. intros o2 n2 u2.
    unfold obj_map2, opt_map2. destruct (o_case o), (o_case o2); [apply forgets_call|now apply R..].
  - apply forgets_bind; [apply IH|]. intros o n1 u1. apply (forgets_bind _ _ _ _ _ (fun f => opt_apply (o_case o) (option_map run f))); [apply IHq|]. intros o2 n2 u2.
    unfold obj_apply, opt_apply, obj_map, opt_map. destruct (o_case o2); cbn; [|now apply R]. destruct (o_case o); [apply forgets_call|now apply R].
  - apply forgets_bind; [apply IH|]. intros o n1 u1. unfold obj_bind, opt_bind. destruct (o_case o); [apply IHf|now apply R].
  - apply forgets_bind; [apply IH|]. intros o n1 u1. apply (forgets_bind _ _ _ _ _ (fun other => ret (opt_or_else (o_case o) other))); [apply IHq|]. intros o2 n2 u2.
    unfold obj_or_else, opt_or_else. destruct (o_case o) eqn:E; now apply R.
  - apply forgets_bind; [apply IH|]. intros o n1 u1. unfold obj_or_else_with, opt_or_else_with. destruct (o_case o) eqn:E; [now apply R|apply IHq].
  - apply forgets_bind; [apply IH|]. intros o n1 u1. unfold obj_filter, opt_filter, call, bind. destruct (o_case o) eqn:E; [|now apply R]. cbn.
    destruct (f a u1) as [[[|]|e] u2]; split; cbn; congruence.
  - split; reflexivity.
  - specialize (IH n u). unfold bind. destruct (eval p (n, u)) as [[o|e] [n1 u1]], (value p u) as [v u2]; destruct IH as [H1 H2]; cbn in *; split; assumption.
Qed.
