(** Lemmas about Option and Result. *)
From Coq Require Import String List Bool.
From Verif.Model Require Import Base OptionResult.
From Verif.Model Require PyList.
From Verif.Spec Require Import ListM OptionResultSpec.
Import ListNotations.
Local Open Scope py_scope.

(** A callback that records its argument before running. *)
Definition logged {A B} (f : A -> res B) : A -> M (list A) B := fun x w => (f x, w ++ [x]).

Ltac mcase := repeat (unfold meq, bind, ret, raise in *; cbn in *; intros; subst;
  match goal with
  | |- context[match ?f ?x with (_, _) => _ end] => destruct (f x) as [[?|?] ?]; cbn
  | |- context[match ?f ?x ?y with (_, _) => _ end] => destruct (f x y) as [[?|?] ?]; cbn
  | |- context[match ?x with Some _ => _ | None => _ end] => destruct x; cbn
  | |- context[match ?x with Ok _ => _ | Err _ => _ end] => destruct x; cbn
  | |- _ => reflexivity
  end).

Section O.
  Context {W A B C : Type}.

  Lemma opt_functor_pf : forall (o : option A) (f : A -> M W B) (g : B -> M W C),
    opt_map o (fun x => ret x) ==m (ret o : M W (option A)) /\
    (do o1 <- opt_map o f; opt_map o1 g) ==m opt_map o (fun x => do y <- f x; g y).
  Proof. intros [x|] f g; split; intros w; cbn; mcase. Qed.

  Lemma opt_monad_pf : forall (o : option A) (x : A) (f : A -> M W (option B)) (g : B -> M W (option C)),
    opt_bind (Some x) f ==m f x /\
    opt_bind o (fun x => ret (Some x)) ==m (ret o : M W (option A)) /\
    (do o1 <- opt_bind o f; opt_bind o1 g) ==m opt_bind o (fun x => do o1 <- f x; opt_bind o1 g).
  Proof. intros [y|] x f g; repeat split; intros w; cbn; mcase. Qed.

  Lemma opt_map_bind_pf : forall (o : option A) (f : A -> M W B),
    opt_map o f ==m opt_bind o (fun x => do y <- f x; ret (Some y)).
  Proof. intros [y|] f; intros w; reflexivity. Qed.

  Lemma opt_or_else_pf : forall a b c : option A,
    opt_or_else (opt_or_else a b) c = opt_or_else a (opt_or_else b c) /\
    opt_or_else None a = a /\ opt_or_else a None = a /\ (forall x, opt_or_else (Some x) b = Some x).
  Proof. intros [a|] [b|] [c|]; repeat split. Qed.

  Lemma opt_filter_pf : forall (o : option A) (p q : A -> M W bool),
    (do o1 <- opt_filter o p; opt_filter o1 q) ==m
    opt_filter o (fun x => do b <- p x; if b : bool then q x else ret false).
  Proof.
    intros [x|] p q w; cbn; auto. unfold bind, ret. destruct (p x w) as [[[|]|e] w1]; cbn; auto.
  Qed.

  Lemma opt_map2_pf : forall (f : A -> B -> M W C) (a : option A) (b : option B),
    opt_map2 a f b ==m opt_bind a (fun x => opt_map b (fun y => f x y)).
  Proof. intros f [a|] [b|] w; reflexivity. Qed.

  Lemma opt_apply_pf : forall (f : option (A -> M W B)) (a : option A),
    opt_apply a f ==m opt_bind f (fun g => opt_map a g).
  Proof. intros [f|] [a|] w; reflexivity. Qed.
End O.

Lemma opt_calls_pf : forall A B (o : option A) (f : A -> res B) (p : A -> res bool) (g : A -> res (option B)) w,
  snd (opt_map o (logged f) w) = w ++ opt_to_list o /\
  snd (opt_bind o (logged g) w) = w ++ opt_to_list o /\
  snd (opt_filter o (logged p) w) = w ++ opt_to_list o.
Proof.
  intros A B [x|] f p g w; cbn; unfold bind, logged; rewrite ?app_nil_r; repeat split.
  - destruct (f x); reflexivity.
  - destruct (p x) as [[|]|]; reflexivity.
Qed.

Section R.
  Context {W A B C E F G : Type}.

  Lemma res_functor_pf : forall (r : result A E) (f : A -> M W B) (g : B -> M W C),
    res_map r (fun x => ret x) ==m (ret r : M W (result A E)) /\
    (do r1 <- res_map r f; res_map r1 g) ==m res_map r (fun x => do y <- f x; g y).
  Proof. intros [x|e] f g; split; intros w; cbn; mcase. Qed.

  Lemma res_functor_error_pf : forall (r : result A E) (f : E -> M W F) (g : F -> M W G),
    res_map_error r (fun x => ret x) ==m (ret r : M W (result A E)) /\
    (do r1 <- res_map_error r f; res_map_error r1 g) ==m res_map_error r (fun x => do y <- f x; g y).
  Proof. intros [x|e] f g; split; intros w; cbn; mcase. Qed.

  Lemma res_monad_pf : forall (r : result A E) (x : A) (f : A -> M W (result B E)) (g : B -> M W (result C E)),
    res_bind (Ok x) f ==m f x /\
    res_bind r (fun x => ret (Ok x)) ==m (ret r : M W (result A E)) /\
    (do r1 <- res_bind r f; res_bind r1 g) ==m res_bind r (fun x => do r1 <- f x; res_bind r1 g).
  Proof. intros [y|e] x f g; repeat split; intros w; cbn; mcase. Qed.

  Lemma res_error_through_pf : forall (e d : E) (f : A -> M W B) (g : A -> M W (result B E)) (p : A -> M W bool) (h : A -> M W E),
    res_map (Err e) f ==m ret (Err e) /\
    res_bind (Err e) g ==m ret (Err e) /\
    res_filter (Err e) p d ==m ret (Err e) /\
    res_filter_with (Err e) p h ==m ret (Err e).
  Proof. repeat split. Qed.

  Lemma res_swap_pf : forall (r : result A E) (f : E -> M W F),
    res_swap (res_swap r) = r /\
    res_is_ok (res_swap r) = res_is_error r /\
    res_map_error r f ==m (do r1 <- res_map (res_swap r) f; ret (res_swap r1)).
  Proof. intros [x|e] f; repeat split; intros w; cbn; mcase. Qed.

  Lemma res_map2_pf : forall (f : A -> B -> M W C) (a : result A E) (b : result B E),
    res_map2 a b f ==m res_bind a (fun x => res_map b (fun y => f x y)).
  Proof. intros f [a|e] [b|e']; repeat split; intros w; reflexivity. Qed.

  Lemma res_apply_pf : forall (f : result (A -> M W B) E) (a : result A E),
    res_apply a f ==m res_bind f (fun g => res_map a g).
  Proof. intros [f|e] [a|e']; repeat split; intros w; reflexivity. Qed.

  Lemma res_or_else_pf : forall a b c : result A E,
    res_or_else (res_or_else a b) c = res_or_else a (res_or_else b c) /\
    (res_is_ok a = true -> res_or_else a b = a) /\ (res_is_ok a = false -> res_or_else a b = b).
  Proof. intros [a|a] [b|b] [c|c]; repeat split; intros; try discriminate; auto. Qed.
End R.

Lemma map2_chain_pf : forall W A E (rs : list (result A E)) (w : W),
  foldM (fun acc r => res_map2 acc r (fun xs x => ret (xs ++ [x]))) (Ok []) rs w = (Ret (all_ok rs), w).
Proof.
  intros W A E rs w.
  assert (G : forall rs (acc : result (list A) E),
    foldM (fun acc r => res_map2 acc r (fun xs x => ret (xs ++ [x]))) acc rs w =
    (Ret match acc with
         | Ok xs => match all_ok rs with Ok ys => Ok (xs ++ ys) | Err e => Err e end
         | Err e => Err e
         end, w)).
  { clear rs. induction rs as [|r rs IH]; intros acc; cbn.
    - destruct acc; cbn; rewrite ?app_nil_r; reflexivity.
    - unfold bind. destruct acc as [xs|e]; cbn.
      + destruct r as [x|e]; cbn.
        * rewrite IH. destruct (all_ok rs); cbn; rewrite <- ?app_assoc; reflexivity.
        * rewrite IH. reflexivity.
      + rewrite IH. reflexivity. }
  rewrite G. destruct (all_ok rs); reflexivity.
Qed.

Lemma bind_chain_pf : forall W A E (fs : list (A -> M W (result A E))) (x : A),
  foldM (fun r f => res_bind r f) (Ok x) fs ==m while_ok x fs.
Proof.
  intros W A E. induction fs as [|f fs IH]; intros x w; cbn; auto.
  unfold bind. destruct (f x w) as [[[y|e]|e] w1]; cbn.
  3: reflexivity.
  - apply IH.
  - clear IH. revert w1. induction fs as [|g fs IH]; intros w1; cbn; auto.
Qed.

Lemma conversions_pf : forall A E (o : option A) (r : result A E) (e : E),
  res_to_option (res_of_option o e) = o /\
  res_to_option (opt_to_result o e) = o /\
  opt_is_some (opt_of_result r) = res_is_ok r /\
  opt_of_result r = res_to_option r /\
  opt_is_none o = negb (opt_is_some o) /\
  (forall x, opt_value o = Ret x <-> o = Some x) /\
  (opt_value o = Raise ValueError <-> o = None).
Proof.
  intros A E [x|] [y|e'] e; repeat split; intros; cbn in *; try congruence.
Qed.

Lemma optional_round_trip_pf : forall A (o : option (pyopt A)),
  opt_of_optional (opt_to_optional o) = o <-> o <> Some PyNone.
Proof. intros A [[|x]|]; cbn; split; intros; try congruence. Qed.

Lemma optional_inverse_pf : forall A (v : pyopt A), opt_to_optional (opt_of_optional v) = v.
Proof. intros A [|x]; reflexivity. Qed.

Lemma opt_fallback_pf : forall W A E (o : option A) (v : A) (g : unit -> M W A) (h : unit -> M W (option A)) (e : unit -> M W E) x,
  opt_default_value (Some x) v = x /\ opt_default_value None v = v /\
  opt_default_with (Some x) g ==m ret x /\ opt_default_with None g ==m g tt /\
  opt_or_else_with (Some x) h ==m ret (Some x) /\ opt_or_else_with None h ==m h tt /\
  opt_to_result_with (Some x) e ==m ret (Ok x) /\ opt_to_result_with (A := A) None e ==m (do y <- e tt; ret (Err y)).
Proof. intros; repeat split. Qed.

Lemma res_fallback_pf : forall W A E (v : A) (g : E -> M W A) (h : E -> M W (result A E)) (m : result A A) x e,
  res_default_value (E := E) (Ok x) v = x /\ res_default_value (Err e) v = v /\
  res_default_with (Ok x) g ==m ret x /\ res_default_with (Err e) g ==m g e /\
  res_or_else_with (Ok x) h ==m ret (Ok x) /\ res_or_else_with (Err e) h ==m h e /\
  res_merge m ==m (ret (match m with Ok y => y | Err y => y end) : M W A).
Proof. intros; repeat split. intros w; destruct m; reflexivity. Qed.

Lemma res_filter_pf : forall W A E (x : A) (p : A -> M W bool) (d : E) (h : A -> M W E) w w1,
  (p x w = (Ret true, w1) -> res_filter (Ok x) p d w = (Ret (Ok x), w1) /\ res_filter_with (Ok x) p h w = (Ret (Ok x), w1)) /\
  (p x w = (Ret false, w1) -> res_filter (Ok x) p d w = (Ret (Err d), w1) /\
     res_filter_with (Ok x) p h w = (do e <- h x; ret (Err e)) w1) /\
  (forall e, p x w = (Raise e, w1) -> res_filter (Ok x) p d w = (Raise e, w1) /\ res_filter_with (Ok x) p h w = (Raise e, w1)).
Proof. intros. cbn. unfold bind. repeat split; intros; rewrite H; reflexivity. Qed.

Lemma result_dict_pf : forall W A D (str : string -> D) (dump : A -> M W D) (r : result A A) w,
  res_dict str dump r w = match r with
    | Ok v => (rmap (fun d => [("tag", str "ok"); ("ok", d)]) (fst (dump v w)), snd (dump v w))
    | Err v => (rmap (fun d => [("tag", str "error"); ("error", d)]) (fst (dump v w)), snd (dump v w))
    end%string.
Proof. intros W A D str dump [v|v] w; cbn; unfold bind; destruct (dump v w) as [[]]; reflexivity. Qed.
Lemma dict_injective_pf : forall W A D (str : string -> D) (dump : A -> D) (r1 r2 : result A A) (w : W),
  (forall x y, dump x = dump y -> x = y) ->
  res_dict str (fun x => ret (dump x)) r1 w = res_dict str (fun x => ret (dump x)) r2 w -> r1 = r2.
Proof. intros W A D str dump [x|x] [y|y] w I Q; cbn in Q; unfold bind, ret in Q; cbn in Q; try discriminate; injection Q; intros G; apply I in G; congruence. Qed.
Lemma opt_dict_pf : forall W A (dump : A -> pyopt A) (o1 o2 : option A) (w : W),
  (forall x y, dump x = dump y -> x = y) -> (forall x, dump x <> PyNone) ->
  rmap opt_plain (fst (opt_dict (fun x => ret (dump x)) o1 w)) = rmap opt_plain (fst (opt_dict (fun x => ret (dump x)) o2 w)) -> o1 = o2.
Proof.
  intros W A dump [x|] [y|] w I N Q; cbn in Q; [| | |reflexivity]; injection Q as G;
    [apply I in G; congruence|exfalso; eapply N; exact G|exfalso; symmetry in G; eapply N; exact G].
Qed.

Lemma opt_starmap_pf : forall W A B (f : list A -> M W B) (args : list A) (x : A),
  opt_starmap (Some (PyList.Args args)) f ==m opt_map (Some args) f /\
  opt_starmap (Some (PyList.NotIterable x)) f ==m raise TypeError /\
  opt_starmap None f ==m ret None.
Proof. intros W A B f args x. repeat split. Qed.
