(** Lemmas about stacked decorators. *)
From Coq Require Import List Bool Lia.
From Verif.Model Require Import Base Decorate.
From Verif.Spec Require Import DecorateSpec.
Import ListNotations.
Local Open Scope list_scope.

Section Facts.
  Context {W : Type} (kind_of : nat -> kind) (body : nat -> list value -> M W value) (computation : nat -> list value -> M W (value + value)).
  Notation call := (call kind_of body computation).
  Notation trampoline := (trampoline kind_of body computation).
  Notation gives := (gives kind_of body computation).
  Notation await := (await kind_of body computation).
  (** ** One unfolding *)
  Lemma call_S : forall n f args, call (S n) f args =
    match f with
    | User i => match kind_of i with PlainFn => body i args | AsyncFn => ret (VCoro (User i) args) | GenFn => ret (VGen i args) end
    | Catch c f => catching c (call n f args)
    | Tailrec f => bind (call n f args) (trampoline n f)
    | TailrecAsync f => ret (VCoro (TailrecAsync f) args)
    | Curried args0 arity f => match arity with 1 => call n f (args0 ++ args) | _ => ret (VFun (Curried (args0 ++ args) (arity - 1) f)) end
    | EffResult f => bind (call n f args) (fun v => match v with VGen i a => bind (computation i a) (fun r => ret (of_computation r)) | v => ret (returned v) end)
    | EffAsync f => ret (VCoro (EffAsync f) args)
    end.
  Proof. reflexivity. Qed.
  Lemma tramp_S : forall n f v, trampoline (S n) f v = match v with VTail args => bind (call n f args) (trampoline n f) | v => ret v end.
  Proof. reflexivity. Qed.
  Lemma await_S : forall n v, await (S n) v =
    match v with
    | VCoro (User i) args => body i args
    | VCoro (TailrecAsync f) args => bind (call n f args) (fun r => bind (await n r) (trampoline_async kind_of body computation n f))
    | VCoro (EffAsync f) args => bind (call n f args) (fun v => match v with VCoro _ _ => bind (await n v) (fun r => ret (returned r)) | v => ret (returned v) end)
    | _ => raise TypeError
    end.
  Proof. reflexivity. Qed.
  (** ** More fuel changes nothing *)
  Lemma more : forall n, (forall f args w o w1 m, call n f args w = (o, w1) -> o <> Raise OutOfFuel -> n <= m -> call m f args w = (o, w1)) /\
    (forall f v w o w1 m, trampoline n f v w = (o, w1) -> o <> Raise OutOfFuel -> n <= m -> trampoline m f v w = (o, w1)).
  Proof.
    induction n as [|n [IC IT]]; split; intros; try (cbn in H; unfold raise in H; congruence); destruct m as [|m]; try lia.
    - destruct f as [i|c f|f|f|args0 a f|f|f]; rewrite call_S in *; auto.
      + unfold catching in *. destruct (call n f args w) as [[v|e] w2] eqn:E.
        * rewrite (IC _ _ _ _ _ m E) by (congruence || lia). exact H.
        * destruct (match e with OutOfFuel => true | _ => false end) eqn:Q; [destruct e; try discriminate; congruence|].
          rewrite (IC _ _ _ _ _ m E) by (try lia; intros X; injection X; intros; subst; discriminate). exact H.
      + unfold bind in *. destruct (call n f args w) as [[v|e] w2] eqn:E.
        * rewrite (IC _ _ _ _ _ m E) by (congruence || lia). apply (IT _ _ _ _ _ m H); auto; lia.
        * rewrite (IC _ _ _ _ _ m E) by (congruence || lia). exact H.
      + destruct a as [|[|a]]; auto. apply (IC _ _ _ _ _ m H); auto; lia.
      + unfold bind in *. destruct (call n f args w) as [[v|e] w2] eqn:E; rewrite (IC _ _ _ _ _ m E) by (congruence || lia); exact H.
    - rewrite tramp_S in *. destruct v; auto. unfold bind in *. destruct (call n f args w) as [[v|e] w2] eqn:E.
      + rewrite (IC _ _ _ _ _ m E) by (congruence || lia). apply (IT _ _ _ _ _ m H); auto; lia.
      + rewrite (IC _ _ _ _ _ m E) by (congruence || lia). exact H.
  Qed.
  Lemma gives_fun : forall f args w o w1 o2 w2, gives f args w o w1 -> gives f args w o2 w2 -> o = o2 /\ w1 = w2.
  Proof.
    intros f args w o w1 o2 w2 [N [n E]] [N2 [m E2]].
    pose proof (proj1 (more n) _ _ _ _ _ (n + m) E N ltac:(lia)). pose proof (proj1 (more m) _ _ _ _ _ (n + m) E2 N2 ltac:(lia)). split; congruence.
  Qed.
  Definition is_fuel (e : exn) : bool := match e with OutOfFuel => true | _ => false end.
  Lemma fuel_dec : forall (o : res value), o = Raise OutOfFuel \/ o <> Raise OutOfFuel.
  Proof. intros [v|e]; [now right|]. destruct (is_fuel e) eqn:Q; [left; destruct e; try discriminate; reflexivity|right; intros H; injection H; intros; subst; discriminate]. Qed.
  (** ** One decorator *)
  Definition caught (c : exn -> bool) (o : res value) : res value :=
    match o with Ret v => Ret (as_result v) | Raise e => if c e then Ret (VError (VExn e)) else Raise e end.
  Lemma catching_eq : forall c (m : M W value) w o w1, m w = (o, w1) -> o <> Raise OutOfFuel -> catching c m w = (caught c o, w1).
  Proof.
    intros c m w o w1 E N. unfold catching. rewrite E. destruct o as [v|e]; [destruct v; reflexivity|]. cbn.
    destruct (is_fuel e) eqn:Q; [destruct e; try discriminate; congruence|]. destruct e; try discriminate; destruct (c _); reflexivity.
  Qed.
  Lemma caught_fuel : forall c o, o <> Raise OutOfFuel -> caught c o <> Raise OutOfFuel.
  Proof. intros c [v|e] N; cbn; [discriminate|]. destruct (c e); [discriminate|exact N]. Qed.
  Lemma gives_catch : forall c f args w o w1, gives (Catch c f) args w o w1 <-> exists o0, gives f args w o0 w1 /\ o = caught c o0.
  Proof.
    intros c f args w o w1. split.
    - intros [N [[|n] E]]; [cbn in E; unfold raise in E; congruence|]. rewrite call_S in E. destruct (call n f args w) as [o0 w0] eqn:E0.
      destruct (fuel_dec o0) as [->|N0].
      + unfold catching in E. rewrite E0 in E. congruence.
      + rewrite (catching_eq _ _ _ _ _ E0 N0) in E. injection E; intros; subst. exists o0. repeat split; auto. exists n. exact E0.
    - intros (o0 & [N [n E]] & ->). split; [now apply caught_fuel|]. exists (S n). rewrite call_S. now apply catching_eq.
  Qed.
  Lemma tramp_loops : forall n f args w o w1, o <> Raise OutOfFuel -> bind (call n f args) (trampoline n f) w = (o, w1) -> loops (gives f) args w o w1.
  Proof.
    assert (G : forall n f v w o w1, o <> Raise OutOfFuel -> trampoline n f v w = (o, w1) ->
      match v with VTail args => loops (gives f) args w o w1 | _ => o = Ret v /\ w1 = w end).
    { induction n as [|n IH]; intros f v w o w1 N E; [cbn in E; unfold raise in E; congruence|]. rewrite tramp_S in E.
      destruct v as [|k|e|v|v|args|g|g args|i args]; try (unfold ret in E; injection E; intros; subst; split; reflexivity).
      unfold bind in E. destruct (call n f args w) as [[v|e] w2] eqn:C.
      - apply IH in E; [|exact N].
        assert (GV : gives f args w (Ret v) w2) by (split; [discriminate|exists n; exact C]).
        destruct v; try (destruct E as [-> ->]; apply l_done; [exact GV|intros [a A]; discriminate]). eapply l_again; [exact GV|exact E].
      - injection E; intros; subst. apply l_raise. split; [exact N|exists n; exact C]. }
    intros n f args w o w1 N E. unfold bind in E. destruct (call n f args w) as [[v|e] w2] eqn:C.
    - apply G in E; [|exact N].
      assert (GV : gives f args w (Ret v) w2) by (split; [discriminate|exists n; exact C]).
      destruct v; try (destruct E as [-> ->]; apply l_done; [exact GV|intros [a A]; discriminate]). eapply l_again; [exact GV|exact E].
    - injection E; intros; subst. apply l_raise. split; [exact N|exists n; exact C].
  Qed.
  Lemma loops_tramp : forall f args w o w1, loops (gives f) args w o w1 -> o <> Raise OutOfFuel /\ exists n, bind (call n f args) (trampoline n f) w = (o, w1).
  Proof.
    intros f args w o w1 L. induction L as [args w e w1 [N [n E]]|args w v w1 [N [n E]] T|args w args1 w1 o w2 [N [n E]] L IH].
    - split; [exact N|]. exists n. unfold bind. rewrite E. reflexivity.
    - split; [exact N|]. exists (S n). unfold bind. rewrite (proj1 (more n) _ _ _ _ _ (S n) E N ltac:(lia)). rewrite tramp_S. destruct v; try reflexivity. destruct T; eexists; reflexivity.
    - destruct IH as [N2 [m E2]]. split; [exact N2|]. exists (S (n + m)). unfold bind.
      rewrite (proj1 (more n) _ _ _ _ _ (S (n + m)) E ltac:(congruence) ltac:(lia)). rewrite tramp_S. unfold bind in *.
      destruct (call m f args1 w1) as [[v|e] w3] eqn:C.
      + rewrite (proj1 (more m) _ _ _ _ _ (n + m) C ltac:(congruence) ltac:(lia)). exact (proj2 (more m) _ _ _ _ _ (n + m) E2 N2 ltac:(lia)).
      + injection E2; intros; subst. rewrite (proj1 (more m) _ _ _ _ _ (n + m) C ltac:(congruence) ltac:(lia)). reflexivity.
  Qed.
  Lemma gives_tailrec : forall f args w o w1, gives (Tailrec f) args w o w1 <-> loops (gives f) args w o w1.
  Proof.
    intros f args w o w1. split.
    - intros [N [[|n] E]]; [cbn in E; unfold raise in E; congruence|]. rewrite call_S in E. eapply tramp_loops; eauto.
    - intros L. apply loops_tramp in L. destruct L as [N [n E]]. split; [exact N|]. exists (S n). exact E.
  Qed.
  Lemma gives_user : forall i args w o w1, kind_of i = PlainFn -> (gives (User i) args w o w1 <-> runs body i args w o w1).
  Proof.
    intros i args w o w1 K. split.
    - intros [N [[|n] E]]; [cbn in E; unfold raise in E; congruence|]. cbn in E. rewrite K in E. split; auto.
    - intros [N E]. split; [exact N|]. exists 1. cbn. rewrite K. exact E.
  Qed.
  Lemma loops_ext : forall (a b : list value -> W -> res value -> W -> Prop), (forall args w o w1, a args w o w1 -> b args w o w1) ->
    forall args w o w1, loops a args w o w1 -> loops b args w o w1.
  Proof. intros a b H args w o w1 L. induction L; [apply l_raise|apply l_done|eapply l_again]; eauto. Qed.
  Lemma loops_end : forall once args (w : W) o w1, loops once args w o w1 -> forall v, o = Ret v -> ~ tail_call v.
  Proof. intros once args w o w1 L. induction L as [| |]; intros v0 HV; [discriminate|congruence|auto]. Qed.
  Lemma loops_twice : forall once args (w : W) o w1, loops (loops once) args w o w1 <-> loops once args w o w1.
  Proof.
    intros once args w o w1. split.
    - intros L. induction L as [| |args w args1 w1 o w2 H L IH]; auto. exfalso. eapply loops_end; [exact H|reflexivity|eexists; reflexivity].
    - intros L. destruct o as [v|e]; [apply l_done; [exact L|exact (loops_end _ _ _ _ _ L v eq_refl)]|apply l_raise; exact L].
  Qed.
  Lemma gives_tails : forall f n args w o w1, gives (Nat.iter (S n) Tailrec f) args w o w1 <-> loops (gives f) args w o w1.
  Proof.
    intros f n. induction n as [|n IH]; intros args w o w1; [apply gives_tailrec|]. change (Nat.iter (S (S n)) Tailrec f) with (Tailrec (Nat.iter (S n) Tailrec f)).
    rewrite gives_tailrec. transitivity (loops (loops (gives f)) args w o w1); [|apply loops_twice]. split; apply loops_ext; intros; apply IH; assumption.
  Qed.
  (** No generators come out of functions that are not generator functions: given here as a hypothesis. *)
  Lemma gives_eff : forall f args w o w1, (forall i a w2, ~ gives f args w (Ret (VGen i a)) w2) ->
    (gives (EffResult f) args w o w1 <-> exists o0, gives f args w o0 w1 /\ o = match o0 with Ret v => Ret (VOk v) | Raise e => Raise e end).
  Proof.
    intros f args w o w1 NG. split.
    - intros [N [[|n] E]]; [cbn in E; unfold raise in E; congruence|]. rewrite call_S in E. unfold bind in E. destruct (call n f args w) as [[v|e] w2] eqn:C.
      + assert (GV : gives f args w (Ret v) w2) by (split; [discriminate|exists n; exact C]).
        destruct v; try (unfold ret in E; injection E; intros; subst; eexists; split; [exact GV|reflexivity]).
        destruct (NG _ _ _ GV).
      + injection E; intros; subst. exists (Raise e). split; [split; [exact N|exists n; exact C]|reflexivity].
    - intros ([v|e] & [N [n E]] & ->).
      + split; [discriminate|]. exists (S n). rewrite call_S. unfold bind. rewrite E. destruct v; try reflexivity.
        destruct (NG i args0 w1). split; [discriminate|exists n; exact E].
      + split; [exact N|]. exists (S n). rewrite call_S. unfold bind. rewrite E. reflexivity.
  Qed.
  Lemma gives_gen : forall f args w o w1 i a, gives f args w (Ret (VGen i a)) w1 -> forall w2, computation i a w1 = (o, w2) -> o <> Raise OutOfFuel ->
    gives (EffResult f) args w (match o with Ret r => Ret (of_computation r) | Raise e => Raise e end) w2.
  Proof.
    intros f args w o w1 i a [N [n E]] w2 C NF. split; [destruct o; [discriminate|congruence]|]. exists (S n). rewrite call_S. unfold bind. rewrite E, C. destruct o; reflexivity.
  Qed.
  (** ** The stack *)
  Lemma loops_runs : forall i args w o w1, kind_of i = PlainFn -> (loops (gives (User i)) args w o w1 <-> loops (runs body i) args w o w1).
  Proof. intros i args w o w1 K. split; apply loops_ext; intros; apply gives_user; assumption. Qed.
  Lemma runs_end : forall once args (w : W) o w1, loops once args w o w1 -> (forall args w o w1, once args w o w1 -> o <> Raise OutOfFuel) -> o <> Raise OutOfFuel.
  Proof. intros once args w o w1 L H. induction L; [eapply H; eauto|discriminate|auto]. Qed.
  Notation plain_body := (plain_body body).
  Lemma loops_gen : forall i args w o w1, plain_body i -> loops (runs body i) args w o w1 -> forall j a, o <> Ret (VGen j a).
  Proof.
    intros i args w o w1 P L. induction L as [|args w v w1 [_ H] T|args w args1 w1 o w2 [_ H] L IH]; intros j a; [discriminate| |apply IH].
    intros X. injection X; intros; subst. exact (P _ _ _ _ _ H).
  Qed.
  Lemma gives_inner : forall i eff n args w o w1, kind_of i = PlainFn -> plain_body i ->
    (gives ((if eff : bool then EffResult else fun f => f) (Nat.iter (S n) Tailrec (User i))) args w o w1 <->
     exists o0, loops (runs body i) args w o0 w1 /\ o = promised [] eff o0).
  Proof.
    intros i eff n args w o w1 K P. assert (T : forall args w o w1, gives (Nat.iter (S n) Tailrec (User i)) args w o w1 <-> loops (runs body i) args w o w1).
    { intros. rewrite gives_tails. apply loops_runs, K. }
    destruct eff.
    - rewrite gives_eff.
      + split; intros (o0 & G & ->); exists o0; (split; [apply T, G|]); destruct o0; reflexivity.
      + intros j a w2 G. apply T in G. exact (loops_gen _ _ _ _ _ P G j a eq_refl).
    - rewrite T. split; [intros G; exists o; split; [exact G|destruct o; reflexivity]|]. intros (o0 & G & ->). destruct o0; exact G.
  Qed.
  Lemma caught_promised : forall c catches eff o, caught c (promised catches eff o) = promised (c :: catches) eff o.
  Proof.
    intros c catches eff [v|e]; cbn.
    - destruct eff; destruct catches; cbn; try reflexivity; destruct v; reflexivity.
    - destruct (existsb (fun c0 => c0 e) catches); cbn; [rewrite orb_true_r; reflexivity|]. rewrite orb_false_r. reflexivity.
  Qed.
  Lemma stack_pf : forall catches eff n i args w o w1, kind_of i = PlainFn -> plain_body i ->
    (gives (stack catches eff (S n) (User i)) args w o w1 <-> exists o0, loops (runs body i) args w o0 w1 /\ o = promised catches eff o0).
  Proof.
    intros catches eff n i args w o w1 K P. revert o. induction catches as [|c catches IH]; intros o.
    - apply gives_inner; assumption.
    - change (stack (c :: catches) eff (S n) (User i)) with (Catch c (stack catches eff (S n) (User i))). rewrite gives_catch. split.
      + intros (o0 & G & ->). apply IH in G. destruct G as (o1 & L & ->). exists o1. split; [exact L|apply caught_promised].
      + intros (o1 & L & ->). exists (promised catches eff o1). split; [apply IH; exists o1; split; [exact L|reflexivity]|symmetry; apply caught_promised].
  Qed.
  (** ** Groups of arguments *)
  Notation groups_give := (groups_give kind_of body computation).
  Lemma groups_pf : forall n f groups args0 w o w1, length groups = S n ->
    (groups_give (Curried args0 (S n) f) groups w o w1 <-> gives f (args0 ++ concat groups) w o w1).
  Proof.
    induction n as [|n IH]; intros f groups args0 w o w1 L.
    - destruct groups as [|g [|g1 groups]]; try discriminate. cbn [concat]. rewrite app_nil_r. split.
      + intros [N [[|k] E]]; [cbn in E; unfold raise in E; congruence|]. cbn [call_groups] in E. rewrite call_S in E. split; [exact N|exists k; exact E].
      + intros [N [k E]]. split; [exact N|]. exists (S k). cbn [call_groups]. rewrite call_S. exact E.
    - destruct groups as [|g [|g1 groups]]; try discriminate. cbn [concat]. rewrite app_assoc.
      change (g1 ++ concat groups) with (concat (g1 :: groups)). rewrite <- (IH f (g1 :: groups) (args0 ++ g) w o w1) by (cbn in *; lia). split.
      + intros [N [[|k] E]]; [cbn in E; unfold raise, bind in E; congruence|]. split; [exact N|]. exists (S k).
        change (bind (call (S k) (Curried args0 (S (S n)) f) g) (fun r => match r with VFun g0 => call_groups kind_of body computation (S k) g0 (g1 :: groups) | _ => raise TypeError end) w = (o, w1)) in E.
        rewrite call_S in E. exact E.
      + intros [N [k E]]. split; [exact N|]. destruct k as [|k].
        * exfalso. destruct groups; cbn in E; unfold raise, bind in E; congruence.
        * exists (S k). change (bind (call (S k) (Curried args0 (S (S n)) f) g) (fun r => match r with VFun g0 => call_groups kind_of body computation (S k) g0 (g1 :: groups) | _ => raise TypeError end) w = (o, w1)).
          rewrite call_S. exact E.
  Qed.
  (** ** Other orders *)
  Lemma catch_is_result : forall c f args w v w1, gives (Catch c f) args w (Ret v) w1 -> is_result v = true.
  Proof.
    intros c f args w v w1 G. apply gives_catch in G. destruct G as ([u|e] & _ & E); cbn in E.
    - injection E; intros; subst. destruct u; reflexivity.
    - destruct (c e); [|discriminate]. injection E; intros; subst. reflexivity.
  Qed.
  Lemma tailrec_catch_pf : forall c f args w o w1, gives (Tailrec (Catch c f)) args w o w1 <-> gives (Catch c f) args w o w1.
  Proof.
    intros c f args w o w1. rewrite gives_tailrec. split.
    - intros L. inversion L; subst; auto. match goal with H : gives _ _ _ (Ret (VTail _)) _ |- _ => apply catch_is_result in H; discriminate end.
    - intros G. destruct o as [v|e]; [apply l_done; [exact G|]|apply l_raise; exact G]. intros [a ->]. apply catch_is_result in G. discriminate.
  Qed.
  (** An async function: its calls make a coroutine, at once. *)
  Notation async_like := (async_like kind_of body computation).
  Lemma async_user : forall i, kind_of i = AsyncFn -> async_like (User i).
  Proof.
    intros i K args w o w1 [N [[|n] E]]; [cbn in E; unfold raise in E; congruence|]. rewrite call_S in E. rewrite K in E. injection E; intros; subst.
    split; [reflexivity|]. eexists. split; [reflexivity|do 2 eexists; reflexivity].
  Qed.
  Lemma async_tailrec_async : forall f, async_like (TailrecAsync f).
  Proof.
    intros f args w o w1 [N [[|n] E]]; [cbn in E; unfold raise in E; congruence|]. rewrite call_S in E. injection E; intros; subst.
    split; [reflexivity|]. eexists. split; [reflexivity|do 2 eexists; reflexivity].
  Qed.
  Lemma async_eff : forall f, async_like (EffAsync f).
  Proof.
    intros f args w o w1 [N [[|n] E]]; [cbn in E; unfold raise in E; congruence|]. rewrite call_S in E. injection E; intros; subst.
    split; [reflexivity|]. eexists. split; [reflexivity|do 2 eexists; reflexivity].
  Qed.
  Lemma catch_async_pf : forall c f args w o w1, async_like f -> gives (Catch c f) args w o w1 ->
    w1 = w /\ exists v, coroutine v /\ o = Ret (VOk v) /\ forall w2 fuel, await (S fuel) (VOk v) w2 = (Raise TypeError, w2).
  Proof.
    intros c f args w o w1 A G. apply gives_catch in G. destruct G as (o0 & G & ->). destruct (A _ _ _ _ G) as (-> & v & -> & Q). split; [reflexivity|].
    exists v. split; [exact Q|]. destruct Q as (g & a & ->). split; [reflexivity|]. reflexivity.
  Qed.
  Lemma tailrec_async_fn_pf : forall f args w o w1, async_like f -> (gives (Tailrec f) args w o w1 <-> gives f args w o w1).
  Proof.
    intros f args w o w1 A. rewrite gives_tailrec. split.
    - intros L. inversion L; subst; auto. match goal with H : gives _ _ _ (Ret (VTail _)) _ |- _ => destruct (A _ _ _ _ H) as (_ & v & E & g & a & Q); subst; discriminate end.
    - intros G. destruct (A _ _ _ _ G) as (_ & v & -> & g & a & ->). apply l_done; [exact G|]. intros [b X]. discriminate.
  Qed.
  Lemma eff_catch_pf : forall c f args w v w1, gives (EffResult (Catch c f)) args w (Ret v) w1 -> exists u, is_result u = true /\ v = VOk u.
  Proof.
    intros c f args w v w1 G. apply gives_eff in G.
    - destruct G as ([u|e] & G & E); [|discriminate]. injection E; intros; subst. exists u. split; [eapply catch_is_result; exact G|reflexivity].
    - intros j a w2 X. apply catch_is_result in X. discriminate.
  Qed.
  Lemma eff_catch_gen_pf : forall c i args w o w1, kind_of i = GenFn -> gives (EffResult (Catch c (User i))) args w o w1 -> o = Ret (VOk (VOk (VGen i args))) /\ w1 = w.
  Proof.
    intros c i args w o w1 K G. apply gives_eff in G.
    - destruct G as (o0 & G & ->). apply gives_catch in G. destruct G as (o1 & [N [[|n] E]] & ->); [cbn in E; unfold raise in E; congruence|].
      rewrite call_S, K in E. injection E; intros; subst. split; reflexivity.
    - intros j a w2 X. apply catch_is_result in X. discriminate.
  Qed.
  Lemma catch_eff_gen_pf : forall c i args w r w1, kind_of i = GenFn -> computation i args w = (Ret r, w1) -> gives (Catch c (EffResult (User i))) args w (Ret (of_computation r)) w1.
  Proof.
    intros c i args w r w1 K H. apply gives_catch. exists (Ret (of_computation r)). split; [|destruct r; reflexivity].
    apply (gives_gen (User i) args w (Ret r) w i args); [|exact H|discriminate]. split; [discriminate|]. exists 1. rewrite call_S, K. reflexivity.
  Qed.
  Lemma catch_eff_raise_pf : forall c i args w e w1, kind_of i = GenFn -> computation i args w = (Raise e, w1) -> e <> OutOfFuel ->
    gives (Catch c (EffResult (User i))) args w (if c e then Ret (VError (VExn e)) else Raise e) w1.
  Proof.
    intros c i args w e w1 K H N. apply gives_catch. exists (Raise e). split; [|reflexivity].
    apply (gives_gen (User i) args w (Raise e) w i args); [|exact H|congruence]. split; [discriminate|]. exists 1. rewrite call_S, K. reflexivity.
  Qed.
  Lemma catch_curry_pf : forall c n f args w o w1, gives (Catch c (curry (S n) f)) args w o w1 -> exists g, o = Ret (VOk (VFun g)) /\ w1 = w.
  Proof.
    intros c n f args w o w1 G. apply gives_catch in G. destruct G as (o0 & [N [[|k] E]] & ->); [cbn in E; unfold raise in E; congruence|].
    unfold curry in E. rewrite call_S in E. injection E; intros; subst. eexists. split; reflexivity.
  Qed.
  Lemma tailrec_curry_pf : forall n f groups w o w1, length groups = S (S n) ->
    (groups_give (Tailrec (curry (S n) f)) groups w o w1 <-> gives f (concat groups) w o w1).
  Proof.
    intros n f groups w o w1 L. rewrite <- (groups_pf (S n) f groups [] w o w1 L). destruct groups as [|g [|g1 groups]]; try discriminate.
    unfold DecorateSpec.groups_give.
    split; intros [N [k E]]; (split; [exact N|]).
    - destruct k as [|[|k]]; [cbn in E; unfold raise, bind in E; congruence|cbn in E; unfold raise, bind in E; congruence|]. exists (S (S k)). exact E.
    - destruct k as [|k]; [cbn in E; unfold raise, bind in E; congruence|].
      assert (M : forall f groups w o w1 m k, call_groups kind_of body computation k f groups w = (o, w1) -> o <> Raise OutOfFuel -> k <= m -> call_groups kind_of body computation m f groups w = (o, w1)).
      { clear. intros f groups. revert f. induction groups as [|g groups IH]; intros f w o w1 m k E N L; [exact E|].
        destruct groups as [|g1 groups]; [exact (proj1 (more k) _ _ _ _ _ m E N L)|].
        change (bind (call k f g) (fun r => match r with VFun g0 => call_groups kind_of body computation k g0 (g1 :: groups) | _ => raise TypeError end) w = (o, w1)) in E.
        change (bind (call m f g) (fun r => match r with VFun g0 => call_groups kind_of body computation m g0 (g1 :: groups) | _ => raise TypeError end) w = (o, w1)).
        unfold bind in *. destruct (call k f g w) as [[v|e] w2] eqn:C.
        - rewrite (proj1 (more k) _ _ _ _ _ m C ltac:(congruence) L). destruct v; auto. apply (IH _ _ _ _ m k); auto.
        - rewrite (proj1 (more k) _ _ _ _ _ m C ltac:(congruence) L). exact E. }
      apply (M _ _ _ _ _ (S (S k))) in E; [|exact N|lia]. exists (S (S k)). exact E.
  Qed.
  (** ** Async functions *)
  Notation tramp_async := (trampoline_async kind_of body computation).
  Notation awaits := (awaits kind_of body computation).
  Lemma tramp_async_S : forall n f v, tramp_async (S n) f v =
    match v with VTail args => bind (call n f args) (fun r => bind (await n r) (tramp_async n f)) | v => ret v end.
  Proof. reflexivity. Qed.
  Lemma step_async : forall i n args w, kind_of i = AsyncFn ->
    bind (call (S n) (User i) args) (fun r => bind (await (S n) r) (tramp_async (S n) (User i))) w = bind (body i args) (tramp_async (S n) (User i)) w.
  Proof. intros i n args w K. unfold bind at 1. rewrite call_S, K. cbv beta iota delta [ret]. rewrite await_S. reflexivity. Qed.
  Lemma async_loops : forall i n v w o w1, kind_of i = AsyncFn -> o <> Raise OutOfFuel -> tramp_async n (User i) v w = (o, w1) ->
    match v with VTail args => loops (runs body i) args w o w1 | _ => o = Ret v /\ w1 = w end.
  Proof.
    intros i n. induction n as [|n IH]; intros v w o w1 K N E; [cbn in E; unfold raise in E; congruence|]. rewrite tramp_async_S in E.
    destruct v as [|k|e|v|v|args|g|g args|j args]; try (unfold ret in E; injection E; intros; subst; split; reflexivity).
    destruct n as [|n]; [cbn in E; unfold raise, bind in E; congruence|]. rewrite step_async in E by exact K. unfold bind in E.
    destruct (body i args w) as [[v|e] w2] eqn:B.
    - assert (R : runs body i args w (Ret v) w2) by (split; [discriminate|exact B]). apply IH in E; [|exact K|exact N].
      destruct v; try (destruct E as [-> ->]; apply l_done; [exact R|intros [a A]; discriminate]). eapply l_again; [exact R|exact E].
    - injection E; intros; subst. apply l_raise. split; [exact N|exact B].
  Qed.
  Lemma loops_async : forall i args w o w1, kind_of i = AsyncFn -> loops (runs body i) args w o w1 ->
    o <> Raise OutOfFuel /\ exists n, forall m, n <= m -> bind (body i args) (tramp_async (S m) (User i)) w = (o, w1).
  Proof.
    intros i args w o w1 K L. induction L as [args w e w1 [N E]|args w v w1 [N E] T|args w args1 w1 o w2 [N E] L IH].
    - split; [exact N|]. exists 0. intros m _. unfold bind. rewrite E. reflexivity.
    - split; [exact N|]. exists 0. intros m _. unfold bind. rewrite E. rewrite tramp_async_S. destruct v; try reflexivity. destruct T; eexists; reflexivity.
    - destruct IH as [N2 [n E2]]. split; [exact N2|]. exists (S n). intros m Lm. unfold bind at 1. rewrite E. rewrite tramp_async_S.
      destruct m as [|m]; [lia|]. rewrite step_async by exact K. apply E2. lia.
  Qed.
  Lemma tail_async_pf : forall i args w o w1, kind_of i = AsyncFn -> (awaits (VCoro (TailrecAsync (User i)) args) w o w1 <-> loops (runs body i) args w o w1).
  Proof.
    intros i args w o w1 K. split.
    - intros [N [[|[|n]] E]]; try (cbn in E; unfold raise, bind in E; congruence). rewrite await_S, step_async in E by exact K. unfold bind in E.
      destruct (body i args w) as [[v|e] w2] eqn:B.
      + assert (R : runs body i args w (Ret v) w2) by (split; [discriminate|exact B]). apply async_loops in E; [|exact K|exact N].
        destruct v; try (destruct E as [-> ->]; apply l_done; [exact R|intros [a A]; discriminate]). eapply l_again; [exact R|exact E].
      + injection E; intros; subst. apply l_raise. split; [exact N|exact B].
    - intros L. destruct (loops_async _ _ _ _ _ K L) as [N [n E]]. split; [exact N|]. exists (S (S n)). rewrite await_S, step_async by exact K. apply E. lia.
  Qed.
  Lemma eff_async_pf : forall i args w o w1, kind_of i = AsyncFn ->
    (awaits (VCoro (EffAsync (TailrecAsync (User i))) args) w o w1 <-> exists o0, loops (runs body i) args w o0 w1 /\ o = promised [] true o0).
  Proof.
    intros i args w o w1 K.
    assert (S1 : forall n w, await (S (S n)) (VCoro (EffAsync (TailrecAsync (User i))) args) w =
      bind (await (S n) (VCoro (TailrecAsync (User i)) args)) (fun r => ret (returned r)) w) by reflexivity.
    split.
    - intros [N [[|[|n]] E]]; try (cbn in E; unfold raise, bind in E; congruence). rewrite S1 in E. unfold bind in E.
      destruct (await (S n) (VCoro (TailrecAsync (User i)) args) w) as [[v|e] w2] eqn:A.
      + exists (Ret v). unfold ret in E. injection E; intros; subst. split; [|destruct v; reflexivity]. apply tail_async_pf; [exact K|]. split; [discriminate|exists (S n); exact A].
      + exists (Raise e). injection E; intros; subst. split; [|reflexivity]. apply tail_async_pf; [exact K|]. split; [exact N|exists (S n); exact A].
    - intros (o0 & L & ->). apply tail_async_pf in L; [|exact K]. destruct L as [N [[|n] E]]; [cbn in E; unfold raise in E; congruence|].
      split; [destruct o0; [discriminate|exact N]|]. exists (S (S n)). rewrite S1. unfold bind. rewrite E. destruct o0 as [v|e]; [destruct v|]; reflexivity.
  Qed.
End Facts.
