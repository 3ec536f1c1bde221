(** Lemmas about the builders. *)
From Coq Require Import List Bool Lia.
From Verif.Model Require Import Base OptionResult Builder.
From Verif.Spec Require Import BuilderSpec.
Import ListNotations.
Local Open Scope py_scope.

Section Run.
  Context {W A Mo St : Type}.
  Notation V := (pyopt A).
  Variable b : builder V Mo.
  Variable resume : St -> V -> W -> node V Mo St * W.
  Notation send := (send resume).

  (** The same at the level of [send]. *)
  Inductive sends : gstate A St -> V -> W -> list V -> ending V Mo -> W -> Prop :=
  | sp_stop : forall g v w x g1 w1, send g v w = (SStop x, g1, w1) -> sends g v w [] (EReturn x) w1
  | sp_fail : forall g v w m g1 w1, send g v w = (SFail m, g1, w1) -> sends g v w [] (EFail m) w1
  | sp_raise : forall g v w e g1 w1, send g v w = (SRaise e, g1, w1) -> sends g v w [] (EThrow e) w1
  | sp_yield : forall g v w u g1 w1 vs e w2, send g v w = (SYield u, g1, w1) -> sends g1 u w1 vs e w2 ->
      sends g v w (u :: vs) e w2.

  Lemma send_not_stop : forall g v w e g1 w1, send g v w = (SRaise e, g1, w1) -> e <> StopIterationExn.
  Proof.
    assert (R : forall s v w e g1 w1, run_body resume s v w = (SRaise e, g1, w1) -> e <> StopIterationExn).
    { intros s v w e g1 w1 E. unfold run_body in E. destruct (resume s v w) as [[] w2]; try discriminate.
      injection E; intros; subst. destruct e0; discriminate. }
    intros [s|[|u us] s|us s|] v w e g1 w1 E; cbn in E; eauto; try discriminate.
    destruct v; [destruct us; [eauto|discriminate]|]. injection E; intros; subst; discriminate.
  Qed.

  Lemma sends_seq : forall us s v w vs e w1, sends (GBody s) PyNone w vs e w1 -> sends (GSeq us s) v w (us ++ vs) e w1.
  Proof.
    induction us as [|u us IH]; intros s v w vs e w1 S.
    - inversion S; subst; [eapply sp_stop|eapply sp_fail|eapply sp_raise|eapply sp_yield]; eauto.
    - cbn [app]. eapply sp_yield; [reflexivity|]. apply IH; exact S.
  Qed.
  Lemma sends_list : forall us s w vs e w1, Forall (fun x : V => x = PyNone) us -> sends (GBody s) PyNone w vs e w1 ->
    sends (GList us s) PyNone w (us ++ vs) e w1.
  Proof.
    induction us as [|u us IH]; intros s w vs e w1 Fa S.
    - inversion S; subst; [eapply sp_stop|eapply sp_fail|eapply sp_raise|eapply sp_yield]; eauto.
    - inversion Fa; subst. cbn [app]. eapply sp_yield; [reflexivity|]. apply IH; auto.
  Qed.
  Lemma sends_list_value : forall x nones rest s w, Forall (fun x : V => x = PyNone) nones ->
    sends (GList (nones ++ PyVal x :: rest) s) PyNone w (nones ++ [PyVal x]) (EThrow AttributeError) w.
  Proof.
    intros x; induction nones as [|u us IH]; intros rest s w Fa; cbn [app].
    - eapply sp_yield; [reflexivity|]. eapply sp_raise. reflexivity.
    - inversion Fa; subst. eapply sp_yield; [reflexivity|]. apply IH; auto.
  Qed.
  Lemma body_sends : forall s v w vs e w1, body_gives resume s v w vs e w1 -> sends (GBody s) v w vs e w1.
  Proof.
    induction 1 as [s v w x w1 E|s v w e w1 E|s v w m w1 E|s v w u s1 w1 vs e w2 E B IH|s v w u us s1 w1 vs e w2 E B IH
                   |s v w u us s1 w1 vs e w2 E Fa B IH|s v w u us s1 w1 nones x rest E Q Fa].
    - eapply sp_stop. cbn. unfold run_body. rewrite E. reflexivity.
    - eapply sp_raise. cbn. unfold run_body. rewrite E. reflexivity.
    - eapply sp_fail. cbn. unfold run_body. rewrite E. reflexivity.
    - eapply sp_yield; [|exact IH]. cbn. unfold run_body. rewrite E. reflexivity.
    - cbn [app]. eapply sp_yield; [cbn; unfold run_body; rewrite E; reflexivity|]. apply sends_seq; exact IH.
    - cbn [app]. inversion Fa; subst. eapply sp_yield; [cbn; unfold run_body; rewrite E; reflexivity|]. apply sends_list; auto.
    - destruct nones as [|n nones]; cbn [app] in *; injection Q; intros; subst.
      + eapply sp_yield; [cbn; unfold run_body; rewrite E; reflexivity|]. eapply sp_raise. reflexivity.
      + inversion Fa; subst. eapply sp_yield; [cbn; unfold run_body; rewrite E; reflexivity|]. apply sends_list_value; auto.
  Qed.
  (** what a generator state gives, in terms of the body *)
  Definition state_gives (g : gstate A St) (v : V) (w : W) (vs : list V) (e : ending V Mo) (w1 : W) : Prop :=
    match g with
    | GBody s => body_gives resume s v w vs e w1
    | GSeq us s => exists vs', vs = us ++ vs' /\ body_gives resume s PyNone w vs' e w1
    | GList us s =>
        match v with
        | PyVal _ => vs = [] /\ e = EThrow AttributeError /\ w1 = w
        | PyNone =>
            (Forall (fun x => x = PyNone) us /\ exists vs', vs = us ++ vs' /\ body_gives resume s PyNone w vs' e w1) \/
            (exists nones x rest, us = nones ++ PyVal x :: rest /\ Forall (fun x => x = PyNone) nones /\
               vs = nones ++ [PyVal x] /\ e = EThrow AttributeError /\ w1 = w)
        end
    | GDone => vs = [] /\ e = EReturn PyNone /\ w1 = w
    end.
  Lemma run_body_inv : forall s v w o g1 w1, run_body resume s v w = (o, g1, w1) ->
    match o with
    | SStop x => resume s v w = (NReturn x, w1)
    | SFail m => resume s v w = (NFail m, w1)
    | SRaise e => exists e0, resume s v w = (NThrow e0, w1) /\ e = match e0 with StopIterationExn => RuntimeError | _ => e0 end
    | SYield u => (exists s1, resume s v w = (NYield u s1, w1) /\ g1 = GBody s1) \/
        (exists us s1, resume s v w = (NFromSeq u us s1, w1) /\ g1 = GSeq us s1) \/
        (exists us s1, resume s v w = (NFromList u us s1, w1) /\ g1 = GList us s1)
    end.
  Proof.
    intros s v w o g1 w1 E. unfold run_body in E. destruct (resume s v w) as [[] w2]; injection E; intros; subst; eauto 6.
  Qed.
  Lemma body_yield : forall s v w u g1 w1 vs e w2, run_body resume s v w = (SYield u, g1, w1) -> state_gives g1 u w1 vs e w2 ->
    body_gives resume s v w (u :: vs) e w2.
  Proof.
    intros s v w u g1 w1 vs e w2 E G. apply run_body_inv in E.
    destruct E as [(s1 & E & ->)|[(us & s1 & E & ->)|(us & s1 & E & ->)]]; cbn in G.
    - eapply bg_yield; eauto.
    - destruct G as (vs' & -> & B). exact (bg_from_seq _ _ _ _ _ _ _ _ _ _ _ E B).
    - destruct u as [|x].
      + destruct G as [(Fa & vs' & -> & B)|(nones & x & rest & -> & Fa & -> & -> & ->)].
        * exact (bg_from_list _ _ _ _ _ _ _ _ _ _ _ E (Forall_cons _ eq_refl Fa) B).
        * exact (bg_from_list_value _ _ _ _ _ _ _ _ (PyNone :: nones) x rest E eq_refl (Forall_cons _ eq_refl Fa)).
      + destruct G as (-> & -> & ->). exact (bg_from_list_value _ _ _ _ _ _ _ _ [] x us E eq_refl (Forall_nil _)).
  Qed.
  Lemma body_end : forall s v w o g1 w1, run_body resume s v w = (o, g1, w1) ->
    match o with
    | SStop x => body_gives resume s v w [] (EReturn x) w1
    | SFail m => body_gives resume s v w [] (EFail m) w1
    | SRaise e => body_gives resume s v w [] (EThrow e) w1
    | SYield _ => True
    end.
  Proof.
    intros s v w o g1 w1 E. apply run_body_inv in E. destruct o; auto; try (constructor; exact E).
    destruct E as (e0 & E & ->). constructor; exact E.
  Qed.
  Lemma sends_state : forall g v w vs e w1, sends g v w vs e w1 -> state_gives g v w vs e w1.
  Proof.
    induction 1 as [g v w x g1 w1 E|g v w m g1 w1 E|g v w e g1 w1 E|g v w u g1 w1 vs e w2 E S IH].
    - destruct g as [s|[|u us] s|us s|]; cbn in E; cbn [state_gives]; try discriminate.
      + exact (body_end _ _ _ _ _ _ E).
      + exists []. split; auto. exact (body_end _ _ _ _ _ _ E).
      + destruct v; [|discriminate]. destruct us; [|discriminate]. left. split; [constructor|]. exists []. split; auto. exact (body_end _ _ _ _ _ _ E).
      + injection E; intros; subst; auto.
    - destruct g as [s|[|u us] s|us s|]; cbn in E; cbn [state_gives]; try discriminate.
      + exact (body_end _ _ _ _ _ _ E).
      + exists []. split; auto. exact (body_end _ _ _ _ _ _ E).
      + destruct v; [|discriminate]. destruct us; [|discriminate]. left. split; [constructor|]. exists []. split; auto. exact (body_end _ _ _ _ _ _ E).
    - destruct g as [s|[|u us] s|us s|]; cbn in E; cbn [state_gives]; try discriminate.
      + exact (body_end _ _ _ _ _ _ E).
      + exists []. split; auto. exact (body_end _ _ _ _ _ _ E).
      + destruct v.
        * destruct us; [|discriminate]. left. split; [constructor|]. exists []. split; auto. exact (body_end _ _ _ _ _ _ E).
        * injection E; intros; subst; auto.
    - destruct g as [s|[|u0 us] s|us s|]; cbn in E; cbn [state_gives].
      + eapply body_yield; eauto.
      + exists (u :: vs). split; auto. eapply body_yield; eauto.
      + injection E; intros; subst. cbn in IH. destruct IH as (vs' & -> & B). exists vs'. auto.
      + destruct v; [|discriminate]. destruct us as [|u0 us].
        * left. split; [constructor|]. exists (u :: vs). split; auto. eapply body_yield; eauto.
        * injection E; intros; subst. cbn in IH. destruct u as [|x].
          -- destruct IH as [(Fa & vs' & -> & B)|(nones & x & rest & -> & Fa & -> & -> & ->)].
             ++ left. split; [constructor; auto|]. exists vs'. auto.
             ++ right. exists (PyNone :: nones), x, rest. repeat split; auto.
          -- destruct IH as (-> & -> & ->). right. exists [], x, us. repeat split; auto.
      + discriminate.
  Qed.
  Lemma sends_body : forall s v w vs e w1, sends (GBody s) v w vs e w1 <-> body_gives resume s v w vs e w1.
  Proof. intros; split; [intros S; exact (sends_state _ _ _ _ _ _ S)|apply body_sends]. Qed.

  (** ** the loop, for builders whose bind calls the function once on the one value *)
  Variable pure : Mo -> V -> Prop.
  Variable norm : Mo -> Mo.
  Hypothesis bind_law : forall value u (f : V -> M (@bworld W A St) Mo) s, pure value u ->
    b_bind b value f s = match f u s with (Ret m, s1) => (Ret (norm m), s1) | (Raise e, s1) => (Raise e, s1) end.
  Hypothesis pure_return : forall u, pure (b_return b u) u.
  Hypothesis pure_norm : forall u, pure (norm (b_return b u)) u.
  Hypothesis delay_law : forall (f : unit -> M (@bworld W A St) Mo), b_delay b f = f tt.
  Notation BW := (@BW W A St).

  Lemma binder_send : forall v w g, binder b resume v (BW w g false) =
    match send g v w with
    | (SYield u, g1, w1) => (Ret (b_return b u), BW w1 g1 false)
    | (SFail m, g1, w1) => (Ret (b_return_from b m), BW w1 g1 true)
    | (SStop (PyVal x), g1, w1) => (Ret (b_return b (PyVal x)), BW w1 g1 true)
    | (SStop PyNone, g1, w1) => (Raise StopIterationExn, BW w1 g1 true)
    | (SRaise e, g1, w1) => (Raise e, BW w1 g1 false)
    end.
  Proof.
    intros v w g. unfold binder, bind, bsend. cbn [bw bw_gen bw_done].
    destruct (send g v w) as [[[u|[|x]|m|e] g1] w1]; rewrite ?delay_law; reflexivity.
  Qed.
  Definition gather (result : Mo) (vs : list V) : Mo := fold_left (fun r v => b_combine b r (norm (b_return b v))) vs result.
  Definition finish (result : Mo) (vs : list V) (e : ending V Mo) : res Mo :=
    match e with
    | EReturn PyNone => Ret (gather result vs)
    | EReturn (PyVal x) => Ret (b_combine b (gather result vs) (norm (b_return b (PyVal x))))
    | EFail m => Ret (b_combine b (gather result vs) (norm (b_return_from b m)))
    | EThrow e => Raise e
    end.
  Lemma loop_complete : forall g v w vs e w1, sends g v w vs e w1 -> forall value result, pure value v ->
    exists n, forall fuel, n <= fuel -> exists s1, loop b resume fuel value result (BW w g false) = (finish result vs e, s1) /\ bw s1 = w1.
  Proof.
    induction 1 as [g v w x g1 w1 E|g v w m g1 w1 E|g v w e g1 w1 E|g v w u g1 w1 vs e w2 E S IH]; intros value result P.
    - exists 2. intros [|[|fuel]] L; try lia. cbn [loop bw_done]. rewrite (bind_law value v) by exact P.
      rewrite binder_send, E. destruct x as [|x]; eexists; split; reflexivity.
    - exists 2. intros [|[|fuel]] L; try lia. cbn [loop bw_done]. rewrite (bind_law value v) by exact P.
      rewrite binder_send, E. eexists; split; reflexivity.
    - exists 1. intros [|fuel] L; try lia. cbn [loop bw_done]. rewrite (bind_law value v) by exact P.
      rewrite binder_send, E. pose proof (send_not_stop _ _ _ _ _ _ E) as N. eexists. split; [destruct e; try congruence; reflexivity|reflexivity].
    - destruct (IH (norm (b_return b u)) (b_combine b result (norm (b_return b u))) (pure_norm u)) as [n Hn].
      exists (Datatypes.S n). intros [|fuel] L; try lia. destruct (Hn fuel) as (s1 & E1 & W1); [lia|].
      cbn [loop bw_done]. rewrite (bind_law value v) by exact P. rewrite binder_send, E. exists s1. split; auto.
  Qed.
  Lemma loop_sound : forall fuel g v w value result r s1, pure value v ->
    loop b resume fuel value result (BW w g false) = (r, s1) -> r <> Raise OutOfFuel ->
    exists vs e, sends g v w vs e (bw s1) /\ r = finish result vs e.
  Proof.
    induction fuel as [|fuel IH]; intros g v w value result r s1 P L N.
    - injection L; intros; subst; congruence.
    - cbn [loop bw_done] in L. rewrite (bind_law value v) in L by exact P. rewrite binder_send in L.
      destruct (send g v w) as [[[u|[|x]|m|e] g1] w1] eqn:E.
      + destruct (IH _ _ _ _ _ _ _ (pure_norm u) L N) as (vs & e & S & ->). exists (u :: vs), e. split; [eapply sp_yield; eauto|reflexivity].
      + injection L; intros; subst. exists [], (EReturn PyNone). split; [eapply sp_stop; eauto|reflexivity].
      + destruct fuel as [|fuel]; [injection L; intros; subst; congruence|]. injection L; intros; subst.
        exists [], (EReturn (PyVal x)). split; [eapply sp_stop; eauto|reflexivity].
      + destruct fuel as [|fuel]; [injection L; intros; subst; congruence|]. injection L; intros; subst.
        exists [], (EFail m). split; [eapply sp_fail; eauto|reflexivity].
      + pose proof (send_not_stop _ _ _ _ _ _ E) as Q.
        assert (L' : (Raise e, BW w1 g1 false) = (r, s1)) by (destruct e; congruence).
        injection L'; intros; subst. exists [], (EThrow e). split; [eapply sp_raise; eauto|reflexivity].
  Qed.

  (** value of the whole call *)
  Definition whole (vs : list V) (e : ending V Mo) : res Mo :=
    match vs with
    | v :: vs => rmap (b_run b) (finish (b_return b v) vs e)
    | [] => match e with
            | EReturn PyNone => Ret (b_run b (b_zero b))
            | EReturn (PyVal x) => Ret (b_run b (b_return b (PyVal x)))
            | EFail m => Ret (b_run b (b_return_from b m))
            | EThrow e => Raise e
            end
    end.
  Lemma call_complete : forall s w vs e w1, body_gives resume s PyNone w vs e w1 ->
    exists n, forall fuel, n <= fuel -> call_gen b resume fuel s w = (whole vs e, w1).
  Proof.
    intros s w vs e w1 B. apply sends_body in B. inversion B; subst.
    - exists 1. intros [|fuel] L; try lia. unfold call_gen. rewrite binder_send.
      match goal with E : send _ _ _ = _ |- _ => rewrite E end. destruct x as [|x]; reflexivity.
    - exists 1. intros [|fuel] L; try lia. unfold call_gen. rewrite binder_send.
      match goal with E : send _ _ _ = _ |- _ => rewrite E end. reflexivity.
    - exists 0. intros fuel L. unfold call_gen. rewrite binder_send.
      match goal with E : send _ _ _ = _ |- _ => rewrite E; apply send_not_stop in E end. destruct e0; try congruence; reflexivity.
    - match goal with E : send _ _ _ = (SYield u, ?g1, ?w2), S : sends ?g1 u ?w2 vs0 e w1 |- _ =>
        destruct (loop_complete _ _ _ _ _ _ S (b_return b u) (b_return b u) (pure_return u)) as [n Hn]; rename E into EE end.
      exists n. intros fuel L. destruct (Hn fuel L) as (s2 & E2 & <-). unfold call_gen. rewrite binder_send, EE, E2.
      cbn [whole]. destruct (finish _ _ _); reflexivity.
  Qed.
  Lemma call_sound : forall fuel s w r w1, call_gen b resume fuel s w = (r, w1) -> r <> Raise OutOfFuel ->
    exists vs e, body_gives resume s PyNone w vs e w1 /\ r = whole vs e.
  Proof.
    intros fuel s w r w1 C N. unfold call_gen in C. rewrite binder_send in C.
    destruct (send (GBody s) PyNone w) as [[[u|[|x]|m|e] g1] w2] eqn:E.
    - destruct (loop b resume fuel (b_return b u) (b_return b u) (BW w2 g1 false)) as [r0 s1] eqn:L.
      assert (N0 : r0 <> Raise OutOfFuel) by (intros ->; injection C; intros; subst; congruence).
      destruct (loop_sound _ _ _ _ _ _ _ _ (pure_return u) L N0) as (vs & e & S & ->).
      exists (u :: vs), e. cbn [whole]. destruct (finish (b_return b u) vs e); injection C; intros; subst;
        (split; [apply sends_body; eapply sp_yield; eauto|reflexivity]).
    - injection C; intros; subst. exists [], (EReturn PyNone). split; [apply sends_body; eapply sp_stop; eauto|reflexivity].
    - destruct fuel as [|fuel]; [cbn in C; injection C; intros; subst; congruence|]. cbn in C. injection C; intros; subst.
      exists [], (EReturn (PyVal x)). split; [apply sends_body; eapply sp_stop; eauto|reflexivity].
    - destruct fuel as [|fuel]; [cbn in C; injection C; intros; subst; congruence|]. cbn in C. injection C; intros; subst.
      exists [], (EFail m). split; [apply sends_body; eapply sp_fail; eauto|reflexivity].
    - pose proof (send_not_stop _ _ _ _ _ _ E) as Q. assert (C' : (Raise e, w2) = (r, w1)) by (destruct e; first [exact C|congruence]).
      injection C'; intros; subst. exists [], (EThrow e). split; [apply sends_body; eapply sp_raise; eauto|reflexivity].
  Qed.
End Run.
