(** Lemmas about async iterators that are given up: how long closing takes, and that they are
    the iterators of AsyncSeq.v. *)
From Coq Require Import List ZArith Bool Lia.
From Verif.Model Require Import Base PyList Gen Resume AsyncSeq AsyncAbandon.
From Verif.Spec Require Import ResumeSpec AsyncAbandonSpec.
From Verif.Proofs Require Import AsyncAbandonFacts.
Import ListNotations.
Local Open Scope py_scope.

(** * How long closing takes *)
Section Deep.
  Context {W : Type}.
  Notation nested := (nested any).
  Notation nested_it := (nested_it any).
  Notation nesting := (nesting any).
  Lemma shallow_weak : forall d e (j : job W), shallow d j -> d <= e -> shallow e j.
  Proof.
    fix IH 4. intros d e j [d0 exit rest F] L. destruct e as [|e]; [lia|]. constructor.
    induction F as [|j0 js S F IHF]; constructor; [apply (IH d0); [exact S|lia]|exact IHF].
  Qed.
  Lemma shallows_weak : forall d e (js : list (job W)), Forall (shallow d) js -> d <= e -> Forall (shallow e) js.
  Proof. intros d e js F L. induction F; constructor; [eapply shallow_weak; eassumption|assumption]. Qed.
  Lemma soon_weak : forall k m (h : handle W), soon k h -> k <= m -> soon m h.
  Proof. intros k m [j|j] (d & S & L) M; exists d; (split; [exact S|lia]). Qed.
  Lemma patient_weak : forall k m (l : loop W), patient k l -> k <= m -> patient m l.
  Proof. intros k m l P L. unfold patient in *. induction P; constructor; [eapply soon_weak; eassumption|assumption]. Qed.
  Lemma run_soon : forall k hs (l : loop W), Forall (soon (S k)) hs -> patient k l -> patient k (fold_left run_handle hs l).
  Proof.
    intros k. induction hs as [|h hs IH]; intros l F P; [exact P|]. cbn. assert (F1 : soon (S k) h) by (inversion F; assumption). assert (F2 : Forall (soon (S k)) hs) by (inversion F; assumption).
    apply IH; [exact F2|]. unfold patient in *. destruct h as [j|[exit rest]]; destruct F1 as (d & S1 & L); cbn; apply Forall_app; (split; [exact P|]).
    - constructor; [|constructor]. exists d. split; [exact S1|lia].
    - inversion S1 as [d0 ex rs R]; subst. clear -R L. induction R as [|j js J R IHR]; constructor; [exists d0; split; [exact J|lia]|exact IHR].
  Qed.
  Lemma turn_patient : forall k (l : loop W), patient (S k) l -> patient k (turn l).
  Proof. intros k l P. apply run_soon; [exact P|constructor]. Qed.
  Lemma turn_patient_same : forall k (l : loop W), patient k l -> patient k (turn l).
  Proof. intros k l P. apply turn_patient. eapply patient_weak; [exact P|lia]. Qed.
  Lemma turns_patient : forall n k (l : loop W), patient k l -> patient k (turns n l).
  Proof. induction n as [|n IH]; intros k l P; [exact P|]. apply IH. now apply turn_patient_same. Qed.
  Lemma patient_zero : forall l : loop W, patient 0 l -> ready l = [].
  Proof.
    intros [[|h hs] w] P; [reflexivity|]. inversion P as [|? ? H]; subst. destruct h as [j|j]; destruct H as (d & S1 & L); inversion S1; subst; lia.
  Qed.
  Lemma patient_settles : forall k (l : loop W), patient k l -> ready (turns k l) = [].
  Proof. induction k as [|k IH]; intros l P; [now apply patient_zero|]. cbn. apply IH. now apply turn_patient. Qed.
  Lemma schedule_patient : forall k (l : loop W) d js, patient k l -> Forall (shallow d) js -> 2 * d <= k -> patient k (schedule (List.map NewTask js) l).
  Proof.
    intros k l d js P F L. unfold patient. cbn. apply Forall_app. split; [exact P|]. induction F as [|j js J F IH]; constructor; [exists d; split; [exact J|exact L]|exact IH].
  Qed.
  Lemma let_go_patient : forall A P0 d (g : agen W A) k l, AsyncAbandonSpec.nested P0 d g -> 2 * d <= k -> patient k l -> patient k (let_go g l).
  Proof. intros A P0 d g k l [H _] L P. eapply schedule_patient; eassumption. Qed.
  Lemma env_patient : forall k (l : loop W) w, patient k l -> patient k (Loop (ready l) w).
  Proof. intros k l w P. exact P. Qed.
  Lemma on_env_patient : forall X (m : M W X) k l r l1, on_env m l = (r, l1) -> patient k l -> patient k l1.
  Proof. unfold on_env. intros X m k l r l1 E P. destruct (m (env l)) as [r1 w]. injection E as <- <-. exact P. Qed.
  Lemma over_nested : forall A d, nested d (over : agen W A).
  Proof. intros A d. cofix CIH. constructor; [constructor|]. intros k l L P. cbn. constructor; [exact CIH|exact P]. Qed.
  Lemma nesting_stop : forall A d k l, patient k l -> nesting (nested d) k (RStop over : rstep A (agen W A), l).
  Proof. intros. constructor; [apply over_nested|assumption]. Qed.
  Lemma nesting_raise : forall A d k e l, patient k l -> nesting (nested d) k (RRaise e over : rstep A (agen W A), l).
  Proof. intros. constructor; [apply over_nested|assumption]. Qed.
  Lemma id_shallow : forall d (js : list (job W)), Forall (shallow d) js -> Forall (shallow (S d)) [Job (fun w => w) js].
  Proof. intros. constructor; [constructor; assumption|constructor]. Qed.
  Ltac nstep := first [apply ne_yield; [exact Logic.I| |]|constructor].
  Ltac nst := first [apply nesting_raise|apply nesting_stop].
  Lemma each_nested : forall A B S (body : S -> A -> M W (AsyncSeq.turn S B)) d s g, nested d g -> nested (Datatypes.S d) (a_each body s g).
  Proof.
    intros A B S body d. cofix CIH. intros s g G.
    assert (H : Forall (shallow d) (held g)) by (destruct G; assumption).
    constructor; [exact (id_shallow _ _ H)|]. intros k l L P. assert (L1 : 2 * d <= k) by lia.
    assert (K : nesting (nested d) k (anext g l)) by (destruct G as [_ G]; exact (G k l L1 P)).
    cbn. destruct (anext g l) as [[x g1|g1|g1|e g1] l1] eqn:E; inversion K as [? ? ? PA G1 P1|? ? G1 P1|? ? G1 P1|? ? ? G1 P1]; subst.
    - destruct (on_env (body s x) l1) as [r l2] eqn:F. assert (P2 : patient k l2) by (eapply on_env_patient; eassumption).
      destruct r as [[y s1|s1|]|e].
      + nstep; [apply CIH; exact G1|exact P2].
      + nstep; [apply CIH; exact G1|exact P2].
      + nst. exact (let_go_patient _ _ _ _ _ _ G1 L1 P2).
      + destruct e; nst; exact (let_go_patient _ _ _ _ _ _ G1 L1 P2).
    - nstep; [apply CIH; exact G1|exact P1].
    - nst. exact (let_go_patient _ _ _ _ _ _ G1 L1 P1).
    - destruct e; nst; exact (let_go_patient _ _ _ _ _ _ G1 L1 P1).
  Qed.
  Lemma started_nested : forall A B d src (lp : agen W A -> agen W B) P0, AsyncAbandonSpec.nested_it P0 d src -> (forall g, AsyncAbandonSpec.nested P0 d g -> nested (S d) (lp g)) -> nested (S d) (a_started src lp).
  Proof.
    intros A B d src lp P0 S1 L. constructor; [constructor|]. intros k l K P. assert (K1 : 2 * d <= k) by lia. specialize (S1 k l K1 P). cbn. destruct (src l) as [[g|e] l1].
    - destruct S1 as [G Q]. constructor; [now apply L|exact Q].
    - destruct e; nst; exact S1.
  Qed.
  Lemma collect_nested : forall A B d (f : A -> M W (aiterable W B)) inner g, (forall h, inner = Some h -> nested d h) ->
    AsyncAbandonSpec.nested (fun x => forall w it w1, f x w = (Ret it, w1) -> nested_it d it) d g -> nested (S d) (a_collect_loop f inner g).
  Proof.
    intros A B d f. cofix CIH. intros inner g I G.
    assert (H : Forall (shallow d) (held g)) by (destruct G; assumption).
    assert (HI : Forall (shallow d) (match inner with Some h => held h | None => [] end)).
    { destruct inner as [h|]; [destruct (I h eq_refl); assumption|constructor]. }
    assert (H2 := proj2 (Forall_app _ _ _) (conj HI H)).
    constructor; [exact (id_shallow _ _ H2)|]. intros k l L P. assert (L1 : 2 * d <= k) by lia. destruct inner as [h|].
    - assert (K : nesting (nested d) k (anext h l)). { destruct (I h eq_refl) as [_ J]. exact (J k l L1 P). }
      cbn. destruct (anext h l) as [[x h1|h1|h1|e h1] l1] eqn:E; inversion K as [? ? ? PA G1 P1|? ? G1 P1|? ? G1 P1|? ? ? G1 P1]; subst.
      + nstep; [apply CIH; [intros h0 X; injection X as <-; exact G1|exact G]|exact P1].
      + nstep; [apply CIH; [intros h0 X; injection X as <-; exact G1|exact G]|exact P1].
      + nstep; [apply CIH; [intros h0 X; discriminate X|exact G]|]. exact (let_go_patient _ _ _ _ _ _ G1 L1 P1).
      + destruct e; nst; exact (let_go_patient _ _ _ _ _ _ G L1 (let_go_patient _ _ _ _ _ _ G1 L1 P1)).
    - assert (K : AsyncAbandonSpec.nesting _ (AsyncAbandonSpec.nested (fun x => forall w it w1, f x w = (Ret it, w1) -> nested_it d it) d) k (anext g l)) by (destruct G as [_ G]; exact (G k l L1 P)).
      cbn. destruct (anext g l) as [[x g1|g1|g1|e g1] l1] eqn:E; inversion K as [? ? ? PA G1 P1|? ? G1 P1|? ? G1 P1|? ? ? G1 P1]; subst.
      + destruct (on_env (f x) l1) as [r l2] eqn:F. assert (P2 : patient k l2) by (eapply on_env_patient; eassumption).
        destruct r as [it|e].
        * assert (BI : nested_it d it). { unfold on_env in F. destruct (f x (env l1)) as [r w] eqn:F2. injection F as -> <-. exact (PA _ _ _ F2). }
          specialize (BI k l2 L1 P2). destruct (it l2) as [[h|e] l3].
          -- destruct BI as [Q1 Q2]. nstep; [apply CIH; [intros h0 X; injection X as <-; exact Q1|exact G1]|exact Q2].
          -- destruct e; nst; exact (let_go_patient _ _ _ _ _ _ G1 L1 BI).
        * destruct e; nst; exact (let_go_patient _ _ _ _ _ _ G1 L1 P2).
      + nstep; [apply CIH; [intros h0 X; discriminate X|exact G1]|exact P1].
      + nst. exact (let_go_patient _ _ _ _ _ _ G1 L1 P1).
      + destruct e; nst; exact (let_go_patient _ _ _ _ _ _ G1 L1 P1).
  Qed.
  Lemma append_nested : forall B d (other : option (aiterable W B)), (forall it, other = Some it -> nested_it d it) ->
    forall g, nested d g -> nested (S d) (a_append_loop other g).
  Proof.
    intros B d. cofix CIH. intros other OB g G.
    assert (H : Forall (shallow d) (held g)) by (destruct G; assumption).
    constructor; [exact (id_shallow _ _ H)|]. intros k l L P. assert (L1 : 2 * d <= k) by lia.
    assert (K : nesting (nested d) k (anext g l)) by (destruct G as [_ G]; exact (G k l L1 P)).
    cbn. destruct (anext g l) as [[x g1|g1|g1|e g1] l1] eqn:E; inversion K as [? ? ? PA G1 P1|? ? G1 P1|? ? G1 P1|? ? ? G1 P1]; subst.
    - nstep; [apply CIH; [exact OB|exact G1]|exact P1].
    - nstep; [apply CIH; [exact OB|exact G1]|exact P1].
    - pose proof (let_go_patient _ _ _ _ _ _ G1 L1 P1) as P2. destruct other as [it|]; [|now nst].
      pose proof (OB it eq_refl k _ L1 P2) as BI. destruct (it (let_go g1 l1)) as [[h|e] l2].
      + destruct BI as [Q1 Q2]. nstep; [apply CIH; [intros it0 X; discriminate X|exact Q1]|exact Q2].
      + destruct e; nst; exact BI.
    - destruct e; nst; exact (let_go_patient _ _ _ _ _ _ G1 L1 P1).
  Qed.
  Lemma list_nested : forall A (xs : list A), nested 1 (a_list xs : agen W A).
  Proof.
    intros A. cofix CIH. intros xs. constructor; [apply id_shallow; constructor|]. intros k l L P. destruct xs as [|x xs]; cbn; [now nst|]. nstep; [apply CIH|exact P].
  Qed.
  Lemma plain_nested : forall A (xs : res (list A)), nested 1 (a_plain xs : agen W A).
  Proof.
    intros A [xs|e]; (constructor; [constructor|]); intros k l L P; cbn; [constructor; [apply list_nested|exact P]|]. destruct e; now nst.
  Qed.
  Lemma scan_nested : forall A S d (f : S -> A -> M W S) s src, nested_it d src -> nested (Datatypes.S d) (a_scan f s src).
  Proof.
    intros A S d f s src N. constructor; [constructor|]. intros k l L P. cbn. nstep; [|exact P].
    constructor; [eapply shallows_weak; [apply (id_shallow 0); constructor|lia]|]. intros k1 l1 L1 P1.
    assert (O : nested (Datatypes.S d) (a_started src (a_each (fun s x => do s1 <- f s x; ret (Give s1 s1)) s))).
    { eapply started_nested; [exact N|]. intros g G. now apply each_nested. }
    destruct O as [_ O]. exact (O k1 l1 L1 P1).
  Qed.
  Lemma src_nested : forall A d (g : agen W A), nested d g -> nested_it d (a_src g).
  Proof. intros A d g G k l L P. split; assumption. Qed.
  Lemma body_nested : forall A exit last (ms : list (nat * M W A)), nested 1 (a_body exit ms last).
  Proof.
    intros A exit last. cofix CIH. intros ms. constructor; [constructor; [constructor; constructor|constructor]|]. intros k l L P. destruct ms as [|[n m] ms]; cbn.
    - apply nesting_stop. apply env_patient. now apply turns_patient.
    - destruct (on_env m (turns n l)) as [r l1] eqn:F. assert (P1 : patient k l1). { eapply on_env_patient; [exact F|]. now apply turns_patient. }
      destruct r as [x|e]; [nstep; [apply CIH|exact P1]|]. destruct e; nst; exact P1.
  Qed.
  Lemma resource_nested : forall A enter exit last (ms : list (nat * M W A)), nested 1 (a_resource enter exit ms last).
  Proof. intros. constructor; [constructor|]. intros k l L P. cbn. constructor; [apply body_nested|exact P]. Qed.
  Lemma nested_weak : forall A d e (g : agen W A), nested d g -> d <= e -> nested e g.
  Proof.
    intros A d e. cofix CIH. intros g [H G] L. assert (H2 := shallows_weak _ _ _ H L). constructor; [exact H2|]. intros k l K P. assert (K1 : 2 * d <= k) by lia.
    specialize (G k l K1 P). destruct G as [a g1 l1 PA N1 P1|g1 l1 N1 P1|g1 l1 N1 P1|x g1 l1 N1 P1]; constructor; try exact P1; try exact Logic.I; apply CIH; assumption.
  Qed.
  Lemma call_nested : forall A (g : agen W A) l o g1 l1, acall g l o g1 l1 -> forall d k, nested d g -> 2 * d <= k -> patient k l -> nested d g1 /\ patient k l1.
  Proof.
    intros A g l o g1 l1 H. induction H as [g l a g1 l1 E|g l g1 l1 E|g l e g1 l1 E|g l g1 l1 o g2 l2 E H IH]; intros d k [_ G] K P; specialize (G _ _ K P); rewrite E in G; inversion G; subst; auto.
  Qed.
  Lemma calls_nested : forall A (g : agen W A) l os g1 l1, acalls g l os g1 l1 -> forall d k, nested d g -> 2 * d <= k -> patient k l -> nested d g1 /\ patient k l1.
  Proof.
    intros A g l os g1 l1 H. induction H as [|g l o g1 l1 os g2 l2 C H IH]; intros d k G K P; [auto|]. destruct (call_nested _ _ _ _ _ _ C _ _ G K P). auto.
  Qed.
  Lemma aclose_patient : forall A d (g : agen W A) k l, nested d g -> 2 * d <= k -> patient k l -> patient k (aclose g l).
  Proof.
    intros A d [nx h] k l [H _] L P. unfold aclose. cbn in *. destruct h as [[exit rest]|]; cbn; [|exact P]. inversion H as [|j js J _]; subst. inversion J as [d0 ex rs R]; subst.
    apply (schedule_patient k (Loop (ready l) (exit (env l))) d0); [exact P|exact R|lia].
  Qed.
  Lemma loop_patient : forall A St R (body : St -> A -> M W (St + R)) d k fuel g s l r l1, nested d g -> 2 * d <= k -> patient k l -> a_loop fuel g s body l = (r, l1) -> patient k l1.
  Proof.
    intros A St R body d k. induction fuel as [|fuel IH]; intros g s l r l1 G L P E; cbn in E; [injection E as <- <-; exact P|].
    assert (K : nesting (nested d) k (anext g l)) by (destruct G as [_ G]; exact (G k l L P)).
    destruct (anext g l) as [[x g1|g1|g1|e g1] l2] eqn:F; inversion K as [? ? ? PA G1 P1|? ? G1 P1|? ? G1 P1|? ? ? G1 P1]; subst.
    - destruct (on_env (body s x) l2) as [r2 l3] eqn:F2. assert (P2 : patient k l3) by (eapply on_env_patient; eassumption).
      destruct r2 as [[s1|v]|e]; [exact (IH _ _ _ _ _ G1 L P2 E)| |]; injection E as <- <-; exact (let_go_patient _ _ _ _ _ _ G1 L P2).
    - exact (IH _ _ _ _ _ G1 L P1 E).
    - injection E as <- <-. exact (let_go_patient _ _ _ _ _ _ G1 L P1).
    - injection E as <- <-. exact (let_go_patient _ _ _ _ _ _ G1 L P1).
  Qed.
  (** a pipeline of [n] maps *)
  Fixpoint maps {A} (n : nat) (g : agen W A) : agen W A := match n with O => g | S n => a_map ret (a_src (maps n g)) end.
  Fixpoint nest (n : nat) (j : job W) : job W := match n with O => j | S n => Job (fun w => w) [nest n j] end.
  Lemma map_call : forall A (g : agen W A) l o g1 l1, acall g l o g1 l1 -> forall a, o = Got a ->
    acall (a_each (fun _ x => do y <- ret x; ret (Give y tt)) tt g) l (Got a) (a_each (fun _ x => do y <- ret x; ret (Give y tt)) tt g1) l1.
  Proof.
    intros A g l o g1 l1 H. induction H as [g l a g1 l1 E|g l g1 l1 E|g l e g1 l1 E|g l g1 l1 o g2 l2 E H IH]; intros b O; try discriminate.
    - injection O as <-. apply ac_got. cbn. rewrite E. cbn. destruct l1. reflexivity.
    - eapply ac_skip; [cbn; rewrite E; reflexivity|]. now apply IH.
  Qed.
  Lemma maps_call : forall A n (g : agen W A) l a g1 l1 j, acall g l (Got a) g1 l1 -> held g1 = [j] ->
    exists g2, acall (maps n g) l (Got a) g2 l1 /\ held g2 = [nest n j].
  Proof.
    intros A n g l a g1 l1 j C H. induction n as [|n (g2 & C2 & H2)]; [eauto|].
    exists (a_each (fun _ x => do y <- ret x; ret (Give y tt)) tt g2). split; [|cbn; now rewrite H2].
    eapply ac_skip; [reflexivity|]. now apply (map_call _ _ _ _ _ _ C2).
  Qed.
  Lemma turns_nest : forall n j (w : W), turns (2 * n) (Loop [NewTask (nest n j)] w) = Loop [NewTask j] w.
  Proof. induction n as [|n IH]; intros j w; [reflexivity|]. replace (2 * S n) with (S (S (2 * n))) by lia. cbn [turns]. cbn [nest]. exact (IH j w). Qed.
  Lemma turns_add : forall n m (l : loop W), turns (n + m) l = turns m (turns n l).
  Proof. induction n as [|n IH]; intros m l; [reflexivity|]. cbn. apply IH. Qed.
  Lemma nest_waits : forall n k j (w : W), k <= 2 * n + 1 -> env (turns k (Loop [NewTask (nest n j)] w)) = w.
  Proof.
    induction n as [|n IH]; intros k j w L.
    - destruct k as [|[|k]]; [reflexivity|reflexivity|lia].
    - destruct k as [|[|k]]; [reflexivity|reflexivity|]. cbn [turns nest]. apply (IH k j w). lia.
  Qed.
End Deep.

(** * They are the iterators of AsyncSeq.v *)
Section Mirror.
  Context {W : Type}.
  Lemma let_go_calm : forall A (g : agen W A) l, Forall idle (held g) -> calm l -> calm (let_go g l).
  Proof. intros A g l H C. unfold calm in *. cbn. rewrite map_app, map_job_new. apply Forall_app. now split. Qed.
  Lemma run_calm : forall hs (l : loop W), Forall idle (List.map job_of hs) -> calm l -> calm (fold_left run_handle hs l) /\ env (fold_left run_handle hs l) = env l.
  Proof.
    induction hs as [|h hs IH]; intros l F C; [auto|]. cbn in *. assert (F1 : idle (job_of h)) by (inversion F; assumption). assert (F2 : Forall idle (List.map job_of hs)) by (inversion F; assumption).
    destruct h as [j|[exit rest]]; cbn in *.
    - apply (IH (schedule [Close j] l)); [exact F2|]. unfold calm in *. cbn. rewrite map_app. apply Forall_app. split; [exact C|constructor; [exact F1|constructor]].
    - inversion F1 as [ex rs X R]; subst. rewrite X. edestruct IH as [P Q]; [exact F2| |split; [exact P|exact Q]].
      unfold calm in *. cbn. rewrite map_app, map_job_new. apply Forall_app. now split.
  Qed.
  Lemma turn_calm : forall l : loop W, calm l -> calm (turn l) /\ env (turn l) = env l.
  Proof. intros l C. apply (run_calm (ready l) (Loop [] (env l))); [exact C|constructor]. Qed.
  Lemma turns_calm : forall n (l : loop W), calm l -> calm (turns n l) /\ env (turns n l) = env l.
  Proof. induction n as [|n IH]; intros l C; [auto|]. cbn. destruct (turn_calm l C) as [P Q]. rewrite <- Q. now apply IH. Qed.
  Lemma id_idle : forall js : list (job W), Forall idle js -> Forall idle [Job (fun w => w) js].
  Proof. intros. constructor; [constructor; [reflexivity|assumption]|constructor]. Qed.
  Ltac fin := match goal with |- same_astep _ (_, ?l) (_, ?w) => change w with (env l) end.
  Lemma step_not_stop : forall A (g : gen W A) w e w1, step g w = (Raise e, w1) -> e <> StopIterationExn.
  Proof. intros A [n] w e w1 E ->. cbn in E. destruct (n w) as [[|[]] ?]; discriminate. Qed.
  Lemma each_mirrors : forall A B S (body : S -> A -> M W (AsyncSeq.turn S B)) s c g, mirrors c g -> mirrors (a_each body s c) (each body s g).
  Proof.
    intros A B S body. cofix CIH. intros s c g M0.
    assert (H : Forall idle (held c)) by (destruct M0; assumption).
    constructor; [exact (id_idle _ H)|]. intros l C.
    assert (K : same_astep mirrors (anext c l) (step g (env l))) by (destruct M0 as [_ M0]; exact (M0 l C)).
    cbn. unfold bind, in_async. destruct (anext c l) as [[x c1|c1|c1|e c1] l1] eqn:E, (step g (env l)) as [[st|e1] w1] eqn:E1; inversion K; subst; cbn.
    - unfold on_env. assert (C2 : forall w, calm (Loop (ready l1) w)) by (intros w; assumption).
      destruct (body s x (env l1)) as [[[y s1|s1|]|e] w]; cbn.
      + apply (sa_yield _ y _ _ (Loop (ready l1) w)); [apply CIH; assumption|apply C2].
      + apply (sa_skip _ _ _ (Loop (ready l1) w)); [apply CIH; assumption|apply C2].
      + apply (sa_stop _ over (let_go c1 (Loop (ready l1) w))); [constructor|]. apply let_go_calm; [|apply C2]. match goal with X : mirrors c1 _ |- _ => destruct X; assumption end.
      + assert (CC : calm (let_go c1 (Loop (ready l1) w))). { apply let_go_calm; [|apply C2]. match goal with X : mirrors c1 _ |- _ => destruct X; assumption end. }
        destruct e; cbn; first [exact (sa_raise _ _ over (let_go c1 (Loop (ready l1) w)) (Forall_nil _) CC)|exact (sa_stop _ over (let_go c1 (Loop (ready l1) w)) (Forall_nil _) CC)].
    - apply (sa_skip _ _ _ l1); [apply CIH; assumption|assumption].
    - apply (sa_stop _ over (let_go c1 l1)); [constructor|]. now apply let_go_calm.
    - assert (CC : calm (let_go c1 l1)) by now apply let_go_calm. assert (N := anext_not_stop _ _ _ _ _ _ _ E).
      destruct e1; cbn; first [exact (sa_raise _ _ over (let_go c1 l1) (Forall_nil _) CC)|now destruct N].
  Qed.
  Lemma started_mirrors : forall A B (ci : aiterable W A) it (cl : agen W A -> agen W B) gl, mirrors_it ci it -> (forall c g, mirrors c g -> mirrors (cl c) (gl g)) ->
    mirrors (a_started ci cl) (started it gl).
  Proof.
    intros A B ci it cl gl F L. constructor; [constructor|]. intros l C. specialize (F l C). cbn. unfold bind, in_async.
    destruct (ci l) as [[c|e] l1], (it (env l)) as [[g|e1] w1]; try contradiction.
    - destruct F as (<- & C1 & M1). cbn. apply (sa_skip _ _ _ l1); [now apply L|exact C1].
    - destruct F as (<- & <- & C1). destruct e; cbn; first [exact (sa_raise _ _ over l1 (Forall_nil _) C1)|exact (sa_stop _ over l1 (Forall_nil _) C1)].
  Qed.
  Definition inner_mirrors {B} (ci : option (agen W B)) (gi : option (gen W B)) : Prop :=
    match ci, gi with Some c, Some g => mirrors c g | None, None => True | _, _ => False end.
  Lemma collect_mirrors : forall A B (fc : A -> M W (aiterable W B)) f, mirrors_fun fc f ->
    forall ci gi c g, inner_mirrors ci gi -> mirrors c g -> mirrors (a_collect_loop fc ci c) (collect_loop f gi g).
  Proof.
    intros A B fc f MF. cofix CIH. intros ci gi c g I M0.
    assert (H : Forall idle (held c)) by (destruct M0; assumption).
    assert (HI : Forall idle (match ci with Some h => held h | None => [] end)).
    { destruct ci as [h|], gi as [k|]; cbn in I; try contradiction; [destruct I; assumption|constructor]. }
    assert (H2 := proj2 (Forall_app _ _ _) (conj HI H)).
    constructor; [exact (id_idle _ H2)|]. intros l C. destruct ci as [h|], gi as [k|]; cbn in I; try contradiction.
    - assert (K : same_astep mirrors (anext h l) (step k (env l))) by (destruct I as [_ I]; exact (I l C)).
      cbn. unfold bind, in_async. destruct (anext h l) as [[x h1|h1|h1|e h1] l1] eqn:E, (step k (env l)) as [[st|e1] w1] eqn:E1; inversion K; subst; cbn.
      + apply (sa_yield _ x _ _ l1); [apply CIH; [assumption|exact M0]|assumption].
      + apply (sa_skip _ _ _ l1); [apply CIH; [assumption|exact M0]|assumption].
      + apply (sa_skip _ _ _ (let_go h1 l1)); [apply CIH; [exact Logic.I|exact M0]|]. now apply let_go_calm.
      + assert (CC : calm (let_go c (let_go h1 l1))) by (apply let_go_calm; [exact H|now apply let_go_calm]). assert (N := anext_not_stop _ _ _ _ _ _ _ E).
        destruct e1; cbn; first [exact (sa_raise _ _ over (let_go c (let_go h1 l1)) (Forall_nil _) CC)|now destruct N].
    - assert (K : same_astep mirrors (anext c l) (step g (env l))) by (destruct M0 as [_ M0]; exact (M0 l C)).
      cbn. unfold bind, in_async. destruct (anext c l) as [[x c1|c1|c1|e c1] l1] eqn:E, (step g (env l)) as [[st|e1] w1] eqn:E1; inversion K; subst; cbn.
      + unfold on_env. assert (C2 : forall w, calm (Loop (ready l1) w)) by (intros w; assumption).
        assert (HC : Forall idle (held c1)) by (match goal with X : mirrors c1 _ |- _ => destruct X; assumption end).
        specialize (MF x (env l1)). destruct (fc x (env l1)) as [[it|e] w], (f x (env l1)) as [[it2|e2] w2]; try contradiction.
        * destruct MF as [<- MI]. specialize (MI (Loop (ready l1) w) (C2 w)). cbn in *. destruct (it (Loop (ready l1) w)) as [[h|e] l2], (it2 w) as [[k|e2] w2]; try contradiction.
          -- destruct MI as (<- & C3 & M2). apply (sa_skip _ _ _ l2); [apply CIH; [exact M2|assumption]|exact C3].
          -- destruct MI as (<- & <- & C3). assert (CC : calm (let_go c1 l2)) by now apply let_go_calm.
             destruct e; cbn; first [exact (sa_raise _ _ over (let_go c1 l2) (Forall_nil _) CC)|exact (sa_stop _ over (let_go c1 l2) (Forall_nil _) CC)].
        * destruct MF as [<- <-]. assert (CC : calm (let_go c1 (Loop (ready l1) w))) by (apply let_go_calm; [exact HC|apply C2]).
          destruct e; cbn; first [exact (sa_raise _ _ over (let_go c1 (Loop (ready l1) w)) (Forall_nil _) CC)|exact (sa_stop _ over (let_go c1 (Loop (ready l1) w)) (Forall_nil _) CC)].
      + apply (sa_skip _ _ _ l1); [apply CIH; [exact Logic.I|assumption]|assumption].
      + apply (sa_stop _ over (let_go c1 l1)); [constructor|]. now apply let_go_calm.
      + assert (CC : calm (let_go c1 l1)) by now apply let_go_calm. assert (N := anext_not_stop _ _ _ _ _ _ _ E).
        destruct e1; cbn; first [exact (sa_raise _ _ over (let_go c1 l1) (Forall_nil _) CC)|now destruct N].
  Qed.
  Definition other_mirrors {B} (co : option (aiterable W B)) (o : option (iterable W B)) : Prop :=
    match co, o with Some ci, Some it => mirrors_it ci it | None, None => True | _, _ => False end.
  Lemma append_mirrors : forall B (co : option (aiterable W B)) o c g, other_mirrors co o -> mirrors c g -> mirrors (a_append_loop co c) (append_loop o g).
  Proof.
    intros B. cofix CIH. intros co o c g O M0.
    assert (H : Forall idle (held c)) by (destruct M0; assumption).
    constructor; [exact (id_idle _ H)|]. intros l C.
    assert (K : same_astep mirrors (anext c l) (step g (env l))) by (destruct M0 as [_ M0]; exact (M0 l C)).
    cbn. unfold bind, in_async. destruct (anext c l) as [[x c1|c1|c1|e c1] l1] eqn:E, (step g (env l)) as [[st|e1] w1] eqn:E1; inversion K; subst; cbn.
    - apply (sa_yield _ x _ _ l1); [apply CIH; [exact O|assumption]|assumption].
    - apply (sa_skip _ _ _ l1); [apply CIH; [exact O|assumption]|assumption].
    - assert (CC : calm (let_go c1 l1)) by now apply let_go_calm. destruct co as [ci|], o as [it|]; cbn in O; try contradiction.
      + specialize (O _ CC). cbn in O. destruct (ci (let_go c1 l1)) as [[h|e] l2], (it (env l1)) as [[k|e2] w2]; try contradiction.
        * destruct O as (<- & C3 & M2). apply (sa_skip _ _ _ l2); [apply CIH; [exact Logic.I|exact M2]|exact C3].
        * destruct O as (<- & <- & C3). destruct e; cbn; first [exact (sa_raise _ _ over l2 (Forall_nil _) C3)|exact (sa_stop _ over l2 (Forall_nil _) C3)].
      + apply (sa_stop _ over (let_go c1 l1)); [constructor|exact CC].
    - assert (CC : calm (let_go c1 l1)) by now apply let_go_calm. assert (N := anext_not_stop _ _ _ _ _ _ _ E).
      destruct e1; cbn; first [exact (sa_raise _ _ over (let_go c1 l1) (Forall_nil _) CC)|now destruct N].
  Qed.
  Lemma list_mirrors : forall A (xs : list A), mirrors (a_list xs : agen W A) (list_gen xs).
  Proof.
    intros A. cofix CIH. intros xs. constructor; [apply id_idle; constructor|]. intros l C. destruct xs as [|x xs]; cbn; [apply (sa_stop _ over l); [constructor|exact C]|]. constructor; [apply CIH|exact C].
  Qed.
  Lemma plain_mirrors : forall A (xs : res (list A)), mirrors (a_plain xs : agen W A) (Gen (do xs <- lift xs; ret (Skip (list_gen xs)))) \/ xs = Raise StopIterationExn.
  Proof.
    intros A [xs|e]; [left; constructor; [constructor|]; intros l C; cbn; apply (sa_skip _ _ _ l); [apply list_mirrors|exact C]|].
    destruct e; try (left; constructor; [constructor|]; intros l C; cbn; apply (sa_raise _ _ over l); [constructor|exact C]). now right.
  Qed.
  Lemma scan_mirrors : forall A S (f : S -> A -> M W S) s ci it, mirrors_it ci it -> mirrors (a_scan f s ci) (scan f s it).
  Proof.
    intros A S f s ci it MI. constructor; [constructor|]. intros l C. cbn. apply (sa_yield _ s _ _ l); [|exact C].
    constructor; [apply id_idle; constructor|]. intros l1 C1.
    assert (O : mirrors (a_started ci (a_each (fun s x => do s1 <- f s x; ret (Give s1 s1)) s)) (async_for (fun s x => do s1 <- f s x; ret (Give s1 s1)) s it)).
    { apply started_mirrors; [exact MI|]. intros c g M0. now apply each_mirrors. }
    destruct O as [_ O]. exact (O l1 C1).
  Qed.
  Lemma src_mirrors : forall A (c : agen W A) g, mirrors c g -> mirrors_it (a_src c) (ret g).
  Proof. intros A c g M0 l C. cbn. auto. Qed.
  Lemma loop_mirrors : forall A St R (body : St -> A -> M W (St + R)) fuel c g s l, mirrors c g -> calm l ->
    (fst (a_loop fuel c s body l), env (snd (a_loop fuel c s body l))) = in_async (for_gen fuel g s body) (env l) /\ calm (snd (a_loop fuel c s body l)).
  Proof.
    intros A St R body. induction fuel as [|fuel IH]; intros c g s l M0 C; [cbn; auto|].
    assert (K : same_astep mirrors (anext c l) (step g (env l))) by (destruct M0 as [_ M0]; exact (M0 l C)).
    unfold in_async in *. cbn. unfold bind in *. destruct (anext c l) as [[x c1|c1|c1|e c1] l1] eqn:E, (step g (env l)) as [[st|e1] w1] eqn:E1; inversion K; subst.
    - unfold on_env. assert (C2 : forall w, calm (Loop (ready l1) w)) by (intros w; assumption).
      assert (HC : Forall idle (held c1)) by (match goal with X : mirrors c1 _ |- _ => destruct X; assumption end).
      destruct (body s x (env l1)) as [[[s1|v]|e] w].
      + apply (IH _ _ _ (Loop (ready l1) w)); [assumption|apply C2].
      + cbn. split; [reflexivity|]. apply let_go_calm; [exact HC|apply C2].
      + cbn. split; [destruct e; reflexivity|]. apply let_go_calm; [exact HC|apply C2].
    - apply IH; assumption.
    - cbn. split; [reflexivity|]. now apply let_go_calm.
    - cbn. split; [|now apply let_go_calm]. assert (N := anext_not_stop _ _ _ _ _ _ _ E). destruct e1; try reflexivity. now destruct N.
  Qed.
End Mirror.
