(** Lemmas about async iterators that are given up. *)
From Coq Require Import List ZArith Bool Lia.
From Verif.Model Require Import Base PyList Gen Resume AsyncSeq AsyncAbandon.
From Verif.Spec Require Import ResumeSpec AsyncAbandonSpec.
Import ListNotations.
Local Open Scope py_scope.

Lemma anext_not_stop : forall W A (g : agen W A) l e g1 l1, anext g l = (RRaise e g1, l1) -> e <> StopIterationExn.
Proof. intros W A [n h] l e g1 l1 E ->. cbn in E. destruct (n l) as [[| | |[]] ?]; discriminate. Qed.

(** * Over for good *)
Section Over.
  Context {W : Type}.
  Lemma over_calls : forall A l os (g : agen W A) l1, acalls over l os g l1 -> Forall (eq Ended) os /\ l1 = l /\ held g = [].
  Proof.
    intros A l os g l1 H. remember over as g0 eqn:E. induction H as [g l|g l o g1 l1 os g2 l2 C H IH].
    - subst. repeat split. constructor.
    - subst. inversion C; subst; cbn in *; try discriminate. injection H0 as <- <-. destruct (IH eq_refl) as (F & <- & K). repeat split; [now constructor|exact K].
  Qed.
  (** every step that ends or raises leaves [over] *)
  Inductive tidying {A} (T : agen W A -> Prop) : rstep A (agen W A) -> Prop :=
  | td_yield : forall a g, T g -> tidying T (RYield a g)
  | td_skip : forall g, T g -> tidying T (RSkip g)
  | td_stop : tidying T (RStop over)
  | td_raise : forall e, tidying T (RRaise e over).
  CoInductive tidy {A} (g : agen W A) : Prop := tidy_next : (forall l, tidying tidy (fst (anext g l))) -> tidy g.
  Lemma over_tidy : forall A, tidy (over : agen W A).
  Proof. intros A. constructor. intros l. constructor. Qed.
  Lemma tidy_call : forall A (g : agen W A) l o g1 l1, acall g l o g1 l1 -> tidy g -> match o with Got _ => tidy g1 | _ => g1 = over end.
  Proof.
    intros A g l o g1 l1 H. induction H as [g l a g1 l1 E|g l g1 l1 E|g l e g1 l1 E|g l g1 l1 o g2 l2 E H IH]; intros [T]; specialize (T l); rewrite E in T; cbn in T; inversion T; subst; try assumption; try reflexivity; now apply IH.
  Qed.
  Lemma tidy_calls : forall A (g : agen W A) l os g1 l1, acalls g l os g1 l1 -> tidy g -> tidy g1.
  Proof.
    intros A g l os g1 l1 H. induction H as [|g l o g1 l1 os g2 l2 C H IH]; intros T; [exact T|]. apply IH. pose proof (tidy_call _ _ _ _ _ _ C T) as K.
    destruct o; [exact K|subst; apply over_tidy|subst; apply over_tidy].
  Qed.
  Lemma calls_split : forall A os1 (g : agen W A) l os2 g2 l2, acalls g l (os1 ++ os2) g2 l2 -> exists g1 l1, acalls g l os1 g1 l1 /\ acalls g1 l1 os2 g2 l2.
  Proof.
    intros A. induction os1 as [|o os1 IH]; intros g l os2 g2 l2 H; [exists g, l; split; [constructor|exact H]|]. cbn in H. inversion H; subst.
    edestruct IH as (g3 & l3 & P & Q); [eassumption|]. exists g3, l3. split; [econstructor; eassumption|exact Q].
  Qed.
  Lemma tidy_over_for_good : forall A (g : agen W A), tidy g -> over_for_good g.
  Proof.
    intros A g T l os o g1 l1 H N os2 g2 l2 H2. destruct (calls_split _ _ _ _ _ _ _ H) as (g3 & l3 & P & Q). pose proof (tidy_calls _ _ _ _ _ _ P T) as T3.
    inversion Q; subst. pose proof (tidy_call _ _ _ _ _ _ H5 T3) as K. inversion H8; subst.
    assert (g1 = over) by (destruct o; [now destruct (N a)|exact K|exact K]). subst. now apply over_calls in H2.
  Qed.
  Ltac td := cbn; constructor.
  Lemma each_tidy : forall A B S (body : S -> A -> M W (AsyncSeq.turn S B)) s g, tidy (a_each body s g).
  Proof.
    intros A B S body. cofix CIH. intros s g. td. intros l. cbn. destruct (anext g l) as [[x g1|g1|g1|e g1] l1] eqn:E.
    - unfold on_env. destruct (body s x (env l1)) as [[[y s1|s1|]|e] w]; [td; apply CIH|td; apply CIH|td|destruct e; td].
    - td; apply CIH.
    - td.
    - destruct e; td.
  Qed.
  Lemma started_tidy : forall A B src (lp : agen W A -> agen W B), (forall g, tidy (lp g)) -> tidy (a_started src lp).
  Proof. intros A B src lp T. td. intros l. cbn. destruct (src l) as [[g|e] l1]; [td; apply T|]. destruct e; td. Qed.
  Lemma collect_tidy : forall A B (f : A -> M W (aiterable W B)) inner g, tidy (a_collect_loop f inner g).
  Proof.
    intros A B f. cofix CIH. intros inner g. td. intros l. destruct inner as [h|]; cbn.
    - destruct (anext h l) as [[x h1|h1|h1|e h1] l1] eqn:E; try (td; apply CIH). destruct e; td.
    - destruct (anext g l) as [[x g1|g1|g1|e g1] l1] eqn:E.
      + destruct (on_env (f x) l1) as [[it|e] l2]; [|destruct e; td].
        destruct (it l2) as [[h|e] l3]; [td; apply CIH|destruct e; td].
      + td; apply CIH.
      + td.
      + destruct e; td.
  Qed.
  Lemma append_tidy : forall B other (g : agen W B), tidy (a_append_loop other g).
  Proof.
    intros B. cofix CIH. intros other g. td. intros l. cbn. destruct (anext g l) as [[x g1|g1|g1|e g1] l1] eqn:E; [td; apply CIH|td; apply CIH| |].
    - destruct other as [it|]; [|td]. destruct (it (let_go g1 l1)) as [[h|e] l2]; [td; apply CIH|destruct e; td].
    - destruct e; td.
  Qed.
  Lemma list_tidy : forall A (xs : list A), tidy (a_list xs : agen W A).
  Proof. intros A. cofix CIH. intros xs. td. intros l. destruct xs; [td|]. td; apply CIH. Qed.
  Lemma plain_tidy : forall A (xs : res (list A)), tidy (a_plain xs : agen W A).
  Proof. intros A [xs|e]; td; intros l; cbn; [td; apply list_tidy|]. destruct e; td. Qed.
  Lemma scan_tidy : forall A S (f : S -> A -> M W S) s src, tidy (a_scan f s src).
  Proof.
    intros A S f s src. td. intros l. cbn. td. td. intros l1. cbn. destruct (src l1) as [[g|e] l2]; [td; apply each_tidy|].
    destruct e; td.
  Qed.
  Lemma body_tidy : forall A exit last (ms : list (nat * M W A)), tidy (a_body exit ms last).
  Proof.
    intros A exit last. cofix CIH. intros ms. td. intros l. destruct ms as [|[n m] ms]; cbn; [td|].
    destruct (on_env m (turns n l)) as [[x|e] l1]; [td; apply CIH|]. destruct e; td.
  Qed.
  Lemma resource_tidy : forall A enter exit last (ms : list (nat * M W A)), tidy (a_resource enter exit ms last).
  Proof. intros. td. intros l. cbn. td. apply body_tidy. Qed.
End Over.

(** * What is open *)
Section Owe.
  Context {W : Type}.
  Variable open : W -> Z.
  Notation jobs_owe := (jobs_owe open).
  Notation stands := (stands open).
  Notation owes := (owes open any).
  Notation owing := (owing open any).
  Notation balanced := (AsyncAbandonSpec.balanced open any).
  Lemma jobs_app : forall n js m ks, jobs_owe n js -> jobs_owe m ks -> jobs_owe (n + m) (js ++ ks).
  Proof.
    intros n js. revert n. induction js as [|j js IH]; intros n m ks H K; inversion H; subst; [exact K|].
    replace (n0 + m0 + m)%Z with (n0 + (m0 + m))%Z by lia. constructor; [assumption|]. now apply IH.
  Qed.
  Lemma jobs_one : forall n j, job_owes open n j -> jobs_owe n [j].
  Proof. intros n j H. replace n with (n + 0)%Z by lia. constructor; [exact H|constructor]. Qed.
  Lemma map_job_new : forall (js : list (job W)), List.map job_of (List.map NewTask js) = js.
  Proof. intros js. rewrite map_map. cbn. apply map_id. Qed.
  Lemma stands_schedule : forall b l js n, stands (b + n) l -> jobs_owe n js -> stands b (schedule (List.map NewTask js) l).
  Proof.
    intros b l js n (m & M & E) J. exists (m + n)%Z. cbn. rewrite map_app, map_job_new. split; [now apply jobs_app|lia].
  Qed.
  Lemma run_handles : forall hs l n m b, jobs_owe n (List.map job_of hs) -> jobs_owe m (List.map job_of (ready l)) -> (open (env l) - n - m = b)%Z ->
    stands b (fold_left run_handle hs l).
  Proof.
    induction hs as [|h hs IH]; intros l n m b H K E; cbn.
    - inversion H; subst. exists m. split; [exact K|lia].
    - cbn in H. inversion H as [|p j0 q js0 J1 J2]; subst. destruct h as [j|[exit rest]]; cbn in *.
      + apply (IH _ q (m + p)%Z); cbn; [assumption| |lia]. rewrite map_app. apply jobs_app; [exact K|now apply jobs_one].
      + inversion J1 as [ex rs k r X R]; subst. apply (IH _ q (m + r)%Z); cbn; [assumption| |].
        * rewrite map_app, map_job_new. now apply jobs_app.
        * rewrite X. lia.
  Qed.
  Lemma turn_stands : forall b l, stands b l -> stands b (turn l).
  Proof. intros b l (n & J & E). apply (run_handles _ _ n 0 b); [exact J|constructor|cbn; lia]. Qed.
  Lemma turns_stands : forall k b l, stands b l -> stands b (turns k l).
  Proof. induction k as [|k IH]; intros b l S; [exact S|]. apply IH. now apply turn_stands. Qed.
  Lemma stands_quiet : forall b l, stands b l -> ready l = [] -> open (env l) = b.
  Proof. intros b l (n & J & E) R. rewrite R in J. inversion J; subst. lia. Qed.
  Lemma quiet_stands : forall w, stands (open w) (Loop [] w).
  Proof. intros w. exists 0%Z. split; [constructor|cbn; lia]. Qed.
  Lemma let_go_stands : forall A P n (g : agen W A) b l, AsyncAbandonSpec.owes open P n g -> stands (b + n) l -> stands b (let_go g l).
  Proof. intros A P n g b l [H _] S. exact (stands_schedule _ _ _ _ S H). Qed.
  Lemma on_env_stands : forall X (m : M W X) b l r l1, neutral open m -> on_env m l = (r, l1) -> stands b l -> stands b l1.
  Proof.
    unfold on_env. intros X m b l r l1 N E (n & J & F). pose proof (N (env l)) as K. destruct (m (env l)) as [r1 w]. injection E as <- <-. exists n. cbn in *. split; [exact J|lia].
  Qed.
  Lemma stands0 : forall b l, stands b l -> stands (b + 0) l.
  Proof. intros b l H. now rewrite Z.add_0_r. Qed.
  Lemma over_owes : forall A, owes 0 (over : agen W A).
  Proof.
    intros A. cofix CIH. constructor; [constructor|]. intros b l S. cbn. econstructor; [exact CIH|exact S].
  Qed.
  Lemma id_job : forall n js, jobs_owe n js -> jobs_owe n [Job (fun w => w) js].
  Proof. intros n js H. apply jobs_one. replace n with (0 + n)%Z by lia. constructor; [intros; lia|exact H]. Qed.
  Lemma owing_over : forall A e b l, stands b l -> owing owes b (RRaise e over : rstep A (agen W A), l).
  Proof. intros A e b l S. econstructor; [apply over_owes|now apply stands0]. Qed.
  Lemma owing_stop : forall A b l, stands b l -> owing owes b (RStop over : rstep A (agen W A), l).
  Proof. intros A b l S. econstructor; [apply over_owes|now apply stands0]. Qed.
  Lemma each_owes : forall A B S (body : S -> A -> M W (AsyncSeq.turn S B)), (forall s x, neutral open (body s x)) ->
    forall s n g, owes n g -> owes n (a_each body s g).
  Proof.
    intros A B S body N. cofix CIH. intros s n g G.
    assert (H : jobs_owe n (held g)) by (destruct G; assumption).
    constructor; [exact (id_job _ _ H)|]. intros b l ST.
    assert (K : owing owes b (anext g l)) by (destruct G as [_ G]; exact (G b l ST)).
    cbn. destruct (anext g l) as [[x g1|g1|g1|e g1] l1] eqn:E; inversion K as [? ? ? m PA G1 S1|? ? m G1 S1|? ? m G1 S1|? ? ? m G1 S1]; subst.
    - destruct (on_env (body s x) l1) as [r l2] eqn:F. assert (S2 : stands (b + m) l2) by (eapply on_env_stands; [apply N|exact F|exact S1]).
      destruct r as [[y s1|s1|]|e].
      + apply ow_yield with m; [exact Logic.I|apply CIH; exact G1|exact S2].
      + apply ow_skip with m; [apply CIH; exact G1|exact S2].
      + apply owing_stop. exact (let_go_stands _ _ _ _ _ _ G1 S2).
      + destruct e; first [apply owing_over|apply owing_stop]; exact (let_go_stands _ _ _ _ _ _ G1 S2).
    - apply ow_skip with m; [apply CIH; exact G1|exact S1].
    - apply owing_stop. exact (let_go_stands _ _ _ _ _ _ G1 S1).
    - destruct e; first [apply owing_over|apply owing_stop]; exact (let_go_stands _ _ _ _ _ _ G1 S1).
  Qed.
  Lemma started_owes : forall A B src (lp : agen W A -> agen W B) P, AsyncAbandonSpec.balanced open P src -> (forall n g, AsyncAbandonSpec.owes open P n g -> owes n (lp g)) -> owes 0 (a_started src lp).
  Proof.
    intros A B src lp P S L. constructor; [constructor|]. intros b l ST. rewrite Z.add_0_r in ST. specialize (S b l ST). cbn. destruct (src l) as [[g|e] l1].
    - destruct S as (n & G & S). apply ow_skip with n; [now apply L|exact S].
    - destruct e; first [now apply owing_over|now apply owing_stop].
  Qed.
  Definition inner_owes {B} (m : Z) (inner : option (agen W B)) : Prop := match inner with Some h => owes m h | None => m = 0%Z end.
  Lemma collect_owes : forall A B (f : A -> M W (aiterable W B)), (forall x, neutral open (f x)) ->
    forall inner m n g, inner_owes m inner -> AsyncAbandonSpec.owes open (fun x => forall w it w1, f x w = (Ret it, w1) -> balanced it) n g -> owes (m + n) (a_collect_loop f inner g).
  Proof.
    intros A B f N. cofix CIH. intros inner m n g I G.
    assert (H : jobs_owe n (held g)) by (destruct G; assumption).
    assert (HI : jobs_owe m (match inner with Some h => held h | None => [] end)).
    { destruct inner as [h|]; [destruct I; assumption|cbn in I; subst; constructor]. }
    constructor; [exact (id_job _ _ (jobs_app _ _ _ _ HI H))|]. intros b l ST. destruct inner as [h|].
    - assert (K : owing owes (b + n) (anext h l)). { destruct I as [_ I]. apply I. replace (b + n + m)%Z with (b + (m + n))%Z by lia. exact ST. }
      cbn. destruct (anext h l) as [[x h1|h1|h1|e h1] l1] eqn:E; inversion K as [? ? ? p PA G1 S1|? ? p G1 S1|? ? p G1 S1|? ? ? p G1 S1]; subst.
      + apply ow_yield with (p + n)%Z; [exact Logic.I|apply CIH; [exact G1|exact G]|]. replace (b + (p + n))%Z with (b + n + p)%Z by lia. exact S1.
      + apply ow_skip with (p + n)%Z; [apply CIH; [exact G1|exact G]|]. replace (b + (p + n))%Z with (b + n + p)%Z by lia. exact S1.
      + apply ow_skip with (0 + n)%Z; [apply CIH; [reflexivity|exact G]|]. cbn [Z.add]. exact (let_go_stands _ _ _ _ _ _ G1 S1).
      + destruct e; first [apply owing_over|apply owing_stop]; exact (let_go_stands _ _ _ _ _ _ G (let_go_stands _ _ _ _ _ _ G1 S1)).
    - cbn in I. subst m. assert (K : AsyncAbandonSpec.owing open _ (AsyncAbandonSpec.owes open (fun x => forall w it w1, f x w = (Ret it, w1) -> balanced it)) b (anext g l)) by (destruct G as [_ G]; exact (G b l ST)).
      cbn. destruct (anext g l) as [[x g1|g1|g1|e g1] l1] eqn:E; inversion K as [? ? ? p PA G1 S1|? ? p G1 S1|? ? p G1 S1|? ? ? p G1 S1]; subst.
      + destruct (on_env (f x) l1) as [r l2] eqn:F. assert (S2 : stands (b + p) l2) by (eapply on_env_stands; [apply N|exact F|exact S1]).
        destruct r as [it|e].
        * assert (BI : balanced it). { unfold on_env in F. destruct (f x (env l1)) as [r w] eqn:F2. injection F as -> <-. exact (PA _ _ _ F2). }
          specialize (BI _ _ S2). destruct (it l2) as [[h|e] l3].
          -- destruct BI as (q & Q1 & Q2). apply ow_skip with (q + p)%Z; [apply CIH; [exact Q1|exact G1]|]. replace (b + (q + p))%Z with (b + p + q)%Z by lia. exact Q2.
          -- destruct e; first [apply owing_over|apply owing_stop]; exact (let_go_stands _ _ _ _ _ _ G1 BI).
        * destruct e; first [apply owing_over|apply owing_stop]; exact (let_go_stands _ _ _ _ _ _ G1 S2).
      + apply ow_skip with (0 + p)%Z; [apply CIH; [reflexivity|exact G1]|exact S1].
      + apply owing_stop. exact (let_go_stands _ _ _ _ _ _ G1 S1).
      + destruct e; first [apply owing_over|apply owing_stop]; exact (let_go_stands _ _ _ _ _ _ G1 S1).
  Qed.
  Lemma append_owes : forall B (other : option (aiterable W B)), (forall it, other = Some it -> balanced it) ->
    forall n g, owes n g -> owes n (a_append_loop other g).
  Proof.
    intros B. cofix CIH. intros other OB n g G.
    assert (H : jobs_owe n (held g)) by (destruct G; assumption).
    constructor; [exact (id_job _ _ H)|]. intros b l ST.
    assert (K : owing owes b (anext g l)) by (destruct G as [_ G]; exact (G b l ST)).
    cbn. destruct (anext g l) as [[x g1|g1|g1|e g1] l1] eqn:E; inversion K as [? ? ? m PA G1 S1|? ? m G1 S1|? ? m G1 S1|? ? ? m G1 S1]; subst.
    - apply ow_yield with m; [exact Logic.I|apply CIH; [exact OB|exact G1]|exact S1].
    - apply ow_skip with m; [apply CIH; [exact OB|exact G1]|exact S1].
    - pose proof (let_go_stands _ _ _ _ _ _ G1 S1) as S2. destruct other as [it|]; [|now apply owing_stop].
      pose proof (OB it eq_refl _ _ S2) as BI. destruct (it (let_go g1 l1)) as [[h|e] l2].
      + destruct BI as (q & Q1 & Q2). apply ow_skip with q; [apply CIH; [intros it0 X; discriminate X|exact Q1]|exact Q2].
      + destruct e; first [now apply owing_over|now apply owing_stop].
    - destruct e; first [apply owing_over|apply owing_stop]; exact (let_go_stands _ _ _ _ _ _ G1 S1).
  Qed.
  Lemma list_owes : forall A (xs : list A), owes 0 (a_list xs : agen W A).
  Proof.
    intros A. cofix CIH. intros xs. constructor; [exact (id_job _ _ (jos_nil open))|]. intros b l S. destruct xs as [|x xs]; cbn.
    - apply owing_stop. now rewrite Z.add_0_r in S.
    - apply ow_yield with 0%Z; [exact Logic.I|apply CIH|exact S].
  Qed.
  Lemma plain_owes_all : forall A (P : A -> Prop) (xs : list A), Forall P xs -> AsyncAbandonSpec.owes open P 0 (a_plain (Ret xs)).
  Proof.
    intros A P xs F. constructor; [constructor|]. intros b l S. cbn. apply ow_skip with 0%Z; [|exact S]. clear b l S. revert xs F. cofix CIH. intros xs F.
    constructor; [exact (id_job _ _ (jos_nil open))|]. intros b l S. destruct xs as [|x xs]; cbn.
    - apply ow_stop with 0%Z; [|exact S]. clear. cofix CIH. constructor; [constructor|]. intros b l S. cbn. apply ow_stop with 0%Z; [exact CIH|exact S].
    - apply ow_yield with 0%Z; [inversion F; assumption|apply CIH; inversion F; assumption|exact S].
  Qed.
  Lemma plain_owes : forall A (xs : res (list A)), owes 0 (a_plain xs : agen W A).
  Proof.
    intros A [xs|e]; (constructor; [constructor|]); intros b l S; cbn.
    - apply ow_skip with 0%Z; [apply list_owes|exact S].
    - destruct e; first [apply owing_over|apply owing_stop]; now rewrite Z.add_0_r in S.
  Qed.
  Lemma scan_owes : forall A S (f : S -> A -> M W S) s src, (forall s x, neutral open (f s x)) -> balanced src -> owes 0 (a_scan f s src).
  Proof.
    intros A S f s src N SB. constructor; [constructor|]. intros b l ST. cbn. apply ow_yield with 0%Z; [exact Logic.I| |exact ST].
    constructor; [exact (id_job _ _ (jos_nil open))|]. intros b1 l1 ST1.
    assert (O : owes 0 (a_started src (a_each (fun s x => do s1 <- f s x; ret (Give s1 s1)) s))).
    { eapply started_owes; [exact SB|]. intros n g G. apply each_owes; [|exact G]. intros s0 x w. unfold bind. specialize (N s0 x w). destruct (f s0 x w) as [[|] ?]; exact N. }
    destruct O as [_ O]. exact (O b1 l1 ST1).
  Qed.
  Lemma src_balanced : forall A (g : agen W A), owes 0 g -> balanced (a_src g).
  Proof. intros A g G b l S. exists 0%Z. split; [exact G|now apply stands0]. Qed.
  (** a generator of the user that opens one thing, and closes it in [finally] *)
  Lemma body_owes : forall A k exit last, (forall w, open (exit w) = open w - k)%Z ->
    forall ms : list (nat * M W A), Forall (fun nm => neutral open (snd nm)) ms -> owes k (a_body exit ms last).
  Proof.
    intros A k exit last X. 
    assert (J : jobs_owe k [Job exit []]). { apply jobs_one. replace k with (k + 0)%Z by lia. constructor; [exact X|constructor]. }
    assert (EX : forall b l, stands (b + k) l -> stands b (Loop (ready l) (exit (env l)))). { intros b l (n & P & Q). exists n. cbn. rewrite X. split; [exact P|lia]. }
    cofix CIH. intros ms N. constructor; [exact J|]. intros b l S. destruct ms as [|[n m] ms]; cbn.
    - apply owing_stop. apply EX. now apply turns_stands.
    - destruct (on_env m (turns n l)) as [r l1] eqn:F. assert (N1 : neutral open m) by (inversion N; assumption). assert (N2 : Forall (fun nm => neutral open (snd nm)) ms) by (inversion N; assumption).
      assert (S1 : stands (b + k) l1). { eapply on_env_stands; [exact N1|exact F|now apply turns_stands]. }
      destruct r as [x|e]; [apply ow_yield with k; [exact Logic.I|apply CIH; exact N2|exact S1]|]. destruct e; first [apply owing_over|apply owing_stop]; now apply EX.
  Qed.
  Lemma resource_owes : forall A k enter exit last (ms : list (nat * M W A)), (forall w, open (enter w) = open w + k)%Z -> (forall w, open (exit w) = open w - k)%Z ->
    Forall (fun nm => neutral open (snd nm)) ms -> owes 0 (a_resource enter exit ms last).
  Proof.
    intros A k enter exit last ms I X N. constructor; [constructor|]. intros b l (n & P & Q). cbn. apply ow_skip with k; [now apply body_owes|].
    exists n. cbn. rewrite I. split; [exact P|lia].
  Qed.
  Lemma call_owes : forall A (g : agen W A) l o g1 l1, acall g l o g1 l1 -> forall n b, owes n g -> stands (b + n) l -> exists m, owes m g1 /\ stands (b + m) l1.
  Proof.
    intros A g l o g1 l1 H. induction H as [g l a g1 l1 E|g l g1 l1 E|g l e g1 l1 E|g l g1 l1 o g2 l2 E H IH]; intros n b [_ G] S; specialize (G _ _ S); rewrite E in G; inversion G; subst; eauto.
  Qed.
  Lemma calls_owes : forall A (g : agen W A) l os g1 l1, acalls g l os g1 l1 -> forall n b, owes n g -> stands (b + n) l -> exists m, owes m g1 /\ stands (b + m) l1.
  Proof.
    intros A g l os g1 l1 H. induction H as [|g l o g1 l1 os g2 l2 C H IH]; intros n b G S; [eauto|]. destruct (call_owes _ _ _ _ _ _ C _ _ G S) as (m & P & Q). eauto.
  Qed.
  Lemma aclose_stands : forall A n (g : agen W A) b l, owes n g -> stands (b + n) l -> stands b (aclose g l).
  Proof.
    intros A n [nx h] b l [H _] (m & M & E). unfold aclose. cbn in *. destruct h as [[exit rest]|]; cbn; inversion H as [|p j0 q js0 J1 J2]; subst.
    - inversion J2; subst. inversion J1 as [ex rs k r X R]; subst. exists (m + r)%Z. cbn. rewrite map_app, map_job_new. split; [now apply jobs_app|]. rewrite X. lia.
    - exists m. split; [exact M|lia].
  Qed.
  Lemma loop_stands : forall A St R (body : St -> A -> M W (St + R)), (forall s x, neutral open (body s x)) ->
    forall fuel g s l n b r l1, owes n g -> stands (b + n) l -> a_loop fuel g s body l = (r, l1) -> r <> Raise OutOfFuel -> stands b l1.
  Proof.
    intros A St R body N. induction fuel as [|fuel IH]; intros g s l n b r l1 G S E NF; cbn in E; [injection E as <- <-; now destruct NF|].
    assert (K : owing owes b (anext g l)) by (destruct G as [_ G]; exact (G b l S)).
    destruct (anext g l) as [[x g1|g1|g1|e g1] l2] eqn:F; inversion K as [? ? ? m PA G1 S1|? ? m G1 S1|? ? m G1 S1|? ? ? m G1 S1]; subst.
    - destruct (on_env (body s x) l2) as [r2 l3] eqn:F2. assert (S2 : stands (b + m) l3) by (eapply on_env_stands; [apply N|exact F2|exact S1]).
      destruct r2 as [[s1|v]|e]; [exact (IH _ _ _ _ _ _ _ G1 S2 E NF)| |]; injection E as <- <-; exact (let_go_stands _ _ _ _ _ _ G1 S2).
    - exact (IH _ _ _ _ _ _ _ G1 S1 E NF).
    - injection E as <- <-. exact (let_go_stands _ _ _ _ _ _ G1 S1).
    - injection E as <- <-. exact (let_go_stands _ _ _ _ _ _ G1 S1).
  Qed.
End Owe.
