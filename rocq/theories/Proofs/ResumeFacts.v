(** Lemmas about iterators that are asked again. *)
From Coq Require Import List ZArith Bool Lia.
From Verif.Model Require Import Base Gen OptionResult Seq Resume.
From Verif.Spec Require Import ResumeSpec.
From Verif.Spec Require SeqSpec.
Import ListNotations.
Local Open Scope py_scope.

(** * They are the iterators of Seq.v *)
Ltac fl_exn := match goal with e : exn |- _ => destruct e; constructor end.
Lemma list_follows : forall W A (xs : list A), follows (W := W) (r_list xs) (list_gen xs).
Proof. intros W A. cofix CIH. intros xs. constructor. intros w. destruct xs; cbn; constructor. apply CIH. Qed.
Lemma step_not_stop : forall W A (g : gen W A) w, fst (step g w) <> Raise StopIterationExn.
Proof. intros W A [n] w. cbn. destruct (n w) as [[x|[]] w1]; discriminate. Qed.
Lemma wrap_follows : forall W A (r : rgen W A) g, follows r g -> follows (r_wrap r) g.
Proof.
  intros W A. cofix CIH. intros r g [H]. constructor. intros w. specialize (H w). cbn. pose proof (step_not_stop W A g w) as N.
  destruct H; [constructor; apply CIH; assumption|constructor; apply CIH; assumption|constructor|].
  destruct e; try constructor. now contradiction N.
Qed.

Section Follow.
  Context {W A B S : Type}.
  Lemma opening_follows : forall (ri : riterable W A) (it : iterable W A) (rl : rgen W A -> rgen W B) l,
    follows_it ri it -> (forall r g, follows r g -> follows (rl r) (l g)) -> follows (r_opening ri rl) (opening it l).
  Proof.
    intros ri it rl l F L. constructor. intros w. specialize (F w). cbn. unfold bind, in_generator. destruct (ri w) as [[r|e] w1], (it w) as [[g|e2] w2]; try contradiction.
    - destruct F as [<- F]. cbn. constructor. now apply L.
    - destruct F as [<- <-]. destruct e; constructor.
  Qed.
  Lemma map_loop_follows : forall (f : A -> M W B) r g, follows r g -> follows (r_map_loop f r) (map_loop f g).
  Proof.
    intros f. cofix CIH. intros r g [H]. constructor. intros w. specialize (H w). cbn. unfold bind, in_generator.
    destruct H as [a r1 g1 w0 H|r1 g1 w0 H|r1 w0|e r1 w0]; [|constructor; apply CIH; assumption|constructor|destruct e; constructor].
    destruct (f a w0) as [[y|e] w1]; [|destruct e; constructor]. cbn. constructor. apply CIH; assumption.
  Qed.
  Lemma concat_loop_follows : forall (ris : list (riterable W A)) (its : list (iterable W A)), Forall2 follows_it ris its ->
    forall r g, match r, g with Some r, Some g => follows r g | None, None => True | _, _ => False end -> follows (r_concat_loop r ris) (concat_loop g its).
  Proof.
    cofix CIH. intros ris its F r g H. constructor. intros w. destruct r as [r|], g as [g|]; try contradiction.
    - destruct H as [H]. specialize (H w). cbn. unfold bind. destruct H; try fl_exn; constructor; apply CIH; try assumption; try exact Logic.I.
    - destruct F as [|ri it ris its F1 F]; cbn; [constructor|]. specialize (F1 w). unfold bind, in_generator.
      destruct (ri w) as [[r|e] w1], (it w) as [[g|e2] w2]; try contradiction.
      + destruct F1 as [<- F1]. cbn. constructor. apply CIH; assumption.
      + destruct F1 as [<- <-]. destruct e; constructor.
  Qed.
  Lemma filter_loop_follows : forall (p : A -> M W bool) r g, follows r g -> follows (r_filter_loop p r) (filter_loop p g).
  Proof.
    intros p. cofix CIH. intros r g [H]. constructor. intros w. specialize (H w). cbn. unfold bind.
    destruct H as [a r1 g1 w0 H|r1 g1 w0 H|r1 w0|e r1 w0]; [|constructor; apply CIH; assumption|constructor|destruct e; constructor].
    destruct (p a w0) as [[[]|e] w1]; [| |destruct e; constructor]; cbn; constructor; apply CIH; assumption.
  Qed.
  Lemma scan_loop_follows : forall (f : S -> A -> M W S) r g s, follows r g -> follows (r_scan_loop f s r) (scan_loop f s g).
  Proof.
    intros f. cofix CIH. intros r g s [H]. constructor. intros w. specialize (H w). cbn. unfold bind.
    destruct H as [a r1 g1 w0 H|r1 g1 w0 H|r1 w0|e r1 w0]; [|constructor; apply CIH; assumption|constructor|destruct e; constructor].
    destruct (f s a w0) as [[y|e] w1]; [|destruct e; constructor]. cbn. constructor. apply CIH; assumption.
  Qed.
  Lemma zip_loop_follows : forall r g, follows (W := W) (A := A) r g -> forall r2 g2, follows (W := W) (A := B) r2 g2 -> forall x, follows (r_zip_loop x r r2) (zip_loop x g g2).
  Proof.
    cofix CIH. intros r g H r2 g2 H2 x. constructor. intros w. destruct x as [x|].
    - destruct H2 as [H2]. specialize (H2 w). cbn. unfold bind. destruct H2; try fl_exn; try constructor; apply CIH; assumption.
    - destruct H as [H]. specialize (H w). cbn. unfold bind. destruct H; try fl_exn; try constructor; apply CIH; assumption.
  Qed.
  Lemma pairwise_loop_follows : forall r g, follows (W := W) (A := A) r g -> forall x, follows (r_pairwise_loop x r) (pairwise_loop x g).
  Proof.
    cofix CIH. intros r g [H] x. constructor. intros w. specialize (H w). cbn. unfold bind.
    destruct H as [a r1 g1 w0 H|r1 g1 w0 H|r1 w0|e r1 w0]; [|constructor; apply CIH; assumption|constructor|destruct e; constructor]. destruct x as [x|]; cbn; constructor; apply CIH; assumption.
  Qed.
  Lemma skip_loop_follows : forall count r g, follows (W := W) (A := A) r g -> forall i, follows (r_skip_loop count i r) (skip_loop count i g).
  Proof.
    intros count. cofix CIH. intros r g [H] i. constructor. intros w. specialize (H w). cbn. unfold bind.
    destruct H as [a r1 g1 w0 H|r1 g1 w0 H|r1 w0|e r1 w0]; [|constructor; apply CIH; assumption|constructor|destruct e; constructor]. destruct (Z.leb count i); cbn; constructor; apply CIH; assumption.
  Qed.
  Lemma take_loop_follows : forall count r g, follows (W := W) (A := A) r g -> forall after i, follows (r_take_loop count after i r) (take_loop count after i g).
  Proof.
    intros count. cofix CIH. intros r g H after i. constructor. intros w. destruct after as [j|].
    - cbn. destruct (Z.eqb j (count - 1)); cbn; constructor. apply CIH; assumption.
    - destruct H as [H]. specialize (H w). cbn. unfold bind. destruct H; try fl_exn; constructor; apply CIH; assumption.
  Qed.
  Lemma unfold_follows : forall (gen : S -> M W (option (A * S))) s, follows (r_unfold gen s) (unfold gen s).
  Proof.
    intros gen. cofix CIH. intros s. constructor. intros w. cbn. unfold bind, in_generator.
    destruct (gen s w) as [[[[a s1]|]|e] w1]; cbn; [constructor; apply CIH|constructor|destruct e; constructor].
  Qed.
  Lemma infinite_follows : forall (f : Z -> M W A) i, follows (r_infinite_loop f i) (infinite_loop f i).
  Proof.
    intros f. cofix CIH. intros i. constructor. intros w. cbn. unfold bind.
    destruct (f i w) as [[a|e] w1]; cbn; [constructor; apply CIH|destruct e; constructor].
  Qed.
End Follow.
Section Follow2.
  Context {W A B : Type}.
  Lemma collect_loop_follows : forall (rf : A -> M W (riterable W B)) (f : A -> M W (iterable W B)),
    (forall x w, match rf x w, f x w with
                 | (Ret ri, w1), (Ret it, w2) => w1 = w2 /\ follows_it ri it
                 | (Raise e, w1), (Raise e2, w2) => e = e2 /\ w1 = w2
                 | _, _ => False
                 end) ->
    forall r g, follows r g -> forall r2 g2, match r2, g2 with Some r, Some g => follows r g | None, None => True | _, _ => False end ->
    follows (r_collect_loop rf r2 r) (collect_loop f g2 g).
  Proof.
    intros rf f F. cofix CIH. intros r g H r2 g2 H2. constructor. intros w. destruct r2 as [r2|], g2 as [g2|]; try contradiction.
    - destruct H2 as [H2]. specialize (H2 w). cbn. unfold bind. destruct H2; try fl_exn; constructor; apply CIH; try assumption; try exact Logic.I.
    - destruct H as [H]. specialize (H w). cbn. unfold bind, in_generator.
      destruct H as [a r1 g1 w0 H|r1 g1 w0 H|r1 w0|e r1 w0]; [|constructor; apply CIH; assumption|constructor|destruct e; constructor].
      specialize (F a w0). destruct (rf a w0) as [[ri|e] w1], (f a w0) as [[it|e2] w2]; try contradiction.
      + destruct F as [<- F]. specialize (F w1). destruct (ri w1) as [[r2|e] w2], (it w1) as [[g2|e2] w3]; try contradiction.
        * destruct F as [<- F]. cbn. constructor. apply CIH; assumption.
        * destruct F as [<- <-]. destruct e; constructor.
      + destruct F as [<- <-]. destruct e; constructor.
  Qed.
End Follow2.
Lemma script_follows : forall W A (ms : list (M W A)), follows (r_script ms) (SeqSpec.script_gen ms).
Proof.
  intros W A. cofix CIH. intros ms. constructor. intros w. destruct ms as [|m ms]; cbn; [constructor|]. unfold bind.
  destruct (m w) as [[x|e] w1]; cbn; [constructor; apply CIH|destruct e; constructor].
Qed.
Section Functions.
  Context {W A B S : Type}.
  Lemma ret_follows : forall (r : rgen W A) g, follows r g -> follows_it (ret r) (ret g).
  Proof. intros r g F w. split; [reflexivity|exact F]. Qed.
  Lemma then_follows : forall (ri : riterable W A) it (rl : rgen W A -> rgen W B) l, follows_it ri it -> (forall r g, follows r g -> follows (rl r) (l g)) ->
    follows_it (do g <- ri; ret (rl g)) (do g <- it; ret (l g)).
  Proof.
    intros ri it rl l F L w. specialize (F w). unfold bind. destruct (ri w) as [[r|e] w1], (it w) as [[g|e2] w2]; try contradiction; [|exact F].
    destruct F as [<- F]. split; [reflexivity|]. now apply L.
  Qed.
  Lemma wrap_it_follows : forall (ri : riterable W A) it, follows_it ri it -> follows_it (do g <- ri; ret (r_wrap g)) it.
  Proof.
    intros ri it F w. specialize (F w). unfold bind. destruct (ri w) as [[r|e] w1], (it w) as [[g|e2] w2]; try contradiction; [|exact F].
    destruct F as [<- F]. split; [reflexivity|]. now apply wrap_follows.
  Qed.
End Functions.

Section FunctionsFollow.
  Context {W A B S : Type}.
  Variables (rs : riterable W A) (s : iterable W A).
  Hypothesis F : follows_it rs s.
  Lemma map_follows : forall f : A -> M W B, follows_it (r_map f rs) (Seq.map f s).
  Proof. intros f. apply ret_follows, wrap_follows, opening_follows; [exact F|]. intros r g. apply map_loop_follows. Qed.
  Lemma collect_follows : forall (rf : A -> M W (riterable W B)) f,
    (forall x w, match rf x w, f x w with
                 | (Ret ri, w1), (Ret it, w2) => w1 = w2 /\ follows_it ri it
                 | (Raise e, w1), (Raise e2, w2) => e = e2 /\ w1 = w2
                 | _, _ => False
                 end) -> follows_it (r_collect rf rs) (Seq.collect f s).
  Proof. intros rf f H. apply ret_follows, wrap_follows, opening_follows; [exact F|]. intros r g FG. now apply collect_loop_follows. Qed.
  Lemma choose_follows : forall f : A -> M W (option B), follows_it (r_choose f rs) (Seq.choose f s).
  Proof.
    intros f. apply collect_follows. intros x w. unfold bind. destruct (f x w) as [[o|e] w1]; [|split; reflexivity].
    split; [reflexivity|]. apply ret_follows, wrap_follows, list_follows.
  Qed.
  Lemma skip_follows : forall n, follows_it (r_skip n rs) (Seq.skip n s).
  Proof. intros n. apply ret_follows, wrap_follows, opening_follows; [exact F|]. intros r g FG. now apply skip_loop_follows. Qed.
  Lemma take_follows : forall n, follows_it (r_take n rs) (Seq.take n s).
  Proof.
    intros n. unfold r_take, Seq.take. destruct (Z.ltb 0 n).
    - apply ret_follows, wrap_follows, opening_follows; [exact F|]. intros r g FG. now apply take_loop_follows.
    - apply ret_follows, wrap_follows, list_follows.
  Qed.
  Lemma pairwise_follows : follows_it (r_pairwise rs) (Seq.pairwise s).
  Proof. apply (then_follows _ _ (fun g => r_wrap (r_pairwise_loop None g))); [exact F|]. intros r g FG. now apply wrap_follows, pairwise_loop_follows. Qed.
  Lemma dict_follows : forall f : A -> M W B, follows_it (r_dict f rs) (Seq.dict f s).
  Proof. intros f. apply then_follows; [exact F|]. intros r g. apply map_loop_follows. Qed.
  Lemma filter_follows : forall p, follows_it (r_filter p rs) (Seq.filter p s).
  Proof. intros p. apply then_follows; [exact F|]. intros r g. apply filter_loop_follows. Qed.
  Lemma scan_follows : forall (f : S -> A -> M W S) st, follows_it (r_scan f st rs) (Seq.scan f st s).
  Proof.
    intros f st. apply (then_follows _ _ (fun g => RGen (fun w => (RYield st (r_scan_loop f st g), w)))); [exact F|]. intros r g FG.
    constructor. intros w. cbn. constructor. now apply scan_loop_follows.
  Qed.
  Lemma zip_follows : forall (rs2 : riterable W B) s2, follows_it rs2 s2 -> follows_it (r_zip rs rs2) (Seq.zip s s2).
  Proof.
    intros rs2 s2 F2 w. specialize (F w). unfold r_zip, Seq.zip, bind. destruct (rs w) as [[r|e] w1], (s w) as [[g|e2] w2]; try contradiction; [|exact F].
    destruct F as [<- FG]. specialize (F2 w1). destruct (rs2 w1) as [[r2|e] w2], (s2 w1) as [[g2|e2] w3]; try contradiction; [|exact F2].
    destruct F2 as [<- F2]. split; [reflexivity|]. now apply zip_loop_follows.
  Qed.
End FunctionsFollow.
Lemma concat_follows : forall W A (rs : list (riterable W A)) ss, Forall2 follows_it rs ss -> follows_it (r_concat rs) (Seq.concat ss).
Proof. intros. now apply ret_follows, wrap_follows, concat_loop_follows. Qed.
Lemma delay_follows : forall W A (m : M W (riterable W A)) (n : M W (iterable W A)),
  (forall w, match m w, n w with
             | (Ret ri, w1), (Ret it, w2) => w1 = w2 /\ follows_it ri it
             | (Raise e, w1), (Raise e2, w2) => e = e2 /\ w1 = w2
             | _, _ => False
             end) -> follows_it (r_delay m) (Seq.delay n).
Proof.
  intros W A m n H w. specialize (H w). destruct (m w) as [[ri|e] w1] eqn:Em, (n w) as [[it|e2] w2] eqn:En; try contradiction.
  - destruct H as [<- H]. pose proof (wrap_it_follows _ _ H w1) as K. unfold r_delay, Seq.delay, bind in *. rewrite Em, En. exact K.
  - unfold r_delay, Seq.delay, bind. rewrite Em, En. exact H.
Qed.

(** What was known about elements, end and effects is known of these. *)
Lemma follows_produces : forall W A (g : gen W A) w l r w1, SeqSpec.produces g w l r w1 -> forall rg, follows rg g ->
  exists g1, nexts rg w (List.map Got l ++ [match r with Ret _ => Ended | Raise e => Raised e end]) g1 w1.
Proof.
  induction 1; intros rg [F].
  - specialize (F w). rewrite H in F. destruct (rnext rg w) as [st w2] eqn:E. inversion F; subst. eexists. cbn.
    eapply nxs_more; [apply nx_ended; exact E|constructor].
  - specialize (F w). rewrite H in F. destruct (rnext rg w) as [st w2] eqn:E. inversion F; subst. eexists. cbn.
    eapply nxs_more; [apply nx_raised; exact E|constructor].
  - specialize (F w). rewrite H in F. destruct (rnext rg w) as [st w3] eqn:E. inversion F; subst.
    match goal with K : follows _ _ |- _ => destruct (IHproduces _ K) as [g2 N] end. exists g2. destruct l; cbn in *; inversion N; subst; (eapply nxs_more; [eapply nx_skip; eassumption|eassumption]).
  - specialize (F w). rewrite H in F. destruct (rnext rg w) as [st w3] eqn:E. inversion F; subst.
    match goal with K : follows _ _ |- _ => destruct (IHproduces _ K) as [g2 N] end. exists g2. cbn. eapply nxs_more; [apply nx_got; exact E|exact N].
Qed.

(** * Those that end for good *)
Section Good.
  Context {W A : Type}.
  Inductive good_step (G : rgen W A -> Prop) : rstep A (rgen W A) -> Prop :=
  | gs_yield : forall a g, G g -> good_step G (RYield a g)
  | gs_skip : forall g, G g -> good_step G (RSkip g)
  | gs_stop : good_step G (RStop closed)
  | gs_raise : forall e, good_step G (RRaise e closed).
  CoInductive good (g : rgen W A) : Prop := good_next : (forall w, good_step good (fst (rnext g w))) -> good g.
  Lemma closed_good : good closed.
  Proof. constructor. intros w. cbn. constructor. Qed.
  Lemma closed_next : forall w o g1 w1, next (closed : rgen W A) w o g1 w1 -> o = Ended /\ g1 = closed /\ w1 = w.
  Proof. intros w o g1 w1 N. inversion N as [? ? ? ? ? E|? ? ? ? E|? ? ? ? ? E|? ? ? ? ? ? ? E]; subst; cbn in E; inversion E; subst; auto. Qed.
  Lemma closed_finished : finished (closed : rgen W A).
  Proof.
    intros w n. exists closed. split.
    - induction n; cbn; [constructor|]. eapply nxs_more; [apply nx_ended; reflexivity|exact IHn].
    - induction n; intros os g2 w2 N L; destruct os; try discriminate; inversion N as [|? ? ? ? ? ? ? ? N1 N2]; subst; [split; reflexivity|].
      apply closed_next in N1. destruct N1 as (-> & -> & ->). destruct (IHn _ _ _ N2) as [-> ->]; [now inversion L|]. split; reflexivity.
  Qed.
  Lemma good_one : forall g w o g1 w1, next g w o g1 w1 -> good g -> good g1 /\ ((forall a, o <> Got a) -> g1 = closed).
  Proof.
    induction 1 as [g w a g1 w1 E|g w g1 w1 E|g w e g1 w1 E|g w g1 w1 o g2 w2 E N IH]; intros [G]; specialize (G w); rewrite E in G; cbn in G; inversion G; subst.
    - split; [assumption|]. intros K. now contradiction (K a).
    - split; [apply closed_good|reflexivity].
    - split; [apply closed_good|reflexivity].
    - now apply IH.
  Qed.
  Lemma good_ends : forall g, good g -> ends_for_good g.
  Proof.
    intros g G w os o g1 w1 N K. revert g w G N. induction os as [|o1 os IH]; cbn; intros g w G N; inversion N as [|? ? ? g2 w2 ? ? ? N1 N2]; subst.
    - inversion N2; subst. destruct (good_one _ _ _ _ _ N1 G) as [_ C]. rewrite (C K). exact closed_finished.
    - destruct (good_one _ _ _ _ _ N1 G) as [G2 _]. exact (IH _ _ G2 N2).
  Qed.
  Lemma wrap_good : forall g : rgen W A, good (r_wrap g).
  Proof.
    cofix CIH. intros g. constructor. intros w. cbn. destruct (rnext g w) as [[a g1|g1|g1|e g1] w1]; cbn.
    - constructor. apply CIH.
    - constructor. apply CIH.
    - constructor.
    - destruct e; constructor.
  Qed.
  Lemma ret_good : forall g : rgen W A, good g -> ends_for_good_it (ret g).
  Proof. intros g G w g1 w1 E. inversion E; subst. now apply good_ends. Qed.
  Lemma wrap_it_good : forall (B : Type) (m : M W B) k, ends_for_good_it (do g <- m; ret (r_wrap (k g) : rgen W A)).
  Proof.
    intros B m k w g w1 E. unfold bind in E. destruct (m w) as [[x|e] w2]; inversion E; subst. apply good_ends, wrap_good.
  Qed.
End Good.
Section Good2.
  Context {W A B S : Type}.
  Lemma map_loop_good : forall (f : A -> M W B) g, good (r_map_loop f g).
  Proof.
    intros f. cofix CIH. intros g. constructor. intros w. cbn. destruct (rnext g w) as [[a g1|g1|g1|e g1] w1]; cbn.
    - destruct (f a w1) as [[y|e] w2]; [|destruct e; constructor]. constructor. apply CIH.
    - constructor. apply CIH.
    - constructor.
    - destruct e; constructor.
  Qed.
  Lemma unfold_good : forall (f : S -> M W (option (A * S))) s, good (r_unfold f s).
  Proof.
    intros f. cofix CIH. intros s. constructor. intros w. cbn. destruct (f s w) as [[[[a s1]|]|e] w1]; [| |destruct e]; constructor. apply CIH.
  Qed.
  Lemma take_good : forall n (src : riterable W A), ends_for_good_it (r_take n src).
  Proof. intros n src. unfold r_take. destruct (Z.ltb 0 n); apply ret_good, wrap_good. Qed.
  Lemma delay_good : forall (m : M W (riterable W A)), ends_for_good_it (r_delay m).
  Proof.
    intros m w g w1 E. unfold r_delay, bind in E. destruct (m w) as [[x|e] w2]; [|discriminate]. destruct (x w2) as [[h|e] w3]; inversion E; subst. apply good_ends, wrap_good.
  Qed.
  Lemma dict_good : forall (f : A -> M W B) src, ends_for_good_it (r_dict f src).
  Proof. intros f src w g w1 E. unfold r_dict, bind in E. destruct (src w) as [[x|e] w2]; inversion E; subst. apply good_ends, map_loop_good. Qed.
End Good2.

(** * Those that go on *)
Section On.
  Context {W A : Type}.
  Lemma nexts_skip : forall (g : rgen W A) w g1 w1 os g2 w2, rnext g w = (RSkip g1, w1) -> os <> [] -> nexts g1 w1 os g2 w2 -> nexts g w os g2 w2.
  Proof.
    intros g w g1 w1 os g2 w2 E K N. destruct os as [|o os]; [contradiction|]. inversion N; subst.
    eapply nxs_more; [eapply nx_skip; eassumption|eassumption].
  Qed.
  Lemma nexts_app : forall (g : rgen W A) w os g1 w1 ps g2 w2, nexts g w os g1 w1 -> nexts g1 w1 ps g2 w2 -> nexts g w (os ++ ps) g2 w2.
  Proof. induction 1; intros N; cbn; [exact N|]. eapply nxs_more; [eassumption|]. now apply IHnexts. Qed.
  Lemma next_det : forall (g : rgen W A) w o g1 w1, next g w o g1 w1 -> forall o2 g2 w2, next g w o2 g2 w2 -> o2 = o /\ g2 = g1 /\ w2 = w1.
  Proof. induction 1 as [? ? ? ? ? E|? ? ? ? E|? ? ? ? ? E|? ? ? ? ? ? ? E N IH]; intros o2 g3 w3 N2; inversion N2; subst; rewrite E in *;
     try discriminate; match goal with K : (_, _) = (_, _) |- _ => inversion K; subst end; auto. Qed.
  Lemma seen_next : forall (g : rgen W A) n w e g1 w1, g = RGen n -> n w = (RRaise e g1, w1) -> next g w (seen e) g1 w1.
  Proof.
    intros g n w e g1 w1 -> E. assert (R : rnext (RGen n) w = match e with StopIterationExn => (RStop g1, w1) | _ => (RRaise e g1, w1) end).
    { cbn. rewrite E. now destruct e. }
    destruct e; cbn; first [now apply nx_ended|now apply nx_raised].
  Qed.
End On.
Section GoOn.
  Context {W A B S : Type}.
  Lemma filter_goes_on : forall (p : A -> M W bool) ms w, let '(os, _, w1) := tried (filter_one p) tt ms w in
    nexts (r_filter_loop p (r_script ms)) w (os ++ [Ended]) (r_filter_loop p (r_script [])) w1.
  Proof.
    intros p. induction ms as [|m ms IH]; intros w.
    - cbn. eapply nxs_more; [apply nx_ended; reflexivity|constructor].
    - cbn [tried]. unfold filter_one at 1. unfold bind at 1.
      destruct (m w) as [[x|e] w1] eqn:E.
      + unfold bind at 1. destruct (p x w1) as [[b|e] w2] eqn:E2.
        * cbn. specialize (IH w2). destruct (tried (filter_one p) tt ms w2) as [[os s] w3]. destruct b; cbn.
          -- eapply nxs_more; [|exact IH]. apply nx_got. cbn. now rewrite E, E2.
          -- eapply nexts_skip; [| |exact IH]; [|now destruct os]. cbn. now rewrite E, E2.
        * specialize (IH w2). destruct (tried (filter_one p) tt ms w2) as [[os s] w3]. cbn. eapply nxs_more; [|exact IH].
          destruct e; cbn; first [apply nx_ended|apply nx_raised]; cbn; now rewrite E, E2.
      + specialize (IH w1). destruct (tried (filter_one p) tt ms w1) as [[os s] w3]. cbn. eapply nxs_more; [|exact IH].
        destruct e; cbn; first [apply nx_ended|apply nx_raised]; cbn; now rewrite E.
  Qed.
  Lemma scan_goes_on : forall (f : S -> A -> M W S) ms s w, let '(os, s1, w1) := tried (scan_one f) s ms w in
    nexts (r_scan_loop f s (r_script ms)) w (os ++ [Ended]) (r_scan_loop f s1 (r_script [])) w1.
  Proof.
    intros f. induction ms as [|m ms IH]; intros s w.
    - cbn. eapply nxs_more; [apply nx_ended; reflexivity|constructor].
    - cbn [tried]. unfold scan_one at 1. unfold bind at 1. destruct (m w) as [[x|e] w1] eqn:E.
      + destruct (f s x w1) as [[s1|e] w2] eqn:E2.
        * specialize (IH s1 w2). destruct (tried (scan_one f) s1 ms w2) as [[os s2] w3]. cbn. eapply nxs_more; [|exact IH]. apply nx_got. cbn. now rewrite E, E2.
        * specialize (IH s w2). destruct (tried (scan_one f) s ms w2) as [[os s2] w3]. cbn. eapply nxs_more; [|exact IH].
          destruct e; cbn; first [apply nx_ended|apply nx_raised]; cbn; now rewrite E, E2.
      + specialize (IH s w1). destruct (tried (scan_one f) s ms w1) as [[os s2] w3]. cbn. eapply nxs_more; [|exact IH].
        destruct e; cbn; first [apply nx_ended|apply nx_raised]; cbn; now rewrite E.
  Qed.
  Lemma zip_goes_on : forall (ms : list (M W A)) (ns : list (M W B)) w, let '(os, ns1, w1) := tried zip_one ns ms w in
    nexts (r_zip_loop None (r_script ms) (r_script ns)) w (os ++ [Ended]) (r_zip_loop None (r_script []) (r_script ns1)) w1.
  Proof.
    induction ms as [|m ms IH]; intros ns w.
    - cbn. eapply nxs_more; [apply nx_ended; reflexivity|constructor].
    - cbn [tried]. unfold zip_one at 1. destruct (m w) as [[x|e] w1] eqn:E.
      + destruct ns as [|n ns].
        * specialize (IH [] w1). destruct (tried zip_one [] ms w1) as [[os s2] w3]. cbn. eapply nxs_more; [|exact IH].
          eapply nx_skip; [cbn; rewrite E; reflexivity|]. apply nx_ended. reflexivity.
        * destruct (n w1) as [[y|e] w2] eqn:E2; (specialize (IH ns w2); destruct (tried zip_one ns ms w2) as [[os s2] w3]; cbn; (eapply nxs_more; [|exact IH]);
            (eapply nx_skip; [cbn; rewrite E; reflexivity|])).
          -- apply nx_got. cbn. now rewrite E2.
          -- destruct e; cbn; first [apply nx_ended|apply nx_raised]; cbn; now rewrite E2.
      + specialize (IH ns w1). destruct (tried zip_one ns ms w1) as [[os s2] w3]. cbn. eapply nxs_more; [|exact IH].
        destruct e; cbn; first [apply nx_ended|apply nx_raised]; cbn; now rewrite E.
  Qed.
  Lemma infinite_goes_on : forall (f : Z -> M W A) n i w, let '(os, _, w1) := tried (call_one f) tt (upto i n) w in
    nexts (r_infinite_loop f i) w os (r_infinite_loop f (i + Z.of_nat n)) w1.
  Proof.
    intros f. induction n as [|n IH]; intros i w.
    - cbn. replace (i + 0)%Z with i by lia. constructor.
    - cbn [tried upto]. unfold call_one at 1. unfold bind at 1. destruct (f i w) as [[y|e] w1] eqn:E.
      + cbn [ret]. specialize (IH (i + 1)%Z w1). destruct (tried (call_one f) tt (upto (i + 1) n) w1) as [[os s2] w3]. cbn [ret].
        replace (i + Z.of_nat (Datatypes.S n))%Z with (i + 1 + Z.of_nat n)%Z by lia. cbn. eapply nxs_more; [|exact IH]. apply nx_got. cbn. now rewrite E.
      + specialize (IH (i + 1)%Z w1). destruct (tried (call_one f) tt (upto (i + 1) n) w1) as [[os s2] w3].
        replace (i + Z.of_nat (Datatypes.S n))%Z with (i + 1 + Z.of_nat n)%Z by lia. cbn [app]. eapply nxs_more; [|exact IH].
        destruct e; cbn; first [apply nx_ended|apply nx_raised]; cbn; now rewrite E.
  Qed.
End GoOn.

(** * A sequence over an object *)
Section Object.
  Context {W A : Type}.
  Lemma shared_next : forall (g : rgen W A) w o g1 w1, next g w o g1 w1 ->
    next r_shared_gen (g, w) o r_shared_gen (g1, w1) /\
    next (r_wrap r_shared_gen) (g, w) o (match o with Got _ => r_wrap r_shared_gen | _ => closed end) (g1, w1).
  Proof.
    induction 1 as [g w a g1 w1 E|g w g1 w1 E|g w e g1 w1 E|g w g1 w1 o g2 w2 E N [IH1 IH2]].
    - split; apply nx_got; cbn; now rewrite E.
    - split; apply nx_ended; cbn; now rewrite E.
    - assert (K : e <> StopIterationExn). { intros ->. destruct g as [n]. cbn in E. destruct (n w) as [[| | |[]] ?]; discriminate. }
      split; apply nx_raised; cbn; rewrite E; destruct e; try reflexivity; contradiction.
    - split; (eapply nx_skip; [cbn; rewrite E; reflexivity|assumption]).
  Qed.
  (** Up to the first exception or the end a sequence over an object is that object. *)
  Lemma object_loop : forall l (g : rgen W A) w o g1 w1, nexts g w (List.map Got l ++ [o]) g1 w1 -> (forall a, o <> Got a) ->
    exists h1, nexts (r_wrap r_shared_gen) (g, w) (List.map Got l ++ [o]) h1 (g1, w1).
  Proof.
    induction l as [|x l IH]; cbn; intros g w o g1 w1 N K; inversion N as [|? ? ? g2 w2 ? ? ? N1 N2]; subst.
    - inversion N2; subst. eexists. eapply nxs_more; [exact (proj2 (shared_next _ _ _ _ _ N1))|constructor].
    - destruct (IH _ _ _ _ _ N2 K) as [h1 H]. exists h1. eapply nxs_more; [exact (proj2 (shared_next _ _ _ _ _ N1))|exact H].
  Qed.
End Object.
