(** Lemmas about iterators that are given up. *)
From Coq Require Import List ZArith Bool Lia.
From Verif.Model Require Import Base Gen OptionResult Resume Abandon.
From Verif.Spec Require Import ResumeSpec AbandonSpec.
Import ListNotations.
Local Open Scope py_scope.

(** * They are the iterators of Resume.v *)
Lemma done_tracks : forall W A lv, tracks lv (done : ogen W A) closed.
Proof. intros W A lv. cofix CIH. constructor; [reflexivity|reflexivity|]. intros w. cbn. constructor. exact CIH. Qed.
Lemma tracks_drop : forall W A lv (o : ogen W A) r w, tracks lv o r -> drop o w = w.
Proof. intros W A lv o r w [D _ _]. apply D. Qed.
Lemma tracks_leave : forall W A (o : ogen W A) r w, tracks true o r -> leave o w = w.
Proof. intros W A o r w [_ L _]. now apply L. Qed.
Lemma tracks_weak : forall W A lv (o : ogen W A) r, tracks true o r -> tracks lv o r.
Proof.
  intros W A lv. cofix CIH. intros o r [D L H]. constructor; [exact D|intros _; now apply L|]. intros w. specialize (H w).
  destruct H; constructor; apply CIH; assumption.
Qed.
Lemma list_tracks : forall W A lv (xs : list A), tracks (W := W) lv (o_list xs) (r_list xs).
Proof. intros W A lv. cofix CIH. intros xs. constructor; [reflexivity|reflexivity|]. intros w. destruct xs; cbn; constructor; apply CIH. Qed.
Lemma unfold_tracks : forall W A S lv (f : S -> M W (option (A * S))) s, tracks lv (o_unfold f s) (r_unfold f s).
Proof.
  intros W A S lv f. cofix CIH. intros s. constructor; [reflexivity|reflexivity|]. intros w. cbn.
  destruct (f s w) as [[[[a s1]|]|e] w1]; [| |destruct e; cbn]; constructor; first [apply CIH|apply done_tracks].
Qed.
(** the same iterator, when nothing is asked but [next()] *)
CoFixpoint forget {W A} (g : ogen W A) : rgen W A :=
  RGen (fun w => match onext g w with
                 | (RYield x g, w) => (RYield x (forget g), w)
                 | (RSkip g, w) => (RSkip (forget g), w)
                 | (RStop g, w) => (RStop (forget g), w)
                 | (RRaise e g, w) => (RRaise e (forget g), w)
                 end).
Lemma onext_not_stop : forall W A (g : ogen W A) w e g1 w1, onext g w = (RRaise e g1, w1) -> e <> StopIterationExn.
Proof. intros W A [n l d] w e g1 w1 E ->. cbn in E. destruct (n w) as [[| | |[]] ?]; discriminate. Qed.
Lemma shared_tracks : forall W A b, tracks (negb b) (o_shared b : ogen (ogen W A * W) A) (forget (o_shared b)).
Proof.
  intros W A b.
  assert (L : negb b = true -> forall s, leave (o_shared b : ogen (ogen W A * W) A) s = s). { intros N [g w]. destruct b; [discriminate|reflexivity]. }
  cofix CIH. constructor; [reflexivity|exact L|].
  intros [g w]. cbn. destruct (onext g w) as [[a g1|g1|g1|e g1] w1]; [constructor; exact CIH|constructor; exact CIH|constructor; exact CIH|].
  destruct e; constructor; exact CIH.
Qed.

Ltac tk_src H o1 r1 w0 T := destruct H as [a o1 r1 w0 T|o1 r1 w0 T|o1 r1 w0 T|e o1 r1 w0 T].
Ltac tk_done T := rewrite ?(tracks_drop _ _ _ _ _ _ T); first [constructor; apply done_tracks|match goal with e : exn |- _ => destruct e; constructor; apply done_tracks end].
Section Track.
  Context {W A B S : Type}.
  Lemma wrap_tracks : forall lv (o : ogen W A) r, tracks lv o r -> tracks true (o_wrap o) (r_wrap r).
  Proof.
    intros lv. cofix CIH. intros o r T. constructor; [intros w; exact (tracks_drop _ _ _ _ _ w T)|intros _ w; exact (tracks_drop _ _ _ _ _ w T)|].
    intros w. destruct T as [_ _ H]. specialize (H w). cbn. tk_src H o1 r1 w0 T.
    - constructor. exact (CIH _ _ T).
    - constructor. exact (CIH _ _ T).
    - tk_done T.
    - tk_done T.
  Qed.
  Lemma opening_tracks : forall (oi : oiterable W A) (ri : riterable W A) lv (ol : ogen W A -> ogen W B) rl,
    tracks_it lv oi ri -> (forall o r, tracks lv o r -> tracks true (ol o) (rl r)) -> tracks true (o_opening oi ol) (r_opening ri rl).
  Proof.
    intros oi ri lv ol rl F L. constructor; [reflexivity|reflexivity|]. intros w. specialize (F w). cbn.
    destruct (oi w) as [[o|e] w1], (ri w) as [[r|e2] w2]; try contradiction.
    - destruct F as [<- F]. constructor. now apply L.
    - destruct F as [<- <-]. destruct e; cbn; constructor; apply done_tracks.
  Qed.
  Lemma map_loop_tracks : forall lv (f : A -> M W B) o r, tracks lv o r -> tracks true (o_map_loop f o) (r_map_loop f r).
  Proof.
    intros lv f. cofix CIH. intros o r T. constructor; [intros w; exact (tracks_drop _ _ _ _ _ w T)|intros _ w; exact (tracks_drop _ _ _ _ _ w T)|].
    intros w. destruct T as [_ _ H]. specialize (H w). cbn. tk_src H o1 r1 w0 T.
    - destruct (f a w0) as [[y|e] w1]; [constructor; exact (CIH _ _ T)|]. rewrite (tracks_drop _ _ _ _ _ _ T). destruct e; cbn; constructor; apply done_tracks.
    - constructor. exact (CIH _ _ T).
    - tk_done T.
    - tk_done T.
  Qed.
  Lemma filter_loop_tracks : forall lv (p : A -> M W bool) o r, tracks lv o r -> tracks true (o_filter_loop p o) (r_filter_loop p r).
  Proof.
    intros lv p. cofix CIH. intros o r T. constructor; [intros w; exact (tracks_drop _ _ _ _ _ w T)|intros _ w; exact (tracks_drop _ _ _ _ _ w T)|].
    intros w. destruct T as [_ _ H]. specialize (H w). cbn. tk_src H o1 r1 w0 T.
    - destruct (p a w0) as [[[]|e] w1]; [| |destruct e]; constructor; exact (CIH _ _ T).
    - constructor. exact (CIH _ _ T).
    - constructor. exact (CIH _ _ T).
    - destruct e; constructor; exact (CIH _ _ T).
  Qed.
  Lemma scan_loop_tracks : forall lv (f : S -> A -> M W S) s o r, tracks lv o r -> tracks true (o_scan_loop f s o) (r_scan_loop f s r).
  Proof.
    intros lv f. cofix CIH. intros s o r T. constructor; [intros w; exact (tracks_drop _ _ _ _ _ w T)|intros _ w; exact (tracks_drop _ _ _ _ _ w T)|].
    intros w. destruct T as [_ _ H]. specialize (H w). cbn. tk_src H o1 r1 w0 T.
    - destruct (f s a w0) as [[s1|e] w1]; [|destruct e]; constructor; exact (CIH _ _ _ T).
    - constructor. exact (CIH _ _ _ T).
    - constructor. exact (CIH _ _ _ T).
    - destruct e; constructor; exact (CIH _ _ _ T).
  Qed.
  Lemma zip_loop_tracks : forall lv lv2 (x : option A) o r (o2 : ogen W B) r2, tracks lv o r -> tracks lv2 o2 r2 -> tracks true (o_zip_loop x o o2) (r_zip_loop x r r2).
  Proof.
    intros lv lv2. cofix CIH. intros x o r o2 r2 T T2.
    assert (D : forall w, drop o2 (drop o w) = w). { intros w. now rewrite (tracks_drop _ _ _ _ _ _ T), (tracks_drop _ _ _ _ _ _ T2). }
    constructor; [exact D|intros _; exact D|]. intros w. destruct x as [x|]; cbn.
    - destruct T2 as [_ _ H]. specialize (H w). tk_src H o1 r1 w0 K; try (constructor; exact (CIH _ _ _ _ _ T K)). destruct e; constructor; exact (CIH _ _ _ _ _ T K).
    - destruct T as [_ _ H]. specialize (H w). tk_src H o1 r1 w0 K; try (constructor; exact (CIH _ _ _ _ _ K T2)). destruct e; constructor; exact (CIH _ _ _ _ _ K T2).
  Qed.
  Lemma pairwise_loop_tracks : forall lv (x : option A) (o : ogen W A) r, tracks lv o r -> tracks true (o_pairwise_loop x o) (r_pairwise_loop x r).
  Proof.
    intros lv. cofix CIH. intros x o r T. constructor; [intros w; exact (tracks_drop _ _ _ _ _ w T)|intros _ w; exact (tracks_drop _ _ _ _ _ w T)|].
    intros w. destruct T as [_ _ H]. specialize (H w). cbn. tk_src H o1 r1 w0 T.
    - destruct x; constructor; exact (CIH _ _ _ T).
    - constructor. exact (CIH _ _ _ T).
    - tk_done T.
    - tk_done T.
  Qed.
  Lemma skip_loop_tracks : forall lv n i (o : ogen W A) r, tracks lv o r -> tracks true (o_skip_loop n i o) (r_skip_loop n i r).
  Proof.
    intros lv n. cofix CIH. intros i o r T. constructor; [intros w; exact (tracks_drop _ _ _ _ _ w T)|intros _ w; exact (tracks_drop _ _ _ _ _ w T)|].
    intros w. destruct T as [_ _ H]. specialize (H w). cbn. tk_src H o1 r1 w0 T.
    - destruct (Z.leb n i); constructor; exact (CIH _ _ _ T).
    - constructor. exact (CIH _ _ _ T).
    - tk_done T.
    - tk_done T.
  Qed.
  Lemma take_loop_tracks : forall lv n after i (o : ogen W A) r, tracks lv o r -> tracks true (o_take_loop n after i o) (r_take_loop n after i r).
  Proof.
    intros lv n. cofix CIH. intros after i o r T. constructor; [intros w; exact (tracks_drop _ _ _ _ _ w T)|intros _ w; exact (tracks_drop _ _ _ _ _ w T)|].
    intros w. destruct after as [j|]; cbn.
    - destruct (Z.eqb j (n - 1)); [tk_done T|]. constructor. exact (CIH _ _ _ _ T).
    - destruct T as [_ _ H]. specialize (H w). tk_src H o1 r1 w0 T.
      + constructor. exact (CIH _ _ _ _ T).
      + constructor. exact (CIH _ _ _ _ T).
      + tk_done T.
      + tk_done T.
  Qed.
  Lemma concat_loop_tracks : forall (ois : list (oiterable W A)) (ris : list (riterable W A)), Forall2 (tracks_it true) ois ris ->
    forall o r, match o, r with Some o, Some r => tracks true o r | None, None => True | _, _ => False end -> tracks true (o_concat_loop o ois) (r_concat_loop r ris).
  Proof.
    cofix CIH. intros ois ris F o r T.
    assert (D : forall w, match o with None => w | Some h => leave h w end = w). { intros w. destruct o, r; try contradiction; [exact (tracks_leave _ _ _ _ w T)|reflexivity]. }
    constructor; [exact D|intros _; exact D|]. intros w. destruct o as [o|], r as [r|]; try contradiction; cbn.
    - destruct T as [_ _ H]. specialize (H w). tk_src H o1 r1 w0 T.
      + constructor. exact (CIH _ _ F (Some _) (Some _) T).
      + constructor. exact (CIH _ _ F (Some _) (Some _) T).
      + rewrite (tracks_drop _ _ _ _ _ _ T). constructor. exact (CIH _ _ F None None Logic.I).
      + tk_done T.
    - destruct F as [|oi ri ois ris F1 F]; cbn; [constructor; apply done_tracks|]. specialize (F1 w).
      destruct (oi w) as [[o|e] w1], (ri w) as [[r|e2] w2]; try contradiction.
      + destruct F1 as [<- F1]. constructor. exact (CIH _ _ F (Some _) (Some _) F1).
      + destruct F1 as [<- <-]. destruct e; cbn; constructor; apply done_tracks.
  Qed.
End Track.
Section Track2.
  Context {W A B : Type}.
  Lemma collect_loop_tracks : forall lv (fo : A -> M W (oiterable W B)) fr, tracks_fun true fo fr ->
    forall o r, tracks lv o r -> forall o2 r2, match o2, r2 with Some o, Some r => tracks true o r | None, None => True | _, _ => False end ->
    tracks true (o_collect_loop fo o2 o) (r_collect_loop fr r2 r).
  Proof.
    intros lv fo fr F. cofix CIH. intros o r T o2 r2 T2.
    assert (D : forall w, match o2 with None => drop o w | Some h => drop o (leave h w) end = w).
    { intros w. destruct o2, r2; try contradiction; [rewrite (tracks_leave _ _ _ _ w T2)|]; exact (tracks_drop _ _ _ _ _ w T). }
    constructor; [exact D|intros _; exact D|]. intros w. destruct o2 as [o2|], r2 as [r2|]; try contradiction; cbn.
    - destruct T2 as [_ _ H]. specialize (H w). tk_src H o1 r1 w0 K.
      + constructor. exact (CIH _ _ T (Some _) (Some _) K).
      + constructor. exact (CIH _ _ T (Some _) (Some _) K).
      + rewrite (tracks_drop _ _ _ _ _ _ K). constructor. exact (CIH _ _ T None None Logic.I).
      + rewrite (tracks_drop _ _ _ _ _ _ K). tk_done T.
    - destruct T as [_ _ H]. specialize (H w). tk_src H o1 r1 w0 T.
      + specialize (F a w0). rewrite ?(tracks_drop _ _ _ _ _ _ T). destruct (fo a w0) as [[oi|e] w1], (fr a w0) as [[ri|e2] w2]; try contradiction.
        * destruct F as [<- F]. specialize (F w1). rewrite ?(tracks_drop _ _ _ _ _ _ T). destruct (oi w1) as [[o2|e] w2], (ri w1) as [[r2|e2] w3]; try contradiction.
          -- destruct F as [<- F]. constructor. exact (CIH _ _ T (Some _) (Some _) F).
          -- destruct F as [<- <-]. rewrite ?(tracks_drop _ _ _ _ _ _ T). destruct e; cbn; constructor; apply done_tracks.
        * destruct F as [<- <-]. rewrite ?(tracks_drop _ _ _ _ _ _ T). destruct e; cbn; constructor; apply done_tracks.
      + constructor. exact (CIH _ _ T None None Logic.I).
      + tk_done T.
      + tk_done T.
  Qed.
End Track2.
Section TrackFunctions.
  Context {W A B S : Type}.
  Lemma ret_tracks : forall lv (o : ogen W A) r, tracks lv o r -> tracks_it lv (ret o) (ret r).
  Proof. intros lv o r T w. split; [reflexivity|exact T]. Qed.
  Lemma then_tracks : forall lv (oi : oiterable W A) (ri : riterable W A) (ol : ogen W A -> ogen W B) rl, tracks_it lv oi ri ->
    (forall o r, tracks lv o r -> tracks true (ol o) (rl r)) -> tracks_it true (do g <- oi; ret (ol g)) (do g <- ri; ret (rl g)).
  Proof.
    intros lv oi ri ol rl F L w. specialize (F w). unfold bind. destruct (oi w) as [[o|e] w1], (ri w) as [[r|e2] w2]; try contradiction; [|exact F].
    destruct F as [<- F]. split; [reflexivity|]. now apply L.
  Qed.
End TrackFunctions.
Section TrackFunctions2.
  Context {W A B S : Type}.
  Variables (lv : bool) (oi : oiterable W A) (ri : riterable W A).
  Hypothesis F : tracks_it lv oi ri.
  Lemma map_tracks : forall f : A -> M W B, tracks_it true (o_map f oi) (r_map f ri).
  Proof. intros f. apply ret_tracks, (wrap_tracks true), (opening_tracks _ _ lv); [exact F|]. intros o r. apply map_loop_tracks. Qed.
  Lemma collect_tracks : forall fo (fr : A -> M W (riterable W B)), tracks_fun true fo fr -> tracks_it true (o_collect fo oi) (r_collect fr ri).
  Proof. intros fo fr FF. apply ret_tracks, (wrap_tracks true), (opening_tracks _ _ lv); [exact F|]. intros o r T. now apply (collect_loop_tracks lv). Qed.
  Lemma choose_tracks : forall f : A -> M W (option B), tracks_it true (o_choose f oi) (r_choose f ri).
  Proof.
    intros f. apply collect_tracks. intros x w. unfold bind. destruct (f x w) as [[o|e] w1]; [|split; reflexivity]. split; [reflexivity|].
    apply ret_tracks, (wrap_tracks true), list_tracks.
  Qed.
  Lemma skip_tracks : forall n, tracks_it true (o_skip n oi) (r_skip n ri).
  Proof. intros n. apply ret_tracks, (wrap_tracks true), (opening_tracks _ _ lv); [exact F|]. intros o r. apply skip_loop_tracks. Qed.
  Lemma take_tracks : forall n, tracks_it true (o_take n oi) (r_take n ri).
  Proof.
    intros n. unfold o_take, r_take. destruct (Z.ltb 0 n); [|apply ret_tracks, (wrap_tracks true), list_tracks].
    apply ret_tracks, (wrap_tracks true), (opening_tracks _ _ lv); [exact F|]. intros o r. apply take_loop_tracks.
  Qed.
  Lemma pairwise_tracks : tracks_it true (o_pairwise oi) (r_pairwise ri).
  Proof. apply (then_tracks lv _ _ (fun g => o_wrap (o_pairwise_loop None g)) (fun g => r_wrap (r_pairwise_loop None g))); [exact F|]. intros o r T. apply (wrap_tracks true). now apply (pairwise_loop_tracks lv). Qed.
  Lemma dict_tracks : forall f : A -> M W B, tracks_it true (o_dict f oi) (r_dict f ri).
  Proof. intros f. apply (then_tracks lv); [exact F|]. intros o r. apply map_loop_tracks. Qed.
  Lemma filter_tracks : forall p, tracks_it true (o_filter p oi) (r_filter p ri).
  Proof. intros p. apply (then_tracks lv); [exact F|]. intros o r. apply filter_loop_tracks. Qed.
  Lemma scan_tracks : forall (f : S -> A -> M W S) s, tracks_it true (o_scan f s oi) (r_scan f s ri).
  Proof.
    intros f s. apply (then_tracks lv _ _ (o_scan_start f s) (fun g => RGen (fun w => (RYield s (r_scan_loop f s g), w)))); [exact F|]. intros o r T.
    constructor; [intros w; exact (tracks_drop _ _ _ _ _ w T)|intros _ w; exact (tracks_drop _ _ _ _ _ w T)|]. intros w. cbn. constructor. now apply (scan_loop_tracks lv).
  Qed.
  Lemma zip_tracks : forall lv2 (oi2 : oiterable W B) ri2, tracks_it lv2 oi2 ri2 -> tracks_it true (o_zip oi oi2) (r_zip ri ri2).
  Proof.
    intros lv2 oi2 ri2 F2 w. specialize (F w). unfold o_zip, r_zip, bind. destruct (oi w) as [[o|e] w1], (ri w) as [[r|e2] w2]; try contradiction; [|exact F].
    destruct F as [<- T]. specialize (F2 w1). destruct (oi2 w1) as [[o2|e] w2], (ri2 w1) as [[r2|e2] w3]; try contradiction.
    - destruct F2 as [<- T2]. split; [reflexivity|]. now apply (zip_loop_tracks lv lv2).
    - rewrite (tracks_drop _ _ _ _ _ _ T). exact F2.
  Qed.
  Lemma seq_tracks : tracks_it true (o_seq oi) (do g <- ri; ret (r_wrap g)).
  Proof. apply (then_tracks lv); [exact F|]. intros o r. apply wrap_tracks. Qed.
End TrackFunctions2.
Lemma concat_tracks : forall W A (ois : list (oiterable W A)) ris, Forall2 (tracks_it true) ois ris -> tracks_it true (o_concat ois) (r_concat ris).
Proof. intros. apply ret_tracks, (wrap_tracks true). now apply concat_loop_tracks. Qed.
Lemma delay_tracks : forall W A lv (m : M W (oiterable W A)) (n : M W (riterable W A)),
  (forall w, match m w, n w with
             | (Ret oi, w1), (Ret ri, w2) => w1 = w2 /\ tracks_it lv oi ri
             | (Raise e, w1), (Raise e2, w2) => e = e2 /\ w1 = w2
             | _, _ => False
             end) -> tracks_it true (o_delay m) (r_delay n).
Proof.
  intros W A lv m n H w. specialize (H w). destruct (m w) as [[oi|e] w1] eqn:Em, (n w) as [[ri|e2] w2] eqn:En; try contradiction.
  - destruct H as [<- H]. pose proof (seq_tracks _ _ _ H w1) as K. unfold o_seq, o_delay, r_delay, bind in *. rewrite Em, En. exact K.
  - unfold o_delay, r_delay, bind. rewrite Em, En. exact H.
Qed.
(** Letting it go does nothing, at any time. *)
Lemma tracks_call : forall W A (g : ogen W A) w o g1 w1, call g w o g1 w1 -> forall lv r, tracks lv g r -> exists r1, tracks lv g1 r1 /\ next r w o r1 w1.
Proof.
  induction 1 as [g w a g1 w1 E|g w g1 w1 E|g w e g1 w1 E|g w g1 w1 o g2 w2 E C IH]; intros lv r [_ _ H]; specialize (H w); rewrite E in H;
    inversion H as [? ? r1 ? T Q|? r1 ? T Q|? r1 ? T Q|? ? r1 ? T Q]; subst.
  - exists r1. split; [exact T|]. apply nx_got. now symmetry.
  - exists r1. split; [exact T|]. apply nx_ended. now symmetry.
  - exists r1. split; [exact T|]. apply nx_raised. now symmetry.
  - destruct (IH _ _ T) as (r2 & T2 & N). exists r2. split; [exact T2|]. eapply nx_skip; [symmetry; eassumption|exact N].
Qed.
Lemma tracks_calls : forall W A (g : ogen W A) w os g1 w1, calls g w os g1 w1 -> forall lv r, tracks lv g r ->
  exists r1, nexts r w os r1 w1 /\ drop g1 w1 = w1.
Proof.
  induction 1 as [g w|g w o g1 w1 os g2 w2 C CS IH]; intros lv r T.
  - exists r. split; [constructor|exact (tracks_drop _ _ _ _ _ w T)].
  - destruct (tracks_call _ _ _ _ _ _ _ C _ _ T) as (r1 & T1 & N). destruct (IH _ _ T1) as (r2 & N2 & D). exists r2. split; [eapply nxs_more; eassumption|exact D].
Qed.
Lemma tracks_it_calls : forall W A lv (oi : oiterable W A) (ri : riterable W A), tracks_it lv oi ri -> forall w g w1 os g1 w2,
  oi w = (Ret g, w1) -> calls g w1 os g1 w2 -> drop g1 w2 = w2.
Proof.
  intros W A lv oi ri T w g w1 os g1 w2 E C. specialize (T w). rewrite E in T. destruct (ri w) as [[r|] ?]; [|contradiction]. destruct T as [_ T].
  destruct (tracks_calls _ _ _ _ _ _ _ C _ _ T) as (r1 & _ & D). exact D.
Qed.

(** * What is entered is left *)
Ltac ow_src H g1 w0 n1 OW E := destruct H as [a g1 w0 n1 OW E|g1 w0 n1 OW E|g1 w0 n1 OW E|e g1 w0 n1 OW E].
Section Owe.
  Context {W : Type} (open : W -> Z).
  Lemma done_owes : forall A, owes open 0 (done : ogen W A).
  Proof. intros A. cofix CIH. constructor; [intros w; cbn; lia|intros w; cbn; lia|]. intros w. cbn. apply (ow_stop _ _ _ _ _ 0%Z); [exact CIH|lia]. Qed.
  Lemma owes_drop : forall A n (g : ogen W A) w, owes open n g -> open (drop g w) = (open w - n)%Z.
  Proof. intros A n g w [D _ _]. apply D. Qed.
  Lemma owes_leave : forall A n (g : ogen W A) w, owes open n g -> open (leave g w) = (open w - n)%Z.
  Proof. intros A n g w [_ D _]. apply D. Qed.
  Lemma list_owes : forall A (xs : list A), owes open 0 (o_list xs : ogen W A).
  Proof.
    intros A. cofix CIH. intros xs. constructor; [intros w; cbn; lia|intros w; cbn; lia|]. intros w.
    destruct xs; cbn; [apply (ow_stop _ _ _ _ _ 0%Z)|apply (ow_yield _ _ _ _ _ _ 0%Z)]; first [apply CIH|lia].
  Qed.
  Section Resource.
    Context {A : Type} (enter exit : W -> W).
    Hypothesis EN : forall w, open (enter w) = (open w + 1)%Z.
    Hypothesis EX : forall w, open (exit w) = (open w - 1)%Z.
    Lemma body_owes : forall ms : list (M W A), Forall (neutral open) ms -> owes open 1 (o_body exit ms).
    Proof.
      cofix CIH. intros ms N. constructor; [exact EX|exact EX|]. intros w. destruct ms as [|m ms]; cbn.
      - apply (ow_stop _ _ _ _ _ 0%Z); [apply done_owes|]. rewrite EX. lia.
      - pose proof (Forall_inv N w) as Nm. apply Forall_inv_tail in N. destruct (m w) as [[x|e] w1]; cbn in Nm.
        + apply (ow_yield _ _ _ _ _ _ 1%Z); [exact (CIH _ N)|lia].
        + destruct e; cbn; apply (ow_raise _ _ _ _ _ _ 0%Z); first [apply done_owes|rewrite EX; lia].
    Qed.
    Lemma resource_owes : forall ms : list (M W A), Forall (neutral open) ms -> owes open 0 (o_resource enter exit ms).
    Proof.
      intros ms N. constructor; [intros w; cbn; lia|intros w; cbn; lia|]. intros w. cbn. apply (ow_skip _ _ _ _ _ 1%Z); [now apply body_owes|]. rewrite EN. lia.
    Qed.
  End Resource.
End Owe.
Ltac ow_done OW := rewrite ?(owes_drop _ _ _ _ _ OW); lia.
Section OweLoops.
  Context {W A B S : Type} (open : W -> Z).
  Lemma wrap_owes : forall n (g : ogen W A), owes open n g -> owes open n (o_wrap g).
  Proof.
    cofix CIH. intros n g OW. constructor; [intros w; exact (owes_drop _ _ _ _ w OW)|intros w; exact (owes_drop _ _ _ _ w OW)|].
    intros w. destruct OW as [_ _ H]. specialize (H w). cbn. ow_src H g1 w0 n1 OW E.
    - apply (ow_yield _ _ _ _ _ _ n1); [exact (CIH _ _ OW)|exact E].
    - apply (ow_skip _ _ _ _ _ n1); [exact (CIH _ _ OW)|exact E].
    - apply (ow_stop _ _ _ _ _ 0%Z); [apply done_owes|ow_done OW].
    - destruct e; first [apply (ow_raise _ _ _ _ _ _ 0%Z); [apply done_owes|ow_done OW]|apply (ow_stop _ _ _ _ _ 0%Z); [apply done_owes|ow_done OW]].
  Qed.
  Lemma opening_owes : forall (src : oiterable W A) (l : ogen W A -> ogen W B), balanced open src -> (forall n g, owes open n g -> owes open n (l g)) -> owes open 0 (o_opening src l).
  Proof.
    intros src l F L. constructor; [intros w; cbn; lia|intros w; cbn; lia|]. intros w. specialize (F w). cbn. destruct (src w) as [[g|e] w1].
    - destruct F as (n & OW & E). apply (ow_skip _ _ _ _ _ n); [now apply L|lia].
    - destruct e; cbn; apply (ow_raise _ _ _ _ _ _ 0%Z); first [apply done_owes|lia].
  Qed.
  Lemma map_loop_owes : forall (f : A -> M W B), (forall x, neutral open (f x)) -> forall n g, owes open n g -> owes open n (o_map_loop f g).
  Proof.
    intros f N. cofix CIH. intros n g OW. constructor; [intros w; exact (owes_drop _ _ _ _ w OW)|intros w; exact (owes_drop _ _ _ _ w OW)|].
    intros w. destruct OW as [_ _ H]. specialize (H w). cbn. ow_src H g1 w0 n1 OW E.
    - pose proof (N a w0) as Na. destruct (f a w0) as [[y|e] w1]; cbn in Na.
      + apply (ow_yield _ _ _ _ _ _ n1); [exact (CIH _ _ OW)|lia].
      + destruct e; cbn; apply (ow_raise _ _ _ _ _ _ 0%Z); first [apply done_owes|ow_done OW].
    - apply (ow_skip _ _ _ _ _ n1); [exact (CIH _ _ OW)|exact E].
    - apply (ow_stop _ _ _ _ _ 0%Z); [apply done_owes|ow_done OW].
    - destruct e; first [apply (ow_raise _ _ _ _ _ _ 0%Z); [apply done_owes|ow_done OW]|apply (ow_stop _ _ _ _ _ 0%Z); [apply done_owes|ow_done OW]].
  Qed.
  Lemma filter_loop_owes : forall (p : A -> M W bool), (forall x, neutral open (p x)) -> forall n g, owes open n g -> owes open n (o_filter_loop p g).
  Proof.
    intros p N. cofix CIH. intros n g OW. constructor; [intros w; exact (owes_drop _ _ _ _ w OW)|intros w; exact (owes_drop _ _ _ _ w OW)|].
    intros w. destruct OW as [_ _ H]. specialize (H w). cbn. ow_src H g1 w0 n1 OW E.
    - pose proof (N a w0) as Na. destruct (p a w0) as [[[]|e] w1]; cbn in Na.
      + apply (ow_yield _ _ _ _ _ _ n1); [exact (CIH _ _ OW)|lia].
      + apply (ow_skip _ _ _ _ _ n1); [exact (CIH _ _ OW)|lia].
      + destruct e; first [apply (ow_raise _ _ _ _ _ _ n1); [exact (CIH _ _ OW)|lia]|apply (ow_stop _ _ _ _ _ n1); [exact (CIH _ _ OW)|lia]].
    - apply (ow_skip _ _ _ _ _ n1); [exact (CIH _ _ OW)|exact E].
    - apply (ow_stop _ _ _ _ _ n1); [exact (CIH _ _ OW)|exact E].
    - destruct e; first [apply (ow_raise _ _ _ _ _ _ n1); [exact (CIH _ _ OW)|exact E]|apply (ow_stop _ _ _ _ _ n1); [exact (CIH _ _ OW)|exact E]].
  Qed.
  Lemma scan_loop_owes : forall (f : S -> A -> M W S), (forall s x, neutral open (f s x)) -> forall s n g, owes open n g -> owes open n (o_scan_loop f s g).
  Proof.
    intros f N. cofix CIH. intros s n g OW. constructor; [intros w; exact (owes_drop _ _ _ _ w OW)|intros w; exact (owes_drop _ _ _ _ w OW)|].
    intros w. destruct OW as [_ _ H]. specialize (H w). cbn. ow_src H g1 w0 n1 OW E.
    - pose proof (N s a w0) as Na. destruct (f s a w0) as [[s1|e] w1]; cbn in Na.
      + apply (ow_yield _ _ _ _ _ _ n1); [exact (CIH _ _ _ OW)|lia].
      + destruct e; first [apply (ow_raise _ _ _ _ _ _ n1); [exact (CIH _ _ _ OW)|lia]|apply (ow_stop _ _ _ _ _ n1); [exact (CIH _ _ _ OW)|lia]].
    - apply (ow_skip _ _ _ _ _ n1); [exact (CIH _ _ _ OW)|exact E].
    - apply (ow_stop _ _ _ _ _ n1); [exact (CIH _ _ _ OW)|exact E].
    - destruct e; first [apply (ow_raise _ _ _ _ _ _ n1); [exact (CIH _ _ _ OW)|exact E]|apply (ow_stop _ _ _ _ _ n1); [exact (CIH _ _ _ OW)|exact E]].
  Qed.
  Lemma zip_loop_owes : forall (x : option A) n (g : ogen W A) m (h : ogen W B), owes open n g -> owes open m h -> owes open (n + m) (o_zip_loop x g h).
  Proof.
    cofix CIH. intros x n g m h OW P.
    assert (D : forall w, open (drop h (drop g w)) = (open w - (n + m))%Z). { intros w. rewrite (owes_drop _ _ _ _ _ P), (owes_drop _ _ _ _ _ OW). lia. }
    constructor; [exact D|exact D|]. intros w. destruct x as [x|]; cbn.
    - destruct P as [_ _ H]. specialize (H w). ow_src H h1 w0 m1 P E.
      + apply (ow_yield _ _ _ _ _ _ (n + m1)%Z); [exact (CIH _ _ _ _ _ OW P)|lia].
      + apply (ow_skip _ _ _ _ _ (n + m1)%Z); [exact (CIH _ _ _ _ _ OW P)|lia].
      + apply (ow_stop _ _ _ _ _ (n + m1)%Z); [exact (CIH _ _ _ _ _ OW P)|lia].
      + destruct e; first [apply (ow_raise _ _ _ _ _ _ (n + m1)%Z); [exact (CIH _ _ _ _ _ OW P)|lia]|apply (ow_stop _ _ _ _ _ (n + m1)%Z); [exact (CIH _ _ _ _ _ OW P)|lia]].
    - destruct OW as [_ _ H]. specialize (H w). ow_src H g1 w0 n1 OW E.
      + apply (ow_skip _ _ _ _ _ (n1 + m)%Z); [exact (CIH _ _ _ _ _ OW P)|lia].
      + apply (ow_skip _ _ _ _ _ (n1 + m)%Z); [exact (CIH _ _ _ _ _ OW P)|lia].
      + apply (ow_stop _ _ _ _ _ (n1 + m)%Z); [exact (CIH _ _ _ _ _ OW P)|lia].
      + destruct e; first [apply (ow_raise _ _ _ _ _ _ (n1 + m)%Z); [exact (CIH _ _ _ _ _ OW P)|lia]|apply (ow_stop _ _ _ _ _ (n1 + m)%Z); [exact (CIH _ _ _ _ _ OW P)|lia]].
  Qed.
  Lemma pairwise_loop_owes : forall (x : option A) n (g : ogen W A), owes open n g -> owes open n (o_pairwise_loop x g).
  Proof.
    cofix CIH. intros x n g OW. constructor; [intros w; exact (owes_drop _ _ _ _ w OW)|intros w; exact (owes_drop _ _ _ _ w OW)|].
    intros w. destruct OW as [_ _ H]. specialize (H w). cbn. ow_src H g1 w0 n1 OW E.
    - destruct x; [apply (ow_yield _ _ _ _ _ _ n1)|apply (ow_skip _ _ _ _ _ n1)]; first [exact (CIH _ _ _ OW)|exact E].
    - apply (ow_skip _ _ _ _ _ n1); [exact (CIH _ _ _ OW)|exact E].
    - apply (ow_stop _ _ _ _ _ 0%Z); [apply done_owes|ow_done OW].
    - destruct e; first [apply (ow_raise _ _ _ _ _ _ 0%Z); [apply done_owes|ow_done OW]|apply (ow_stop _ _ _ _ _ 0%Z); [apply done_owes|ow_done OW]].
  Qed.
  Lemma skip_loop_owes : forall c i n (g : ogen W A), owes open n g -> owes open n (o_skip_loop c i g).
  Proof.
    intros c. cofix CIH. intros i n g OW. constructor; [intros w; exact (owes_drop _ _ _ _ w OW)|intros w; exact (owes_drop _ _ _ _ w OW)|].
    intros w. destruct OW as [_ _ H]. specialize (H w). cbn. ow_src H g1 w0 n1 OW E.
    - destruct (Z.leb c i); [apply (ow_yield _ _ _ _ _ _ n1)|apply (ow_skip _ _ _ _ _ n1)]; first [exact (CIH _ _ _ OW)|exact E].
    - apply (ow_skip _ _ _ _ _ n1); [exact (CIH _ _ _ OW)|exact E].
    - apply (ow_stop _ _ _ _ _ 0%Z); [apply done_owes|ow_done OW].
    - destruct e; first [apply (ow_raise _ _ _ _ _ _ 0%Z); [apply done_owes|ow_done OW]|apply (ow_stop _ _ _ _ _ 0%Z); [apply done_owes|ow_done OW]].
  Qed.
  Lemma take_loop_owes : forall c after i n (g : ogen W A), owes open n g -> owes open n (o_take_loop c after i g).
  Proof.
    intros c. cofix CIH. intros after i n g OW. constructor; [intros w; exact (owes_drop _ _ _ _ w OW)|intros w; exact (owes_drop _ _ _ _ w OW)|].
    intros w. destruct after as [j|]; cbn.
    - destruct (Z.eqb j (c - 1)).
      + apply (ow_stop _ _ _ _ _ 0%Z); [apply done_owes|ow_done OW].
      + apply (ow_skip _ _ _ _ _ n); [exact (CIH _ _ _ _ OW)|lia].
    - destruct OW as [_ _ H]. specialize (H w). ow_src H g1 w0 n1 OW E.
      + apply (ow_yield _ _ _ _ _ _ n1); [exact (CIH _ _ _ _ OW)|exact E].
      + apply (ow_skip _ _ _ _ _ n1); [exact (CIH _ _ _ _ OW)|exact E].
      + apply (ow_stop _ _ _ _ _ 0%Z); [apply done_owes|ow_done OW].
      + destruct e; first [apply (ow_raise _ _ _ _ _ _ 0%Z); [apply done_owes|ow_done OW]|apply (ow_stop _ _ _ _ _ 0%Z); [apply done_owes|ow_done OW]].
  Qed.
  Lemma unfold_owes : forall (f : S -> M W (option (A * S))), (forall s, neutral open (f s)) -> forall s, owes open 0 (o_unfold f s).
  Proof.
    intros f N. cofix CIH. intros s. constructor; [intros w; cbn; lia|intros w; cbn; lia|]. intros w. cbn. pose proof (N s w) as Ns.
    destruct (f s w) as [[[[a s1]|]|e] w1]; cbn in Ns.
    - apply (ow_yield _ _ _ _ _ _ 0%Z); [exact (CIH _)|lia].
    - apply (ow_stop _ _ _ _ _ 0%Z); [apply done_owes|lia].
    - destruct e; cbn; apply (ow_raise _ _ _ _ _ _ 0%Z); first [apply done_owes|lia].
  Qed.
  Lemma concat_loop_owes : forall (its : list (oiterable W A)), Forall (balanced open) its ->
    forall n h, match h with Some h => owes open n h | None => n = 0%Z end -> owes open n (o_concat_loop h its).
  Proof.
    cofix CIH. intros its F n h OW.
    assert (D : forall w, open (match h with None => w | Some h => leave h w end) = (open w - n)%Z).
    { intros w. destruct h; [exact (owes_leave _ _ _ _ w OW)|lia]. }
    constructor; [exact D|exact D|]. intros w. destruct h as [h|]; cbn.
    - destruct OW as [_ _ H]. specialize (H w). ow_src H g1 w0 n1 OW E.
      + apply (ow_yield _ _ _ _ _ _ n1); [exact (CIH _ F _ (Some _) OW)|exact E].
      + apply (ow_skip _ _ _ _ _ n1); [exact (CIH _ F _ (Some _) OW)|exact E].
      + apply (ow_skip _ _ _ _ _ 0%Z); [exact (CIH _ F _ None eq_refl)|ow_done OW].
      + destruct e; first [apply (ow_raise _ _ _ _ _ _ 0%Z); [apply done_owes|ow_done OW]|apply (ow_stop _ _ _ _ _ 0%Z); [apply done_owes|ow_done OW]].
    - subst n. destruct F as [|it its F1 F]; [apply (ow_stop _ _ _ _ _ 0%Z); [apply done_owes|lia]|]. specialize (F1 w). destruct (it w) as [[g|e] w1].
      + destruct F1 as (n & OW & E). apply (ow_skip _ _ _ _ _ n); [exact (CIH _ F _ (Some _) OW)|lia].
      + destruct e; cbn; apply (ow_raise _ _ _ _ _ _ 0%Z); first [apply done_owes|lia].
  Qed.
  Lemma collect_loop_owes : forall (f : A -> M W (oiterable W B)),
    (forall x w, match f x w with (Ret it, w1) => open w1 = open w /\ balanced open it | (Raise _, w1) => open w1 = open w end) ->
    forall n g m h, owes open n g -> match h with Some h => owes open m h | None => m = 0%Z end -> owes open (n + m) (o_collect_loop f h g).
  Proof.
    intros f F. cofix CIH. intros n g m h OW P.
    assert (D : forall w, open (match h with None => drop g w | Some h => drop g (leave h w) end) = (open w - (n + m))%Z).
    { intros w. destruct h; rewrite (owes_drop _ _ _ _ _ OW); [rewrite (owes_leave _ _ _ _ _ P)|]; lia. }
    constructor; [exact D|exact D|]. intros w. destruct h as [h|]; cbn.
    - destruct P as [_ _ H]. specialize (H w). ow_src H h1 w0 m1 P E.
      + apply (ow_yield _ _ _ _ _ _ (n + m1)%Z); [exact (CIH _ _ _ (Some _) OW P)|lia].
      + apply (ow_skip _ _ _ _ _ (n + m1)%Z); [exact (CIH _ _ _ (Some _) OW P)|lia].
      + apply (ow_skip _ _ _ _ _ (n + 0)%Z); [exact (CIH _ _ _ None OW eq_refl)|ow_done P].
      + destruct e; first [apply (ow_raise _ _ _ _ _ _ 0%Z); [apply done_owes|rewrite (owes_drop _ _ _ _ _ OW); ow_done P]
                          |apply (ow_stop _ _ _ _ _ 0%Z); [apply done_owes|rewrite (owes_drop _ _ _ _ _ OW); ow_done P]].
    - subst m. destruct OW as [_ _ H]. specialize (H w). ow_src H g1 w0 n1 OW E.
      + specialize (F a w0). destruct (f a w0) as [[it|e] w1].
        * destruct F as [E1 F]. specialize (F w1). destruct (it w1) as [[h|e] w2].
          -- destruct F as (m & P & E2). apply (ow_skip _ _ _ _ _ (n1 + m)%Z); [exact (CIH _ _ _ (Some _) OW P)|lia].
          -- destruct e; cbn; apply (ow_raise _ _ _ _ _ _ 0%Z); first [apply done_owes|ow_done OW].
        * destruct e; cbn; apply (ow_raise _ _ _ _ _ _ 0%Z); first [apply done_owes|ow_done OW].
      + apply (ow_skip _ _ _ _ _ (n1 + 0)%Z); [exact (CIH _ _ _ None OW eq_refl)|lia].
      + apply (ow_stop _ _ _ _ _ 0%Z); [apply done_owes|ow_done OW].
      + destruct e; first [apply (ow_raise _ _ _ _ _ _ 0%Z); [apply done_owes|ow_done OW]|apply (ow_stop _ _ _ _ _ 0%Z); [apply done_owes|ow_done OW]].
  Qed.
End OweLoops.
Section Balance.
  Context {W A B S : Type} (open : W -> Z).
  Lemma ret_balanced : forall g : ogen W A, owes open 0 g -> balanced open (ret g).
  Proof. intros g OW w. exists 0%Z. split; [exact OW|lia]. Qed.
  Lemma then_balanced : forall (src : oiterable W A) (l : ogen W A -> ogen W B), balanced open src -> (forall n g, owes open n g -> owes open n (l g)) ->
    balanced open (do g <- src; ret (l g)).
  Proof. intros src l F L w. specialize (F w). unfold bind. destruct (src w) as [[g|e] w1]; [|exact F]. destruct F as (n & OW & E). exists n. split; [now apply L|exact E]. Qed.
End Balance.
Section Balance2.
  Context {W A B S : Type} (open : W -> Z).
  Variable src : oiterable W A.
  Hypothesis F : balanced open src.
  Lemma seq_balanced : balanced open (o_seq src).
  Proof. apply then_balanced; [exact F|]. intros n g. apply wrap_owes. Qed.
  Lemma map_balanced : forall f : A -> M W B, (forall x, neutral open (f x)) -> balanced open (o_map f src).
  Proof. intros f N. apply ret_balanced, wrap_owes, opening_owes; [exact F|]. intros n g. now apply map_loop_owes. Qed.
  Lemma collect_balanced : forall f : A -> M W (oiterable W B),
    (forall x w, match f x w with (Ret it, w1) => open w1 = open w /\ balanced open it | (Raise _, w1) => open w1 = open w end) -> balanced open (o_collect f src).
  Proof.
    intros f N. apply ret_balanced, wrap_owes, opening_owes; [exact F|]. intros n g OW. replace n with (n + 0)%Z by lia. now apply collect_loop_owes.
  Qed.
  Lemma choose_balanced : forall f : A -> M W (option B), (forall x, neutral open (f x)) -> balanced open (o_choose f src).
  Proof.
    intros f N. apply collect_balanced. intros x w. unfold bind. pose proof (N x w) as Nx. destruct (f x w) as [[o|e] w1]; cbn in Nx; [|exact Nx].
    cbn. split; [exact Nx|]. intros w2. exists 0%Z. split; [apply wrap_owes, list_owes|lia].
  Qed.
  Lemma skip_balanced : forall c, balanced open (o_skip c src).
  Proof. intros c. apply ret_balanced, wrap_owes, opening_owes; [exact F|]. intros n g. apply skip_loop_owes. Qed.
  Lemma take_balanced : forall c, balanced open (o_take c src).
  Proof.
    intros c. unfold o_take. destruct (Z.ltb 0 c); apply ret_balanced, wrap_owes; [|apply list_owes]. apply opening_owes; [exact F|]. intros n g. apply take_loop_owes.
  Qed.
  Lemma pairwise_balanced : balanced open (o_pairwise src).
  Proof. apply (then_balanced open src (fun g => o_wrap (o_pairwise_loop None g))); [exact F|]. intros n g OW. now apply wrap_owes, pairwise_loop_owes. Qed.
  Lemma dict_balanced : forall f : A -> M W B, (forall x, neutral open (f x)) -> balanced open (o_dict f src).
  Proof. intros f N. apply then_balanced; [exact F|]. now apply map_loop_owes. Qed.
  Lemma filter_balanced : forall p, (forall x, neutral open (p x)) -> balanced open (o_filter p src).
  Proof. intros p N. apply then_balanced; [exact F|]. now apply filter_loop_owes. Qed.
  Lemma scan_balanced : forall (f : S -> A -> M W S) s, (forall s x, neutral open (f s x)) -> balanced open (o_scan f s src).
  Proof.
    intros f s N. apply then_balanced; [exact F|]. intros n g OW. constructor; [intros w; exact (owes_drop _ _ _ _ w OW)|intros w; exact (owes_drop _ _ _ _ w OW)|].
    intros w. cbn. apply (ow_yield _ _ _ _ _ _ n); [now apply scan_loop_owes|reflexivity].
  Qed.
  Lemma zip_balanced : forall src2 : oiterable W B, balanced open src2 -> balanced open (o_zip src src2).
  Proof.
    intros src2 F2 w. specialize (F w). unfold o_zip, bind. destruct (src w) as [[g|e] w1]; [|exact F]. destruct F as (n & OW & E). specialize (F2 w1).
    destruct (src2 w1) as [[h|e] w2].
    - destruct F2 as (m & P & E2). exists (n + m)%Z. split; [now apply zip_loop_owes|lia].
    - rewrite (owes_drop _ _ _ _ _ OW). lia.
  Qed.
End Balance2.
Lemma concat_balanced : forall W A (open : W -> Z) (its : list (oiterable W A)), Forall (balanced open) its -> balanced open (o_concat its).
Proof. intros W A open its F. apply ret_balanced, wrap_owes. now apply concat_loop_owes. Qed.
Lemma delay_balanced : forall W A (open : W -> Z) (m : M W (oiterable W A)),
  (forall w, match m w with (Ret it, w1) => open w1 = open w /\ balanced open it | (Raise _, w1) => open w1 = open w end) -> balanced open (o_delay m).
Proof.
  intros W A open m H w. specialize (H w). unfold o_delay. unfold bind at 1. destruct (m w) as [[it|e] w1]; [|exact H]. destruct H as [E H].
  pose proof (seq_balanced open it H w1) as K. unfold o_seq in K. destruct ((do g <- it; ret (o_wrap g)) w1) as [[g|e] w2].
  - destruct K as (n & OW & E2). exists n. split; [exact OW|lia].
  - lia.
Qed.
Lemma owes_call : forall W A (open : W -> Z) (g : ogen W A) w o g1 w1, call g w o g1 w1 -> forall n, owes open n g -> exists n1, owes open n1 g1 /\ (open w1 - n1 = open w - n)%Z.
Proof.
  induction 1 as [g w a g1 w1 E|g w g1 w1 E|g w e g1 w1 E|g w g1 w1 o g2 w2 E C IH]; intros n [_ _ H]; specialize (H w); rewrite E in H;
    inversion H as [? ? ? n1 OW Q|? ? n1 OW Q|? ? n1 OW Q|? ? ? n1 OW Q]; subst.
  - exists n1. split; assumption.
  - exists n1. split; assumption.
  - exists n1. split; assumption.
  - destruct (IH _ OW) as (n2 & O2 & Q2). exists n2. split; [exact O2|lia].
Qed.
Lemma owes_calls : forall W A (open : W -> Z) (g : ogen W A) w os g1 w1, calls g w os g1 w1 -> forall n, owes open n g -> exists n1, owes open n1 g1 /\ (open w1 - n1 = open w - n)%Z.
Proof.
  induction 1 as [g w|g w o g1 w1 os g2 w2 C CS IH]; intros n OW; [exists n; split; [exact OW|reflexivity]|].
  destruct (owes_call _ _ _ _ _ _ _ _ C _ OW) as (n1 & O1 & E). destruct (IH _ O1) as (n2 & O2 & E2). exists n2. split; [exact O2|lia].
Qed.
(** Whatever was asked for, after giving it up nothing is open that was not open before. *)
Lemma balanced_drop : forall W A (open : W -> Z) (it : oiterable W A), balanced open it -> forall w g w1 os g1 w2,
  it w = (Ret g, w1) -> calls g w1 os g1 w2 -> open (drop g1 w2) = open w.
Proof.
  intros W A open it B w g w1 os g1 w2 E C. specialize (B w). rewrite E in B. destruct B as (n & OW & E2).
  destruct (owes_calls _ _ _ _ _ _ _ _ C _ OW) as (n1 & O1 & E3). rewrite (owes_drop _ _ _ _ _ O1). lia.
Qed.

(** * Generators let go of everything when they end or raise *)
Section Ends.
  Context {W A : Type}.
  Inductive tidy_step (T : ogen W A -> Prop) : rstep A (ogen W A) -> Prop :=
  | ty_yield : forall a g, T g -> tidy_step T (RYield a g)
  | ty_skip : forall g, T g -> tidy_step T (RSkip g)
  | ty_stop : tidy_step T (RStop done)
  | ty_raise : forall e, tidy_step T (RRaise e done).
  CoInductive tidy (g : ogen W A) : Prop := tidy_next : (forall w, tidy_step tidy (fst (onext g w))) -> tidy g.
  Lemma done_tidy : tidy done.
  Proof. constructor. intros w. constructor. Qed.
  Lemma tidy_call : forall g w o g1 w1, call g w o g1 w1 -> tidy g -> tidy g1 /\ ((forall a, o <> Got a) -> g1 = done).
  Proof.
    induction 1 as [g w a g1 w1 E|g w g1 w1 E|g w e g1 w1 E|g w g1 w1 o g2 w2 E N IH]; intros [G]; specialize (G w); rewrite E in G; cbn in G; inversion G; subst.
    - split; [assumption|]. intros K. now contradiction (K a).
    - split; [apply done_tidy|reflexivity].
    - split; [apply done_tidy|reflexivity].
    - now apply IH.
  Qed.
  Lemma tidy_calls : forall os g w o g1 w1, calls g w (os ++ [o]) g1 w1 -> tidy g -> (forall a, o <> Got a) -> g1 = done.
  Proof.
    induction os as [|o1 os IH]; cbn; intros g w o g1 w1 C T K; inversion C as [|? ? ? g2 w2 ? ? ? C1 C2]; subst.
    - inversion C2; subst. exact (proj2 (tidy_call _ _ _ _ _ C1 T) K).
    - exact (IH _ _ _ _ _ C2 (proj1 (tidy_call _ _ _ _ _ C1 T)) K).
  Qed.
  Lemma wrap_tidy : forall g : ogen W A, tidy (o_wrap g).
  Proof.
    cofix CIH. intros g. constructor. intros w. cbn. destruct (onext g w) as [[a g1|g1|g1|e g1] w1]; cbn.
    - constructor. apply CIH.
    - constructor. apply CIH.
    - constructor.
    - destruct e; constructor.
  Qed.
  Definition tidy_it (it : oiterable W A) : Prop := forall w g w1, it w = (Ret g, w1) -> tidy g.
  Lemma ret_tidy : forall g, tidy g -> tidy_it (ret g).
  Proof. intros g T w g1 w1 E. inversion E. now subst. Qed.
  Lemma then_tidy : forall B (m : M W B) k, tidy_it (do g <- m; ret (o_wrap (k g) : ogen W A)).
  Proof. intros B m k w g w1 E. unfold bind in E. destruct (m w) as [[x|e] w2]; inversion E; subst. apply wrap_tidy. Qed.
  (** so nothing is left open, before anything is let go *)
  Lemma balanced_end : forall (open : W -> Z) it, balanced open it -> tidy_it it -> forall w g w1 os o g1 w2,
    it w = (Ret g, w1) -> calls g w1 (os ++ [o]) g1 w2 -> (forall a, o <> Got a) -> open w2 = open w.
  Proof.
    intros open it B T w g w1 os o g1 w2 E C K. pose proof (balanced_drop _ _ _ _ B _ _ _ _ _ _ E C) as D.
    rewrite (tidy_calls _ _ _ _ _ _ C (T _ _ _ E) K) in D. exact D.
  Qed.
End Ends.
Lemma map_loop_tidy : forall W A B (f : A -> M W B) g, tidy (o_map_loop f g).
Proof.
  intros W A B f. cofix CIH. intros g. constructor. intros w. cbn. destruct (onext g w) as [[a g1|g1|g1|e g1] w1]; cbn.
  - destruct (f a w1) as [[y|e] w2]; [|destruct e; constructor]. constructor. apply CIH.
  - constructor. apply CIH.
  - constructor.
  - destruct e; constructor.
Qed.
Lemma take_tidy : forall W A n (src : oiterable W A), tidy_it (o_take n src).
Proof. intros W A n src. unfold o_take. destruct (Z.ltb 0 n); apply ret_tidy, wrap_tidy. Qed.
Lemma dict_tidy : forall W A B (f : A -> M W B) src, tidy_it (o_dict f src).
Proof. intros W A B f src w g w1 E. unfold o_dict, bind in E. destruct (src w) as [[x|e] w2]; inversion E; subst. apply map_loop_tidy. Qed.
Lemma delay_tidy : forall W A (m : M W (oiterable W A)), tidy_it (o_delay m).
Proof.
  intros W A m w g w1 E. unfold o_delay, bind in E. destruct (m w) as [[x|e] w2]; [|discriminate]. destruct (x w2) as [[h|e] w3]; inversion E; subst. apply wrap_tidy.
Qed.
