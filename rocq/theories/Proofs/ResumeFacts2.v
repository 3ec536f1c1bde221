(** Lemmas: filter, scan and zip asked again and again, over any source. *)
From Coq Require Import List ZArith Lia.
From Verif.Model Require Import Base Gen Resume.
From Verif.Spec Require Import ResumeSpec ResumeSpec2.
From Verif.Proofs Require Import ResumeFacts.
Import ListNotations.

Section One.
  Context {W A B S : Type}.
  (** an object that does [one] with what its source gives *)
  Variable one : S -> A -> M W (S * option B).
  Variable loop : S -> rgen W A -> rgen W B.
  Hypothesis loop_next : forall s g w, rnext (loop s g) w =
    match rnext g w with
    | (RYield x g, w) => match one s x w with
                         | (Ret (s1, Some y), w) => (RYield y (loop s1 g), w)
                         | (Ret (s1, None), w) => (RSkip (loop s1 g), w)
                         | (Raise StopIterationExn, w) => (RStop (loop s g), w)
                         | (Raise e, w) => (RRaise e (loop s g), w)
                         end
    | (RSkip g, w) => (RSkip (loop s g), w)
    | (RStop g, w) => (RStop (loop s g), w)
    | (RRaise e g, w) => (RRaise e (loop s g), w)
    end.

  Lemma loop_ended : forall g w g1 w1, next g w Ended g1 w1 -> forall s, next (loop s g) w Ended (loop s g1) w1.
  Proof.
    intros g w g1 w1 N. remember Ended as o eqn:O. induction N as [? ? ? ? ? E|? ? ? ? E|? ? ? ? ? E|? ? ? ? ? ? ? E N IH]; try discriminate; intros s.
    - apply nx_ended. now rewrite loop_next, E.
    - eapply nx_skip; [now rewrite loop_next, E|now apply IH].
  Qed.
  Lemma loop_raised : forall g w e g1 w1, next g w (Raised e) g1 w1 -> forall s, next (loop s g) w (Raised e) (loop s g1) w1.
  Proof.
    intros g w e g1 w1 N. remember (Raised e) as o eqn:O. induction N as [? ? ? ? ? E|? ? ? ? E|? ? ? ? ? E|? ? ? ? ? ? ? E N IH]; try discriminate; intros s.
    - inversion O; subst. apply nx_raised. now rewrite loop_next, E.
    - eapply nx_skip; [now rewrite loop_next, E|now apply IH].
  Qed.
  Lemma loop_got : forall g w x g1 w1, next g w (Got x) g1 w1 -> forall s,
    match one s x w1 with
    | (Ret (s1, Some y), w2) => next (loop s g) w (Got y) (loop s1 g1) w2
    | (Ret (s1, None), w2) => forall o h w3, next (loop s1 g1) w2 o h w3 -> next (loop s g) w o h w3
    | (Raise e, w2) => next (loop s g) w (seen e) (loop s g1) w2
    end.
  Proof.
    intros g w x g1 w1 N. remember (Got x) as o eqn:O. induction N as [? ? ? ? ? E|? ? ? ? E|? ? ? ? ? E|? ? ? ? ? ? ? E N IH]; try discriminate; intros s.
    - inversion O; subst. destruct (one s x w1) as [[[s1 [y|]]|e] w2] eqn:E1.
      + apply nx_got. now rewrite loop_next, E, E1.
      + intros o h w3 N. eapply nx_skip; [now rewrite loop_next, E, E1|exact N].
      + destruct e; cbn; first [apply nx_ended|apply nx_raised]; now rewrite loop_next, E, E1.
    - specialize (IH O s). destruct (one s x w2) as [[[s1 [y|]]|e] w3].
      + eapply nx_skip; [now rewrite loop_next, E|exact IH].
      + intros o2 h w4 N2. eapply nx_skip; [now rewrite loop_next, E|now apply IH].
      + eapply nx_skip; [now rewrite loop_next, E|exact IH].
  Qed.
  Lemma tries_nexts : forall s g w os s1 g1 w1, tries one s g w os s1 g1 w1 -> nexts (loop s g) w os (loop s1 g1) w1.
  Proof.
    induction 1 as [s g w|s g w g1 w1 os s2 g2 w2 N _ IH|s g w e g1 w1 os s2 g2 w2 N _ IH|s g w x g1 w1 s1 y w2 os s3 g3 w3 N E _ IH
      |s g w x g1 w1 s1 w2 o os s3 g3 w3 N E _ IH|s g w x g1 w1 e w2 os s3 g3 w3 N E _ IH].
    - constructor.
    - eapply nxs_more; [eapply loop_ended; exact N|exact IH].
    - eapply nxs_more; [eapply loop_raised; exact N|exact IH].
    - pose proof (loop_got _ _ _ _ _ N s) as L. rewrite E in L. eapply nxs_more; [exact L|exact IH].
    - pose proof (loop_got _ _ _ _ _ N s) as L. rewrite E in L. inversion IH; subst. eapply nxs_more; [apply L; eassumption|eassumption].
    - pose proof (loop_got _ _ _ _ _ N s) as L. rewrite E in L. eapply nxs_more; [exact L|exact IH].
  Qed.

  (** putting skipped steps of the source in front *)
  Lemma tries_skip : forall s g w g1 w1 o os s2 g2 w2, rnext g w = (RSkip g1, w1) -> tries one s g1 w1 (o :: os) s2 g2 w2 -> tries one s g w (o :: os) s2 g2 w2.
  Proof.
    intros s g w g1 w1 o os s2 g2 w2 E T. inversion T; subst.
    - eapply tr_ended; [eapply nx_skip; eassumption|eassumption].
    - eapply tr_source; [eapply nx_skip; eassumption|eassumption].
    - eapply tr_given; [eapply nx_skip; eassumption|eassumption|eassumption].
    - eapply tr_passed; [eapply nx_skip; eassumption|eassumption|eassumption].
    - eapply tr_failed; [eapply nx_skip; eassumption|eassumption|eassumption].
  Qed.
  Lemma next_tries : forall h w o h1 w1, next h w o h1 w1 -> forall s g, h = loop s g -> exists s1 g1, h1 = loop s1 g1 /\
    forall os s2 g2 w2, tries one s1 g1 w1 os s2 g2 w2 -> tries one s g w (o :: os) s2 g2 w2.
  Proof.
    induction 1 as [h w y h1 w1 E|h w h1 w1 E|h w e h1 w1 E|h w h1 w1 o h2 w2 E N IH]; intros s g ->; rewrite loop_next in E;
      destruct (rnext g w) as [[x g1|g1|g1|e1 g1] w3] eqn:R; try discriminate.
    - destruct (one s x w3) as [[[s1 [z|]]|e1] w4] eqn:O; [|discriminate|destruct e1; discriminate]. inversion E; subst.
      do 2 eexists. split; [reflexivity|]. intros. eapply tr_given; [apply nx_got; eassumption|eassumption|eassumption].
    - destruct (one s x w3) as [[[s1 [z|]]|e1] w4] eqn:O; [discriminate|discriminate|]. destruct e1; try discriminate. inversion E; subst.
      do 2 eexists. split; [reflexivity|]. intros. change (@Ended B) with (@seen B StopIterationExn).
      eapply tr_failed; [apply nx_got; eassumption|eassumption|eassumption].
    - inversion E; subst. do 2 eexists. split; [reflexivity|]. intros. eapply tr_ended; [apply nx_ended; eassumption|eassumption].
    - destruct (one s x w3) as [[[s1 [z|]]|e1] w4] eqn:O; [discriminate|discriminate|].
      assert (K : e1 = e /\ h1 = loop s g1 /\ w1 = w4 /\ @Raised B e = seen e) by (destruct e1; inversion E; subst; auto).
      destruct K as (-> & -> & -> & K). do 2 eexists. split; [reflexivity|]. intros. rewrite K.
      eapply tr_failed; [apply nx_got; eassumption|eassumption|eassumption].
    - inversion E; subst. do 2 eexists. split; [reflexivity|]. intros. eapply tr_source; [apply nx_raised; eassumption|eassumption].
    - destruct (one s x w3) as [[[s1 [z|]]|e1] w4] eqn:O; [discriminate| |destruct e1; discriminate]. inversion E; subst.
      destruct (IH _ _ eq_refl) as (s2 & g2 & -> & K). do 2 eexists. split; [reflexivity|]. intros.
      eapply tr_passed; [apply nx_got; eassumption|eassumption|now apply K].
    - inversion E; subst. destruct (IH _ _ eq_refl) as (s2 & g2 & -> & K). do 2 eexists. split; [reflexivity|]. intros.
      eapply tries_skip; [eassumption|now apply K].
  Qed.
  Lemma nexts_tries : forall h w os h1 w1, nexts h w os h1 w1 -> forall s g, h = loop s g -> exists s1 g1, h1 = loop s1 g1 /\ tries one s g w os s1 g1 w1.
  Proof.
    induction 1 as [h w|h w o h1 w1 os h2 w2 N _ IH]; intros s g ->.
    - do 2 eexists. split; [reflexivity|constructor].
    - destruct (next_tries _ _ _ _ _ N _ _ eq_refl) as (s1 & g1 & -> & K). destruct (IH _ _ eq_refl) as (s2 & g2 & -> & T).
      do 2 eexists. split; [reflexivity|]. now apply K.
  Qed.
  Lemma nexts_iff : forall s g w os h w1, nexts (loop s g) w os h w1 <-> exists s1 g1, h = loop s1 g1 /\ tries one s g w os s1 g1 w1.
  Proof. split; [intros N; exact (nexts_tries _ _ _ _ _ N _ _ eq_refl)|intros (s1 & g1 & -> & T); now apply tries_nexts]. Qed.
End One.

Section Objects.
  Context {W A B S : Type}.
  Lemma filter_nexts : forall (p : A -> M W bool) g w os h w1,
    nexts (r_filter_loop p g) w os h w1 <-> exists s g1, h = r_filter_loop p g1 /\ tries (keep_if p) tt g w os s g1 w1.
  Proof.
    intros p. apply (nexts_iff (keep_if p) (fun _ => r_filter_loop p)). intros [] g w. cbn.
    destruct (rnext g w) as [[x g1|g1|g1|e g1] w1] eqn:R; try reflexivity.
    - unfold keep_if. destruct (p x w1) as [[[|]|e] w2]; try reflexivity. now destruct e.
    - destruct e; try reflexivity. exfalso. destruct g as [n]. cbn in R. destruct (n w) as [[? ?|?|?|e ?] ?]; try discriminate. destruct e; discriminate.
  Qed.
  Lemma scan_nexts : forall (f : S -> A -> M W S) s g w os h w1,
    nexts (r_scan_loop f s g) w os h w1 <-> exists s1 g1, h = r_scan_loop f s1 g1 /\ tries (next_total f) s g w os s1 g1 w1.
  Proof.
    intros f. apply (nexts_iff (next_total f) (r_scan_loop f)). intros s g w. cbn.
    destruct (rnext g w) as [[x g1|g1|g1|e g1] w1] eqn:R; try reflexivity.
    - unfold next_total. destruct (f s x w1) as [[s1|e] w2]; try reflexivity. now destruct e.
    - destruct e; try reflexivity. exfalso. destruct g as [n]. cbn in R. destruct (n w) as [[? ?|?|?|e ?] ?]; try discriminate. destruct e; discriminate.
  Qed.

  (** zip *)
  Lemma no_stop_raised : forall (C : Type) (g : rgen W C) w g1 w1, rnext g w <> (RRaise StopIterationExn g1, w1).
  Proof. intros C [n] w g1 w1. cbn. destruct (n w) as [[? ?|?|?|e ?] ?]; try discriminate. destruct e; discriminate. Qed.
  Lemma zip_next : forall x (g : rgen W A) (h : rgen W B) w, rnext (r_zip_loop x g h) w =
    match x with
    | None => match rnext g w with
              | (RYield x g, w) => (RSkip (r_zip_loop (Some x) g h), w)
              | (RSkip g, w) => (RSkip (r_zip_loop None g h), w)
              | (RStop g, w) => (RStop (r_zip_loop None g h), w)
              | (RRaise e g, w) => (RRaise e (r_zip_loop None g h), w)
              end
    | Some x => match rnext h w with
                | (RYield y h, w) => (RYield (x, y) (r_zip_loop None g h), w)
                | (RSkip h, w) => (RSkip (r_zip_loop (Some x) g h), w)
                | (RStop h, w) => (RStop (r_zip_loop None g h), w)
                | (RRaise e h, w) => (RRaise e (r_zip_loop None g h), w)
                end
    end.
  Proof.
    intros [x|] g h w; cbn.
    - pose proof (no_stop_raised B h w) as K. destruct (rnext h w) as [[y h1|h1|h1|e h1] w1]; try reflexivity. destruct e; try reflexivity. now destruct (K h1 w1).
    - pose proof (no_stop_raised A g w) as K. destruct (rnext g w) as [[y h1|h1|h1|e h1] w1]; try reflexivity. destruct e; try reflexivity. now destruct (K h1 w1).
  Qed.
  Lemma zip_first : forall (g : rgen W A) w o g1 w1, next g w o g1 w1 -> forall h : rgen W B,
    match o with
    | Got x => forall o2 k w2, next (r_zip_loop (Some x) g1 h) w1 o2 k w2 -> next (r_zip_loop None g h) w o2 k w2
    | Ended => next (r_zip_loop None g h) w Ended (r_zip_loop None g1 h) w1
    | Raised e => next (r_zip_loop None g h) w (Raised e) (r_zip_loop None g1 h) w1
    end.
  Proof.
    induction 1 as [g w x g1 w1 E|g w g1 w1 E|g w e g1 w1 E|g w g1 w1 o g2 w2 E N IH]; intros h.
    - intros o2 k w2 N. eapply nx_skip; [now rewrite zip_next, E|exact N].
    - apply nx_ended. now rewrite zip_next, E.
    - apply nx_raised. now rewrite zip_next, E.
    - specialize (IH h). destruct o as [x| |e].
      + intros o2 k w3 N2. eapply nx_skip; [now rewrite zip_next, E|now apply IH].
      + eapply nx_skip; [now rewrite zip_next, E|exact IH].
      + eapply nx_skip; [now rewrite zip_next, E|exact IH].
  Qed.
  Lemma zip_second : forall (h : rgen W B) w o h1 w1, next h w o h1 w1 -> forall (g : rgen W A) x,
    next (r_zip_loop (Some x) g h) w (match o with Got y => Got (x, y) | Ended => Ended | Raised e => Raised e end) (r_zip_loop None g h1) w1.
  Proof.
    induction 1 as [h w y h1 w1 E|h w h1 w1 E|h w e h1 w1 E|h w h1 w1 o h2 w2 E N IH]; intros g x.
    - apply nx_got. now rewrite zip_next, E.
    - apply nx_ended. now rewrite zip_next, E.
    - apply nx_raised. now rewrite zip_next, E.
    - eapply nx_skip; [now rewrite zip_next, E|apply IH].
  Qed.
  Lemma pairs_nexts : forall (g : rgen W A) (h : rgen W B) w os g1 h1 w1, tries_pairs g h w os g1 h1 w1 ->
    nexts (r_zip_loop None g h) w os (r_zip_loop None g1 h1) w1.
  Proof.
    induction 1; [constructor|..]; (eapply nxs_more; [|eassumption]);
      try exact (zip_first _ _ _ _ _ H h);
      (apply (zip_first _ _ _ _ _ H h); exact (zip_second _ _ _ _ _ H0 _ _)).
  Qed.
  (** the pair being made when the first element is there *)
  Lemma zip_next_pairs : forall k w o k1 w1, next k w o k1 w1 -> forall (g : rgen W A) (h : rgen W B),
    (k = r_zip_loop None g h -> exists g1 h1, k1 = r_zip_loop None g1 h1 /\
       forall os g2 h2 w2, tries_pairs g1 h1 w1 os g2 h2 w2 -> tries_pairs g h w (o :: os) g2 h2 w2) /\
    (forall x, k = r_zip_loop (Some x) g h -> exists h1 p, k1 = r_zip_loop None g h1 /\ next h w p h1 w1 /\
       o = match p with Got y => Got (x, y) | Ended => Ended | Raised e => Raised e end).
  Proof.
    induction 1 as [k w y k1 w1 E|k w k1 w1 E|k w e k1 w1 E|k w k1 w1 o k2 w2 E N IH]; intros g h; (split; [intros ->|intros x ->]); rewrite zip_next in E.
    - destruct (rnext g w) as [[? ?|?|?|? ?] ?]; discriminate.
    - destruct (rnext h w) as [[z h1|?|?|? ?] w3] eqn:R; try discriminate. inversion E; subst. exists h1, (Got z). split; [reflexivity|]. split; [now apply nx_got|reflexivity].
    - destruct (rnext g w) as [[? ?|?|g1|? ?] w3] eqn:R; try discriminate. inversion E; subst. do 2 eexists. split; [reflexivity|].
      intros. eapply tp_ended; [apply nx_ended; eassumption|eassumption].
    - destruct (rnext h w) as [[z ?|?|h1|? ?] w3] eqn:R; try discriminate. inversion E; subst. exists h1, Ended. split; [reflexivity|]. split; [apply nx_ended; eassumption|reflexivity].
    - destruct (rnext g w) as [[? ?|?|?|? g1] w3] eqn:R; try discriminate. inversion E; subst. do 2 eexists. split; [reflexivity|].
      intros. eapply tp_raised; [apply nx_raised; eassumption|eassumption].
    - destruct (rnext h w) as [[z ?|?|?|? h1] w3] eqn:R; try discriminate. inversion E; subst. eexists; eexists (Raised _). split; [reflexivity|]. split; [apply nx_raised; eassumption|reflexivity].
    - destruct (rnext g w) as [[x g1|g1|?|? ?] w3] eqn:R; try discriminate; inversion E; subst.
      + destruct (IH g1 h) as [_ K]. destruct (K x eq_refl) as (h1 & p & -> & P & ->). do 2 eexists. split; [reflexivity|]. intros.
        destruct p; [eapply tp_given|eapply tp_ended2|eapply tp_raised2]; try eassumption; apply nx_got; eassumption.
      + destruct (IH g1 h) as [K _]. destruct (K eq_refl) as (g2 & h2 & -> & P). do 2 eexists. split; [reflexivity|]. intros os g3 h3 w4 T.
        specialize (P _ _ _ _ T). inversion P; subst;
          [eapply tp_ended|eapply tp_raised|eapply tp_given|eapply tp_ended2|eapply tp_raised2]; try eassumption; eapply nx_skip; eassumption.
    - destruct (rnext h w) as [[z ?|h1|?|? ?] w3] eqn:R; try discriminate. inversion E; subst. destruct (IH g h1) as [_ K].
      destruct (K x eq_refl) as (h2 & p & -> & P & ->). exists h2, p. split; [reflexivity|]. split; [eapply nx_skip; eassumption|reflexivity].
  Qed.
  Lemma zip_nexts : forall (g : rgen W A) (h : rgen W B) w os k w1,
    nexts (r_zip_loop None g h) w os k w1 <-> exists g1 h1, k = r_zip_loop None g1 h1 /\ tries_pairs g h w os g1 h1 w1.
  Proof.
    intros g h w os k w1. split.
    - intros N. remember (r_zip_loop None g h) as k0 eqn:K. revert g h K. induction N as [k0 w|k0 w o k1 w1 os k2 w2 N _ IH]; intros g h ->.
      + do 2 eexists. split; [reflexivity|constructor].
      + destruct (zip_next_pairs _ _ _ _ _ N g h) as [K _]. destruct (K eq_refl) as (g1 & h1 & -> & P).
        destruct (IH _ _ eq_refl) as (g2 & h2 & -> & T). do 2 eexists. split; [reflexivity|]. now apply P.
    - intros (g1 & h1 & -> & T). now apply pairs_nexts.
  Qed.
End Objects.
