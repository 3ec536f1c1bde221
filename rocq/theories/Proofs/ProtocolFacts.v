(** Iterators of Seq as generators. *)
From Coq Require Import List ZArith Bool Lia.
From Verif.Model Require Import Base OptionResult Resume Abandon Protocol.
From Verif.Spec Require Import ResumeSpec AbandonSpec ProtocolSpec.
Import ListNotations.

Section Wrap.
  Context {W V A : Type}.
  Notation pg := (pgen W V A).

  (** one operation that asks, at the level of [next] of the source *)
  Lemma send_same : forall (g : ogen W A) (v u : pyopt V) w, p_send (p_wrap true g) v w = p_send (p_wrap true g) u w.
  Proof. intros g v u w. reflexivity. Qed.
  Lemma send_start : forall (g : ogen W A) w, p_send (p_wrap false g : pg) PyNone w = p_send (p_wrap true g) PyNone w.
  Proof. intros g w. reflexivity. Qed.

  Lemma goes_states : forall r o (p1 : pg) w1, goes r o p1 w1 -> forall g v w, r = p_send (p_wrap true g) v w ->
    (exists a g1, o = Given a /\ p1 = p_wrap true g1) \/ (p1 = p_done /\ (o = Over \/ exists e, o = Raises e)).
  Proof.
    induction 1 as [a p w|p w|e p w|p w o p1 w1 G IH]; intros g v u E; cbn in E;
      destruct (onext g u) as [[x g1|g1|g1|e1 g1] u1]; try discriminate; injection E; intros; subst; eauto 6.
  Qed.
  Lemma goes_done : forall r o (p1 : pg) w1, goes r o p1 w1 -> forall v w, r = p_send p_done v w -> o = Over /\ p1 = p_done /\ w1 = w.
  Proof. intros r o p1 w1 G v w ->. cbn in G. inversion G; subst; auto. Qed.

  Lemma act_asks : forall (p : pg) w x o p1 w1, asks x -> act p w x o p1 w1 -> exists v, goes (p_send p v w) o p1 w1 /\ (x = Next -> v = PyNone) /\ (forall u, x = Send u -> v = u).
  Proof. intros p w x o p1 w1 K H. destruct H; try contradiction; eexists; split; try eassumption; split; intros; congruence. Qed.
  Lemma asks_act : forall (p : pg) w x o p1 w1, asks x -> (forall v, goes (p_send p v w) o p1 w1) -> act p w x o p1 w1.
  Proof. intros p w [|v|e|] o p1 w1 K H; try contradiction; [apply act_next|apply act_send]; apply H. Qed.

  Lemma send_pf : forall (p : pg) w xs os p1 w1, acts p w xs os p1 w1 -> (exists g, p = p_wrap true g) \/ p = p_done -> Forall asks xs ->
    forall ys, Forall asks ys -> length ys = length xs -> acts p w ys os p1 w1.
  Proof.
    induction 1 as [p w|p w x o p1 w1 xs os p2 w2 H Hs IH]; intros P Fx ys Fy L.
    - destruct ys; [constructor|discriminate].
    - destruct ys as [|y ys]; [discriminate|]. inversion Fx; inversion Fy; subst. injection L as L.
      destruct (act_asks _ _ _ _ _ _ H2 H) as (v & G & _ & _).
      apply acts_more with (p1 := p1) (w1 := w1).
      + apply asks_act; [assumption|]. intros u. destruct P as [[g ->]| ->]; exact G.
      + apply IH; auto. destruct P as [[g ->]| ->].
        * destruct (goes_states _ _ _ _ G g v w eq_refl) as [(a & g1 & _ & ->)|(-> & _)]; eauto.
        * destruct (goes_done _ _ _ _ G v w eq_refl) as (_ & -> & _). auto.
  Qed.

  Lemma early_pf : forall (g : ogen W A) w (v : V) o (p : pg) w1,
    act (p_wrap false g) w (Send (PyVal v)) o p w1 <-> o = Raises TypeError /\ p = p_wrap false g /\ w1 = w.
  Proof.
    intros g w v o p w1. split.
    - intros H. inversion H as [|? ? ? ? ? ? G| | |]; subst. cbn in G. inversion G; subst. auto.
    - intros (-> & -> & ->). apply act_send. cbn. constructor.
  Qed.

  (** next() only: the iterator of Abandon.v *)
  Definition plainly (o : outcome A) : answer A := match o with Got a => Given a | Ended => Over | Raised e => Raises e end.
  Lemma onext_wrap : forall (g : ogen W A) w,
    onext (o_wrap g) w = match onext g w with
                         | (RYield x g, w) => (RYield x (o_wrap g), w)
                         | (RSkip g, w) => (RSkip (o_wrap g), w)
                         | (RStop g, w) => (RStop done, drop g w)
                         | (RRaise e g, w) => (RRaise e done, drop g w)
                         end.
  Proof.
    intros g w. cbn. assert (N : forall g1 w1, onext g w <> (RRaise StopIterationExn g1, w1)).
    { intros g1 w1. unfold onext. destruct g as [nx lv dr]. destruct (nx w) as [[| | |[] ]]; discriminate. }
    destruct (onext g w) as [[x g1|g1|g1|e g1] w1]; try reflexivity. destruct e; try reflexivity. exfalso. exact (N _ _ eq_refl).
  Qed.
  Inductive paired : ogen W A -> pg -> Prop :=
  | pa_wrap : forall g b, paired (o_wrap g) (p_wrap b g)
  | pa_done : paired done p_done.
  Lemma call_goes : forall (q : ogen W A) w o q1 w1, call q w o q1 w1 -> forall (p : pg), paired q p ->
    exists p1, goes (p_send p PyNone w) (plainly o) p1 w1 /\ paired q1 p1.
  Proof.
    induction 1 as [q w a q1 w1 E|q w q1 w1 E|q w e q1 w1 E|q w q1 w1 o q2 w2 E C IH]; intros p Pa; inversion Pa as [g b|]; subst; clear Pa;
      try (rewrite onext_wrap in E; destruct (onext g w) as [[x g1|g1|g1|e1 g1] u1] eqn:N; try discriminate; injection E; intros; subst);
      try (cbn in E; try discriminate; injection E; intros; subst).
    - exists (p_wrap true g1). split; [|constructor]. destruct b; cbn; rewrite N; constructor.
    - exists p_done. split; [|constructor]. destruct b; cbn; rewrite N; constructor.
    - exists p_done. split; [|constructor]. cbn. constructor.
    - exists p_done. split; [|constructor]. destruct b; cbn; rewrite N; constructor.
    - destruct (IH _ (pa_wrap g1 true)) as (p1 & G & Pa). exists p1. split; [|exact Pa]. destruct b; cbn; rewrite N; constructor; exact G.
  Qed.
  Lemma goes_call : forall r o (p1 : pg) w1, goes r o p1 w1 -> forall q p w, paired q p -> r = p_send p PyNone w ->
    exists o1 q1, o = plainly o1 /\ call q w o1 q1 w1 /\ paired q1 p1.
  Proof.
    induction 1 as [a p w|p w|e p w|p w o p1 w1 G IH]; intros q p0 u Pa E; inversion Pa as [g b|]; subst q p0; clear Pa;
      try (assert (E1 : forall T (x y : T), (if b then x else x) = x) by (destruct b; reflexivity));
      try (replace (p_send (p_wrap b g : pg) PyNone u) with (p_send (p_wrap true g : pg) PyNone u) in E by (destruct b; reflexivity));
      cbn in E; try (pose proof (onext_wrap g u) as O; destruct (onext g u) as [[x g1|g1|g1|e1 g1] u1]); try discriminate; injection E; intros; subst.
    - exists (Got x), (o_wrap g1). repeat split; constructor. exact O.
    - exists Ended, done. repeat split; constructor. exact O.
    - exists Ended, done. repeat split; constructor. reflexivity.
    - exists (Raised e1), done. repeat split; constructor. exact O.
    - destruct (IH (o_wrap g1) _ _ (pa_wrap g1 true) eq_refl) as (o1 & q1 & -> & C & Pa). exists o1, q1. repeat split; auto.
      eapply cl_skip; eauto.
  Qed.
  Lemma next_pf : forall (g : ogen W A) w os w1,
    (exists p1 : pg, acts (p_wrap false g) w (repeat Next (length os)) (map plainly os) p1 w1) <-> (exists q1, calls (o_wrap g) w os q1 w1).
  Proof.
    intros g w os w1. split.
    - intros (p1 & H). generalize (pa_wrap g false). revert H. generalize (o_wrap g) as q, (p_wrap false g : pg) as p. revert w.
      induction os as [|o os IH]; intros w q p H Pa; cbn in H; inversion H; subst; [exists q; constructor|].
      match goal with K : act _ _ _ _ _ _ |- _ => inversion K; subst end.
      match goal with K : goes _ _ _ _ |- _ => destruct (goes_call _ _ _ _ K _ _ _ Pa eq_refl) as (o1 & q1 & Eo & C & Pa1) end.
      assert (o1 = o) by (destruct o, o1; cbn in Eo; congruence). subst o1.
      match goal with K : acts _ _ _ _ _ _ |- _ => destruct (IH _ _ _ K Pa1) as (q2 & Cs) end.
      exists q2. econstructor; eauto.
    - intros (q1 & H). generalize (pa_wrap g false). generalize (p_wrap false g : pg) as p.
      induction H as [q w|q w o q1 w1 os q2 w2 C Cs IH]; intros p Pa; cbn; [exists p; constructor|].
      destruct (call_goes _ _ _ _ _ C _ Pa) as (p1 & G & Pa1). destruct (IH _ Pa1) as (p2 & As).
      exists p2. econstructor; [apply act_next; exact G|exact As].
  Qed.

  (** everything is released *)
  Variable open : W -> Z.
  Lemma goes_owes : forall r o (p1 : pg) w1, goes r o p1 w1 -> forall g v w n c, r = p_send (p_wrap true g) v w -> owes open n g -> (open w - n = c)%Z ->
    (exists a g1 n1, o = Given a /\ p1 = p_wrap true g1 /\ owes open n1 g1 /\ (open w1 - n1 = c)%Z) \/
    (p1 = p_done /\ open w1 = c).
  Proof.
    induction 1 as [a p w|p w|e p w|p w o p1 w1 G IH]; intros g v u n c E O C; cbn in E; destruct O as [Od Ol On];
      specialize (On u); destruct (onext g u) as [[x g1|g1|g1|e1 g1] u1]; try discriminate; injection E; intros; subst;
      inversion On as [? ? ? n1 O1 C1|? ? n1 O1 C1|? ? n1 O1 C1|? ? ? n1 O1 C1]; subst.
    - left. do 3 eexists. split; [reflexivity|]. split; [reflexivity|]. split; [exact O1|exact C1].
    - right. split; auto. destruct O1 as [D1 _ _]. rewrite D1. lia.
    - right. split; auto. destruct O1 as [D1 _ _]. rewrite D1. lia.
    - eapply IH; eauto.
  Qed.
  Definition held (c : Z) (p : pg) (w : W) : Prop :=
    (exists b g n, p = p_wrap b g /\ owes open n g /\ (open w - n = c)%Z) \/ (p = p_done /\ open w = c).
  Lemma act_held : forall c (p : pg) w x o p1 w1, act p w x o p1 w1 -> held c p w -> held c p1 w1.
  Proof.
    intros c p w x o p1 w1 H [(b & g & n & -> & O & C)|[-> C]].
    - assert (K : forall v, goes (p_send (p_wrap b g) v w) o p1 w1 -> held c p1 w1).
      { intros v G. destruct b; [|destruct v as [|v]].
        - destruct (goes_owes _ _ _ _ G _ _ _ _ _ eq_refl O C) as [(a & g1 & n1 & _ & -> & O1 & C1)|R]; [left; eauto 6|right; exact R].
        - destruct (goes_owes _ _ _ _ G _ _ _ _ _ (send_start _ _) O C) as [(a & g1 & n1 & _ & -> & O1 & C1)|R]; [left; eauto 6|right; exact R].
        - cbn in G. inversion G; subst. left. eauto 6. }
      assert (D : open (drop g w) = c) by (destruct O as [Od _ _]; rewrite Od; exact C).
      inversion H as [? ? ? ? ? G|? ? ? ? ? ? G|? ? ? ? ? ? G|? ? ? ? E|? ? ? ? ? E]; subst.
      + eauto.
      + eauto.
      + cbn in G. inversion G; subst. right. auto.
      + cbn in E. injection E; intros; subst. right. auto.
      + discriminate E.
    - right. inversion H as [? ? ? ? ? G|? ? ? ? ? ? G|? ? ? ? ? ? G|? ? ? ? E|? ? ? ? ? E]; subst;
        try (cbn in G; inversion G; subst; auto); cbn in E; try discriminate; injection E; intros; subst; auto.
  Qed.
  Lemma acts_held : forall (p : pg) w xs os p1 w1, acts p w xs os p1 w1 -> forall c, held c p w -> held c p1 w1.
  Proof. induction 1 as [|p w x o p1 w1 xs os p2 w2 H Hs IH]; intros c Hc; [exact Hc|]. apply IH. exact (act_held _ _ _ _ _ _ _ H Hc). Qed.
  Lemma done_acts : forall (p : pg) w xs os p1 w1, acts p w xs os p1 w1 -> p = p_done -> os = map ended_answer xs /\ p1 = p_done /\ w1 = w.
  Proof.
    induction 1 as [p w|p w x o p1 w1 xs os p2 w2 H Hs IH]; intros ->; [auto|].
    assert (K : o = ended_answer x /\ p1 = p_done /\ w1 = w).
    { inversion H as [? ? ? ? ? G|? ? ? ? ? ? G|? ? ? ? ? ? G|? ? ? ? E|? ? ? ? ? E]; subst;
        try (cbn in G; inversion G; subst; auto); cbn in E; try discriminate; injection E; intros; subst; auto. }
    destruct K as (-> & -> & ->). destruct (IH eq_refl) as (-> & -> & ->). auto.
  Qed.
  Lemma held_act : forall c (p : pg) w x o p1 w1, act p w x o p1 w1 -> held c p w ->
    match x with Throw _ => True | Close => True | _ => o = Over end -> p1 = p_done /\ open w1 = c.
  Proof.
    intros c p w x o p1 w1 H [(b & g & n & -> & O & C)|[-> C]] E.
    - assert (D : open (drop g w) = c) by (destruct O as [Od _ _]; rewrite Od; exact C).
      inversion H as [? ? ? ? ? G|? ? ? ? ? ? G|? ? ? ? ? ? G|? ? ? ? E1|? ? ? ? ? E1]; subst.
      + replace (p_send (p_wrap b g : pg) PyNone w) with (p_send (p_wrap true g : pg) PyNone w) in G by (destruct b; reflexivity).
        destruct (goes_owes _ _ _ _ G _ _ _ _ _ eq_refl O eq_refl) as [(a & g1 & n1 & Q & _)|R]; [cbn in E; congruence|exact R].
      + destruct b; [|destruct v as [|v]].
        * destruct (goes_owes _ _ _ _ G _ _ _ _ _ eq_refl O eq_refl) as [(a & g1 & n1 & Q & _)|R]; [cbn in E; congruence|exact R].
        * destruct (goes_owes _ _ _ _ G _ _ _ _ _ (send_start _ _) O eq_refl) as [(a & g1 & n1 & Q & _)|R]; [cbn in E; congruence|exact R].
        * cbn in G, E. inversion G; subst. discriminate.
      + cbn in G. inversion G; subst. auto.
      + cbn in E1. injection E1; intros; subst. auto.
      + discriminate E1.
    - destruct (done_acts p_done w [x] [o] p1 w1 (acts_more _ _ _ _ _ _ _ _ _ _ H (acts_none _ _)) eq_refl) as (_ & -> & ->). auto.
  Qed.
  Lemma held_answer : forall c (p : pg) w x o p1 w1, act p w x o p1 w1 -> held c p w ->
    match x with Throw e => e <> StopIterationExn -> o = Raises e | Close => o = Closed | _ => True end.
  Proof.
    intros c p w x o p1 w1 H [(b & g & n & -> & O & C)|[-> C]].
    - inversion H as [? ? ? ? ? G|? ? ? ? ? ? G|? ? ? ? ? ? G|? ? ? ? E1|? ? ? ? ? E1]; subst; auto.
      + intros N. cbn in G. inversion G; subst. destruct e; first [reflexivity|congruence].
      + discriminate E1.
    - destruct (done_acts p_done w [x] [o] p1 w1 (acts_more _ _ _ _ _ _ _ _ _ _ H (acts_none _ _)) eq_refl) as (Q & _ & _).
      injection Q as ->. destruct x; auto.
  Qed.
  Lemma acts_app : forall (p : pg) w xs ys os p2 w2, acts p w (xs ++ ys) os p2 w2 ->
    exists os1 os2 p1 w1, os = os1 ++ os2 /\ acts p w xs os1 p1 w1 /\ acts p1 w1 ys os2 p2 w2.
  Proof.
    intros p w xs. revert p w. induction xs as [|x xs IH]; intros p w ys os p2 w2 H.
    - exists [], os, p, w. repeat split; [constructor|exact H].
    - inversion H; subst. match goal with K : acts _ _ (xs ++ ys) _ _ _ |- _ => destruct (IH _ _ _ _ _ _ K) as (os1 & os2 & p1' & w1' & -> & H1 & H2) end.
      eexists (_ :: os1), os2, p1', w1'. repeat split; [econstructor; eauto|exact H2].
  Qed.
  Lemma released_pf : forall (src : oiterable W A) w g w0 xs x os o (p1 : pg) w1, balanced open src -> src w = (Ret g, w0) ->
    acts (p_wrap false g) w0 xs os p1 w1 -> forall p2 w2, act p1 w1 x o p2 w2 ->
    match x with Throw e => e <> StopIterationExn | Close => True | _ => o = Over end ->
    match x with Throw e => o = Raises e | Close => o = Closed | _ => True end /\
    open w2 = open w /\ forall ys os2 p3 w3, acts p2 w2 ys os2 p3 w3 -> os2 = map ended_answer ys /\ w3 = w2.
  Proof.
    intros src w g w0 xs x os o p1 w1 B E As p2 w2 H K. specialize (B w). rewrite E in B. destruct B as (n & O & C).
    assert (H0 : held (open w) p1 w1) by (eapply acts_held; [exact As|left; eauto 6]).
    pose proof (held_answer _ _ _ _ _ _ _ H H0) as An.
    assert (D : p2 = p_done /\ open w2 = open w). { apply (held_act _ _ _ _ _ _ _ H H0). destruct x; auto. }
    destruct D as [D D1]. split; [destruct x; auto|]. split; [exact D1|].
    intros ys os2 p3 w3 As2. destruct (done_acts _ _ _ _ _ _ As2 D) as (Q1 & _ & Q2). auto.
  Qed.
End Wrap.
