(** Agents that post to one another. *)
From Coq Require Import List Bool Arith Lia.
From Verif.Model Require Import Base Thread Aiotools Mailbox Agent Network.
From Verif.Spec Require Import MailboxSpec AgentSpec NetworkSpec.
From Verif.Proofs Require Import ThreadFacts MailboxFacts6 AgentFacts AgentFacts2.
Import ListNotations.

Lemma exec_snoc : forall C S (step : C -> S -> option S) cs c s0 s s1, exec step cs s0 = Some s -> step c s = Some s1 -> exec step (cs ++ [c]) s0 = Some s1.
Proof.
  intros C S step cs. induction cs as [|d cs IH]; intros c s0 s s1 E H; cbn in *.
  - injection E as ->. now rewrite H.
  - destruct (step d s0); [|discriminate]. eapply IH; eassumption.
Qed.
Lemma step_posted : forall c s s1, step c s = Some s1 ->
  posted (s_log s1) = posted (s_log s) ++ match c with CPost _ m | CAsk _ m => [m] | _ => [] end.
Proof.
  intros c s s1 E. destruct c as [t m|t m| | |f|f|t|t]; cbn [step] in E; rewrite ?app_nil_r.
  - destruct (is_idle _); [|discriminate]. injection E as <-. reflexivity.
  - destruct (is_idle _); [|discriminate]. injection E as <-. reflexivity.
  - destruct (is_idle _); [|discriminate]. injection E as <-. reflexivity.
  - destruct (s_ready s); [discriminate|]. destruct (is_idle _); [|discriminate]. injection E as <-. reflexivity.
  - destruct (awaited f s); [|discriminate]. destruct (s_fut s f); try discriminate; injection E as <-; reflexivity.
  - destruct (awaited f s); [|discriminate]. injection E as <-. reflexivity.
  - destruct (is_idle _); [|discriminate]. injection E as <-. reflexivity.
  - unfold run in E. destruct (s_thr s t); try discriminate E; try (injection E as <-; reflexivity).
    + destruct (s_cont s); injection E as <-; reflexivity.
    + injection E as <-. destruct c; reflexivity.
    + destruct (acquire _ _); [|discriminate]. injection E as <-. reflexivity.
    + destruct (s_queue s); [discriminate|]. injection E as <-. reflexivity.
    + injection E as <-. destruct c; reflexivity.
    + destruct (release _ _); [|discriminate]. injection E as <-. reflexivity.
Qed.
Lemma outputs_app : forall O (l r : list (happening O)), outputs (l ++ r) = outputs l ++ outputs r.
Proof. intros O l r. induction l as [|[m|o] l IH]; cbn; [reflexivity|exact IH|now rewrite IH]. Qed.
Lemma sends_app : forall O (l r : list (effect O)), sends (l ++ r) = sends l ++ sends r.
Proof. intros O l r. induction l as [|[j m|o] l IH]; cbn; [reflexivity|now rewrite IH|exact IH]. Qed.
Lemma sent_to_snoc : forall j l x, sent_to j (l ++ [x]) = sent_to j l ++ (if Nat.eqb (m_to x) j then [m_msg x] else []).
Proof. intros j l x. unfold sent_to. rewrite filter_app, map_app. cbn. destruct (Nat.eqb (m_to x) j); reflexivity. Qed.
Lemma sent_by_snoc : forall i l x, sent_by i (l ++ [x]) = sent_by i l ++ (match m_from x with Some k => if Nat.eqb k i then [(m_to x, m_msg x)] else [] | None => [] end).
Proof. intros i l x. unfold sent_by. rewrite filter_app, map_app. cbn. destruct (m_from x) as [k|]; [destruct (Nat.eqb k i)|]; reflexivity. Qed.

Section Network.
  Context {B O : Type} (next : nat -> B -> act B (effect O)) (b0 : nat -> option B).

  (** What a choice for one agent does to its mailbox and its trace. *)
  Lemma astep_effect : forall i c (a a1 : agent B (effect O)), astep (next i) c a = Some a1 ->
    posted (s_log (a_box a1)) = posted (s_log (a_box a)) ++ map m_msg (coming i c) /\
    sends (outputs (rev (a_trace a1))) = sends (outputs (rev (a_trace a))) ++ match sending next i c a with Some x => [x] | None => [] end /\
    (sending next i c a <> None -> a_box a1 = a_box a).
  Proof.
    intros i c a a1 E. destruct c as [c| | |]; cbn [astep] in E.
    - assert (S : exists s, step c (a_box a) = Some s /\ a1 = Agent s (a_body a) (a_trace a)).
      { destruct (step c (a_box a)) as [s|] eqn:S; [exists s; split; [reflexivity|]|]; destruct c; try discriminate E; rewrite ?S in E; cbn in E; congruence. }
      destruct S as (s & S & ->). cbn. rewrite app_nil_r. split; [|split; [reflexivity|congruence]].
      rewrite (step_posted _ _ _ S). f_equal. destruct c; reflexivity.
    - assert (X : forall b, a_body a = Starts b \/ a_body a = Ready b -> sending next i Go a = match next i b with Do (Send j m) _ => Some (j, m) | _ => None end).
      { intros b [H|H]; unfold sending; rewrite H; reflexivity. }
      assert (Y : forall b, a_body a = Starts b \/ a_body a = Ready b -> (if is_idle (s_thr (a_box a) 0) then match next i b with
              | Receive k => option_map (fun s => Agent s (Waits (s_nfut (a_box a)) k) (a_trace a)) (step CReceive (a_box a))
              | Do o b => Some (Agent (a_box a) (Ready b) (Did o :: a_trace a))
              | Returns | Raises => Some (Agent (a_box a) Over (a_trace a)) end else None) = Some a1).
      { intros b [H|H]; rewrite H in E; exact E. }
      assert (Z : exists b, a_body a = Starts b \/ a_body a = Ready b) by (destruct (a_body a); try discriminate E; eauto).
      destruct Z as [b Z]. rewrite (X b Z). specialize (Y b Z). clear X Z E. cbn [coming map].
      destruct (is_idle _); [|discriminate]. destruct (next i b) as [k|o b1| |].
      + destruct (step CReceive (a_box a)) as [s|] eqn:S; [|discriminate]. injection Y as <-. cbn [a_box a_trace]. rewrite (step_posted _ _ _ S), !app_nil_r.
        split; [reflexivity|]. split; [reflexivity|congruence].
      + injection Y as <-. cbn [a_box a_trace rev]. rewrite outputs_app, sends_app, app_nil_r. split; [reflexivity|]. destruct o as [j m|o]; cbn; split; congruence.
      + injection Y as <-. cbn [a_box a_trace]. rewrite !app_nil_r. auto.
      + injection Y as <-. cbn [a_box a_trace]. rewrite !app_nil_r. auto.
    - cbn. rewrite !app_nil_r. destruct (a_body a) as [b|b|f k|] eqn:SB; try discriminate. destruct (s_over (a_box a) f).
      + destruct (is_idle _); [|discriminate]. injection E as <-. cbn. split; [reflexivity|split; [reflexivity|congruence]].
      + destruct (step (CResume f) (a_box a)) as [s|] eqn:S; [|discriminate]. injection E as <-. apply step_posted in S. rewrite app_nil_r in S.
        destruct (s_fut (a_box a) f); cbn; (split; [exact S|split; [|congruence]]); rewrite ?outputs_app, ?sends_app; cbn; rewrite ?app_nil_r; reflexivity.
    - cbn. rewrite !app_nil_r. destruct (s_flag (a_box a)); [|discriminate]. destruct (a_body a) as [b|b|f k|] eqn:SB; try discriminate.
      + injection E as <-. cbn. split; [reflexivity|split; [reflexivity|congruence]].
      + destruct (step (CAbandon f) (a_box a)) as [s|] eqn:S; [|discriminate]. injection E as <-. apply step_posted in S. rewrite app_nil_r in S. cbn. split; [exact S|split; [reflexivity|congruence]].
  Qed.

  Definition begun (i : nat) : agent B (effect O) := match b0 i with Some b => start b | None => Agent init Over [] end.
  (** [L]: the schedule keeps requests to the loop's thread. *)
  Record ninv (L : Prop) (n : net B O) : Prop := {
    ni_run : forall i, exists cs, (L -> Forall agent_on_loop cs) /\ exec (astep (next i)) cs (begun i) = Some (n_agents n i);
    ni_posted : forall j, posted (s_log (a_box (n_agents n j))) = sent_to j (rev (n_mail n));
    ni_sends : forall i, sends (outputs (rev (a_trace (n_agents n i)))) = sent_by i (rev (n_mail n)) }.
  Lemma ninv_start : forall L, ninv L (start_all b0).
  Proof. intros L. constructor; intros i; [exists []; split; [constructor|reflexivity]| |]; cbn; destruct (b0 i); reflexivity. Qed.
  Lemma place_same : forall i (a : agent B (effect O)) f, place i a f i = a.
  Proof. intros. unfold place. now rewrite Nat.eqb_refl. Qed.
  Lemma place_other : forall i (a : agent B (effect O)) f j, j <> i -> place i a f j = f j.
  Proof. intros i a f j H. unfold place. apply Nat.eqb_neq in H. now rewrite H. Qed.
  Lemma ninv_step : forall (L : Prop) c n n1, (L -> net_on_loop c) -> ninv L n -> nstep next c n = Some n1 -> ninv L n1.
  Proof.
    intros L [i c] n n1 LC I E. cbn [nstep] in E. destruct (astep (next i) c (n_agents n i)) as [a1|] eqn:A; [|discriminate].
    destruct (astep_effect i c _ a1 A) as (E1 & E2 & E3).
    assert (R1 : forall k, exists cs, (L -> Forall agent_on_loop cs) /\ exec (astep (next k)) cs (begun k) = Some (place i a1 (n_agents n) k)).
    { intros k. destruct (Nat.eq_dec k i) as [->|D].
      - destruct (ni_run _ _ I i) as (cs & F & X). exists (cs ++ [c]). rewrite place_same. split; [|eapply exec_snoc; eassumption].
        intros HL. apply Forall_app. split; [exact (F HL)|]. constructor; [exact (LC HL)|constructor].
      - rewrite place_other by exact D. apply I. }
    destruct (sending next i c (n_agents n i)) as [[j m]|] eqn:SD.
    - assert (C0 : coming i c = []) by (unfold sending in SD; destruct c; try discriminate SD; reflexivity). rewrite C0 in E1. cbn in E1. rewrite app_nil_r in E1.
      set (ag := place i a1 (n_agents n)) in *. destruct (step (CPost 0 m) (a_box (ag j))) as [s|] eqn:S; [|discriminate]. injection E as <-.
      assert (P1 : forall k, posted (s_log (a_box (ag k))) = sent_to k (rev (n_mail n))).
      { intros k. unfold ag. destruct (Nat.eq_dec k i) as [->|D]; [rewrite place_same, E1|rewrite place_other by exact D]; apply I. }
      assert (S1 : forall k, sends (outputs (rev (a_trace (ag k)))) = sent_by k (rev (n_mail n)) ++ if Nat.eqb i k then [(j, m)] else []).
      { intros k. unfold ag. destruct (Nat.eqb_spec i k) as [<-|D]; [rewrite place_same, E2; f_equal; apply I|rewrite place_other, app_nil_r by congruence; apply I]. }
      constructor; cbn [n_agents n_mail rev].
      + intros k. destruct (Nat.eq_dec k j) as [->|D]; [rewrite place_same|rewrite place_other by exact D; apply R1].
        destruct (R1 j) as (cs & F & X). exists (cs ++ [Box (CPost 0 m)]). split; [intros HL; apply Forall_app; split; [exact (F HL)|]; constructor; [exact Logic.I|constructor]|].
        eapply exec_snoc; [exact X|]. cbn [astep]. rewrite S. reflexivity.
      + intros k. rewrite sent_to_snoc. cbn [m_to m_msg]. destruct (Nat.eq_dec k j) as [->|D].
        * rewrite place_same, Nat.eqb_refl. cbn [a_box]. rewrite (step_posted _ _ _ S), P1. reflexivity.
        * rewrite place_other by exact D. rewrite P1. destruct (Nat.eqb_spec j k); [congruence|now rewrite app_nil_r].
      + intros k. rewrite sent_by_snoc. cbn [m_from m_to m_msg]. rewrite <- S1. destruct (Nat.eq_dec k j) as [->|D]; [rewrite place_same|rewrite place_other by exact D]; reflexivity.
    - injection E as <-. rewrite app_nil_r in E2. constructor; cbn [n_agents n_mail].
      + exact R1.
      + assert (G : forall j, sent_to j (rev (coming i c ++ n_mail n)) = sent_to j (rev (n_mail n)) ++ if Nat.eqb i j then map m_msg (coming i c) else []).
        { intros j. rewrite rev_app_distr. destruct c as [[t m|t m| | |f|f|t|t]| | |]; cbn [coming rev app map];
            try (rewrite app_nil_r; destruct (Nat.eqb i j); rewrite app_nil_r; reflexivity); rewrite sent_to_snoc; reflexivity. }
        intros j. rewrite G. destruct (Nat.eqb_spec i j) as [<-|D].
        * rewrite place_same, E1. f_equal. apply I.
        * rewrite place_other, app_nil_r by congruence. apply I.
      + assert (G : forall j, sent_by j (rev (coming i c ++ n_mail n)) = sent_by j (rev (n_mail n))).
        { intros j. rewrite rev_app_distr. destruct c as [[t m|t m| | |f|f|t|t]| | |]; cbn [coming rev app]; rewrite ?app_nil_r; try reflexivity; rewrite sent_by_snoc; cbn; now rewrite app_nil_r. }
        intros j. rewrite G. destruct (Nat.eq_dec j i) as [->|D]; [rewrite place_same, E2|rewrite place_other by exact D]; apply I.
  Qed.
  Lemma ninv_pf : forall (L : Prop) cs n, (L -> Forall net_on_loop cs) -> exec (nstep next) cs (start_all b0) = Some n -> ninv L n.
  Proof.
    intros L cs n F E. revert F. apply (exec_ind (nstep next) (fun cs n => (L -> Forall net_on_loop cs) -> ninv L n) (start_all b0)) with (cs := cs) (s := n); [| |exact E].
    - intros _. apply ninv_start.
    - intros ds c x y IH S F. apply (ninv_step L c x y); [|apply IH|exact S]; intros HL; specialize (F HL); apply Forall_app in F; destruct F as [F1 F2]; [|exact F1].
      now inversion F2.
  Qed.

  (** When the net is quiet so are its agents. *)
  Lemma quiet_agents : forall cs n, exec (nstep next) cs (start_all b0) = Some n -> all_quiet next n -> forall i, agent_quiet (next i) (n_agents n i).
  Proof.
    intros cs n E Q. pose proof (ninv_pf False cs n ltac:(contradiction) E) as I.
    assert (T : forall j, s_thr (a_box (n_agents n j)) 0 = Idle).
    { intros j. destruct (ni_run _ _ I j) as (ds & _ & X). 
      assert (GN : gen (n_agents n j)).
      { revert X. apply (exec_ind (astep (next j)) (fun _ a => gen a)); [|intros; eapply gen_step; eassumption].
        unfold begun. destruct (b0 j); (split; cbn; [exists []; reflexivity|discriminate]). }
      destruct GN as [[gs G] _]. destruct (threads_pf gs _ G) as (cons & pos & LI & _). apply (idle_quiet cons _ LI).
      intros u. specialize (Q j (Box (CRun u)) Logic.I). cbn in Q. cbn [step]. destruct (run u (a_box (n_agents n j))); [discriminate|reflexivity]. }
    intros i c G. specialize (Q i c G). cbn [nstep] in Q. destruct (astep (next i) c (n_agents n i)) as [a1|] eqn:A; [|reflexivity]. exfalso.
    destruct (astep_effect i c _ a1 A) as (_ & _ & E3). destruct (sending next i c (n_agents n i)) as [[j m]|] eqn:SD; [|discriminate].
    assert (TI : s_thr (a_box (place i a1 (n_agents n) j)) 0 = Idle).
    { destruct (Nat.eq_dec j i) as [->|D]; [rewrite place_same, E3 by discriminate|rewrite place_other by exact D]; apply T. }
    cbn [step] in Q. rewrite TI in Q. discriminate.
  Qed.
End Network.

(** Mail that an agent has got. *)
Lemma prefix_map_inv : forall A B (f : A -> B) l k, prefix k (map f l) -> exists l1, prefix l1 l /\ map f l1 = k.
Proof.
  intros A B f l k [r E]. exists (firstn (length k) l). split; [exists (skipn (length k) l); now rewrite firstn_skipn|].
  rewrite <- firstn_map, E, firstn_app, Nat.sub_diag, firstn_all. cbn. apply app_nil_r.
Qed.
Lemma prefix_filter_map : forall A B (p : A -> bool) (f : A -> B) l k, prefix k l -> prefix (map f (filter p k)) (map f (filter p l)).
Proof. intros A B p f l k [r ->]. rewrite filter_app, map_app. eexists. reflexivity. Qed.
Lemma filter_filter : forall A (p q : A -> bool) l, filter p (filter q l) = filter (fun x => q x && p x) l.
Proof. intros A p q l. induction l as [|x l IH]; cbn; [reflexivity|]. destruct (q x); cbn; [destruct (p x)|]; now rewrite IH. Qed.
Lemma prefix_trans : forall A (a b c : list A), prefix a b -> prefix b c -> prefix a c.
Proof. intros A a b c [x ->] [y ->]. exists (x ++ y). now rewrite app_assoc. Qed.
Lemma sent_between_by : forall i j l, sent_between i j l = map snd (filter (fun x => Nat.eqb (fst x) j) (sent_by i l)).
Proof.
  intros i j l. unfold sent_between, sent_by. induction l as [|[fr t m] l IH]; [reflexivity|]. cbn.
  destruct fr as [k|]; [|rewrite andb_false_r; exact IH]. destruct (Nat.eqb k i); cbn; [|rewrite andb_false_r; exact IH].
  rewrite andb_true_r. destruct (Nat.eqb t j); cbn; now rewrite IH.
Qed.

(** Chains. *)
Lemma answers_app : forall S O (f : S -> nat -> S * O) l r s, exists s1, answers f s (l ++ r) = answers f s l ++ answers f s1 r.
Proof.
  intros S O f l r. induction l as [|m l IH]; intros s; cbn; [exists s; reflexivity|]. destruct (f s m) as [s1 o]. destruct (IH s1) as [s2 E]. exists s2. now rewrite E.
Qed.
Lemma answers_prefix : forall S O (f : S -> nat -> S * O) s l k, prefix l k -> prefix (answers f s l) (answers f s k).
Proof. intros S O f s l k [r ->]. destruct (answers_app S O f l r s) as [s1 E]. rewrite E. eexists. reflexivity. Qed.
Definition erase (h : happening (effect Empty_set)) : happening nat :=
  match h with Got m => Got m | Did (Send _ m) => Did m | Did (Other e) => match e with end end.
Lemma erase_sequential : forall S (f : nat -> S -> nat -> S * nat) i b tr b1, sequential (chained f i) b tr b1 -> sequential (answering (f i)) b (map erase tr) b1.
Proof.
  intros S f i b tr b1. induction 1 as [b|[s [o|]] k m tr b1 N Q IH|[s [o|]] o1 b2 tr b1 N Q IH]; try discriminate N; cbn.
  - constructor.
  - injection N as <-. cbn in IH. econstructor; [reflexivity|]. cbn. exact IH.
  - injection N as <- <-. econstructor; [reflexivity|exact IH].
Qed.
Lemma erase_messages : forall tr, messages (map erase tr) = messages tr.
Proof. induction tr as [|[m|[j m|[]]] tr IH]; cbn; congruence. Qed.
Lemma erase_outputs : forall tr, outputs (map erase tr) = map snd (sends (outputs tr)).
Proof. induction tr as [|[m|[j m|[]]] tr IH]; cbn; congruence. Qed.
Definition in_line (x : mail) : Prop := match m_from x with Some k => m_to x = S k | None => m_to x = 0 end.
Lemma in_line_pf : forall S (f : nat -> S -> nat -> S * nat) b0 cs n, Forall to_first cs -> exec (nstep (chained f)) cs (start_all b0) = Some n -> Forall in_line (n_mail n).
Proof.
  intros S f b0 cs n F E. revert F. apply (exec_ind (nstep (chained f)) (fun cs n => Forall to_first cs -> Forall in_line (n_mail n)) (start_all b0)) with (cs := cs) (s := n); [| |exact E].
  - constructor.
  - intros ds [i c] x y IH ST F. apply Forall_app in F. destruct F as [F1 F2]. inversion F2 as [|? ? T _]; subst. specialize (IH F1). cbn [nstep] in ST.
    destruct (astep (chained f i) c (n_agents x i)) as [a1|]; [|discriminate]. destruct (sending (chained f) i c (n_agents x i)) as [[j m]|] eqn:SD.
    + destruct (step _ _); [|discriminate]. injection ST as <-. constructor; [|exact IH]. cbn.
      unfold sending in SD. destruct c; try discriminate SD. destruct (a_body (n_agents x i)) as [[u [o|]]|[u [o|]]| |]; cbn in SD; try discriminate SD; injection SD as <- _; reflexivity.
    + injection ST as <-. cbn [n_mail]. apply Forall_app. split; [|exact IH]. destruct c as [[t m|t m| | |g|g|t|t]| | |]; cbn; try constructor; try constructor; destruct i; try contradiction T; reflexivity.
Qed.
Lemma in_line_first : forall l, Forall in_line l -> sent_to 0 l = map m_msg (from_outside l).
Proof.
  intros l F. unfold sent_to, from_outside. induction F as [|[fr t m] l H F IH]; [reflexivity|]. unfold in_line in H. cbn in *. destruct fr as [k|]; subst t; cbn; [exact IH|now rewrite IH].
Qed.
Lemma in_line_next : forall l i, Forall in_line l -> sent_to (S i) l = map snd (sent_by i l).
Proof.
  intros l i F. unfold sent_to, sent_by. induction F as [|[fr t m] l H F IH]; [reflexivity|]. unfold in_line in H. cbn in *. destruct fr as [k|]; subst t; cbn; [|exact IH].
  destruct (Nat.eqb k i); cbn; [now rewrite IH|exact IH].
Qed.
