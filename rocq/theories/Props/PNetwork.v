(** C137: agents that post to one another. *)
From Coq Require Import List Bool Arith Lia.
From Verif.Model Require Import Base Thread Aiotools Mailbox Agent Network.
From Verif.Spec Require Import MailboxSpec AgentSpec NetworkSpec.
From Verif.Proofs Require Import ThreadFacts AgentFacts AgentFacts2 NetworkFacts.
From Verif.Props Require Import PAgent.
Import ListNotations.

(** Each agent of the net is one of C97: its body does what it does when run alone with the
    messages it got, and what it posts is what stands in the mail, in the order of its posts. *)
Theorem C137_bodies : forall B O (next : nat -> B -> act B (effect O)) b0 cs n, exec (nstep next) cs (start_all b0) = Some n ->
  forall i b, b0 i = Some b -> let tr := rev (a_trace (n_agents n i)) in
  (exists b1, sequential (next i) b tr b1) /\ sent_by i (rev (n_mail n)) = sends (outputs tr).
Proof.
  intros B O next b0 cs n E i b H tr. pose proof (ninv_pf next b0 False cs n ltac:(contradiction) E) as I. split.
  - destruct (ni_run _ _ _ _ I i) as (ds & _ & X). unfold begun in X. rewrite H in X. exact (proj1 (C97_sequential_partial _ _ _ _ _ _ X)).
  - symmetry. apply I.
Qed.
Print Assumptions C137_bodies.
(** Each agent gets the mail to it in the order of the posts, none twice, none skipped. *)
Theorem C137_order : forall B O (next : nat -> B -> act B (effect O)) b0 cs n, Forall net_on_loop cs -> exec (nstep next) cs (start_all b0) = Some n ->
  forall j b, b0 j = Some b -> prefix (messages (rev (a_trace (n_agents n j)))) (sent_to j (rev (n_mail n))).
Proof.
  intros B O next b0 cs n L E j b H. pose proof (ninv_pf next b0 True cs n (fun _ => L) E) as I.
  destruct (ni_run _ _ _ _ I j) as (ds & F & X). unfold begun in X. rewrite H in X. rewrite <- (ni_posted _ _ _ _ I j). exact (proj1 (C97_prefix_partial _ _ _ _ _ _ (F Logic.I) X)).
Qed.
Print Assumptions C137_order.
(** When nothing goes on any more and nothing was cancelled, every agent has ended or has
    handled all mail to it and waits for more. *)
Theorem C137_all : forall B O (next : nat -> B -> act B (effect O)) b0 cs n, Forall net_on_loop cs -> exec (nstep next) cs (start_all b0) = Some n ->
  all_quiet next n -> never_cancelled n -> forall j b, b0 j = Some b -> let a := n_agents n j in
  exists b1, sequential (next j) b (rev (a_trace a)) b1 /\
    ((a_body a = Over /\ finished (next j) b1) \/
     (exists f k, a_body a = Waits f k /\ next j b1 = Receive k /\ messages (rev (a_trace a)) = sent_to j (rev (n_mail n)))).
Proof.
  intros B O next b0 cs n L E Q NC j b H a. pose proof (ninv_pf next b0 True cs n (fun _ => L) E) as I.
  destruct (ni_run _ _ _ _ I j) as (ds & F & X). unfold begun in X. rewrite H in X. rewrite <- (ni_posted _ _ _ _ I j).
  exact (C97_all_partial _ _ _ _ _ _ (F Logic.I) X (quiet_agents next b0 cs n E Q j) (NC j)).
Qed.
Print Assumptions C137_all.
(** Between any two agents messages arrive in the order in which they were sent: what [j] has
    got, each with where it came from, and of these what came from [i]. *)
Theorem C137_fifo : forall B O (next : nat -> B -> act B (effect O)) b0 cs n, Forall net_on_loop cs -> exec (nstep next) cs (start_all b0) = Some n ->
  forall j b, b0 j = Some b -> exists got : list mail,
  map m_msg got = messages (rev (a_trace (n_agents n j))) /\
  forall i c, b0 i = Some c ->
    let of_i := map m_msg (filter (fun x => match m_from x with Some k => Nat.eqb k i | None => false end) got) in
    let sent := map snd (filter (fun x => Nat.eqb (fst x) j) (sends (outputs (rev (a_trace (n_agents n i)))))) in
    prefix of_i sent /\
    (all_quiet next n -> never_cancelled n -> a_body (n_agents n j) <> Over -> of_i = sent).
Proof.
  intros B O next b0 cs n L E j b H. pose proof (C137_order B O next b0 cs n L E j b H) as P. unfold sent_to in P.
  destruct (prefix_map_inv _ _ _ _ _ P) as (got & G1 & G2). exists got. split; [exact G2|]. intros i c Hi of_i sent.
  assert (S : sent = sent_between i j (rev (n_mail n))).
  { unfold sent. rewrite <- (proj2 (C137_bodies B O next b0 cs n E i c Hi)). symmetry. apply sent_between_by. }
  assert (K : sent_between i j (rev (n_mail n)) =
    map m_msg (filter (fun x => match m_from x with Some k => Nat.eqb k i | None => false end) (filter (fun x => Nat.eqb (m_to x) j) (rev (n_mail n))))).
  { rewrite filter_filter. reflexivity. }
  split.
  - rewrite S, K. apply prefix_filter_map. exact G1.
  - intros Q NC NO. destruct (C137_all B O next b0 cs n L E Q NC j b H) as (b1 & _ & [[O1 _]|(f & k & _ & _ & M)]); [contradiction|].
    unfold of_i. rewrite S, K. f_equal. f_equal. destruct G1 as [r G1]. unfold sent_to in M. rewrite <- G2, G1, map_app in M.
    rewrite G1. destruct r; [now rewrite app_nil_r|]. apply (f_equal (@length nat)) in M. rewrite app_length in M. cbn in M. lia.
Qed.
Print Assumptions C137_fifo.
(** A chain: agent [i] hands on to agent [i + 1] what it computes.  All along each stage has
    got an initial part of what the functions make of the messages posted to the first agent;
    in the end each has got all of it. *)
Theorem C137_chain : forall S (f : nat -> S -> nat -> S * nat) (s0 : nat -> S) (last : nat) cs n,
  let b0 i := if Nat.leb i last then Some (s0 i, None) else None in
  Forall net_on_loop cs -> Forall to_first cs -> exec (nstep (chained f)) cs (start_all b0) = Some n ->
  let outside := map m_msg (from_outside (rev (n_mail n))) in
  (forall i, i <= last -> prefix (messages (rev (a_trace (n_agents n i)))) (stage f s0 i outside)) /\
  (all_quiet (chained f) n -> never_cancelled n ->
     (forall i, i <= last -> messages (rev (a_trace (n_agents n i))) = stage f s0 i outside) /\
     map snd (sends (outputs (rev (a_trace (n_agents n last))))) = stage f s0 (Datatypes.S last) outside).
Proof.
  intros S f s0 last cs n b0 L TF E outside.
  assert (LN : Forall in_line (rev (n_mail n))). { apply Forall_rev. eapply in_line_pf; eassumption. }
  assert (B0 : forall i, i <= last -> b0 i = Some (s0 i, None)). { intros i H. unfold b0. apply Nat.leb_le in H. now rewrite H. }
  assert (NX : forall i, i <= last -> sent_to (Datatypes.S i) (rev (n_mail n)) = outputs (map erase (rev (a_trace (n_agents n i))))).
  { intros i H. rewrite (in_line_next _ _ LN), (proj2 (C137_bodies _ _ _ _ _ _ E i _ (B0 i H))). symmetry. apply erase_outputs. }
  split.
  - assert (P : forall i, i <= Datatypes.S last -> prefix (sent_to i (rev (n_mail n))) (stage f s0 i outside)).
    { induction i as [|i IH]; intros H.
      - rewrite (in_line_first _ LN). exists []. cbn. now rewrite app_nil_r.
      - rewrite NX by lia. destruct (C137_bodies _ _ _ _ _ _ E i _ (B0 i ltac:(lia))) as [[b1 SQ] _]. apply erase_sequential in SQ.
        pose proof (C137_order _ _ _ _ _ _ L E i _ (B0 i ltac:(lia))) as [r R].
        eapply prefix_trans; [exact (proj1 (answering_seq _ _ (f i) _ _ _ SQ r))|]. rewrite erase_messages, <- R. cbn [stage]. apply answers_prefix. apply IH. lia. }
    intros i H. eapply prefix_trans; [exact (C137_order _ _ _ _ _ _ L E i _ (B0 i H))|apply P; lia].
  - intros Q NC.
    assert (A : forall i, i <= last -> messages (rev (a_trace (n_agents n i))) = sent_to i (rev (n_mail n)) /\
                 outputs (map erase (rev (a_trace (n_agents n i)))) = answers (f i) (s0 i) (sent_to i (rev (n_mail n)))).
    { intros i H. destruct (C137_all _ _ _ _ _ _ L E Q NC i _ (B0 i H)) as (b1 & SQ & [[_ [D|D]]|(g & k & _ & R & M)]); [destruct b1 as [s [o|]]; discriminate D|destruct b1 as [s [o|]]; discriminate D|].
      split; [exact M|]. rewrite <- M, <- erase_messages. apply erase_sequential in SQ. apply (proj2 (answering_seq _ _ (f i) _ _ _ SQ [])).
      destruct b1 as [s [o|]]; [discriminate R|reflexivity]. }
    assert (P : forall i, i <= Datatypes.S last -> sent_to i (rev (n_mail n)) = stage f s0 i outside).
    { induction i as [|i IH]; intros H; [apply (in_line_first _ LN)|]. rewrite NX by lia. rewrite (proj2 (A i ltac:(lia))). cbn [stage]. rewrite IH by lia. reflexivity. }
    split.
    + intros i H. rewrite (proj1 (A i H)). apply P. lia.
    + rewrite <- erase_outputs, (proj2 (A last (le_n _))). cbn [stage]. rewrite P by lia. reflexivity.
Qed.
Print Assumptions C137_chain.

(** Two agents, one that adds up and one that doubles, and a mailbox behind them; two threads
    post 10 and 20. *)
Definition adding (i s m : nat) : nat * nat := match i with 0 => (s + m, s + m) | _ => (s, 2 * m) end.
Definition two_agents (i : nat) : option (nat * option nat) := if Nat.leb i 1 then Some (0, None) else None.
Definition runs (i t k : nat) : list (nat * achoice) := repeat (i, Box (CRun t)) k.
Definition chain_schedule : list (nat * achoice) :=
  [(0, Box (CPost 1 10))] ++ runs 0 1 1 ++ [(0, Box (CPost 2 20))] ++ runs 0 2 1 ++
  [(0, Go)] ++ runs 0 0 12 ++ [(0, Resume); (0, Go)] ++ runs 1 0 1 ++ [(1, Go)] ++ runs 1 0 12 ++
  [(0, Go)] ++ runs 0 0 12 ++ [(0, Resume); (0, Go)] ++ runs 1 0 1 ++ [(1, Resume); (1, Go)] ++ runs 2 0 1 ++
  [(1, Go)] ++ runs 1 0 12 ++ [(1, Resume); (1, Go)] ++ runs 2 0 1 ++ [(0, Go)] ++ runs 0 0 8 ++ [(1, Go)] ++ runs 1 0 8 ++
  concat (repeat ((0, Box CTurn) :: runs 0 0 5) 2) ++ concat (repeat ((1, Box CTurn) :: runs 1 0 5) 2) ++ concat (repeat ((2, Box CTurn) :: runs 2 0 2) 2).
Definition chain_end : net (nat * option nat) Empty_set :=
  match exec (nstep (chained adding)) chain_schedule (start_all two_agents) with Some n => n | None => start_all two_agents end.
Example C137_case :
  Forall net_on_loop chain_schedule /\ Forall to_first chain_schedule /\
  exec (nstep (chained adding)) chain_schedule (start_all two_agents) = Some chain_end /\
  all_quiet (chained adding) chain_end /\ never_cancelled chain_end /\
  map m_msg (from_outside (rev (n_mail chain_end))) = [10; 20] /\
  messages (rev (a_trace (n_agents chain_end 0))) = [10; 20] /\ messages (rev (a_trace (n_agents chain_end 1))) = [10; 30] /\
  sent_to 2 (rev (n_mail chain_end)) = [20; 60] /\ stage adding (fun _ => 0) 2 [10; 20] = [20; 60].
Proof.
  split; [repeat constructor|]. split; [repeat constructor|].
  split. { unfold chain_end. destruct (exec (nstep (chained adding)) chain_schedule (start_all two_agents)) as [n|] eqn:E; [reflexivity|]. exfalso. vm_compute in E. discriminate. }
  split.
  { intros i c G. destruct i as [|[|[|i]]]; (destruct c as [c| | |]; [|vm_compute; reflexivity|vm_compute; reflexivity|contradiction]);
      (destruct c as [t m|t m| | |f|f|t|t]; try contradiction; [vm_compute; reflexivity|vm_compute; reflexivity|destruct t as [|[|[|t]]]; vm_compute; reflexivity]). }
  split. { intros i t. destruct i as [|[|[|i]]]; apply no_cancel; vm_compute; reflexivity. }
  vm_compute. repeat split.
Qed.
