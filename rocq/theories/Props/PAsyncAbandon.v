(** C122: what becomes of the sources when an asynchronous iteration is given up. *)
From Coq Require Import List ZArith Bool Lia.
From Verif.Model Require Import Base PyList Gen Resume AsyncSeq AsyncAbandon.
From Verif.Spec Require Import ResumeSpec AsyncAbandonSpec.
From Verif.Proofs Require Import AsyncAbandonFacts AsyncAbandonFacts2.
Import ListNotations.
Local Open Scope py_scope.

(** An operation that has ended or raised has ended for good: asked again it ends, calls
    nothing and asks for nothing. *)
Theorem C122_over : forall W A B S (f : A -> M W B) (ch : A -> M W (option B)) (p : A -> M W bool) (k : A -> M W (aiterable W B)) (sc : S -> A -> M W S) s n
  (src other : aiterable W A) (srcs : aiterable W (aiterable W A)),
  over_for_good (a_map f src) /\ over_for_good (a_choose ch src) /\ over_for_good (a_filter p src) /\ over_for_good (a_collect k src) /\ over_for_good (a_concat srcs) /\
  over_for_good (a_scan sc s src) /\ over_for_good (a_take n src) /\ over_for_good (a_skip n src) /\ over_for_good (a_tail src) /\ over_for_good (a_append other src).
Proof.
  intros. repeat match goal with |- _ /\ _ => split end; apply tidy_over_for_good; try (apply started_tidy; intros g); try apply each_tidy; try apply collect_tidy; try apply append_tidy. apply scan_tidy.
Qed.
Print Assumptions C122_over.
Theorem C122_over_own : forall W A (v : A) t a b c, over_for_good (a_empty : agen W A) /\ over_for_good (a_repeat v t : agen W A) /\ over_for_good (a_range a b c : agen W Z).
Proof. intros. repeat split; eapply tidy_over_for_good; try apply plain_tidy; eassumption. Qed.
Print Assumptions C122_over_own.

(** A world for the cases: how many generators are open, and what was noted. *)
Definition opened (w : Z * list Z) : Z * list Z := (fst w + 1, snd w)%Z.
Definition closed (w : Z * list Z) : Z * list Z := (fst w - 1, snd w)%Z.
Definition say (n : Z) : M (Z * list Z) Z := fun w => (Ret n, (fst w, snd w ++ [n])).
Definition nums : agen (Z * list Z) Z := a_resource opened closed [(0, say 1); (1, say 2); (0, say 3)] 0.
Fixpoint ask {A} (fuel : nat) (g : agen (Z * list Z) A) (l : loop (Z * list Z)) : outcome A * (agen (Z * list Z) A * loop (Z * list Z)) :=
  match fuel with
  | O => (Raised OutOfFuel, (g, l))
  | S fuel => match anext g l with
              | (RYield a g, l) => (Got a, (g, l))
              | (RSkip g, l) => ask fuel g l
              | (RStop g, l) => (Ended, (g, l))
              | (RRaise e g, l) => (Raised e, (g, l))
              end
  end.
Definition picky (x : Z) : M (Z * list Z) Z := fun w => if Z.eqb x 2 then (Raise ValueError, w) else (Ret (x * 10)%Z, w).
(** The mapper raises at 2: the second request raises, the third ends. *)
Example C122_over_ex :
  let '(o1, (g1, l1)) := ask 9 (a_map picky (a_src nums)) (Loop [] (0, [])%Z) in
  let '(o2, (g2, l2)) := ask 9 g1 l1 in
  let '(o3, (g3, l3)) := ask 9 g2 l2 in
  o1 = Got 10%Z /\ o2 = Raised ValueError /\ o3 = Ended /\ env l3 = (1, [1; 2])%Z /\ env (turns 2 l3) = (0, [1; 2])%Z.
Proof. repeat split. Qed.

(** The elements and effects are those of AsyncSeq.v, for sources whose generators have no
    [finally] blocks. *)
Theorem C122_same_elements : forall W A B S (f : A -> M W B) (ch : A -> M W (option B)) (p : A -> M W bool) (sc : S -> A -> M W S) s n
  (src other : aiterable W A) it it2, mirrors_it src it -> mirrors_it other it2 ->
  mirrors (a_map f src) (AsyncSeq.map f it) /\ mirrors (a_choose ch src) (AsyncSeq.choose ch it) /\ mirrors (a_filter p src) (AsyncSeq.filter p it) /\
  mirrors (a_scan sc s src) (AsyncSeq.scan sc s it) /\ mirrors (a_take n src) (AsyncSeq.take n it) /\ mirrors (a_skip n src) (AsyncSeq.skip n it) /\
  mirrors (a_tail src) (AsyncSeq.tail it) /\ mirrors (a_append other src) (AsyncSeq.append it2 it).
Proof.
  intros W A B S f ch p sc s n src other it it2 M1 M2.
  assert (E : forall B0 S0 (body : S0 -> A -> M W (AsyncSeq.turn S0 B0)) s0, mirrors (a_started src (a_each body s0)) (AsyncSeq.async_for body s0 it)).
  { intros. apply started_mirrors; [exact M1|]. intros c g. apply each_mirrors. }
  repeat match goal with |- _ /\ _ => split end; try apply E; [now apply scan_mirrors|]. apply started_mirrors; [exact M1|]. intros c g. apply append_mirrors. exact M2.
Qed.
Print Assumptions C122_same_elements.
Theorem C122_same_elements2 : forall W A B (fc : A -> M W (aiterable W B)) f src it, mirrors_fun fc f -> mirrors_it src it ->
  mirrors (a_collect fc src) (AsyncSeq.collect f it).
Proof. intros W A B fc f src it F M1. apply started_mirrors; [exact M1|]. intros c g. now apply collect_mirrors. Qed.
Print Assumptions C122_same_elements2.
Theorem C122_same_own : forall W A (v : A) t a b c, mirrors (a_empty : agen W A) (Gen (ret (Skip AsyncSeq.empty))) /\
  mirrors (a_repeat v t : agen W A) (Gen (ret (Skip (AsyncSeq.repeat v t)))) /\ mirrors (a_range a b c : agen W Z) (AsyncSeq.range a b c).
Proof.
  intros W A v t a b c. split; [|split].
  - destruct (plain_mirrors (W := W) A (Ret [])) as [H|H]; [exact H|discriminate].
  - destruct (plain_mirrors (W := W) A (Ret (List.repeat v (Z.to_nat (match t with Some n => n | None => 0%Z end))))) as [H|H]; [exact H|discriminate].
  - destruct (plain_mirrors (W := W) Z (py_range a b c)) as [H|H]; [exact H|]. unfold py_range in H. destruct (Z.eqb c 0); discriminate.
Qed.
Print Assumptions C122_same_own.
Theorem C122_same_results : forall W A S fuel (folder : S -> A -> M W S) s src it l, mirrors_it src it -> calm l ->
  (fst (a_fold fuel folder s src l), env (snd (a_fold fuel folder s src l))) = AsyncSeq.fold fuel folder s it (env l) /\
  (fst (a_head fuel src l), env (snd (a_head fuel src l))) = AsyncSeq.head fuel it (env l).
Proof.
  intros W A S fuel folder s src it l M1 C. specialize (M1 l C). unfold a_fold, a_head, AsyncSeq.fold, AsyncSeq.head, in_async, bind.
  destruct (src l) as [[c|e] l1], (it (env l)) as [[g|e1] w1]; try contradiction.
  - destruct M1 as (<- & C1 & M1). split.
    + destruct (loop_mirrors A S Empty_set (fun s x => do s <- folder s x; ret (inl s)) fuel c g s l1 M1 C1) as [P _]. unfold in_async in P.
      destruct (a_loop _ _ _ _ _) as [[[s1|[]]|e] l2], (for_gen _ _ _ _ _) as [[[s2|[]]|e2] w2]; cbn in *; try destruct e2; injection P; intros; subst; try discriminate; reflexivity.
    + destruct (loop_mirrors A unit A (fun _ x => ret (inr x)) fuel c g tt l1 M1 C1) as [P _]. unfold in_async in P.
      destruct (a_loop _ _ _ _ _) as [[[s1|v]|e] l2], (for_gen _ _ _ _ _) as [[[s2|v2]|e2] w2]; cbn in *; try destruct e2; injection P; intros; subst; try discriminate; reflexivity.
  - destruct M1 as (<- & <- & C1). split; destruct e; reflexivity.
Qed.
Print Assumptions C122_same_results.
Example C122_same_ex : mirrors_it (a_src (a_list [1; 2]%Z) : aiterable unit Z) (ret (list_gen [1; 2]%Z)) /\ calm (Loop [] tt).
Proof. split; [apply src_mirrors; apply list_mirrors|constructor]. Qed.

(** Every operation opens and closes what its sources open and close, and nothing else. *)
Theorem C122_balanced : forall W (open : W -> Z) A B S (f : A -> M W B) (ch : A -> M W (option B)) (p : A -> M W bool) (sc : S -> A -> M W S) s n (src other : aiterable W A),
  (forall x, neutral open (f x)) -> (forall x, neutral open (ch x)) -> (forall x, neutral open (p x)) -> (forall s x, neutral open (sc s x)) -> balanced open any src -> balanced open any other ->
  owes open any 0 (a_map f src) /\ owes open any 0 (a_choose ch src) /\ owes open any 0 (a_filter p src) /\ owes open any 0 (a_scan sc s src) /\ owes open any 0 (a_take n src) /\
  owes open any 0 (a_skip n src) /\ owes open any 0 (a_tail src) /\ owes open any 0 (a_append other src).
Proof.
  intros W open A B S f ch p sc s n src other F CH P SC B1 B2.
  assert (E : forall B0 S0 (body : S0 -> A -> M W (AsyncSeq.turn S0 B0)) s0, (forall s x, neutral open (body s x)) -> owes open any 0 (a_started src (a_each body s0))).
  { intros. eapply started_owes; [exact B1|]. intros m g. now apply each_owes. }
  assert (N : forall X Y (m : M W X) (k : X -> Y), neutral open m -> neutral open (do x <- m; ret (k x))).
  { intros X Y m k N w. unfold bind. specialize (N w). destruct (m w) as [[|] ?]; exact N. }
  repeat match goal with |- _ /\ _ => split end; try (apply E; intros; first [apply N; auto|intros w; reflexivity]); [now apply scan_owes|].
  eapply started_owes; [exact B1|]. intros m g. apply append_owes. intros it X. injection X as <-. exact B2.
Qed.
Print Assumptions C122_balanced.
Theorem C122_balanced2 : forall W (open : W -> Z) A B (k : A -> M W (aiterable W B)) src, (forall x, neutral open (k x)) ->
  balanced open (fun x => forall w it w1, k x w = (Ret it, w1) -> balanced open any it) src -> owes open any 0 (a_collect k src).
Proof. intros W open A B k src N B1. eapply started_owes; [exact B1|]. intros n g G. exact (collect_owes open A B k N None 0 n g eq_refl G). Qed.
Print Assumptions C122_balanced2.
Theorem C122_balanced_concat : forall W (open : W -> Z) A (src : aiterable W (aiterable W A)), balanced open (balanced open any) src -> owes open any 0 (a_concat src).
Proof.
  intros W open A src B1. eapply started_owes; [exact B1|]. intros n g G.
  apply (collect_owes open _ A (fun it => ret it) (fun x w => eq_refl) None 0 n g eq_refl). revert n g G. cofix CIH. intros n g [H G]. constructor; [exact H|].
  intros b l S. specialize (G b l S). destruct G as [a g1 l1 m PA G1 S1|g1 l1 m G1 S1|g1 l1 m G1 S1|e g1 l1 m G1 S1].
  - apply ow_yield with m; [intros w it w1 E; injection E as <- _; exact PA|apply CIH; exact G1|exact S1].
  - apply ow_skip with m; [apply CIH; exact G1|exact S1].
  - apply ow_stop with m; [apply CIH; exact G1|exact S1].
  - apply ow_raise with m; [apply CIH; exact G1|exact S1].
Qed.
Print Assumptions C122_balanced_concat.
(** Two generators one after the other: the first is closed before the second is opened. *)
Example C122_balanced_ex : balanced (fst : Z * list Z -> Z) (balanced (fst : Z * list Z -> Z) any) (a_src (a_plain (Ret [a_src nums; a_src nums]))) /\
  (let '(o1, (g1, l1)) := ask 9 (a_concat (a_src (a_plain (Ret [a_src nums; a_src nums])))) (Loop [] (0, [])%Z) in
   let '(o2, (g2, l2)) := ask 9 g1 l1 in let '(o3, (g3, l3)) := ask 9 g2 l2 in let '(o4, (g4, l4)) := ask 9 g3 l3 in
   [o1; o2; o3; o4] = [Got 1; Got 2; Got 3; Got 1]%Z /\ env l4 = (1, [1; 2; 3; 1])%Z /\ env (turns 4 (let_go g4 l4)) = (0, [1; 2; 3; 1])%Z).
Proof.
  split; [|repeat split]. intros b l S. exists 0%Z. split; [|now apply stands0].
  assert (R : balanced fst any (a_src nums)). { apply src_balanced. apply (resource_owes fst _ 1%Z); [reflexivity|reflexivity|]. repeat constructor. }
  apply plain_owes_all. repeat constructor; exact R.
Qed.

(** Every operation is one more generator around its sources. *)
Theorem C122_nested : forall W A B S d (f : A -> M W B) (ch : A -> M W (option B)) (p : A -> M W bool) (sc : S -> A -> M W S) s n (src other : aiterable W A),
  nested_it any d src -> nested_it any d other ->
  nested any (Datatypes.S d) (a_map f src) /\ nested any (Datatypes.S d) (a_choose ch src) /\ nested any (Datatypes.S d) (a_filter p src) /\
  nested any (Datatypes.S d) (a_scan sc s src) /\ nested any (Datatypes.S d) (a_take n src) /\ nested any (Datatypes.S d) (a_skip n src) /\ nested any (Datatypes.S d) (a_tail src) /\
  nested any (Datatypes.S d) (a_append other src).
Proof.
  intros W A B S d f ch p sc s n src other N1 N2.
  assert (E : forall B0 S0 (body : S0 -> A -> M W (AsyncSeq.turn S0 B0)) s0, nested any (Datatypes.S d) (a_started src (a_each body s0))).
  { intros. eapply started_nested; [exact N1|]. intros g. now apply each_nested. }
  repeat match goal with |- _ /\ _ => split end; try apply E; [now apply scan_nested|]. eapply started_nested; [exact N1|]. intros g G.
  apply append_nested; [|exact G]. intros it X. injection X as <-. exact N2.
Qed.
Print Assumptions C122_nested.
Theorem C122_nested2 : forall W A B d (k : A -> M W (aiterable W B)) src, nested_it (fun x => forall w it w1, k x w = (Ret it, w1) -> nested_it any d it) d src ->
  nested any (S d) (a_collect k src).
Proof. intros W A B d k src N1. eapply started_nested; [exact N1|]. intros g G. apply collect_nested; [discriminate|exact G]. Qed.
Print Assumptions C122_nested2.
Theorem C122_nested_concat : forall W A d (src : aiterable W (aiterable W A)), nested_it (nested_it any d) d src -> nested any (S d) (a_concat src).
Proof.
  intros W A d src N1. eapply started_nested; [exact N1|]. intros g G. apply (collect_nested _ A d (fun it => ret it) None g); [discriminate|].
  revert g G. cofix CIH. intros g [H G]. constructor; [exact H|].
  intros k l K P. specialize (G k l K P). destruct G as [a g1 l1 PA G1 S1|g1 l1 G1 S1|g1 l1 G1 S1|e g1 l1 G1 S1].
  - apply ne_yield; [intros w it w1 E; injection E as <- _; exact PA|apply CIH; exact G1|exact S1].
  - apply ne_skip; [apply CIH; exact G1|exact S1].
  - apply ne_stop; [apply CIH; exact G1|exact S1].
  - apply ne_raise; [apply CIH; exact G1|exact S1].
Qed.
Print Assumptions C122_nested_concat.
(** A generator of the user counts as one. *)
Theorem C122_resource : forall W (open : W -> Z) A k enter exit last (ms : list (nat * M W A)),
  (forall w, open (enter w) = open w + k)%Z -> (forall w, open (exit w) = open w - k)%Z -> Forall (fun nm => neutral open (snd nm)) ms ->
  balanced open any (a_src (a_resource enter exit ms last)) /\ nested_it any 1 (a_src (a_resource enter exit ms last)).
Proof. intros W open A k enter exit last ms I X N. split; [apply src_balanced; now apply resource_owes with k|apply src_nested; apply resource_nested]. Qed.
Print Assumptions C122_resource.
(** The result of an operation is a source for the next. *)
Theorem C122_chain : forall W (open : W -> Z) A d (g : agen W A), owes open any 0 g -> nested any d g -> balanced open any (a_src g) /\ nested_it any d (a_src g).
Proof. intros W open A d g O N. split; [now apply src_balanced|now apply src_nested]. Qed.
Print Assumptions C122_chain.

(** Given up after any number of requests, with break or with aclose(): when the loop has
    turned twice for each of the generators around each other, nothing is left to do and all
    that was opened is closed.  Missing: at once (see [C122_at_once_refuted]). *)
Theorem C122_released_partial : forall W (open : W -> Z) A d (g : agen W A) w os g1 l1, owes open any 0 g -> nested any d g -> acalls g (Loop [] w) os g1 l1 ->
  forall l2, l2 = let_go g1 l1 \/ l2 = aclose g1 l1 -> ready (turns (2 * d) l2) = [] /\ open (env (turns (2 * d) l2)) = open w.
Proof.
  intros W open A d g w os g1 l1 O N C l2 E.
  destruct (calls_owes open _ _ _ _ _ _ C 0 (open w) O) as (m & O1 & S1); [rewrite Z.add_0_r; apply quiet_stands|].
  destruct (calls_nested _ _ _ _ _ _ C d (2 * d) N (le_n _)) as [N1 P1]; [constructor|].
  assert (P : patient (2 * d) l2 /\ stands open (open w) l2).
  { destruct E as [-> | ->]; split; [exact (let_go_patient _ _ _ _ _ _ N1 (le_n _) P1)|exact (let_go_stands open _ _ _ _ _ _ O1 S1)|now apply aclose_patient with d|exact (aclose_stands open _ _ _ _ _ O1 S1)]. }
  destruct P as [P S2]. pose proof (patient_settles _ _ P) as R. split; [exact R|]. apply stands_quiet; [|exact R]. now apply turns_stands.
Qed.
Print Assumptions C122_released_partial.
(** When it ended or raised, the same without giving it up. *)
Theorem C122_at_end_partial : forall W (open : W -> Z) A d (g : agen W A) w os o g1 l1, owes open any 0 g -> nested any d g -> over_for_good g ->
  acalls g (Loop [] w) (os ++ [o]) g1 l1 -> (forall a, o <> Got a) -> ready (turns (2 * d) l1) = [] /\ open (env (turns (2 * d) l1)) = open w.
Proof.
  intros W open A d g w os o g1 l1 O N V C X. destruct (V _ _ _ _ _ C X [] g1 l1 (acs_none _ _)) as (_ & _ & H).
  pose proof (C122_released_partial _ _ _ _ _ _ _ _ _ O N C (let_go g1 l1) (or_introl eq_refl)) as R. unfold let_go in R. rewrite H in R. cbn in R.
  unfold schedule in R. rewrite app_nil_r in R. destruct l1 as [r e]. exact R.
Qed.
Print Assumptions C122_at_end_partial.
(** The same for fold (length, sum) and head, which return or raise. *)
Theorem C122_consumers_partial : forall W (open : W -> Z) A S d fuel (folder : S -> A -> M W S) s (src : aiterable W A) w,
  (forall s x, neutral open (folder s x)) -> balanced open any src -> nested_it any d src ->
  (fst (a_fold fuel folder s src (Loop [] w)) <> Raise OutOfFuel ->
     let l := turns (2 * d) (snd (a_fold fuel folder s src (Loop [] w))) in ready l = [] /\ open (env l) = open w) /\
  (fst (a_head fuel src (Loop [] w)) <> Raise OutOfFuel ->
     let l := turns (2 * d) (snd (a_head fuel src (Loop [] w))) in ready l = [] /\ open (env l) = open w).
Proof.
  intros W open A S d fuel folder s src w NF B N.
  assert (Z : forall l, patient (2 * d) l -> stands open (open w) l -> ready (turns (2 * d) l) = [] /\ open (env (turns (2 * d) l)) = open w).
  { intros l P S1. pose proof (patient_settles _ _ P) as R. split; [exact R|]. apply stands_quiet; [|exact R]. now apply turns_stands. }
  assert (P0 : patient (2 * d) (Loop [] w)) by constructor.
  specialize (B (open w) (Loop [] w) (quiet_stands open w)). specialize (N _ _ (le_n _) P0).
  unfold a_fold, a_head. destruct (src (Loop [] w)) as [[g|e] l1]; [|split; intros _; apply Z; assumption].
  destruct B as (n & O & S1). destruct N as [N P1]. split; intros F.
  - assert (NB : forall s x, neutral open (do s <- folder s x; ret (inl s : S + Empty_set))). { intros s0 x w0. unfold bind. specialize (NF s0 x w0). destruct (folder s0 x w0) as [[|] ?]; exact NF. }
    destruct (a_loop fuel g s _ l1) as [r l2] eqn:E. assert (K : r <> Raise OutOfFuel) by (destruct r as [[?|[]]|?]; [discriminate|cbn in F; congruence]).
    pose proof (loop_patient _ _ _ _ _ _ _ _ _ _ _ _ N (le_n _) P1 E) as P2. pose proof (loop_stands open _ _ _ _ NB _ _ _ _ _ _ _ _ O S1 E K) as S2.
    destruct r as [[?|[]]|?]; apply Z; assumption.
  - assert (NB : forall (s : unit) x, neutral open (ret (inr x : unit + A))) by (intros s0 x w0; reflexivity).
    destruct (a_loop fuel g tt _ l1) as [r l2] eqn:E. assert (K : r <> Raise OutOfFuel) by (destruct r as [[?|?]|?]; try discriminate; cbn in F; congruence).
    pose proof (loop_patient _ _ _ _ _ _ _ _ _ _ _ _ N (le_n _) P1 E) as P2. pose proof (loop_stands open _ _ _ _ NB _ _ _ _ _ _ _ _ O S1 E K) as S2.
    destruct r as [[?|?]|?]; apply Z; assumption.
Qed.
Print Assumptions C122_consumers_partial.
(** map over filter over a generator: given up after one element it is closed after six turns. *)
Definition pipeline : agen (Z * list Z) Z := a_map (fun x => ret (x * 10)%Z) (a_src (a_filter (fun x => ret (Z.odd x)) (a_src nums))).
Example C122_released_ex : owes fst any 0 pipeline /\ nested any 3 pipeline /\
  (let '(o1, (g1, l1)) := ask 9 pipeline (Loop [] (0, [])%Z) in
   o1 = Got 10%Z /\ env (turns 5 (let_go g1 l1)) = (1, [1])%Z /\ env (turns 6 (let_go g1 l1)) = (0, [1])%Z) /\
  (let (r, l) := a_head 9 (a_src pipeline) (Loop [] (0, [])%Z) in r = Ret 10%Z /\ env l = (1, [1])%Z /\ env (turns 6 l) = (0, [1])%Z).
Proof.
  assert (R : balanced fst any (a_src nums) /\ nested_it any 1 (a_src nums)).
  { apply (C122_resource _ fst _ 1%Z); [reflexivity|reflexivity|]. repeat constructor. }
  destruct R as [R1 R2].
  assert (F1 : owes fst any 0 (a_filter (fun x => ret (Z.odd x)) (a_src nums))).
  { eapply started_owes; [exact R1|]. intros n g. apply each_owes. intros s x w. reflexivity. }
  assert (F2 : nested any 2 (a_filter (fun x => ret (Z.odd x)) (a_src nums))).
  { eapply started_nested; [exact R2|]. intros g. apply each_nested. }
  split; [|split; [|split]].
  - eapply started_owes; [now apply src_balanced|]. intros n g. apply each_owes. intros s x w. reflexivity.
  - eapply started_nested; [now apply src_nested|]. intros g. apply each_nested.
  - repeat split.
  - repeat split.
Qed.

(** False: the source is not closed when the consumer goes on after giving up the iteration,
    with break, ... *)
Theorem C122_at_once_refuted : exists (g : agen (Z * list Z) Z) w g1 l1, owes fst any 0 g /\ acalls g (Loop [] w) [Got 1%Z] g1 l1 /\
  fst w = 0%Z /\ fst (env (let_go g1 l1)) = 1%Z /\ fst (env (turn (let_go g1 l1))) = 1%Z /\ fst (env (turn (turn (let_go g1 l1)))) = 0%Z.
Proof.
  exists nums, (0, [])%Z. eexists; eexists. split; [|split].
  - apply (resource_owes fst _ 1%Z); [reflexivity|reflexivity|]. repeat constructor.
  - econstructor; [|constructor]. eapply ac_skip; [reflexivity|]. apply ac_got. reflexivity.
  - repeat split.
Qed.
Print Assumptions C122_at_once_refuted.
(** ... and with aclose() the result of an operation is closed, its source is not. *)
Theorem C122_aclose_refuted : exists (g : agen (Z * list Z) Z) w g1 l1, owes fst any 0 g /\ acalls g (Loop [] w) [Got 1%Z] g1 l1 /\ fst w = 0%Z /\ fst (env (aclose g1 l1)) = 1%Z.
Proof.
  exists (a_map ret (a_src nums)), (0, [])%Z. eexists; eexists. split; [|split].
  - eapply started_owes; [apply src_balanced; apply (resource_owes fst _ 1%Z); [reflexivity|reflexivity|]; repeat constructor|]. intros n g. apply each_owes. intros s x w. reflexivity.
  - econstructor; [|constructor]. eapply ac_skip; [reflexivity|]. eapply ac_skip; [reflexivity|]. apply ac_got. reflexivity.
  - repeat split.
Qed.
Print Assumptions C122_aclose_refuted.
(** No number of turns is enough for all: a pipeline of n maps needs 2 n + 2. *)
Theorem C122_late_refuted : forall n, exists (g : agen (Z * list Z) Z) g1 l1, owes fst any 0 g /\ acalls g (Loop [] (0, [])%Z) [Got 1%Z] g1 l1 /\
  (forall k, k <= 2 * n + 1 -> fst (env (turns k (let_go g1 l1))) = 1%Z) /\ fst (env (turns (2 * n + 2) (let_go g1 l1))) = 0%Z.
Proof.
  intros n.
  assert (R : owes fst any 0 nums). { apply (resource_owes fst _ 1%Z); [reflexivity|reflexivity|]. repeat constructor. }
  assert (O : owes fst any 0 (maps n nums)). { induction n as [|n IH]; [exact R|]. cbn. eapply started_owes; [now apply src_balanced|]. intros m g. apply each_owes. intros s x w. reflexivity. }
  assert (C : acall nums (Loop [] (0, [])%Z) (Got 1%Z) (a_body closed [(1, say 2); (0, say 3)] 0) (Loop [] (1, [1])%Z)).
  { eapply ac_skip; [reflexivity|]. apply ac_got. reflexivity. }
  destruct (maps_call _ n _ _ _ _ _ _ C eq_refl) as (g2 & C2 & H2). exists (maps n nums), g2, (Loop [] (1, [1])%Z).
  split; [exact O|]. split; [econstructor; [exact C2|constructor]|]. unfold let_go, schedule. rewrite H2. cbn [List.map ready env app]. split.
  - intros k L. now rewrite nest_waits.
  - rewrite turns_add, turns_nest. reflexivity.
Qed.
Print Assumptions C122_late_refuted.
