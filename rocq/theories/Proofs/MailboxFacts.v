(** Mailboxes whose events are processed on the loop's thread. *)
From Coq Require Import List Bool Arith Lia.
From Verif.Model Require Import Base Thread Aiotools Mailbox.
From Verif.Spec Require Import MailboxSpec.
From Verif.Proofs Require Import ThreadFacts.
Import ListNotations.

Definition rel (acc cons : list nat) (cont : option nat) : Prop :=
  match cont with
  | None => length acc = length cons
  | Some c => exists l, acc = l ++ [c] /\ length l = length cons
  end.
Definition phase (acc cons : list nat) (cont : option nat) (p : pc) : Prop :=
  match p with
  | V_Cont f => cont = None /\ rel acc cons (Some f)
  | V_Cancel f => cont = Some f /\ rel acc cons cont
  | P_Acquire | P_Empty | P_Get => cont <> None /\ rel acc cons cont
  | P_Read m => exists k, cons = k ++ [m] /\ cont <> None /\ rel acc k cont
  | P_Write m c => exists k, cons = k ++ [m] /\ c <> None /\ cont = c /\ rel acc k c
  | P_Call m c => exists k, cons = k ++ [m] /\ c <> None /\ cont = None /\ rel acc k c
  | _ => rel acc cons cont
  end.
Definition locking (p : pc) : bool :=
  match p with P_Empty | P_Get | P_Read _ | P_Write _ _ | P_Call _ _ | P_Release => true | _ => false end.
Record inv (cons : list nat) (s : state) : Prop := {
  i_queue : posted (s_log s) = cons ++ s_queue s;
  i_phase : phase (accepted (s_log s)) cons (s_cont s) (s_thr s 0);
  i_other : forall t, s_thr s (S t) = Idle \/ s_thr s (S t) = A_Soon;
  i_lock : s_lock s = if locking (s_thr s 0) then Some (0, 1) else None;
  i_get : s_thr s 0 = P_Get -> s_queue s <> [];
  i_dup : NoDup (accepted (s_log s));
  i_old : forall f, In f (accepted (s_log s)) -> f < s_nfut s;
  i_new : forall f, s_thr s 0 = V_Check f -> f < s_nfut s /\ ~ In f (accepted (s_log s))
}.
Lemma inv_init : inv [] init.
Proof. constructor; cbn; auto; try constructor; try discriminate; intros; contradiction. Qed.

(** What a step consumes. *)
Definition eats (c : choice) (s : state) : list nat :=
  match c with
  | CRun t => match s_thr s t, s_queue s with P_Get, m :: _ => [m] | _, _ => [] end
  | _ => []
  end.
Lemma idle : forall p, is_idle p = true -> p = Idle.
Proof. destruct p; auto; discriminate. Qed.
Lemma other_upd : forall (thr : nat -> pc) t p, (forall u, thr (S u) = Idle \/ thr (S u) = A_Soon) -> p = Idle \/ p = A_Soon ->
  forall u, (if Nat.eqb (S u) t then p else thr (S u)) = Idle \/ (if Nat.eqb (S u) t then p else thr (S u)) = A_Soon.
Proof. intros thr t p H Hp u. destruct (Nat.eqb (S u) t); auto. Qed.
Ltac solve_inv H := destruct H as [IQ IP IO IL IG ID IF IN].
Lemma phase_idle : forall acc cons cont p, p = Idle -> phase acc cons cont p -> rel acc cons cont.
Proof. intros. subst. assumption. Qed.

Lemma inv_step : forall c s s1 cons, on_loop c -> inv cons s -> step c s = Some s1 -> inv (cons ++ eats c s) s1.
Proof.
  intros c s s1 cons L I E. destruct c as [t m|t m| | |f|f|t|t]; cbn [eats]; cbn [step] in E.
  - destruct (is_idle (s_thr s t)) eqn:X; [|discriminate]. apply idle in X. injection E as <-. rewrite app_nil_r. solve_inv I.
    constructor; cbn; auto.
    + rewrite IQ, app_assoc. reflexivity.
    + destruct t; [rewrite X in IP|]; exact IP.
    + apply other_upd; auto.
    + destruct t; [rewrite X in IL|]; exact IL.
    + intros _. destruct (s_queue s); discriminate.
    + intros f. destruct t; cbn; [discriminate|apply IN].
  - cbn in L. subst t. destruct (is_idle (s_thr s 0)) eqn:X; [|discriminate]. apply idle in X. injection E as <-. rewrite app_nil_r. solve_inv I. rewrite X in *.
    constructor; cbn; auto; try discriminate.
    rewrite IQ, app_assoc. reflexivity.
  - destruct (is_idle (s_thr s 0)) eqn:X; [|discriminate]. apply idle in X. injection E as <-. rewrite app_nil_r. solve_inv I. rewrite X in *.
    constructor; cbn; auto; try discriminate.
    + intros f H. specialize (IF _ H). lia.
    + intros f H. injection H as <-. split; [lia|]. intros H. specialize (IF _ H). lia.
  - destruct (s_ready s); [discriminate|]. destruct (is_idle (s_thr s 0)) eqn:X; [|discriminate]. apply idle in X. injection E as <-. rewrite app_nil_r. solve_inv I. rewrite X in *.
    constructor; cbn; auto; try discriminate.
  - destruct (awaited f s); [|discriminate]. rewrite app_nil_r. destruct (s_fut s f); try discriminate; injection E as <-; solve_inv I; constructor; cbn; auto.
  - destruct (awaited f s); [|discriminate]. rewrite app_nil_r. injection E as <-; solve_inv I; constructor; cbn; auto.
  - destruct (is_idle (s_thr s t)); [|discriminate]. rewrite app_nil_r. injection E as <-; solve_inv I; constructor; cbn; auto.
  - unfold run in E. destruct t as [|t].
    + solve_inv I. destruct (s_thr s 0) eqn:T; cbn in IP, IL; rewrite ?app_nil_r; try discriminate E; try (injection E as <-).
      * constructor; cbn; auto; discriminate.
      * destruct (IN _ eq_refl) as [N1 N2]. destruct (s_cont s) as [c|] eqn:C; injection E as <-; constructor; cbn; auto; try discriminate; rewrite ?C; auto.
        -- split; [reflexivity|]. eexists; split; [reflexivity|]. exact IP.
        -- apply NoDup_rev in ID. rewrite <- (rev_involutive (_ ++ _)). apply NoDup_rev. rewrite rev_app_distr. cbn. constructor; [rewrite <- in_rev; exact N2|exact ID].
        -- intros g H. apply in_app_iff in H. destruct H as [H|[<-|[]]]; auto.
      * constructor; cbn; auto; try discriminate. destruct IP as [_ IP]. auto.
      * constructor; cbn; auto; try discriminate. destruct IP as [_ IP]. auto.
      * constructor; cbn; auto; try discriminate; destruct (s_flag s); auto; discriminate.
      * constructor; cbn; auto; try discriminate.
      * constructor; cbn; auto; try discriminate.
      * unfold call_cancel. constructor; destruct c; cbn; auto; discriminate.
      * constructor; cbn; auto; destruct (s_cont s) eqn:C; cbn; rewrite ?C; auto; try discriminate. split; [discriminate|exact IP].
      * rewrite IL in E. cbn in E. injection E as <-. constructor; cbn; auto; discriminate.
      * constructor; cbn; auto; destruct (s_queue s); cbn; auto; try discriminate. destruct IP; assumption.
      * destruct (s_queue s) as [|m q] eqn:Q; [discriminate|]. injection E as <-. constructor; cbn; auto; try discriminate.
        -- rewrite IQ, <- app_assoc. reflexivity.
        -- exists cons. destruct IP. auto.
      * constructor; cbn; auto; try discriminate. destruct IP as (k & -> & A & B). exists k. auto.
      * constructor; cbn; auto; try discriminate. destruct IP as (k & -> & A & B & C). exists k. auto.
      * destruct IP as (k & -> & A & B & C). destruct c as [c|]; [|congruence]. constructor; cbn; auto; try discriminate. rewrite B. cbn. destruct C as (l & -> & C). rewrite !app_length. cbn. lia.
      * rewrite IL in E. cbn in E. injection E as <-. constructor; cbn; auto; discriminate.
    + pose proof (i_other _ _ I t) as [X|X]; rewrite X in *; [discriminate|]. injection E as <-. rewrite app_nil_r. solve_inv I. constructor; cbn; auto. apply (other_upd (s_thr s) (S t) Idle); auto.
Qed.

(** Futures. *)
Definition pc_cancel (p : pc) : option nat := match p with P_CWrite c | P_CCall c => c | _ => None end.
Record finv (cons : list nat) (s : state) : Prop := {
  f_done : forall i f m, nth_error (accepted (s_log s)) i = Some f -> s_fut s f = Done m -> nth_error cons i = Some m;
  f_received : forall f m, In (Received f m) (s_log s) -> exists i, nth_error (accepted (s_log s)) i = Some f /\ nth_error cons i = Some m;
  f_known : forall f, f < s_nfut s -> In f (accepted (s_log s)) \/ s_over s f = true \/ s_thr s 0 = V_Check f;
  f_fresh : forall f, ~ In f (accepted (s_log s)) -> s_fut s f = Pending;
  f_cancel : forall c, s_cancel s = Some c \/ pc_cancel (s_thr s 0) = Some c -> In c (accepted (s_log s))
}.
Lemma finv_init : finv [] init.
Proof. constructor; cbn; auto; try tauto; try lia; try discriminate. intros c [H|H]; discriminate. Qed.
Lemma nth_app_old : forall A (l k : list A) i x, nth_error l i = Some x -> nth_error (l ++ k) i = Some x.
Proof. intros A l k i x H. rewrite nth_error_app1; [exact H|]. apply nth_error_Some. congruence. Qed.
Lemma nth_snoc : forall A (l : list A) x i y, nth_error (l ++ [x]) i = Some y -> nth_error l i = Some y \/ (i = length l /\ y = x).
Proof.
  intros A l x i y H. destruct (Nat.lt_ge_cases i (length l)) as [L|L]; [rewrite nth_error_app1 in H by exact L; auto|].
  rewrite nth_error_app2 in H by exact L. destruct (i - length l) as [|k] eqn:K; [|destruct k; discriminate]. right. injection H as ->. split; [lia|reflexivity].
Qed.
Lemma nth_last : forall A (l : list A) x, nth_error (l ++ [x]) (length l) = Some x.
Proof. intros. rewrite nth_error_app2, Nat.sub_diag by lia. reflexivity. Qed.
Lemma nodup_nth : forall A (l : list A) i j x, NoDup l -> nth_error l i = Some x -> nth_error l j = Some x -> i = j.
Proof. intros A l i j x N H1 H2. apply (proj1 (NoDup_nth_error l) N i j); [apply nth_error_Some; congruence|congruence]. Qed.

Ltac fin H := destruct H as [FD FR FK FF FC].
Lemma finv_same : forall cons s s1, finv cons s ->
  s_fut s1 = s_fut s -> accepted (s_log s1) = accepted (s_log s) -> (forall f m, In (Received f m) (s_log s1) -> In (Received f m) (s_log s)) ->
  s_nfut s1 = s_nfut s -> (forall f, s_over s f = true -> s_over s1 f = true) -> (forall f, s_thr s 0 = V_Check f -> s_thr s1 0 = V_Check f \/ s_over s1 f = true) ->
  (forall c, s_cancel s1 = Some c \/ pc_cancel (s_thr s1 0) = Some c -> In c (accepted (s_log s))) -> finv cons s1.
Proof.
  intros cons s s1 F Hf Ha Hr Hn Ho Ht Hc. fin F. constructor; rewrite ?Hf, ?Ha, ?Hn; auto.
  intros f L. destruct (FK f L) as [H|[H|H]]; auto. destruct (Ht f H); auto.
Qed.
Lemma finv_more : forall cons k s, finv cons s -> finv (cons ++ k) s.
Proof. intros cons k s F. fin F. constructor; auto; intros; [eapply nth_app_old; eauto|]. destruct (FR f m H) as (i & A & B). exists i. split; [exact A|apply nth_app_old, B]. Qed.

Lemma awaited_inv : forall f s, awaited f s = true -> f < s_nfut s /\ s_over s f = false /\ s_thr s 0 = Idle.
Proof.
  intros f s H. unfold awaited in H. apply andb_true_iff in H. destruct H as [H X]. apply andb_true_iff in H. destruct H as [H Y].
  apply Nat.ltb_lt in H. apply negb_true_iff in Y. apply idle in X. auto.
Qed.
Lemma awaited_accepted : forall cons f s, finv cons s -> awaited f s = true -> In f (accepted (s_log s)).
Proof. intros cons f s F H. apply awaited_inv in H. destruct H as (A & B & C). destruct (f_known _ _ F f A) as [D|[D|D]]; auto; congruence. Qed.

Lemma finv_step : forall c s s1 cons, on_loop c -> inv cons s -> finv cons s -> step c s = Some s1 -> finv (cons ++ eats c s) s1.
Proof.
  intros c s s1 cons L I F E. apply (finv_more _ (eats c s)) in F. revert F. pose proof (inv_step _ _ _ _ L I E) as I1. set (k := cons ++ eats c s) in *. intros F.
  destruct c as [t m|t m| | |f|f|t|t]; cbn [step] in E.
  - destruct (is_idle (s_thr s t)) eqn:X; [|discriminate]. apply idle in X. injection E as <-.
    apply (finv_same k s); auto; cbn.
    + intros f m0 [H|H]; [discriminate|exact H].
    + intros f H. destruct t; [congruence|auto].
    + intros c [H|H]; apply (f_cancel _ _ F); auto. destruct t; cbn in H; [discriminate|auto].
  - cbn in L. subst t. destruct (is_idle (s_thr s 0)) eqn:X; [|discriminate]. apply idle in X. injection E as <-.
    apply (finv_same k s); auto; cbn.
    + intros f m0 [H|H]; [discriminate|exact H].
    + intros f H. congruence.
    + intros c [H|H]; [|discriminate]. apply (f_cancel _ _ F); auto.
  - destruct (is_idle (s_thr s 0)) eqn:X; [|discriminate]. apply idle in X. injection E as <-. fin F. constructor; cbn; auto.
    + intros f Hf. destruct (Nat.eq_dec f (s_nfut s)) as [->|]; [auto|]. destruct (FK f) as [A|[A|A]]; auto; [lia|congruence].
    + intros c [H|H]; [|discriminate]. auto.
  - destruct (s_ready s) eqn:R; [discriminate|]. destruct (is_idle (s_thr s 0)) eqn:X; [|discriminate]. apply idle in X. injection E as <-.
    apply (finv_same k s); auto; cbn; [congruence|]. intros c [H|H]; [|discriminate]. apply (f_cancel _ _ F); auto.
  - destruct (awaited f s) eqn:W; [|discriminate]. pose proof (awaited_accepted _ _ _ F W) as Ac. apply awaited_inv in W. destruct W as (W1 & W2 & W3).
    destruct (s_fut s f) as [|m|e|] eqn:Ff; try discriminate; injection E as <-.
    + fin F. constructor; cbn; auto.
      * intros g m0 [H|H]; [|auto]. injection H as <- <-. apply In_nth_error in Ac. destruct Ac as [i Ac]. exists i. split; [exact Ac|]. eapply FD; eassumption.
      * intros g Hg. destruct (FK g Hg) as [A|[A|A]]; auto. right. left. destruct (Nat.eqb g f); auto.
    + apply (finv_same k s); auto; cbn.
      * intros g m0 [H|H]; [discriminate|exact H].
      * intros g H. destruct (Nat.eqb g f); auto.
      * apply (f_cancel _ _ F).
  - destruct (awaited f s) eqn:W; [|discriminate]. pose proof (awaited_accepted _ _ _ F W) as Ac. apply awaited_inv in W. destruct W as (W1 & W2 & W3). injection E as <-. fin F. constructor; cbn; auto.
    + intros i g m Hi. destruct (Nat.eqb_spec g f) as [->|]; [|apply FD; exact Hi]. intros H. eapply FD; [exact Hi|]. destruct (s_fut s f); cbn in H; congruence.
    + intros g m [H|H]; [discriminate|auto].
    + intros g Hg. destruct (FK g Hg) as [A|[A|A]]; auto. right. left. destruct (Nat.eqb g f); auto.
    + intros g Hg. destruct (Nat.eqb_spec g f) as [->|]; [contradiction|auto].
  - destruct (is_idle (s_thr s t)); [|discriminate]. injection E as <-. apply (finv_same k s); auto; cbn.
    + intros g m0 [H|H]; [discriminate|exact H].
    + apply (f_cancel _ _ F).
  - unfold run in E. destruct t as [|t].
    + assert (P0 := i_phase _ _ I). assert (N0 := i_new _ _ I). destruct (s_thr s 0) eqn:T; try discriminate E; try (injection E as <-);
        try (apply (finv_same k s); auto; cbn; [congruence|intros c0 [H|H]; [apply (f_cancel _ _ F); auto|discriminate]]; fail).
      * destruct (N0 _ eq_refl) as [N1 N2]. destruct (s_cont s) as [c|] eqn:C; injection E as <-.
        -- apply (finv_same k s); auto; cbn.
           ++ intros g m0 [H|H]; [discriminate|exact H].
           ++ intros g H. destruct (Nat.eqb g f); auto.
           ++ intros g H. rewrite T in H. injection H as <-. rewrite Nat.eqb_refl. auto.
           ++ intros c0 [H|H]; [apply (f_cancel _ _ F); auto|discriminate].
        -- assert (Fp := f_fresh _ _ F f N2). fin F. constructor; cbn; auto.
           ++ intros i g m H Hd. apply nth_snoc in H. destruct H as [H|[-> ->]]; [eapply FD; eassumption|congruence].
           ++ intros g m [H|H]; [discriminate|]. destruct (FR g m H) as (i & A & B). exists i. split; [apply nth_app_old, A|exact B].
           ++ intros g Hg. rewrite in_app_iff. destruct (FK g Hg) as [A|[A|A]]; auto. rewrite T in A. injection A as ->. cbn. auto.
           ++ intros g Hg. rewrite in_app_iff in Hg. auto.
           ++ intros c [H|H]; [|discriminate]. rewrite in_app_iff. auto.
      * apply (finv_same k s); auto; cbn; [congruence|]. intros c [H|H]; [|discriminate]. injection H as <-. destruct P0 as [PC P0]. rewrite PC in P0. destruct P0 as (l & -> & _). rewrite in_app_iff. cbn. auto.
      * apply (finv_same k s); auto; cbn; [congruence|]. intros c [H|H]; [apply (f_cancel _ _ F); auto|]. destruct (s_flag s); discriminate.
      * apply (finv_same k s); auto; cbn; [congruence|]. intros c [H|H]; apply (f_cancel _ _ F); auto.
      * apply (finv_same k s); auto; cbn; [congruence|]. intros c0 [H|H]; [discriminate|]. apply (f_cancel _ _ F); rewrite T; auto.
      * destruct c as [f|]; [|apply (finv_same k s); auto; cbn; [congruence|]; intros c0 [H|H]; [apply (f_cancel _ _ F); auto|discriminate]].
        assert (Ac : In f (accepted (s_log s))) by (apply (f_cancel _ _ F); rewrite T; auto).
        fin F. constructor; cbn; auto.
        -- intros i g m Hi. destruct (Nat.eqb_spec g f) as [->|]; [|apply FD; exact Hi]. intros H. eapply FD; [exact Hi|]. destruct (s_fut s f); cbn in H; congruence.
        -- intros g Hg. destruct (FK g Hg) as [A|[A|A]]; auto. congruence.
        -- intros g Hg. destruct (Nat.eqb_spec g f) as [->|]; [contradiction|auto].
        -- intros c [H|H]; [auto|discriminate].
      * apply (finv_same k s); auto; cbn; [congruence|]. intros c [H|H]; [apply (f_cancel _ _ F); auto|]. destruct (s_cont s); discriminate.
      * rewrite (i_lock _ _ I), T in E. cbn in E. injection E as <-. apply (finv_same k s); auto; cbn; [congruence|]. intros c [H|H]; [apply (f_cancel _ _ F); auto|discriminate].
      * apply (finv_same k s); auto; cbn; [congruence|]. intros c [H|H]; [apply (f_cancel _ _ F); auto|]. destruct (s_queue s); discriminate.
      * destruct (s_queue s) as [|m q] eqn:Q; [discriminate|]. injection E as <-. apply (finv_same k s); auto; cbn; [congruence|]. intros c [H|H]; [apply (f_cancel _ _ F); auto|discriminate].
      * destruct P0 as (l & P1 & P2 & P3 & P4). destruct c as [f|]; [|congruence]. destruct P4 as (a & P4 & P5).
        assert (K : k = l ++ [m]) by (unfold k; cbn; rewrite T, app_nil_r; exact P1).
        fin F. constructor; cbn; auto.
        -- intros i g m0 Hi. destruct (Nat.eqb_spec g f) as [->|]; [|apply FD; exact Hi].
           assert (X : i = length l) by (rewrite <- P5; eapply nodup_nth; [exact (i_dup _ _ I)|exact Hi|rewrite P4; apply nth_last]).
           destruct (s_fut s f) as [|v|e|] eqn:Ff; cbn; intros H; try discriminate; [|eapply FD; [exact Hi|congruence]].
           injection H as <-. subst i. rewrite K. apply nth_last.
        -- intros g Hg. destruct (FK g Hg) as [A|[A|A]]; auto. congruence.
        -- intros g Hg. destruct (Nat.eqb_spec g f) as [->|]; [|auto]. destruct Hg. rewrite P4, in_app_iff. cbn. auto.
        -- intros c [H|H]; [auto|discriminate].
      * rewrite (i_lock _ _ I), T in E. cbn in E. injection E as <-. apply (finv_same k s); auto; cbn; [congruence|]. intros c [H|H]; [apply (f_cancel _ _ F); auto|discriminate].
    + pose proof (i_other _ _ I t) as [X|X]; rewrite X in *; [discriminate|]. injection E as <-.
      apply (finv_same k s); auto; cbn. intros c [H|H]; apply (f_cancel _ _ F); auto.
Qed.
