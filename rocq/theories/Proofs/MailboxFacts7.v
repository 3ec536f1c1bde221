(** Mailboxes: everything is received. *)
From Coq Require Import List Bool Arith Lia.
From Verif.Model Require Import Base Thread Aiotools Mailbox.
From Verif.Spec Require Import MailboxSpec.
From Verif.Proofs Require Import ThreadFacts MailboxFacts MailboxFacts2 MailboxFacts3 MailboxFacts6.
Import ListNotations.

Fixpoint receivers (log : list event) : list nat :=
  match log with [] => [] | Received f _ :: l => receivers l ++ [f] | _ :: l => receivers l end.
Lemma receivers_length : forall log, length (receivers log) = length (received log).
Proof. induction log as [|[] log IH]; cbn; auto. rewrite !app_length, IH. reflexivity. Qed.
Lemma receivers_in : forall log f m, In (Received f m) log -> In f (receivers log).
Proof. induction log as [|e log IH]; intros f m []; [subst e; cbn; apply in_or_app; cbn; auto|]. destruct e; cbn; eauto. apply in_or_app. eauto. Qed.
Lemma nodup_left : forall (l r : list nat), NoDup (l ++ r) -> NoDup l.
Proof. induction l as [|x l IH]; intros r H; [constructor|]. inversion H; subst. constructor; [rewrite in_app_iff in H2; tauto|eauto]. Qed.
Lemma all_received_pf : forall cs s, Forall on_loop cs -> exec step cs init = Some s -> quiet s -> one_body (s_log s) ->
  (forall t, ~ In (CancelRequested t) (s_log s)) -> (forall f, ~ In (Abandoned f) (s_log s)) -> length (posted (s_log s)) <= length (accepted (s_log s)) ->
  received (s_log s) = posted (s_log s).
Proof.
  intros cs s L E Q B NC NA Len. destruct (prefix_pf cs s L E B) as [r P].
  assert (R : length (firstn (length (posted (s_log s))) (accepted (s_log s))) <= length (receivers (s_log s))).
  { apply NoDup_incl_length.
    - destruct (loop_all cs s L E) as (cons & A). pose proof (i_dup _ _ (a_inv _ _ A)) as D. rewrite <- (firstn_skipn (length (posted (s_log s)))) in D. exact (nodup_left _ _ D).
    - intros f H. apply In_nth_error in H. destruct H as [i H]. assert (Li : i < length (posted (s_log s))). { assert (X : i < length (firstn (length (posted (s_log s))) (accepted (s_log s)))) by (apply nth_error_Some; congruence). rewrite firstn_length in X. lia. }
      assert (H' : nth_error (accepted (s_log s)) i = Some f). { rewrite <- H. rewrite <- (firstn_skipn (length (posted (s_log s))) (accepted (s_log s))) at 1. apply nth_error_app1. apply nth_error_Some. congruence. }
      destruct (nth_error (posted (s_log s)) i) as [m|] eqn:Hm; [|apply nth_error_None in Hm; lia].
      destruct (all_delivered_pf cs s i f m L E Q NC H' Hm) as [X|X]; [eapply receivers_in, X|destruct (NA _ X)]. }
  rewrite firstn_length, receivers_length in R. rewrite P, app_length in R at 1. rewrite P, app_length in Len. destruct r as [|x r]; [rewrite P, app_nil_r; reflexivity|cbn [length] in *; lia].
Qed.
