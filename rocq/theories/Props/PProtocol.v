(** Property C135: send, throw and close on the iterators of Seq. *)
From Coq Require Import List ZArith Bool Lia.
From Verif.Model Require Import Base OptionResult Resume Abandon Protocol.
From Verif.Spec Require Import ResumeSpec AbandonSpec ProtocolSpec.
From Verif.Proofs Require Import ProtocolFacts.
From Verif.Props Require Import PAbandon.
Import ListNotations.

(** With next() alone it is the iterator of C119 and C120. *)
Theorem C135_next : forall W V A (g : ogen W A) w os w1,
  (exists p1 : pgen W V A, acts (p_wrap false g) w (repeat Next (length os)) (map plainly os) p1 w1) <-> (exists q1, calls (o_wrap g) w os q1 w1).
Proof. exact @next_pf. Qed.
(** After the first next() or send(None), it does not matter what is sent: elements, end,
    exceptions and effects are those of next(). *)
Theorem C135_send : forall W V A (g : ogen W A) w xs os (p1 : pgen W V A) w1, acts (p_wrap true g) w xs os p1 w1 -> Forall asks xs ->
  forall ys, Forall asks ys -> length ys = length xs -> acts (p_wrap true g) w ys os p1 w1.
Proof. intros W V A g w xs os p1 w1 H F. apply (send_pf _ _ _ _ _ _ H); [left; eexists; reflexivity|exact F]. Qed.
(** A value sent before that is a TypeError, and nothing else happens. *)
Theorem C135_early : forall W V A (g : ogen W A) w (v : V) o (p : pgen W V A) w1,
  act (p_wrap false g) w (Send (PyVal v)) o p w1 <-> o = Raises TypeError /\ p = p_wrap false g /\ w1 = w.
Proof. exact @early_pf. Qed.
(** throw gives the exception to whoever threw it, close returns; after either, or at the end,
    all that the iteration entered has been left, and it stays ended. *)
Theorem C135_released_partial : forall W V A open (src : oiterable W A) w g w0 xs x os o (p1 : pgen W V A) w1, balanced open src -> src w = (Ret g, w0) ->
  acts (p_wrap false g) w0 xs os p1 w1 -> forall p2 w2, act p1 w1 x o p2 w2 ->
  match x with Throw e => e <> StopIterationExn | Close => True | _ => o = Over end ->
  match x with Throw e => o = Raises e | Close => o = Closed | _ => True end /\
  open w2 = open w /\ forall ys os2 p3 w3, acts p2 w2 ys os2 p3 w3 -> os2 = map ended_answer ys /\ w3 = w2.
Proof. exact @released_pf. Qed.
(** False for the source: an exception thrown into the iterator never comes to the generator
    that it iterates, which is closed instead, even if it would have handled it. *)
Theorem C135_throw_refuted : forall W V A (p : pgen W V A) w e y p1 w1, act p w (Throw e) (Given y) p1 w1 -> e <> StopIterationExn ->
  forall o p2 w2, act (p_wrap true (p_source p) : pgen W V A) w (Throw e) o p2 w2 -> o = Raises e /\ w2 = snd (p_close p w).
Proof.
  intros W V A p w e y p1 w1 _ N o p2 w2 H. inversion H as [| |? ? ? ? ? ? G| |]; subst. destruct p. cbn in G. inversion G; subst.
  split; [destruct e; first [reflexivity|congruence]|reflexivity].
Qed.
(** False for exceptions of finally blocks: close() of the iterator does not raise them. *)
Theorem C135_finally_refuted : forall W V A (p : pgen W V A) w e p1 w1, p_close p w = (Raise e, p1, w1) ->
  act p w Close (Raises e) p1 w1 /\
  forall b o (p2 : pgen W V A) w2, act (p_wrap b (p_source p)) w Close o p2 w2 -> o = Closed /\ w2 = w1.
Proof.
  intros W V A p w e p1 w1 E. split; [apply act_close_raises; exact E|].
  intros b o p2 w2 H. inversion H as [| | |? ? ? ? E1|? ? ? ? ? E1]; subst; destruct p; cbn in E1, E.
  - injection E1; intros; subst. rewrite E. auto.
  - discriminate E1.
Qed.

(** A source with a finally block that counts what is open, used in a pipeline. *)
Definition entering (xs : list Z) : oiterable Z Z := ret (o_resource (fun w => (w + 1)%Z) (fun w => (w - 1)%Z) (map ret xs)).
Definition pipeline : oiterable Z Z := o_map (fun x => ret (x * 10)%Z) (entering [1; 2; 3]%Z).
Example C135_example_balanced : balanced (fun w => w) pipeline.
Proof.
  assert (B : balanced (fun w : Z => w) (entering [1; 2; 3]%Z)).
  { apply (proj1 (proj2 (C120_balanced2 Z Z unit (fun n => n)))); [reflexivity|reflexivity|]. repeat constructor. }
  apply (proj1 (proj2 (C120_balanced Z Z Z unit (fun n => n) _ B))). intros x w. reflexivity.
Qed.
Ltac one_act :=
  eapply acts_more; [first [apply act_next|apply act_send|apply act_throw|apply act_close; reflexivity|apply act_close_raises; reflexivity];
    repeat (cbn; first [apply go_given|apply go_over|apply go_raises|apply go_skip])|].
Example C135_example : exists g (p : pgen Z Z Z),
  pipeline 0%Z = (Ret g, 0%Z) /\
  acts (p_wrap false g) 0%Z [Send (PyVal 5%Z); Next; Send (PyVal 7%Z); Throw ValueError; Next; Throw KeyError; Close]
    [Raises TypeError; Given 10%Z; Given 20%Z; Raises ValueError; Over; Raises KeyError; Closed] p 0%Z.
Proof. do 2 eexists. split; [reflexivity|]. do 7 one_act. apply acts_none. Qed.
Example C135_example_closed : exists g (p : pgen Z Z Z),
  pipeline 0%Z = (Ret g, 0%Z) /\ acts (p_wrap false g) 0%Z [Next; Close; Next] [Given 10%Z; Closed; Over] p 0%Z.
Proof. do 2 eexists. split; [reflexivity|]. do 3 one_act. apply acts_none. Qed.
(** A generator that handles ValueError by going on with 8 and 9, and whose finally block
    raises: directly and as the source of a Seq. *)
Definition handles (e : exn) : option (list Z) := match e with ValueError => Some [8; 9]%Z | _ => None end.
Definition cleans : M Z unit := fun w => (Raise KeyError, (w + 1)%Z).
Example C135_example_handler : exists (p q r : pgen Z Z Z),
  acts (p_user handles cleans [1; 2]%Z) 0%Z [Next; Throw ValueError; Next; Close] [Given 1%Z; Given 8%Z; Given 9%Z; Raises KeyError] p 1%Z /\
  acts (p_wrap false (p_source (p_user handles cleans [1; 2]%Z : pgen Z Z Z))) 0%Z [Next; Throw ValueError; Next] [Given 1%Z; Raises ValueError; Over] q 1%Z /\
  acts (p_wrap false (p_source (p_user handles cleans [1; 2]%Z : pgen Z Z Z))) 0%Z [Next; Close; Next] [Given 1%Z; Closed; Over] r 1%Z.
Proof.
  do 3 eexists. split; [|split].
  - do 4 one_act. apply acts_none.
  - do 3 one_act. apply acts_none.
  - do 3 one_act. apply acts_none.
Qed.

Print Assumptions C135_next.
Print Assumptions C135_send.
Print Assumptions C135_early.
Print Assumptions C135_released_partial.
Print Assumptions C135_throw_refuted.
Print Assumptions C135_finally_refuted.
