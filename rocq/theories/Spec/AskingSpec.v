(** Specification of agents that ask one another. *)
From Coq Require Import List Bool Arith.
From Verif.Model Require Import Base Thread Aiotools Mailbox Agent Reply Request Asking.
From Verif.Spec Require Export MailboxSpec AgentSpec AiotoolsSpec.
Import ListNotations.

(** Choices that go on by themselves; nothing goes on any more unless other code posts or asks. *)
Definition web_goes_on (c : wchoice) : Prop := match c with WBox _ c => goes_on c | WPost _ _ _ | WAsk _ _ => False | _ => True end.
Definition web_quiet {B O} (next : nat -> B -> act B (deed O)) give (w : web B O) : Prop := forall c, web_goes_on c -> wstep next give c w = None.

(** Agents 0 to [last] that oblige: each answers the request that it has received, with an answer
    that is [good], before it receives again; meanwhile it may ask agents with a higher number
    and relies on their answers being good.  [owing i b o]: in state [b] agent [i] still has to
    answer [o]. *)
Record obliging {B O} (next : nat -> B -> act B (deed O)) (give : nat -> B -> reply_value -> B) (b0 : nat -> option B) (last : nat)
    (good : nat -> nat -> reply_value -> Prop) (owing : nat -> B -> option (nat * nat) -> Prop) : Prop := {
  ob_start : forall i b, b0 i = Some b -> i <= last /\ owing i b None;
  ob_agents : forall i, i <= last -> b0 i <> None;
  ob_receive : forall i b o k, owing i b o -> next i b = Receive k -> o = None /\ forall p r, owing i (k (letter p r)) (Some (p, r));
  ob_answer : forall i b o r v b1, owing i b o -> next i b = Do (Answer r v) b1 -> exists p, o = Some (p, r) /\ v <> None /\ good i p v /\ owing i b1 None;
  ob_ask : forall i b o j p b1, owing i b o -> next i b = Do (Ask j p) b1 -> i < j <= last /\ forall v, good j p v -> owing i (give i b1 v) o;
  ob_else : forall i b o x b1, owing i b o -> next i b = Do (Else x) b1 -> owing i b1 o;
  ob_on : forall i b o, owing i b o -> next i b <> Returns /\ next i b <> Raises }.

(** Agents 0 to [last] that pass a part of the work on: agent [i] asked [p] asks agent [i + 1] for
    [part i p] and answers [whole i p v] when that has answered [v]; the last one answers alone. *)
Inductive passing : Type := Free | Passes (p r : nat) | Passed (p r : nat) | Knows (r v : nat).
Definition passer (last : nat) (part : nat -> nat -> nat) (whole : nat -> nat -> nat -> nat) (i : nat) (b : passing) : act passing (deed Empty_set) :=
  match b with
  | Free => Receive (fun m => let (p, r) := letter_of m in if Nat.ltb i last then Passes p r else Knows r (whole i p 0))
  | Passes p r => Do (Ask (S i) (part i p)) (Passed p r)
  | Passed _ _ => Returns
  | Knows r v => Do (Answer r (Some v)) Free
  end.
Definition told (whole : nat -> nat -> nat -> nat) (i : nat) (b : passing) (v : reply_value) : passing :=
  match b, v with Passed p r, Some v => Knows r (whole i p v) | _, _ => b end.
Definition passers (last : nat) (i : nat) : option passing := if Nat.leb i last then Some Free else None.
(** The answer that [n] more agents after agent [i] give together, as a plain function. *)
Fixpoint worked (part : nat -> nat -> nat) (whole : nat -> nat -> nat -> nat) (n i p : nat) : nat :=
  match n with 0 => whole i p 0 | S n => whole i p (worked part whole n (S i) (part i p)) end.

(** Agents [D] that wait for one another: each awaits the reply to one of the requests [R], none
    of which has been answered; [never_answers]: no body of agent [k] ever answers request [r]. *)
Definition never_answers {B O} (next : nat -> B -> act B (deed O)) (k r : nat) : Prop := forall b v b1, next k b <> Do (Answer r v) b1.
Definition unanswered (q : rstate) : Prop := forall t v, ~ In (ReplyCalled t v) (r_log q).
Definition held_up {B O} (D R : nat -> Prop) (w : web B O) : Prop :=
  (forall i, D i -> exists r b, w_wait w i = Some r /\ R r /\ a_body (w_agents w i) = Ready b) /\ forall r, R r -> unanswered (w_reqs w r).
(** Two agents each of which asks the other before it answers. *)
Definition circular (i : nat) (b : passing) : act passing (deed Empty_set) :=
  if Nat.leb i 1 then
    match b with
    | Free => Receive (fun m => let (p, r) := letter_of m in Passes p r)
    | Passes p r => Do (Ask (1 - i) p) (Passed p r)
    | Passed _ _ => Returns
    | Knows r v => Do (Answer r (Some v)) Free
    end
  else Returns.
(** Bodies that always come to their next receive or to their end, whatever they are answered on
    the way. *)
Definition prompt_asking {B O} (next : nat -> B -> act B (deed O)) (give : nat -> B -> reply_value -> B) : Prop :=
  forall i b, Acc (fun b1 b => (exists o, next i b = Do o b1 /\ forall j p, o <> Ask j p) \/ (exists j p b2 v, next i b = Do (Ask j p) b2 /\ b1 = give i b2 v)) b.
