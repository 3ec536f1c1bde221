(** Elements of Seq and AsyncSeq taken one by one, over any source with any callbacks: both
    may have effects on the same state (parts of C30 and C80). *)
From Coq Require Import List ZArith Bool Lia.
From Verif.Model Require Import Base Gen OptionResult Seq.
From Verif.Model Require AsyncSeq.
From Verif.Spec Require Import RunSpec.
From Verif.Proofs Require Import RunFacts6.
From Verif.Proofs Require RunFacts7.
From Verif.Props Require Import PRuns.
Import ListNotations.
Local Open Scope py_scope.

(** ** C30 *)
(** When some elements have been taken, what has happened is exactly this: the source was
    asked for elements and the callback was called on them until the last of the elements
    taken was there. *)
Theorem C30_any_source : forall W A B S (src : iterable W A) w g w0, src w = (Ret g, w0) -> forall w1,
  (forall (f : A -> M W B) l, l <> [] ->
     (exists k, pulls (map f src) w l k w1) <-> batch_pulls (fun (_ : unit) x => do y <- f x; ret (tt, [y])) tt g w0 l w1) /\
  (forall (p : A -> M W bool) l, l <> [] ->
     (exists k, pulls (filter p src) w l k w1) <-> batch_pulls (fun (_ : unit) x => do b <- p x; ret (tt, if b : bool then [x] else [])) tt g w0 l w1) /\
  (forall (f : A -> M W (option B)) l, l <> [] ->
     (exists k, pulls (choose f src) w l k w1) <->
     batch_pulls (fun (_ : unit) x => do o <- f x; ret (tt, match o with Some y => [y] | None => [] end)) tt g w0 l w1) /\
  (forall (f : S -> A -> M W S) s l, l <> [] ->
     (exists k, pulls (scan f s src) w (s :: l) k w1) <-> batch_pulls (fun s x => do s1 <- f s x; ret (s1, [s1])) s g w0 l w1) /\
  (forall (f : A -> M W (iterable W B)) l, l <> [] -> (exists k, pulls (collect f src) w l k w1) <-> collect_pulls f g w0 l w1) /\
  (forall (src2 : iterable W B) h w2 l, src2 w0 = (Ret h, w2) -> l <> [] -> (exists k, pulls (zip src src2) w l k w1) <-> pair_pulls g h w2 l w1).
Proof.
  intros W A B S src w g w0 E w1.
  split; [intros f l N; exact (map_pulls_any src w g w0 E f l w1 N)|]. split; [intros p l N; exact (filter_pulls_any src w g w0 E p l w1 N)|].
  split; [intros f l N; exact (choose_pulls_any f src w g w0 E l w1 N)|]. split; [intros f s l N; exact (scan_pulls_any src w g w0 E f s l w1 N)|].
  split; [intros f l N; exact (collect_pulls_any f src w g w0 E l w1 N)|]. intros src2 h w2 l E2 N. exact (zip_pulls_any src src2 w g w0 h w2 E E2 l w1 N).
Qed.
Print Assumptions C30_any_source.
(** The callback that raises on 3 is called only for the third element; before that the
    queue still holds it. *)
Example C30_any_source_ex : (exists k, pulls (map again queued) [2; 1; 3] [2; 1] k [3; 1; 0]) /\ (exists k, pulls (zip queued queued) [1; 2; 3; 4] [(1, 2)] k [3; 4]).
Proof.
  split.
  - apply (proj1 (C30_any_source queue nat nat nat queued [2; 1; 3] from_queue [2; 1; 3] eq_refl [3; 1; 0])); [discriminate|].
    eapply (bp_next _ _ _ _ _ _ _ _ [_]); [eapply pu_yield; [reflexivity|apply pu_none]|reflexivity|].
    eapply bp_last; [eapply pu_yield; [reflexivity|apply pu_none]|reflexivity|discriminate].
  - apply (proj2 (proj2 (proj2 (proj2 (proj2 (C30_any_source queue nat nat nat queued [1; 2; 3; 4] from_queue [1; 2; 3; 4] eq_refl [3; 4]))))) queued from_queue [1; 2; 3; 4]);
      [reflexivity|discriminate|]. eapply pp_last; (eapply pu_yield; [reflexivity|apply pu_none]).
Qed.

(** ** C80 *)
(** The same for AsyncSeq. *)
Theorem C80_any_source_partial : forall W A B S (src : iterable W A) w g w0, src w = (Ret g, w0) -> forall w1,
  (forall (f : A -> M W B) l, l <> [] ->
     (exists k, pulled (AsyncSeq.map f src) w l k w1) <-> batch_pulls (fun (_ : unit) x => do y <- f x; ret (tt, [y])) tt g w0 l w1) /\
  (forall (p : A -> M W bool) l, l <> [] ->
     (exists k, pulled (AsyncSeq.filter p src) w l k w1) <-> batch_pulls (fun (_ : unit) x => do b <- p x; ret (tt, if b : bool then [x] else [])) tt g w0 l w1) /\
  (forall (f : A -> M W (option B)) l, l <> [] ->
     (exists k, pulled (AsyncSeq.choose f src) w l k w1) <->
     batch_pulls (fun (_ : unit) x => do o <- f x; ret (tt, match o with Some y => [y] | None => [] end)) tt g w0 l w1) /\
  (forall (f : S -> A -> M W S) s l, l <> [] ->
     (exists k, pulled (AsyncSeq.scan f s src) w (s :: l) k w1) <-> batch_pulls (fun s x => do s1 <- f s x; ret (s1, [s1])) s g w0 l w1) /\
  (forall (f : A -> M W (iterable W B)) l, l <> [] -> (exists k, pulled (AsyncSeq.collect f src) w l k w1) <-> collect_pulls f g w0 l w1).
Proof.
  intros W A B S src w g w0 E w1.
  split; [intros f l N; exact (RunFacts7.async_map_pulls src w g w0 E f l w1 N)|]. split; [intros p l N; exact (RunFacts7.async_filter_pulls src w g w0 E p l w1 N)|].
  split; [intros f l N; exact (RunFacts7.async_choose_pulls src w g w0 E f l w1 N)|]. split; [intros f s l N; exact (RunFacts7.async_scan_pulls src w g w0 E f s l w1 N)|].
  intros f l N. exact (RunFacts7.async_collect_pulls f src w g w0 E l w1 N).
Qed.
Print Assumptions C80_any_source_partial.
(** Nothing else can have happened once filter has handed out the first element. *)
Example C80_any_source_partial_ex : forall k w1 y, pulled (AsyncSeq.filter (fun x => do y <- again x; ret (Nat.eqb y 1)) queued) [2; 1; 3] [y] k w1 -> y = 1 /\ w1 = [3; 1; 0].
Proof.
  intros k w1 y P.
  pose proof (proj1 (proj1 (proj2 (C80_any_source_partial queue nat nat nat queued [2; 1; 3] from_queue [2; 1; 3] eq_refl w1)) _ [y] ltac:(discriminate)) (ex_intro _ k P)) as H.
  assert (PQ : forall q x g1 q1, pulled from_queue q [x] g1 q1 -> q = x :: q1 /\ g1 = from_queue).
  { intros q x g1 q1 Q. inversion Q as [|? ? ? ? ? ? ? ? E Q2|? ? ? ? ? ? ? ? E Q2]; subst; cbn in E; destruct q; try discriminate. injection E as -> <- <-. inversion Q2; subst; now split. }
  inversion H as [? ? ? x g1 q1 ? ys ? Q E N|? ? ? x g1 q1 ? ys ? l ? Q E R]; subst; destruct (PQ _ _ _ _ Q) as [E0 ->]; injection E0 as <- <-; cbn in E.
  - discriminate.
  - injection E as <- <- <-. match goal with X : _ ++ _ = _ |- _ => cbn in X; subst l end.
    inversion R as [? ? ? x1 g2 q2 ? zs ? Q1 E1 N|? ? ? x1 g2 q2 ? zs ? l ? Q1 E1 R1]; subst; destruct (PQ _ _ _ _ Q1) as [E0 ->]; injection E0 as <- <-; cbn in E1.
    + injection E1 as <- <- <-. now split.
    + injection E1 as <- <- <-. match goal with X : _ ++ _ = _ |- _ => cbn in X; injection X as <- -> end. now apply batch_pulls_some in R1.
Qed.
