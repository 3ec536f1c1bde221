(** Property theorems C100: sums over a TypedArray.  [total] is builtins.sum, about which
    nothing is assumed unless a hypothesis says so. *)
From Coq Require Import List ZArith Bool Lia.
From Verif.Model Require Import Base PyList OptionResult Array.
From Verif.Spec Require Import ListM BlockSpec ArraySpec.
From Verif.Proofs Require Import BlockFacts ArrayFacts ArrayFacts2 ArraySum.
Import ListNotations.
Local Open Scope py_scope.

(** The sum of an array made from values without a library number class first is the sum
    of these values. *)
Theorem C100_sum_partial : forall F U (FF : Floats F) long64 W (total : list (pyval F U) -> M W (pyval F U)) vs,
  plain_first vs -> exists a, new long64 (FromIter vs) None = Ret a /\ sum total a = total vs.
Proof. exact (fun F U FF l W total vs P => ex_intro _ _ (conj (construct_plain_pf l vs P) eq_refl)). Qed.
Print Assumptions C100_sum_partial.
(** sum_by projects every element once, in order, and adds the results. *)
Theorem C100_sum_by_partial : forall F U (FF : Floats F) long64 W (total : list (pyval F U) -> M W (pyval F U)) (a : tarray F U) f w,
  fst (mapM f (a_elems a) w) <> Raise StopIterationExn ->
  (forall ys w1, mapM f (a_elems a) w = (Ret ys, w1) -> plain_first ys) ->
  sum_by long64 total a f w = (do ys <- mapM f (a_elems a); total ys) w.
Proof. exact (fun F U FF l W => sum_by_plain_pf l). Qed.
Print Assumptions C100_sum_by_partial.
(** With a sized integer first: the same sum, unless the intermediate array cannot be
    built; then its exception, after all calls. *)
Theorem C100_sum_by_sized_partial : forall F U (FF : Floats F) long64 W (total : list (pyval F U) -> M W (pyval F U)) (a : tarray F U) f w ys w1,
  (forall xs ys w, Forall2 same_value xs ys -> total xs w = total ys w) ->
  mapM f (a_elems a) w = (Ret ys, w1) -> (forall c x rest, ys <> VFloat (Some c) x :: rest) ->
  match new long64 (FromIter ys) None with
  | Ret _ => sum_by long64 total a f w = total ys w1
  | Raise e => sum_by long64 total a f w = (Raise e, w1)
  end.
Proof. exact (fun F U FF l W => sum_by_same_pf l). Qed.
Print Assumptions C100_sum_by_sized_partial.
Theorem C100_singleton_partial : forall F U (FF : Floats F) long64 (v : pyval F U),
  (plain v -> exists a, singleton long64 v = Ret a /\ a_elems a = [v] /\ of_option long64 (Some v) = Ret a) /\
  (forall a, singleton long64 v = Ret a -> a_type a <> TFloat -> a_type a <> TDouble -> exists x, a_elems a = [x] /\ same_value x v) /\
  (exists a, of_option (F := F) (U := U) long64 None = Ret a /\ a_elems a = []).
Proof.
  intros F U FF l v. repeat split.
  - intros P. eexists. split; [exact (proj1 (singleton_pf l v) P)|]. split; [reflexivity|exact (proj1 (singleton_pf l v) P)].
  - intros a E N1 N2. assert (S := construct_same_pf l (FromIter [v]) None a E N1 N2). cbn in S.
    inversion S as [|x y xs ys S1 S2 E1 E2]; subst. inversion S2; subst. eauto.
  - eexists. split; reflexivity.
Qed.
Print Assumptions C100_singleton_partial.

(** Integer addition, for the examples: 0 for the empty list, TypeError for anything that
    is no number. *)
Definition int_total {F U} (vs : list (pyval F U)) : M nat (pyval F U) :=
  lift (fold_left (fun r v => match r, v with Ret (VInt _ n), VInt _ m => Ret (VInt None (n + m)%Z) | Ret _, _ => Raise TypeError | r, _ => r end)
    vs (Ret (VInt None 0%Z))).

(** A projection to int8(5) and then 1000: the sum is 1005, sum_by raises OverflowError.  A
    projection that raises StopIteration: the sum of what came before, and no exception. *)
Theorem C100_refuted :
  (exists (a : tarray unit unit) f ys, made true a /\ mapM f (a_elems a) 0 = (Ret ys, 2) /\
     int_total ys 2 = (Ret (VInt None 1005%Z), 2) /\ sum_by true int_total a f 0 = (Raise OverflowError, 2)) /\
  (exists (a : tarray unit unit) f, made true a /\ mapM f (a_elems a) 0 = (Raise StopIterationExn, 2) /\
     sum_by true int_total a f 0 = (Ret (VInt None 1%Z), 2)).
Proof.
  assert (D : made (F := unit) (U := unit) true (TArray KList [VInt None 1; VInt None 2]%Z TAny))
    by exact (made_new true (FromIter [VInt None 1; VInt None 2]%Z) None _ Logic.I eq_refl).
  split.
  - exists (TArray KList [VInt None 1; VInt None 2]%Z TAny),
      (fun v n => (Ret (match v with VInt _ 1 => VInt (Some I8) 5 | _ => VInt None 1000 end), S n)), [VInt (Some I8) 5; VInt None 1000]%Z.
    repeat split; try reflexivity. exact D.
  - exists (TArray KList [VInt None 1; VInt None 2]%Z TAny),
      (fun v n => (match v with VInt _ 1 => Ret v | _ => Raise StopIterationExn end, S n)).
    repeat split; try reflexivity. exact D.
Qed.
Print Assumptions C100_refuted.
(** float32 results are rounded before they are added, whatever the addition. *)
Theorem C100_float32_refuted : forall F U (FF : Floats F) long64 (x : F) (n : Z), round32 x <> x ->
  let a := TArray KList [VInt None n] TAny : tarray F U in
  let total (vs : list (pyval F U)) (w : nat) := (match vs with [v] => Ret v | _ => Raise TypeError end, w) in
  let f (_ : pyval F U) (w : nat) := (Ret (VFloat (Some F32) x), S w) in
  made long64 a /\ sum_by long64 total a f 0 = (Ret (VFloat None (round32 x)), 1) /\
  fst (sum_by long64 total a f 0) <> Ret (VFloat None x) /\
  fst ((do ys <- mapM f (a_elems a); total ys) 0) = Ret (VFloat (Some F32) x).
Proof.
  intros F U FF l x n N a total f. repeat split.
  - exact (made_new l (FromIter [VInt None n]) None _ Logic.I eq_refl).
  - cbn. intros E. injection E. exact N.
Qed.
Print Assumptions C100_float32_refuted.
Example C100_case :
  let a := TArray (KArr Cb) [VInt None 1; VInt None (-2); VInt None 3]%Z TInt8 : tarray unit unit in
  sum int_total a 7 = (Ret (VInt None 2%Z), 7) /\
  sum_by true int_total a (fun v n => (Ret (match v with VInt _ m => VInt None (m * 100) | v => v end)%Z, S n)) 7 = (Ret (VInt None 200%Z), 10) /\
  sum_by true int_total a (fun v n => (Ret (match v with VInt _ m => VInt (Some I16) (m * 100) | v => v end)%Z, S n)) 7 = (Ret (VInt None 200%Z), 10) /\
  sum_by true int_total a (fun v n => (Ret (match v with VInt _ m => VInt (Some U8) (m * 100) | v => v end)%Z, S n)) 7 = (Raise OverflowError, 10) /\
  singleton true (VInt (Some I8) 128%Z : pyval unit unit) = Raise OverflowError.
Proof. repeat split. Qed.
