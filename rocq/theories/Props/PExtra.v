(** Properties C52-C54: traverse and sequence, pipelines, catch. *)
From Coq Require Import List Bool.
From Verif.Model Require Import Base OptionResult Mixed Extra.
From Verif.Spec Require Import ListM OptionResultSpec ExtraSpec.
From Verif.Proofs Require Import ExtraFacts.
Import ListNotations.
Local Open Scope py_scope.

(** ** C52 *)
(** The value, for functions without effects: all values in order, or the leftmost error. *)
Theorem C52_value_partial : forall W A B E (f : A -> result (pyopt B) E) lst (w : W),
  traverse (fun x => ret (f x)) lst w = (Ret (URes (block_result (all_ok (List.map f lst)))), w).
Proof. exact @traverse_pure_pf. Qed.
Theorem C52_all_ok : forall A E (rs : list (result A E)),
  (forall xs, all_ok rs = Ok xs <-> rs = List.map Ok xs) /\
  (forall e, all_ok rs = Err e <-> exists xs rest, rs = List.map Ok xs ++ Err e :: rest).
Proof. intros A E rs. split; [apply all_ok_ok|apply all_ok_err]. Qed.
Theorem C52_sequence : forall W B E (lst : list (result (pyopt B) E)) (w : W),
  sequence lst w = (Ret (URes (block_result (all_ok lst))), w).
Proof. intros W B E lst w. unfold sequence. rewrite traverse_pure_pf, map_id. reflexivity. Qed.
(** Exact behaviour for every function that does not raise EffectError (C129): it is called
    on all elements, last first, and only an exception stops it. *)
Theorem C52_effects_partial : forall W A B E (fn : A -> M W (result (pyopt B) E)) lst, (forall x w, fst (fn x w) <> Raise EffectErrorExn) ->
  traverse fn lst ==m (do rs <- mapM (fun x => in_generator (fn x)) (rev lst); ret (URes (block_result (all_ok (rev rs))))).
Proof. exact @traverse_no_effect_error. Qed.
Theorem C52_calls_partial : forall A B E (f : A -> result (pyopt B) E) lst (w : list A),
  traverse (fun x w => (Ret (f x), w ++ [x])) lst w = (Ret (URes (block_result (all_ok (List.map f lst)))), w ++ rev lst).
Proof. exact traverse_calls_pf. Qed.
(** False: calls from left to right, none after the first error. *)
Theorem C52_order_refuted : exists (fn : nat -> M (list nat) (result (pyopt nat) nat)) (lst : list nat) w,
  snd (traverse fn lst w) <> snd (traverse_left fn lst w) /\
  fst (traverse fn lst w) = Ret (URes (Err 1)) /\ snd (traverse_left fn lst w) = [1] /\ snd (traverse fn lst w) = [3; 2; 1].
Proof. exists (fun x w => (Ret (Err x), w ++ [x])), [1; 2; 3], []. repeat split; try reflexivity. discriminate. Qed.
Example C52_example : traverse (fun x => ret (if Nat.ltb x 3 then Ok (PyVal (x + 1)) else Err x)) [0; 4; 1; 5] tt = (Ret (URes (Err 4)), tt) /\
  traverse (fun x => ret (Ok (PyVal (x + 1)) : result (pyopt nat) nat)) [0; 1] tt = (Ret (URes (Ok (PyVal (TBlock [PyVal 1; PyVal 2])))), tt).
Proof. split; reflexivity. Qed.
Print Assumptions C52_value_partial.
Print Assumptions C52_all_ok.
Print Assumptions C52_sequence.
Print Assumptions C52_effects_partial.
Print Assumptions C52_calls_partial.
Print Assumptions C52_order_refuted.

(** ** C53 *)
Theorem C53_result_pipeline : forall W A E (fns : list (A -> M W (result A E))) x, res_pipeline fns x ==m while_ok x fns.
Proof. exact @res_pipeline_pf. Qed.
Theorem C53_option_pipeline : forall W A (fns : list (A -> M W (option A))) x, opt_pipeline fns x ==m while_some x fns.
Proof. exact @opt_pipeline_pf. Qed.
(** Associative with unit pipeline(): grouping does not matter. *)
Theorem C53_result_grouping : forall W A E (fs gs : list (A -> M W (result A E))) x,
  res_pipeline (fs ++ gs) x ==m (do r <- res_pipeline fs x; res_bind r (res_pipeline gs)) /\
  res_pipeline (fs ++ gs) x ==m res_pipeline [res_pipeline fs; res_pipeline gs] x.
Proof. exact @res_pipeline_app_pf. Qed.
Theorem C53_option_grouping : forall W A (fs gs : list (A -> M W (option A))) x,
  opt_pipeline (fs ++ gs) x ==m (do r <- opt_pipeline fs x; opt_bind r (opt_pipeline gs)) /\
  opt_pipeline (fs ++ gs) x ==m opt_pipeline [opt_pipeline fs; opt_pipeline gs] x.
Proof. exact @opt_pipeline_app_pf. Qed.
Example C53_example : let f n k (x : nat) (w : list nat) := (Ret (if Nat.ltb x k then Ok (x + n) else Err x), w ++ [x]) in
  res_pipeline [f 1 10; f 2 2; f 3 9] 0 [] = (Ret (Ok 6), [0; 1; 3]) /\
  res_pipeline [f 1 10; f 2 1; f 3 9] 0 [] = (Ret (Err 1), [0; 1]) /\
  opt_pipeline [fun x w => (Ret (Some (x + 1)), S w); fun x w => (Ret None, S w); fun x w => (Ret (Some x), S w)] 0 0 = (Ret None, 2).
Proof. repeat split; reflexivity. Qed.
Print Assumptions C53_result_pipeline.
Print Assumptions C53_option_pipeline.
Print Assumptions C53_result_grouping.
Print Assumptions C53_option_grouping.

(** ** C54 *)
Theorem C54_catch : forall W X A E (matches : exn -> bool) (inj : exn -> E) (fn : X -> M W (returned A E)) args w,
  let (o, w1) := fn args w in
  snd (catch matches inj fn args w) = w1 /\
  (forall v, o = Ret (Plain v) -> fst (catch matches inj fn args w) = Ret (Ok v)) /\
  (forall r, o = Ret (AResult r) -> fst (catch matches inj fn args w) = Ret r) /\
  (forall e, o = Raise e -> matches e = true -> fst (catch matches inj fn args w) = Ret (Err (inj e))) /\
  (forall e, o = Raise e -> matches e = false -> fst (catch matches inj fn args w) = Raise e).
Proof. exact @catch_pf. Qed.
Theorem C54_catch_raises_iff : forall W X A E (matches : exn -> bool) (inj : exn -> E) (fn : X -> M W (returned A E)) args w e,
  fst (catch matches inj fn args w) = Raise e <-> (fst (fn args w) = Raise e /\ matches e = false).
Proof. exact @catch_never_raises_pf. Qed.
(** Decorating twice catches the exceptions of both. *)
Theorem C54_catch_twice : forall W X A E (m1 m2 : exn -> bool) (inj : exn -> E) (fn : X -> M W (returned A E)) args,
  catch m1 inj (decorated (catch m2 inj fn)) args ==m catch (fun e => m2 e || m1 e) inj fn args.
Proof. exact @catch_twice_pf. Qed.
Example C54_example : let only_key e := match e with KeyError => true | _ => false end in
  let fn (x : nat) (w : nat) : res (returned nat exn) * nat :=
    (match x with 0 => Raise KeyError | 1 => Raise ValueError | 2 => Ret (AResult (Err TypeError)) | _ => Ret (Plain x) end, S w) in
  List.map (fun x => catch only_key (fun e => e) fn x 0) [0; 1; 2; 3] =
    [(Ret (Err KeyError), 1); (Raise ValueError, 1); (Ret (Err TypeError), 1); (Ret (Ok 3), 1)].
Proof. reflexivity. Qed.
Print Assumptions C54_catch.
Print Assumptions C54_catch_raises_iff.
Print Assumptions C54_catch_twice.
