(** Property theorems C43-C46 (curry, compose, pipe, tailrec). *)
From Coq Require Import List ZArith String.
From Verif.Model Require Import Base Functions.
From Verif.Spec Require Import FunctionsSpec.
From Verif.Proofs Require Import FunctionsFacts.
Import ListNotations.
Local Open Scope py_scope.
Local Open Scope list_scope.

(** C43: n+1 calls with any grouping of the positional arguments, keyword arguments in
    the last call. Missing for the full claim: keyword arguments in earlier calls, which
    the code drops (refuted below). *)
Theorem C43_staging_partial : forall W V R (f : pyfun W V R) groups last kw,
  calls (inl (curry (Z.of_nat (List.length groups)) f)) (groups ++ [(last, kw)]) ==m
  (do r <- f (List.concat (List.map fst (groups ++ [(last, kw)]))) kw; ret (inr r)).
Proof. exact (fun W V R => C43_direct_pf). Qed.
Print Assumptions C43_staging_partial.
(** a partial application made once runs no user code and can be finished any number of
    times, in any way *)
Theorem C43_reuse : forall W V R (f : pyfun W V R) n prefix, List.length prefix <= n ->
  exists c, calls (inl (curry (Z.of_nat n) f)) prefix ==m ret (inl c) /\
  forall groups last kw, List.length prefix + List.length groups = n ->
    calls (inl c) (groups ++ [(last, kw)]) ==m
    (do r <- f (List.concat (List.map fst (prefix ++ groups)) ++ last) kw; ret (inr r)).
Proof. exact (fun W V R => C43_reuse_pf). Qed.
Print Assumptions C43_reuse.
Theorem C43_keywords_refuted : exists (f : pyfun unit nat (list nat * kwds nat)) (g1 g2 : list nat * kwds nat),
  ~ (calls (inl (curry 1 f)) [g1; g2] ==m
     (do r <- f (fst g1 ++ fst g2) (snd g1 ++ snd g2); ret (inr r))).
Proof. exact C43_refuted_pf. Qed.
Print Assumptions C43_keywords_refuted.
Example C43_example :
  calls (inl (curry 2 (fun args kw (w : nat) => (Ret (args, kw), S w)))) [([1], []); ([2; 3], []); ([], [("k"%string, 4)])] 0
  = (Ret (inr ([1; 2; 3], [("k"%string, 4)])), 1).
Proof. reflexivity. Qed.

(** C44. *)
Theorem C44_curry_flip : forall W V R (f : pyfun W V R) n args kwargs groups last, n = S (List.length groups) ->
  (do c <- call_flipped (curry_flip (Z.of_nat n) f) args kwargs; calls c (List.map (fun g => (g, [])) (groups ++ [last]))) ==m
  (do r <- f (List.concat (groups ++ [last]) ++ args) kwargs; ret (inr r)).
Proof. exact (fun W V R => C44_pf). Qed.
Print Assumptions C44_curry_flip.
(** Keyword arguments are taken only by the first call.  In the last call they are a TypeError, and
    the function is not called; in the calls between they are lost without notice. *)
Theorem C44_keywords : forall W V R (f : pyfun W V R) n args kwargs (groups : list (list V * kwds V)) last kw, n = S (List.length groups) ->
  (do c <- call_flipped (curry_flip (Z.of_nat n) f) args kwargs; calls c (groups ++ [(last, kw)])) ==m
  match kw with [] => do r <- f ((List.concat (List.map fst groups) ++ last) ++ args) kwargs; ret (inr r) | _ => raise TypeError end.
Proof. exact (fun W V R => C44_keywords_pf). Qed.
Print Assumptions C44_keywords.
Theorem C44_curry_flip_zero : forall W V R (f : pyfun W V R) args kwargs,
  call_flipped (curry_flip 0 f) args kwargs ==m (do r <- f args kwargs; ret (inr r)).
Proof. exact (fun W V R => C44_zero_pf). Qed.
Print Assumptions C44_curry_flip_zero.
Theorem C44_pipeable : forall W V R (f : pyfun W V R) args kwargs x,
  (do c <- pipeable f args kwargs; calls c [([x], [])]) ==m (do r <- f (x :: args) kwargs; ret (inr r)).
Proof. exact (fun W V R => C44_pipeable_pf). Qed.
Print Assumptions C44_pipeable.
Example C44_example :
  (do c <- call_flipped (curry_flip 2 (fun args kw (w : nat) => (Ret (args, kw), S w))) [8; 9] [("k"%string, 4)];
   calls c [([1], []); ([2], [])]) 0 = (Ret (inr ([1; 2; 8; 9], [("k"%string, 4)])), 1).
Proof. reflexivity. Qed.

Example C44_keywords_case :
  (do c <- call_flipped (curry_flip 2 (fun args kw (w : nat) => (Ret (args, kw), S w))) [8; 9] [("k"%string, 4)];
   calls c [([1], [("lost"%string, 7)]); ([2], [])]) 0 = (Ret (inr ([1; 2; 8; 9], [("k"%string, 4)])), 1) /\
  (do c <- call_flipped (curry_flip 2 (fun args kw (w : nat) => (Ret (args, kw), S w))) [8; 9] [];
   calls c [([1], []); ([2], [("k"%string, 4)])]) 0 = (Raise TypeError, 0).
Proof. split; reflexivity. Qed.

(** C45. *)
Theorem C45_compose : forall W V (fs gs hs : list (V -> M W V)) (f : V -> M W V) x,
  compose (W := W) [] x ==m ret x /\
  pipe x fs ==m compose fs x /\
  compose (fs ++ [f]) x ==m (do y <- compose fs x; f y) /\
  compose (fs ++ [compose gs] ++ hs) x ==m compose (fs ++ gs ++ hs) x.
Proof. exact (fun W V => C45_compose_pf). Qed.
Print Assumptions C45_compose.
Theorem C45_first_exception_stops : forall W V (fs hs : list (V -> M W V)) (f : V -> M W V) x y w w1 w2 e,
  pipe x fs w = (Ret y, w1) -> f y w1 = (Raise e, w2) -> pipe x (fs ++ f :: hs) w = (Raise e, w2).
Proof. exact (fun W V => C45_exception_pf). Qed.
Print Assumptions C45_first_exception_stops.
Theorem C45_pipe2 : forall W V mktuple a b (f : V -> M W (V -> M W V)) fs,
  pipe2 mktuple [a; b] (Some (f, fs)) ==m (do g <- f a; do y <- g b; pipe y fs) /\
  pipe2 (W := W) mktuple [a; b] None ==m ret (mktuple [a; b]).
Proof. exact (fun W V => C45_pipe2_pf). Qed.
Print Assumptions C45_pipe2.
(** Too few values: an IndexError, after the function has been applied to those that there are.
    Values too many are ignored. *)
Theorem C45_values : forall W V mktuple a b c rest (f : V -> M W (V -> M W V)) (g : V -> M W (V -> M W (V -> M W V))) fs,
  pipe2 mktuple [] (Some (f, fs)) ==m raise IndexError /\
  pipe2 mktuple [a] (Some (f, fs)) ==m (do _ <- f a; raise IndexError) /\
  pipe2 mktuple (a :: b :: rest) (Some (f, fs)) ==m pipe2 mktuple [a; b] (Some (f, fs)) /\
  pipe3 mktuple [] (Some (g, fs)) ==m raise IndexError /\
  pipe3 mktuple [a] (Some (g, fs)) ==m (do _ <- g a; raise IndexError) /\
  pipe3 mktuple [a; b] (Some (g, fs)) ==m (do h <- g a; do _ <- h b; raise IndexError) /\
  pipe3 mktuple (a :: b :: c :: rest) (Some (g, fs)) ==m pipe3 mktuple [a; b; c] (Some (g, fs)).
Proof. intros W V mktuple a b c rest f g fs. repeat match goal with |- _ /\ _ => split end; intros w; reflexivity. Qed.
Print Assumptions C45_values.
Example C45_values_case : pipe2 (W := nat) (fun l => List.length l) [3] (Some (fun a w => (Ret (fun b w => (Ret (a + b), w)), w + a), [])) 5 = (Raise IndexError, 8).
Proof. reflexivity. Qed.
Theorem C45_pipe3 : forall W V mktuple a b c (f : V -> M W (V -> M W (V -> M W V))) fs,
  pipe3 mktuple [a; b; c] (Some (f, fs)) ==m (do g <- f a; do h <- g b; do y <- h c; pipe y fs) /\
  pipe3 (W := W) mktuple [a; b; c] None ==m ret (mktuple [a; b; c]).
Proof. exact (fun W V => C45_pipe3_pf). Qed.
Print Assumptions C45_pipe3.
Theorem C45_identity_flip : forall W V A B C (x : V) (fs gs : list (V -> M W V)) (f : A -> B -> M W C) a b,
  identity (W := W) x ==m ret x /\ compose (fs ++ [identity] ++ gs) x ==m compose (fs ++ gs) x /\
  flip f b a ==m f a b /\ flip (flip f) a b ==m f a b.
Proof.
  intros. split; [intros w; reflexivity|]. split; [|split; intros w; reflexivity].
  intros w. exact (proj2 (proj2 (proj2 (C45_compose W V fs [] gs identity x))) w).
Qed.
Print Assumptions C45_identity_flip.
Example C45_identity_flip_ex : flip (fun a b (w : unit) => (Ret (a - b), w)) 2 7 tt = (Ret 5, tt).
Proof. reflexivity. Qed.
(** [mktuple]/[unpack] are building and iterating a tuple *)
Theorem C45_star : forall W V unpack mktuple (fs gs : list (list V -> M W V)) (f : list V -> M W V) args,
  (forall xs, unpack (mktuple xs) = Ret xs) ->
  starpipe unpack mktuple (mktuple args) (fs ++ [f]) ==m
    (do y <- starpipe unpack mktuple (mktuple args) fs; do xs <- lift (unpack y); f xs) /\
  starpipe (W := W) unpack mktuple (mktuple args) [] ==m ret (mktuple args) /\
  starcompose unpack (fs ++ gs) (mktuple args) ==m (do y <- starcompose unpack fs (mktuple args); starcompose unpack gs y) /\
  starcompose (W := W) unpack [] (mktuple args) ==m ret (mktuple args) /\
  (fs <> [] -> starpipe unpack mktuple (mktuple args) fs ==m starcompose unpack fs (mktuple args)).
Proof. exact (fun W V => C45_star_pf). Qed.
Print Assumptions C45_star.
Example C45_example :
  pipe 1 [fun x (w : list nat) => (Ret (x + 1), x :: w); fun x w => (Ret (x * 10), x :: w)] [] = (Ret 20, [2; 1]) /\
  pipe 1 [fun x (w : list nat) => (Ret (x + 1), x :: w); fun x w => (Raise (UserExn x), x :: w); fun x w => (Ret x, 99 :: w)] []
  = (Raise (UserExn 2), [2; 1]).
Proof. split; reflexivity. Qed.
Inductive C45_value := Val (n : nat) | Tup (xs : list C45_value).
Example C45_example_star :
  (forall xs, (match Tup xs with Tup ys => Ret ys | Val _ => Raise TypeError end) = Ret xs) /\
  starpipe (W := unit) (fun v => match v with Tup ys => Ret ys | Val _ => Raise TypeError end) Tup (Tup [Val 1; Val 2])
    [fun xs => ret (Tup (rev xs)); fun xs => ret (hd (Val 0) xs)] tt = (Ret (Val 2), tt).
Proof. split; reflexivity. Qed.

(** C46: the trampoline finishes with r exactly when the recursive reading does; at most
    three frames are ever on the stack; it runs for ever exactly when the recursion does. *)
Theorem C46_tailrec_is_recursion : forall W Args R (fn : Args -> M W (bounce Args R)) a w r w2,
  (exists n, trun fn n (tstart a, w) = (Finished r, w2)) <-> evals fn a w r w2.
Proof. exact (fun W Args R => C46_pf). Qed.
Print Assumptions C46_tailrec_is_recursion.
Theorem C46_constant_stack : forall W Args R (fn : Args -> M W (bounce Args R)) n a w,
  depth (fst (trun fn n (tstart a, w))) <= 3.
Proof. exact (fun W Args R => C46_depth_pf). Qed.
Print Assumptions C46_constant_stack.
Theorem C46_divergence : forall W Args R (fn : Args -> M W (bounce Args R)) a w,
  diverges fn a w <-> forall n r w2, trun fn n (tstart a, w) <> (Finished r, w2).
Proof. exact (fun W Args R => C46_diverges_pf). Qed.
Print Assumptions C46_divergence.
Example C46_example :
  trun (fun '(n, acc) (w : nat) => (Ret (match n with 0 => Result acc | S m => TailCall (m, acc + n) end), S w)) 9
    (tstart (3, 0), 0) = (Finished (Ret 6), 4).
Proof. reflexivity. Qed.
