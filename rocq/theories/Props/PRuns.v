(** Seq and AsyncSeq over any source with any callbacks: both may have effects on the same
    state and may raise (parts of C27, C31, C32, C72, C83). *)
From Coq Require Import List ZArith Bool Lia.
From Verif.Model Require Import Base Gen OptionResult Seq.
From Verif.Model Require AsyncSeq.
From Verif.Spec Require Import RunSpec.
From Verif.Proofs Require Import SeqFacts SeqFacts3 RunFacts RunFacts2 RunFacts3 RunFacts5.
From Verif.Proofs Require RunFacts4.
Import ListNotations.
Local Open Scope py_scope.

(** For the examples: a queue, a source that takes from it until it is empty, and a
    callback that puts one less at its end.  How many elements there are depends on the
    callback. *)
Definition queue : Type := list nat.
CoFixpoint from_queue : gen queue nat := Gen (fun q => match q with [] => (Ret Stop, []) | x :: q => (Ret (Yield x from_queue), q) end).
Definition queued : iterable queue nat := ret from_queue.
Definition again (x : nat) : M queue nat := fun q => match x with 0 => (Ret x, q) | 3 => (Raise KeyError, q) | S n => (Ret x, q ++ [n]) end.

(** ** C27 *)
(** What iterating hands out, how it ends and what it does are exactly those of asking the
    source for an element, calling the callback on it, and so on. *)
Theorem C27_any_source : forall W A B (src : iterable W A) w g w0, src w = (Ret g, w0) ->
  (forall (f : A -> M W B) l r w1, iterates (map f src) w l r w1 <-> runs (fun _ x => do y <- outside (f x); ret (tt, [y])) tt g w0 l r w1) /\
  (forall (f : A -> M W B) l r w1, iterates (dict f src) w l r w1 <-> runs (fun _ x => do y <- outside (f x); ret (tt, [y])) tt g w0 l r w1) /\
  (forall (f : A -> M W (option B)) l r w1, iterates (choose f src) w l r w1 <->
     runs (fun _ x => do o <- outside (f x); ret (tt, match o with Some y => [y] | None => [] end)) tt g w0 l r w1) /\
  (forall (f : A -> M W (iterable W B)) l r w1, iterates (collect f src) w l r w1 <-> runs_inner f g w0 l r w1) /\
  (forall (f : A -> M W (list B)) l r w1, iterates (collect (fun x => do ys <- f x; ret (of_list ys)) src) w l r w1 <->
     runs (fun _ x => do ys <- outside (f x); ret (tt, ys)) tt g w0 l r w1) /\
  (forall (p : A -> M W bool) l r w1, iterates (filter p src) w l r w1 <->
     exists r0, runs (fun _ x => do b <- p x; ret (tt, if b : bool then [x] else [])) tt g w0 l r0 w1 /\ r = ended r0).
Proof.
  intros W A B src w g w0 E.
  split; [exact (map_any src w g w0 E)|]. split; [exact (dict_any src w g w0 E)|]. split; [exact (choose_any src w g w0 E)|].
  split; [exact (collect_any src w g w0 E)|]. split; [exact (collect_lists_any src w g w0 E)|exact (filter_any src w g w0 E)].
Qed.
Print Assumptions C27_any_source.
Example C27_any_source_ex : iterates (map again queued) [2; 1] [2; 1; 1; 0; 0] (Ret tt) [] /\ iterates (map again queued) [1; 4] [1; 4; 0] (Raise KeyError) [].
Proof.
  split; apply (proj1 (C27_any_source queue nat nat queued _ from_queue _ eq_refl) again).
  - do 5 (eapply (ru_next _ _ _ _ _ _ _ _ [_]); [eapply pu_yield; [reflexivity|apply pu_none]|reflexivity|]). apply ru_end. now apply pr_stop.
  - do 3 (eapply (ru_next _ _ _ _ _ _ _ _ [_]); [eapply pu_yield; [reflexivity|apply pu_none]|reflexivity|]).
    eapply ru_raise; [eapply pu_yield; [reflexivity|apply pu_none]|reflexivity].
Qed.

(** A state other than None. *)
Theorem C27_any_scan_partial : forall W A S (f : S -> A -> M W S) s (src : iterable W A) w g w0, src w = (Ret g, w0) -> forall l r w1,
  iterates (scan f s src) w l r w1 <->
  exists l1 r0, l = s :: l1 /\ runs (fun s x => do s1 <- f s x; ret (s1, [s1])) s g w0 l1 r0 w1 /\ r = ended r0.
Proof. exact scan_any. Qed.
Print Assumptions C27_any_scan_partial.
Example C27_any_scan_partial_ex : iterates (scan (fun s x => do y <- again x; ret (s + y)) 10 queued) [2] [10; 12; 13; 13] (Ret tt) [].
Proof.
  apply (C27_any_scan_partial _ _ _ _ _ queued _ from_queue [2] eq_refl). exists [12; 13; 13], (Ret tt). split; [reflexivity|]. split; [|reflexivity].
  do 3 (eapply (ru_next _ _ _ _ _ _ _ _ [_]); [eapply pu_yield; [reflexivity|apply pu_none]|reflexivity|]). apply ru_end. now apply pr_stop.
Qed.

(** The state None. *)
Theorem C27_any_scan_none_partial : forall W A (src : iterable W A) w g w0, src w = (Ret g, w0) ->
  forall (is_none : A -> bool) (f : A -> A -> M W A) none l r w1, is_none none = true ->
  (iterates (scan_value is_none f none src) w l r w1 <->
   (l = [] /\ produces g w0 [] r w1) \/
   exists x g1 w2 l1 r0, l = x :: l1 /\ pulled g w0 [x] g1 w2 /\ runs (fun s x => do s1 <- f s x; ret (s1, [s1])) x g1 w2 l1 r0 w1 /\ r = ended r0).
Proof. exact @scan_none_any. Qed.
Print Assumptions C27_any_scan_none_partial.
Example C27_any_scan_none_partial_ex : iterates (scan_value (Nat.eqb 99) (fun s x => do y <- again x; ret (s + y)) 99 queued) [5; 1] [5; 6; 6] (Ret tt) [].
Proof.
  apply (C27_any_scan_none_partial _ _ queued _ from_queue [5; 1] eq_refl (Nat.eqb 99)); [reflexivity|]. right. exists 5, from_queue, [1], [6; 6], (Ret tt).
  split; [reflexivity|]. split; [eapply pu_yield; [reflexivity|apply pu_none]|]. split; [|reflexivity].
  do 2 (eapply (ru_next _ _ _ _ _ _ _ _ [_]); [eapply pu_yield; [reflexivity|apply pu_none]|reflexivity|]). apply ru_end. now apply pr_stop.
Qed.

Theorem C27_any_zip : forall W A B (src : iterable W A) (src2 : iterable W B) w g w0 h w2, src w = (Ret g, w0) -> src2 w0 = (Ret h, w2) -> forall l r w1,
  iterates (zip src src2) w l r w1 <-> runs_both g h w2 l r w1.
Proof. exact zip_any. Qed.
Print Assumptions C27_any_zip.
(** Both sources take from the same queue; the last element has no partner and is lost. *)
Example C27_any_zip_ex : iterates (zip queued queued) [1; 2; 3; 4; 5] [(1, 2); (3, 4)] (Ret tt) [].
Proof.
  apply (C27_any_zip _ _ _ queued queued _ from_queue [1; 2; 3; 4; 5] from_queue [1; 2; 3; 4; 5] eq_refl eq_refl).
  do 2 (eapply rb_next; [eapply pu_yield; [reflexivity|apply pu_none]|eapply pu_yield; [reflexivity|apply pu_none]|]).
  eapply rb_second; [eapply pu_yield; [reflexivity|apply pu_none]|]. now apply pr_stop.
Qed.

Theorem C27_any_mapi : forall W A B (f : Z -> A -> M W B) (src : iterable W A) w g w0, src w = (Ret g, w0) ->
  (forall l r w1, runs (fun i x => do y <- f i x; ret ((i + 1)%Z, [y])) 0%Z g w0 l r w1 ->
     exists n, forall fuel, n <= fuel -> mapi fuel f src w = (rmap (fun _ => l) (ended r), w1)) /\
  (forall fuel r w1, mapi fuel f src w = (r, w1) -> r <> Raise OutOfFuel ->
     exists l r0, runs (fun i x => do y <- f i x; ret ((i + 1)%Z, [y])) 0%Z g w0 l r0 w1 /\ r = rmap (fun _ => l) (ended r0)).
Proof. exact mapi_any. Qed.
Print Assumptions C27_any_mapi.
Example C27_any_mapi_ex : mapi 10 (fun i x => do y <- again x; ret (i, y)) queued [2] = (Ret [(0%Z, 2); (1%Z, 1); (2%Z, 0)], []).
Proof. reflexivity. Qed.

Theorem C27_any_collect_method : forall W A B (f : A -> M W (iterable W B)) (src : iterable W A) w g w0 its r w1, src w = (Ret g, w0) ->
  runs (fun _ x => do it <- outside (f x); ret (tt, [it])) tt g w0 its r w1 ->
  exists n, forall fuel, n <= fuel ->
  match r with
  | Ret _ => exists it, seq_collect fuel f src w = (Ret it, w1) /\ forall w2 l r2 w3, iterates_all its w2 l r2 w3 -> iterates it w2 l r2 w3
  | Raise e => seq_collect fuel f src w = (Raise e, w1)
  end.
Proof. exact seq_collect_any. Qed.
Print Assumptions C27_any_collect_method.
Example C27_any_collect_method_ex : exists n, forall fuel, n <= fuel ->
  exists it, seq_collect fuel (fun x => do y <- again x; ret (of_list [y; y])) queued [1] = (Ret it, []) /\ iterates it [] [1; 1; 0; 0] (Ret tt) [].
Proof.
  destruct (C27_any_collect_method _ _ _ (fun x => do y <- again x; ret (of_list [y; y])) queued [1] from_queue [1] [of_list [1; 1]; of_list [0; 0]] (Ret tt) [] eq_refl) as [n H].
  - do 2 (eapply (ru_next _ _ _ _ _ _ _ _ [_]); [eapply pu_yield; [reflexivity|apply pu_none]|reflexivity|]). apply ru_end. now apply pr_stop.
  - exists n. intros fuel L. destruct (H fuel L) as (it & E & K). exists it. split; [exact E|]. apply K.
    apply (ia_next _ _ _ [1; 1] [] [0; 0]); [left; eexists _, _; split; [reflexivity|apply list_gen_produces]|].
    apply (ia_next _ _ _ [0; 0] [] []); [left; eexists _, _; split; [reflexivity|apply list_gen_produces]|apply ia_nil].
Qed.

(** A source that cannot be opened. *)
Theorem C27_unopened : forall W A B C S (src : iterable W A) w e w1, src w = (Raise e, w1) ->
  (forall f : A -> M W B, iterates (map f src) w [] (leaving (Raise e)) w1) /\
  (forall f : A -> M W (option B), iterates (choose f src) w [] (leaving (Raise e)) w1) /\
  (forall f : A -> M W (iterable W B), iterates (collect f src) w [] (leaving (Raise e)) w1) /\
  (forall p : A -> M W bool, filter p src w = (Raise e, w1)) /\
  (forall f : A -> M W B, dict f src w = (Raise e, w1)) /\
  (forall (f : S -> A -> M W S) s, scan f s src w = (Raise e, w1)) /\
  (forall src2 : iterable W C, zip src src2 w = (Raise e, w1)).
Proof.
  intros W A B C S src w e w1 E.
  assert (D : forall X (m : gen W A -> M W X), (do g <- src; m g) w = (Raise e, w1)) by (intros X m; unfold bind; rewrite E; reflexivity).
  split; [intros f; left; eexists _, _; split; [reflexivity|now apply opening_raises]|].
  split; [intros f; left; eexists _, _; split; [reflexivity|now apply opening_raises]|].
  split; [intros f; left; eexists _, _; split; [reflexivity|now apply opening_raises]|].
  repeat split; intros; apply D.
Qed.
Print Assumptions C27_unopened.
Example C27_unopened_ex : iterates (map again (raise KeyError)) [7] [] (Raise KeyError) [7].
Proof. exact (proj1 (C27_unopened queue nat nat nat nat (raise KeyError) [7] KeyError [7] eq_refl) again). Qed.

(** ** C31 *)
Theorem C31_any_source : forall W A B (src : iterable W A) w g w0, src w = (Ret g, w0) ->
  (forall f : A -> M W (option B),
     (forall r w1, searches (fun _ => f) 0 g w0 r w1 -> exists n, forall fuel, n <= fuel -> try_pick fuel f src w = (r, w1)) /\
     (forall fuel r w1, try_pick fuel f src w = (r, w1) -> r <> Raise OutOfFuel -> searches (fun _ => f) 0 g w0 r w1)) /\
  (forall p : A -> M W bool,
     (forall r w1, searches (fun i x => do b <- p x; ret (if b : bool then Some i else None)) 0 g w0 r w1 ->
        exists n, forall fuel, n <= fuel -> try_find_index fuel p src w = (r, w1)) /\
     (forall fuel r w1, try_find_index fuel p src w = (r, w1) -> r <> Raise OutOfFuel ->
        searches (fun i x => do b <- p x; ret (if b : bool then Some i else None)) 0 g w0 r w1)).
Proof.
  intros W A B src w g w0 E. split.
  - intros f. exact (try_pick_any W A B f src w g w0 E).
  - intros p. exact (try_find_index_any W A p src w g w0 E).
Qed.
Print Assumptions C31_any_source.
(** The search takes no more from the queue than it needs, and sees what it has put there. *)
Example C31_any_source_ex : exists n, forall fuel, n <= fuel ->
  try_find_index fuel (fun x => do y <- again x; ret (Nat.eqb y 0)) queued [2; 2] = (Ret (Some 4%Z), [0]).
Proof.
  apply (proj1 (proj2 (C31_any_source queue nat nat queued [2; 2] from_queue [2; 2] eq_refl) _)).
  do 4 (eapply se_next; [eapply pu_yield; [reflexivity|apply pu_none]|reflexivity|]). eapply (se_found _ 4%Z); [eapply pu_yield; [reflexivity|apply pu_none]|reflexivity].
Qed.

(** ** C32 *)
Theorem C32_any_source : forall W A B S (src : iterable W A) w g w0, src w = (Ret g, w0) ->
  (forall (f : S -> A -> M W S) s,
     (forall r w1, folds f s g w0 r w1 -> exists n, forall fuel, n <= fuel -> fold fuel f s src w = (r, w1)) /\
     (forall fuel r w1, fold fuel f s src w = (r, w1) -> r <> Raise OutOfFuel -> folds f s g w0 r w1)) /\
  (forall f : A -> M W unit,
     (forall r w1, folds (fun _ => f) tt g w0 r w1 -> exists n, forall fuel, n <= fuel -> iter fuel f src w = (r, w1)) /\
     (forall fuel r w1, iter fuel f src w = (r, w1) -> r <> Raise OutOfFuel -> folds (fun _ => f) tt g w0 r w1)) /\
  (forall zero add (proj : A -> M W B),
     (forall r w1, folds (fun s x => do y <- outside (proj x); add s y) zero g w0 r w1 ->
        exists n, forall fuel, n <= fuel -> sum_by fuel zero add proj src w = (r, w1)) /\
     (forall fuel r w1, sum_by fuel zero add proj src w = (r, w1) -> r <> Raise OutOfFuel ->
        folds (fun s x => do y <- outside (proj x); add s y) zero g w0 r w1)).
Proof.
  intros W A B S src w g w0 E. split; [|split].
  - intros f s. exact (fold_any f s src w g w0 E).
  - intros f. exact (iter_any f src w g w0 E).
  - intros zero add proj. exact (sum_any zero add proj src w g w0 E).
Qed.
Print Assumptions C32_any_source.
Example C32_any_source_ex : exists n, forall fuel, n <= fuel -> fold fuel (fun s x => do y <- again x; ret (s + y)) 0 queued [2; 1] = (Ret 4, []).
Proof.
  apply (proj1 (proj1 (C32_any_source queue nat nat nat queued [2; 1] from_queue [2; 1] eq_refl) _ 0)).
  do 5 (eapply fo_next; [eapply pu_yield; [reflexivity|apply pu_none]|reflexivity|]). apply (fo_end _ _ _ _ (Ret tt)). now apply pr_stop.
Qed.

Theorem C32_any_max_min : forall W A B (better : B -> B -> bool) (proj : A -> M W B), strict_weak better ->
  forall (src : iterable W A) w g w0 l r w1, src w = (Ret g, w0) -> runs (fun _ x => do y <- outside (proj x); ret (tt, [y])) tt g w0 l r w1 ->
  exists n, forall fuel, n <= fuel ->
    match r with
    | Raise e => best_by fuel better proj src w = (Raise e, w1)
    | Ret _ => (l = [] -> best_by fuel better proj src w = (Raise ValueError, w1)) /\
               (l <> [] -> exists m, best_by fuel better proj src w = (Ret m, w1) /\ first_best better l m)
    end.
Proof. exact best_any. Qed.
Print Assumptions C32_any_max_min.
Example C32_any_max_min_ex : best_by 10 (fun y m => Nat.ltb m y) again queued [1; 2] = (Ret 2, []) /\
  best_by 10 (fun y m => Nat.ltb m y) again queued [1; 4] = (Raise KeyError, []).
Proof. split; reflexivity. Qed.

(** ** C72 *)
Theorem C72_any_source : forall W A B S (src : iterable W A) w g w0, src w = (Ret g, w0) ->
  (forall (f : A -> M W B) l r w1, produces (AsyncSeq.map f src) w l r w1 <-> runs (fun _ x => do y <- outside (f x); ret (tt, [y])) tt g w0 l r w1) /\
  (forall (p : A -> M W bool) l r w1, produces (AsyncSeq.filter p src) w l r w1 <->
     runs (fun _ x => do b <- outside (p x); ret (tt, if b : bool then [x] else [])) tt g w0 l r w1) /\
  (forall (f : A -> M W (option B)) l r w1, produces (AsyncSeq.choose f src) w l r w1 <->
     runs (fun _ x => do o <- outside (f x); ret (tt, match o with Some y => [y] | None => [] end)) tt g w0 l r w1) /\
  (forall (f : A -> M W (iterable W B)) l r w1, produces (AsyncSeq.collect f src) w l r w1 <-> runs_inner f g w0 l r w1) /\
  (forall (f : S -> A -> M W S) s l r w1, produces (AsyncSeq.scan f s src) w l r w1 <->
     exists l1, l = s :: l1 /\ runs (fun s x => do s1 <- outside (f s x); ret (s1, [s1])) s g w0 l1 r w1).
Proof.
  intros W A B S src w g w0 E. split; [|split; [|split; [|split]]].
  - intros f. exact (RunFacts4.async_map_any W A B f src w g w0 E).
  - intros p. exact (RunFacts4.async_filter_any W A p src w g w0 E).
  - intros f. exact (RunFacts4.async_choose_any W A B f src w g w0 E).
  - intros f. exact (RunFacts4.async_collect_any W A B f src w g w0 E).
  - intros f s. exact (RunFacts4.async_scan_any W A S f s src w g w0 E).
Qed.
Print Assumptions C72_any_source.
Example C72_any_source_ex : produces (AsyncSeq.filter (fun x => do y <- again x; ret (Nat.ltb 0 y)) queued) [2; 1] [2; 1; 1] (Ret tt) [].
Proof.
  apply (proj1 (proj2 (C72_any_source queue nat nat nat queued [2; 1] from_queue [2; 1] eq_refl)) _).
  do 3 (eapply (ru_next _ _ _ _ _ _ _ _ [_]); [eapply pu_yield; [reflexivity|apply pu_none]|reflexivity|]).
  do 2 (eapply (ru_next _ _ _ _ _ _ _ _ []); [eapply pu_yield; [reflexivity|apply pu_none]|reflexivity|]). apply ru_end. now apply pr_stop.
Qed.

Theorem C72_any_concat : forall W A (src : iterable W (iterable W A)) w g w0, src w = (Ret g, w0) -> forall l r w1,
  produces (AsyncSeq.concat src) w l r w1 <-> runs_inner (fun it => ret it) g w0 l r w1.
Proof. exact RunFacts4.async_concat_any. Qed.
Print Assumptions C72_any_concat.
(** The second inner sequence takes from the queue what the first has left: nothing. *)
Example C72_any_concat_ex : produces (AsyncSeq.concat (of_list [queued; queued])) [5; 6] [5; 6] (Ret tt) [].
Proof.
  apply (C72_any_concat _ _ (of_list [queued; queued]) [5; 6] (list_gen [queued; queued]) [5; 6] eq_refl).
  eapply (ri_next _ _ _ _ _ _ _ _ [5; 6]); [eapply pu_yield; [reflexivity|apply pu_none]|reflexivity| |].
  - left. eexists _, _. split; [reflexivity|]. do 2 (eapply pr_yield; [reflexivity|]). now apply pr_stop.
  - eapply (ri_next _ _ _ _ _ _ _ _ [] _ []); [eapply pu_yield; [reflexivity|apply pu_none]|reflexivity| |apply ri_end; now apply pr_stop].
    left. eexists _, _. split; [reflexivity|]. now apply pr_stop.
Qed.

Theorem C72_any_fold : forall W A S (f : S -> A -> M W S) s (src : iterable W A) w g w0, src w = (Ret g, w0) ->
  (forall r w1, folds f s g w0 r w1 -> exists n, forall fuel, n <= fuel -> AsyncSeq.fold fuel f s src w = (leaving r, w1)) /\
  (forall fuel r w1, AsyncSeq.fold fuel f s src w = (r, w1) -> r <> Raise OutOfFuel -> exists r0, folds f s g w0 r0 w1 /\ r = leaving r0).
Proof. exact RunFacts4.async_fold_any. Qed.
Print Assumptions C72_any_fold.
Example C72_any_fold_ex : AsyncSeq.fold 10 (fun s x => do y <- again x; ret (s + y)) 0 queued [2; 1] = (Ret 4, []).
Proof. reflexivity. Qed.

(** ** C83 *)
Theorem C83_any_source_partial : forall W A B S (src : iterable W A) w g w0 e w1, src w = (Ret g, w0) -> e <> StopIterationExn ->
  (forall (f : A -> M W B) l, fails (fun _ x => do y <- f x; ret (tt, y)) tt g w0 l e w1 -> iterates (map f src) w (List.map snd l) (Raise e) w1) /\
  (forall (p : A -> M W bool) l, fails (fun _ x => do b <- p x; ret (tt, b)) tt g w0 l e w1 ->
     iterates (filter p src) w (List.map fst (List.filter snd l)) (Raise e) w1) /\
  (forall (f : A -> M W (option B)) l, fails (fun _ x => do o <- f x; ret (tt, o)) tt g w0 l e w1 ->
     iterates (choose f src) w (flat_map (fun p => opt_to_list (snd p)) l) (Raise e) w1) /\
  (forall (f : A -> M W (list B)) l, fails (fun _ x => do ys <- f x; ret (tt, ys)) tt g w0 l e w1 ->
     iterates (collect (fun x => do ys <- f x; ret (of_list ys)) src) w (flat_map snd l) (Raise e) w1) /\
  (forall (f : S -> A -> M W S) s l, fails (fun s x => do s1 <- f s x; ret (s1, s1)) s g w0 l e w1 ->
     iterates (scan f s src) w (s :: List.map snd l) (Raise e) w1 /\
     exists n, forall fuel, n <= fuel -> fold fuel f s src w = (Raise e, w1)) /\
  (forall (f : Z -> A -> M W B) l, fails (fun i x => do y <- f i x; ret ((i + 1)%Z, y)) 0%Z g w0 l e w1 ->
     exists n, forall fuel, n <= fuel -> mapi fuel f src w = (Raise e, w1)) /\
  (forall (f : A -> M W unit) l, fails (fun _ x => do y <- f x; ret (tt, y)) tt g w0 l e w1 ->
     exists n, forall fuel, n <= fuel -> iter fuel f src w = (Raise e, w1)) /\
  (forall (f : A -> M W (option B)) l, fails (fun _ x => do o <- f x; ret (tt, o)) tt g w0 l e w1 -> Forall (fun p => snd p = None) l ->
     exists n, forall fuel, n <= fuel -> try_pick fuel f src w = (Raise e, w1)) /\
  (forall (p : A -> M W bool) l, fails (fun _ x => do b <- p x; ret (tt, b)) tt g w0 l e w1 -> Forall (fun p => snd p = false) l ->
     exists n, forall fuel, n <= fuel -> try_find_index fuel p src w = (Raise e, w1)) /\
  (forall (proj : A -> M W B) l, fails (fun _ x => do y <- proj x; ret (tt, y)) tt g w0 l e w1 ->
     (forall zero add, exists n, forall fuel, n <= fuel -> sum_by fuel zero (fun x y => ret (add x y)) proj src w = (Raise e, w1)) /\
     (forall better, exists n, forall fuel, n <= fuel -> best_by fuel better proj src w = (Raise e, w1))).
Proof. exact fails_any. Qed.
Print Assumptions C83_any_source_partial.
Example C83_any_source_partial_ex : iterates (filter (fun x => do y <- again x; ret (Nat.eqb y 1)) queued) [1; 4] [1] (Raise KeyError) [].
Proof.
  apply (proj1 (proj2 (C83_any_source_partial queue nat nat nat queued [1; 4] from_queue [1; 4] KeyError [] eq_refl ltac:(discriminate))) _ [(1, true); (4, false); (0, false)]).
  do 3 (eapply fa_later; [eapply pu_yield; [reflexivity|apply pu_none]|reflexivity|]). eapply fa_here; [eapply pu_yield; [reflexivity|apply pu_none]|reflexivity].
Qed.
