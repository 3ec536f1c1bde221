(** Property theorems C27-C33 (Seq). *)
From Coq Require Import List ZArith Bool Lia.
From Verif.Model Require Import Base Gen OptionResult Seq.
From Verif.Spec Require Import AsyncSeqSpec ListM SeqSpec.
From Verif.Proofs Require Import SeqFacts5 SeqFacts SeqFacts2 SeqFacts3 SeqFacts4.
Import ListNotations.
Local Open Scope py_scope.

(** C27, pure callbacks over any source, which may have effects and may raise: the
    result hands out the elements of the list function, then ends the way the source
    ends, with the effects of the source.  [leaving]: a StopIteration raised by [iter()]
    of the source inside a generator is a RuntimeError. *)
Theorem C27_map : forall W A B (F : A -> B) (src : iterable W A) w l r w1, iterates src w l r w1 ->
  iterates (map (fun x => ret (F x)) src) w (List.map F l) (leaving r) w1.
Proof. exact (fun W A B => @map_iterates W A B). Qed.
Print Assumptions C27_map.
Theorem C27_filter : forall W A (P : A -> bool) (src : iterable W A) w l r w1, iterates src w l r w1 ->
  iterates (filter (fun x => ret (P x)) src) w (List.filter P l) r w1.
Proof. exact (fun W A => @filter_produces W A). Qed.
Print Assumptions C27_filter.
Theorem C27_choose : forall W A B (F : A -> option B) (src : iterable W A) w l r w1, iterates src w l r w1 ->
  iterates (choose (fun x => ret (F x)) src) w (flat_map (fun x => match F x with Some y => [y] | None => [] end) l) (leaving r) w1.
Proof. exact (fun W A B => @choose_iterates W A B). Qed.
Print Assumptions C27_choose.
Theorem C27_collect : forall W A B (F : A -> list B) (src : iterable W A) w l r w1, iterates src w l r w1 ->
  iterates (collect (fun x => ret (of_list (F x))) src) w (flat_map F l) (leaving r) w1.
Proof. exact (fun W A B => @collect_iterates W A B). Qed.
Print Assumptions C27_collect.
Theorem C27_concat : forall W A (its : list (iterable W A)) w l r w1, iterates_all its w l r w1 -> iterates (concat its) w l r w1.
Proof. exact (fun W A => @concat_iterates W A). Qed.
Print Assumptions C27_concat.
Theorem C27_append : forall W A (others : list (iterable W A)) src w l r w1, iterates_all (src :: others) w l r w1 ->
  iterates (append others src) w l r w1.
Proof. exact (fun W A others src => @concat_iterates W A (src :: others)). Qed.
Print Assumptions C27_append.
Theorem C27_skip : forall W A n (src : iterable W A) w l r w1, iterates src w l r w1 ->
  iterates (skip n src) w (skipn (Z.to_nat n) l) (leaving r) w1.
Proof. exact (fun W A => @skip_iterates W A). Qed.
Print Assumptions C27_skip.
Theorem C27_tail : forall W A (src : iterable W A) w l r w1, iterates src w l r w1 -> iterates (tail src) w (tl l) (leaving r) w1.
Proof. exact (fun W A src w l r w1 H => eq_ind _ (fun k => iterates (tail src) w k (leaving r) w1) (@skip_iterates W A 1%Z src w l r w1 H) _ (match l with [] => eq_refl | _ :: _ => eq_refl end)). Qed.
Print Assumptions C27_tail.
Theorem C27_take : forall W A n (xs : list A) (w : W), iterates (take n (of_list xs)) w (firstn (Z.to_nat n) xs) (Ret tt) w.
Proof. exact (fun W A => @take_list_pf W A). Qed.
Print Assumptions C27_take.
Theorem C27_pairwise : forall W A (src : iterable W A) w l r w1, iterates src w l r w1 ->
  iterates (pairwise src) w (combine l (tl l)) r w1.
Proof. exact (fun W A => @pairwise_iterates W A). Qed.
Print Assumptions C27_pairwise.
Theorem C27_scan_partial : forall W A S (F : S -> A -> S) s (src : iterable W A) w g w0 l r w1,
  src w = (Ret g, w0) -> produces g w0 l r w1 ->
  iterates (scan (fun s x => ret (F s x)) s src) w (s :: scan_list F s l) r w1.
Proof. exact (fun W A => @scan_iterates_pf W A). Qed.
Print Assumptions C27_scan_partial.
(** With the state None, scan hands out what the source starts with instead of the state,
    folds from there, and so hands out one element less. *)
Theorem C27_scan_none_partial : forall W A (is_none : A -> bool) (F : A -> A -> A) s (src : iterable W A) w g w0 l r w1,
  src w = (Ret g, w0) -> produces g w0 l r w1 ->
  iterates (scan_value is_none (fun s x => ret (F s x)) s src) w
    (if is_none s then match l with [] => [] | x :: l => x :: scan_list F x l end else s :: scan_list F s l) r w1.
Proof. exact (fun W A => @scan_value_pf W A). Qed.
Print Assumptions C27_scan_none_partial.
Theorem C27_scan_none_refuted : forall W A (is_none : A -> bool) (F : A -> A -> A) none l (w : W), is_none none = true ->
  exists out, iterates (scan_value is_none (fun s x => ret (F s x)) none (of_list l)) w out (Ret tt) w /\
    out <> none :: scan_list F none l.
Proof. exact (fun W A => @scan_none_refuted_pf W A). Qed.
Print Assumptions C27_scan_none_refuted.
Example C27_scan_none_case :
  let add (a b : option nat) := match a, b with Some a, Some b => Some (a + b) | Some a, None => Some a | None, b => b end in
  let is_none (a : option nat) := match a with None => true | Some _ => false end in
  iterates (scan_value is_none (fun s x => ret (add s x)) None (of_list [Some 1; Some 2])) tt [Some 1; Some 3] (Ret tt) tt /\
  None :: scan_list add None [Some 1; Some 2] = [None; Some 1; Some 3].
Proof.
  intros add is_none. split; [|reflexivity].
  exact (C27_scan_none_partial unit (option nat) is_none add None _ tt _ tt [Some 1; Some 2] (Ret tt) tt eq_refl (list_gen_produces _ tt)).
Qed.
Theorem C27_zip : forall W A B (src : iterable W A) w l r w1 (ys : list B), List.length l <= List.length ys ->
  iterates src w l r w1 -> iterates (zip src (of_list ys)) w (combine l ys) r w1.
Proof. exact (fun W A B => @zip_list W A B). Qed.
Print Assumptions C27_zip.
Theorem C27_zip_short_second : forall W A B (src : iterable W A) w l g1 w1 (ys : list B), List.length l = S (List.length ys) ->
  pulls src w l g1 w1 -> iterates (zip src (of_list ys)) w (combine l ys) (Ret tt) w1.
Proof. exact (fun W A B => @zip_list_long W A B). Qed.
Print Assumptions C27_zip_short_second.

(** The methods Seq.concat and Seq.collect iterate the outer sequence, and call the
    mapping, when they are called; what they return then iterates the inner sequences one
    after the other. *)
Theorem C27_concat_method : forall W A (self : iterable W (iterable W A)) w its r w1, iterates self w its r w1 ->
  exists n, forall fuel, n <= fuel ->
  match r with
  | Ret _ => exists it, seq_concat fuel self w = (Ret it, w1) /\ forall w2 l r2 w3, iterates_all its w2 l r2 w3 -> iterates it w2 l r2 w3
  | Raise e => seq_concat fuel self w = (Raise e, w1)
  end.
Proof. exact concat_method_pf. Qed.
Print Assumptions C27_concat_method.
Theorem C27_collect_method : forall W A B (f : A -> M W (iterable W B)) ms w,
  let '(its, r, w1) := emit (List.map (fun m => do x <- m; do it <- outside (f x); ret [it]) ms) w in
  exists n, forall fuel, n <= fuel ->
  match ended r with
  | Ret _ => exists it, seq_collect fuel f (of_script ms) w = (Ret it, w1) /\ forall w2 l r2 w3, iterates_all its w2 l r2 w3 -> iterates it w2 l r2 w3
  | Raise e => seq_collect fuel f (of_script ms) w = (Raise e, w1)
  end.
Proof. exact collect_method_pf. Qed.
Print Assumptions C27_collect_method.
Example C27_collect_method_case :
  exists it, seq_collect 9 (fun n calls => (Ret (of_list (repeat n n)), S calls)) (of_script [ret 2; ret 0; ret 1]) 0 = (Ret it, 3) /\ iterates it 7 [2; 2; 1] (Ret tt) 7.
Proof.
  eexists. split; [reflexivity|]. apply concat_iterates. change [2; 2; 1] with ([2; 2] ++ [] ++ [1] ++ []).
  repeat (eapply ia_next; [left; eexists _, _; split; [reflexivity|]; repeat (eapply pr_yield; [reflexivity|]); apply pr_stop; reflexivity|]). constructor.
Qed.

(** C27, effectful callbacks: elements, effects and exceptions come in source order, and
    iteration stops at the first exception.  A StopIteration is the end of the source, and
    the end of filter, scan, zip and mapi ([ended]); inside map, choose and collect a
    StopIteration of the callback is a RuntimeError ([outside]). *)
Theorem C27_map_effects : forall W A B (f : A -> M W B) ms w,
  let '(l, r, w1) := emit (List.map (fun m => do x <- m; do y <- outside (f x); ret [y]) ms) w in
  iterates (map f (of_script ms)) w l (ended r) w1.
Proof. exact (fun W A B => @map_effects_pf W A B). Qed.
Print Assumptions C27_map_effects.
(** starmap, map2, map3: the elements are unpacked; one that cannot be is a TypeError *)
Theorem C27_starmap_effects : forall W X B (f : list X -> M W B) (ms : list (M W (PyList.star X))) w,
  let '(l, r, w1) := emit (List.map (fun m => do a <- m; match a with PyList.Args xs => do y <- outside (f xs); ret [y]
                                                          | PyList.NotIterable _ => raise TypeError end) ms) w in
  iterates (starmap f (of_script ms)) w l (ended r) w1.
Proof. exact starmap_effects_pf. Qed.
Print Assumptions C27_starmap_effects.
Theorem C27_dict : forall W A B (F : A -> B) (src : iterable W A) w l r w1, iterates src w l r w1 ->
  iterates (dict (fun x => ret (F x)) src) w (List.map F l) r w1.
Proof. exact dict_pf. Qed.
Print Assumptions C27_dict.
Theorem C27_filter_effects : forall W A (p : A -> M W bool) ms w,
  let '(l, r, w1) := emit (List.map (fun m => do x <- m; do b <- p x; ret (if b : bool then [x] else [])) ms) w in
  iterates (filter p (of_script ms)) w l (ended r) w1.
Proof. exact (fun W A => @filter_effects_pf W A). Qed.
Print Assumptions C27_filter_effects.
Theorem C27_choose_effects : forall W A B (f : A -> M W (option B)) ms w,
  let '(l, r, w1) := emit (List.map (fun m => do x <- m; do o <- outside (f x); ret (match o with Some y => [y] | None => [] end)) ms) w in
  iterates (choose f (of_script ms)) w l (ended r) w1.
Proof. exact (fun W A B => @choose_effects_pf W A B). Qed.
Print Assumptions C27_choose_effects.
Theorem C27_collect_effects : forall W A B (f : A -> M W (list B)) ms w,
  let '(l, r, w1) := emit (List.map (fun m => do x <- m; outside (f x)) ms) w in
  iterates (collect (fun x => do ys <- f x; ret (of_list ys)) (of_script ms)) w l (ended r) w1.
Proof. exact (fun W A B => @collect_effects_pf W A B). Qed.
Print Assumptions C27_collect_effects.
(** the mapper may give any iterables: opening one may fail, and so may its elements *)
Theorem C27_collect_sources : forall W A B (f : A -> M W (iterable W B)) ms w l r w1, Forall no_stop ms ->
  collects f ms w l r w1 -> iterates (collect f (of_script ms)) w l (leaving r) w1.
Proof. exact (fun W A B f ms w l r w1 N C => collect_sources_pf f ms w l r w1 C N). Qed.
Print Assumptions C27_collect_sources.
Example C27_collect_sources_case : forall w : nat,
  iterates (collect (fun n : nat => ret (if Nat.eqb n 1 then of_list [7; 8] else raise StopIterationExn)) (of_script [ret 1; ret 2; ret 1])) w [7; 8] (Raise RuntimeError) w.
Proof.
  intros w. apply (C27_collect_sources _ _ _ _ _ _ _ (Raise StopIterationExn)).
  - repeat constructor; intros w0; discriminate.
  - apply (co_next _ (ret 1) _ w 1 w (of_list [7; 8]) w [7; 8] w []); [reflexivity..| |].
    + left. exists (list_gen [7; 8]), w. split; [reflexivity|]. apply list_gen_produces.
    + apply (co_inner _ (ret 2) _ w 2 w (raise StopIterationExn) w [] StopIterationExn w); [reflexivity..|]. right. exists StopIterationExn. auto.
Qed.
Theorem C27_scan_effects_partial : forall W A S (f : S -> A -> M W S) s ms w,
  let '(l, r, w1) := scan_emit f s ms w in iterates (scan f s (of_script ms)) w (s :: l) (ended r) w1.
Proof. exact (fun W A => @scan_effects_pf W A). Qed.
Print Assumptions C27_scan_effects_partial.
Theorem C27_scan_none_effects_partial : forall W A (is_none : A -> bool) (f : A -> A -> M W A) none ms w, is_none none = true ->
  match ms with
  | [] => iterates (scan_value is_none f none (of_script ms)) w [] (Ret tt) w
  | m :: ms' =>
      match m w with
      | (Ret x, w1) => let '(l, r, w2) := scan_emit f x ms' w1 in iterates (scan_value is_none f none (of_script ms)) w (x :: l) (ended r) w2
      | (Raise e, w1) => iterates (scan_value is_none f none (of_script ms)) w [] (ended (Raise e)) w1
      end
  end.
Proof. exact (fun W A => @scan_none_effects_pf W A). Qed.
Print Assumptions C27_scan_none_effects_partial.
Theorem C27_zip_effects : forall W A B (ms : list (M W A)) (ns : list (M W B)) w,
  let '(l, r, w1) := emit (zip_script ms ns) w in iterates (zip (of_script ms) (of_script ns)) w l (ended r) w1.
Proof. exact (fun W A B => @zip_effects_pf W A B). Qed.
Print Assumptions C27_zip_effects.
Theorem C27_mapi : forall W A B (F : Z -> A -> B) (src : iterable W A) w l r w1, iterates src w l r w1 ->
  exists n, forall fuel, n <= fuel ->
    mapi fuel (fun i x => ret (F i x)) src w = (rmap (fun _ => List.map (fun '(i, x) => F i x) (number 0 l)) r, w1).
Proof. exact (fun W A B => @mapi_pf W A B). Qed.
Print Assumptions C27_mapi.
Theorem C27_mapi_effects : forall W A B (f : Z -> A -> M W B) ms w,
  let '(l, r, w1) := emit (List.map (fun '(i, m) => do x <- m; do y <- f i x; ret [y]) (number 0 ms)) w in
  exists n, forall fuel, n <= fuel -> mapi fuel f (of_script ms) w = (rmap (fun _ => l) (ended r), w1).
Proof. exact (fun W A B => @mapi_script_pf W A B). Qed.
Print Assumptions C27_mapi_effects.

(** The third element raises after the first two were handed out. *)
Example C27_example :
  let src := of_script [fun log => (Ret 1, log ++ [1]); fun log => (Ret 2, log ++ [2]); fun log => (Raise (UserExn 7), log ++ [3]); fun log => (Ret 4, log ++ [4])] in
  iterates src [] [1; 2] (Raise (UserExn 7)) [1; 2; 3] /\
  iterates (map (fun x => ret (x * 10)) src) [] [10; 20] (Raise (UserExn 7)) [1; 2; 3] /\
  iterates (take 2 src) [] [1; 2] (Ret tt) [1; 2].
Proof.
  assert (H : iterates (of_script [fun log => (Ret 1, log ++ [1]); fun log => (Ret 2, log ++ [2]); fun log => (Raise (UserExn 7), log ++ [3]); fun log => (Ret 4, log ++ [4])]) [] [1; 2] (Raise (UserExn 7)) [1; 2; 3]).
  { left. eexists _, _. split; [reflexivity|]. eapply pr_yield; [reflexivity|]. eapply pr_yield; [reflexivity|]. apply pr_raise. reflexivity. }
  cbv zeta. split; [exact H|]. split.
  - apply (C27_map _ _ _ (fun x => x * 10) _ _ [1; 2] _ _ H).
  - eapply (take_enough 2%Z); [reflexivity|lia|]. eexists _, _. split; [reflexivity|].
    eapply pu_yield; [reflexivity|]. eapply pu_yield; [reflexivity|]. apply pu_none.
Qed.

(** C28: true of every operation that returns a SeqGen; false of filter, scan, zip and
    unfold, which return one-shot iterators.  [I] is any condition on the world under
    which the source is stable. *)
Theorem C28_reiterable_partial : forall W A B (I : W -> Prop) (src : iterable W A) l, reiterable I src l ->
  (forall (f : A -> M W B) F, gives I f F -> reiterable I (map f src) (List.map F l)) /\
  (forall (f : A -> M W (option B)) F, gives I f F ->
     reiterable I (choose f src) (flat_map (fun x => match F x with Some y => [y] | None => [] end) l)) /\
  (forall (f : A -> M W (iterable W B)) F,
     (forall x, exists it, (forall w, I w -> exists w1, f x w = (Ret it, w1) /\ I w1) /\ reiterable I it (F x)) ->
     reiterable I (collect f src) (flat_map F l)) /\
  (forall others ls, Forall2 (reiterable I) others ls -> reiterable I (append others src) (l ++ List.concat ls)) /\
  (forall n, reiterable I (skip n src) (skipn (Z.to_nat n) l)) /\
  (forall n, reiterable I (take n src) (firstn (Z.to_nat n) l)) /\
  reiterable I (pairwise src) (combine l (tl l)) /\
  (forall f, (forall w, I w -> exists w1, f w = (Ret src, w1) /\ I w1) -> reiterable I (delay f) l).
Proof. exact (fun W A B => @C28_pf W A B). Qed.
Print Assumptions C28_reiterable_partial.
Theorem C28_any_number_of_times : forall W A (I : W -> Prop) (it : iterable W A) l, reiterable I it l -> forall n w, I w ->
  exists w1, iterated it n w (repeat l n) w1 /\ I w1.
Proof. exact (fun W A => @reiterable_iterated W A). Qed.
Print Assumptions C28_any_number_of_times.
Theorem C28_lists : forall W A (I : W -> Prop) (xs : list A), reiterable I (of_list xs) xs.
Proof. exact (fun W A => @C28_list_pf W A). Qed.
Print Assumptions C28_lists.
(** The second iteration of the same filter, scan or zip object over a list is empty. *)
Theorem C28_filter_scan_zip_refuted : forall W A B (P : A -> bool) S (F : S -> A -> S) s (xs : list A) (ys : list B) (w : W),
  (exists g, filter (fun x => ret (P x)) (of_list xs) w = (Ret g, w) /\ iterated shared 2 (Some g, w) [List.filter P xs; []] (None, w)) /\
  (exists g, scan (fun s x => ret (F s x)) s (of_list xs) w = (Ret g, w) /\ iterated shared 2 (Some g, w) [s :: scan_list F s xs; []] (None, w)) /\
  (exists g, zip (of_list xs) (of_list ys) w = (Ret g, w) /\ iterated shared 2 (Some g, w) [combine xs ys; []] (None, w)).
Proof. exact C28_refuted_pf. Qed.
Print Assumptions C28_filter_scan_zip_refuted.
(** and so is that of what dict() returns *)
Theorem C28_dict_refuted : forall W A B (F : A -> B) (xs : list A) (w : W),
  exists g, dict (fun x => ret (F x)) (of_list xs) w = (Ret g, w) /\ iterated shared 2 (Some g, w) [List.map F xs; []] (None, w).
Proof. exact dict_twice_pf. Qed.
Print Assumptions C28_dict_refuted.
Theorem C28_unfold_refuted : forall W A (f : nat -> M W (option (A * nat))) s w l w1,
  produces (unfold f s) w l (Ret tt) w1 -> iterated shared 2 (Some (unfold f s), w) [l; []] (None, w1).
Proof. exact (fun W A f s => @shared_twice W A (unfold f s)). Qed.
Print Assumptions C28_unfold_refuted.
Example C28_example : iterated shared 2 (Some (filter_loop (fun x => ret (Nat.even x)) (list_gen [1; 2; 4])), tt) [[2; 4]; []] (None, tt) /\
  exists w, iterated (map (fun x (n : nat) => (Ret (x * 2), S n)) (of_list [1; 2])) 3 0 [[2; 4]; [2; 4]; [2; 4]] w.
Proof.
  split.
  - apply shared_twice. apply (filter_loop_produces Nat.even _ _ [1; 2; 4]). apply list_gen_produces.
  - destruct (C28_any_number_of_times _ _ (fun _ => True) (map (fun x (n : nat) => (Ret (x * 2), S n)) (of_list [1; 2])) [2; 4]) with (n := 3) (w := 0) as (w & H & _).
    + apply (C28_reiterable_partial nat nat nat (fun _ => True) (of_list [1; 2]) [1; 2] (C28_lists _ _ _ _)) with (F := fun x => x * 2).
      intros x w _. eexists. split; [reflexivity|exact Logic.I].
    + exact Logic.I.
    + exists w. exact H.
Qed.

(** C29.  A shared one-shot source records what was taken from it: after [take n] has
    been read to the end, the source stands right after its n-th element, in the world
    of that moment.  [l <> []]: n > 0; otherwise the source is not even opened. *)
Theorem C29_take_exact : forall W A (g : gen W A) w l g1 w1, pulled g w l g1 w1 -> l <> [] ->
  iterates (take (Z.of_nat (List.length l)) shared) (Some g, w) l (Ret tt) (Some g1, w1).
Proof. exact C29_exact_pf. Qed.
Print Assumptions C29_take_exact.
Theorem C29_take_any_source : forall W A n (src : iterable W A) w l g1 w1, Z.of_nat (List.length l) = n -> (0 < n)%Z ->
  pulls src w l g1 w1 -> iterates (take n src) w l (Ret tt) w1.
Proof. exact (fun W A => @take_enough W A). Qed.
Print Assumptions C29_take_any_source.
Theorem C29_take_short : forall W A n (src : iterable W A) w l r w1, (Z.of_nat (List.length l) < n)%Z ->
  iterates src w l r w1 -> iterates (take n src) w l (leaving r) w1.
Proof. exact (fun W A => @take_short W A). Qed.
Print Assumptions C29_take_short.
Theorem C29_take_nothing : forall W A n (src : iterable W A) w, (n <= 0)%Z -> iterates (take n src) w [] (Ret tt) w.
Proof. exact (fun W A => @take_none W A). Qed.
Print Assumptions C29_take_nothing.
(** Outcomes are unique, so the theorems above say all that can happen. *)
Theorem C29_deterministic : forall W A (g : gen W A) w l r w1 l' r' w1', produces g w l r w1 -> produces g w l' r' w1' ->
  l = l' /\ r = r' /\ w1 = w1'.
Proof. exact (fun W A g w l r w1 l' r' w1' H => @produces_det W A g w l r w1 H l' r' w1'). Qed.
Print Assumptions C29_deterministic.
(** An infinite source that counts how often it is called. *)
Example C29_example : iterates (take 3 (init_infinite (fun i (calls : nat) => (Ret (i * i)%Z, S calls)))) 0 [0%Z; 1%Z; 4%Z] (Ret tt) 3.
Proof.
  apply (C29_take_any_source _ _ 3%Z _ 0 [0%Z; 1%Z; 4%Z] (infinite_loop (fun i (calls : nat) => (Ret (i * i)%Z, S calls)) 3)); [reflexivity|lia|].
  eexists _, _. split; [reflexivity|]. apply infinite_pulled_pf. split; reflexivity.
Qed.

(** C30: building is free of effects for the SeqGen operations (and for filter, scan,
    zip when opening the source is), and pulling elements pulls only what they need;
    mapi, Seq.collect, Seq.concat and filter over [delay] work when they are built. *)
Theorem C30_building_partial : forall W A B (p : pipeline W A B) (src : iterable W A),
  quiet_pipeline p -> quiet src -> forall w, exists it, build p src w = (Ret it, w) /\ quiet it.
Proof. exact build_quiet. Qed.
Print Assumptions C30_building_partial.
Theorem C30_on_demand : forall W A B (g : gen W A) w l g1 w1, pulled g w l g1 w1 ->
  (forall F : A -> B, pulled (map_loop (fun x => ret (F x)) g) w (List.map F l) (map_loop (fun x => ret (F x)) g1) w1) /\
  (forall P l0 x, l = l0 ++ [x] -> P x = true ->
     pulled (filter_loop (fun x => ret (P x)) g) w (List.filter P l) (filter_loop (fun x => ret (P x)) g1) w1) /\
  (forall (F : A -> list B) l0 x, l = l0 ++ [x] -> F x <> [] ->
     pulled (collect_loop (fun x => ret (of_list (F x))) None g) w (flat_map F l)
       (collect_loop (fun x => ret (of_list (F x))) (Some (list_gen [])) g1) w1) /\
  (forall n, (n < Z.of_nat (List.length l))%Z ->
     pulled (skip_loop n 0 g) w (skipn (Z.to_nat n) l) (skip_loop n (Z.of_nat (List.length l)) g1) w1) /\
  (forall n, (Z.of_nat (List.length l) <= n)%Z -> exists g2, pulled (take_loop n None 0 g) w l g2 w1) /\
  (forall x y l', l = x :: y :: l' ->
     pulled (pairwise_loop None g) w (combine l (tl l)) (pairwise_loop (Some (List.last l x)) g1) w1) /\
  (forall (F : B -> A -> B) s,
     pulled (scan_loop (fun s x => ret (F s x)) s g) w (scan_list F s l) (scan_loop (fun s x => ret (F s x)) (fold_left F l s) g1) w1).
Proof. exact (fun W A B => @C30_on_demand_pf W A B). Qed.
Print Assumptions C30_on_demand.
(** concat opens an iterable only when all earlier ones have ended. *)
Theorem C30_concat_on_demand : forall W A (its1 : list (iterable W A)) w l1 w1, iterates_all its1 w l1 (Ret tt) w1 ->
  forall it its2 l2 g2 w2, l2 <> [] -> pulls it w1 l2 g2 w2 ->
  pulls (concat (its1 ++ it :: its2)) w (l1 ++ l2) (concat_loop (Some g2) its2) w2.
Proof. exact (fun W A => @C30_concat_pf W A). Qed.
Print Assumptions C30_concat_on_demand.
(** The log receives the callback calls made while the pipeline is built. *)
Theorem C30_eager_refuted : forall A,
  (exists fuel, mapi fuel (fun (i : Z) (x : A) (log : list A) => (Ret x, log ++ [x])) (of_list []) [] = (Ret [], [])) /\
  (forall x y : A, exists fuel, mapi fuel (fun (i : Z) (x : A) (log : list A) => (Ret x, log ++ [x])) (of_list [x; y]) [] = (Ret [x; y], [x; y])) /\
  (forall x y : A, exists fuel it, seq_collect fuel (fun x (log : list A) => (Ret (of_list [x]), log ++ [x])) (of_list [x; y]) [] = (Ret it, [x; y])) /\
  (forall x y : A, exists it, build (Then (OpFilter (fun _ => ret true)) Done) (delay (fun log => (Ret (of_list [x]), log ++ [y]))) [] = (Ret it, [y])).
Proof. exact C30_refuted_pf. Qed.
Print Assumptions C30_eager_refuted.
(** A pipeline of raising callbacks over a raising source builds silently. *)
Example C30_example : exists it,
  build (Then (OpMap (fun x : nat => raise (UserExn x))) (Then (OpSkip 2) (Then (OpFilter (fun _ : nat => raise ValueError)) Done)))
    (of_script [raise KeyError]) tt = (Ret it, tt).
Proof.
  destruct (C30_building_partial unit nat nat (Then (OpMap (fun x : nat => raise (UserExn x))) (Then (OpSkip 2) (Then (OpFilter (fun _ : nat => raise ValueError)) Done))) (of_script [raise KeyError])) with (w := tt) as (it & E & _).
  - cbn. auto.
  - intros w. eexists. reflexivity.
  - exists it. exact E.
Qed.

(** C31. *)
Theorem C31_head : forall W A (src : iterable W A) w x g1 w1, pulls src w [x] g1 w1 ->
  exists n, forall fuel, n <= fuel -> head fuel src w = (Ret x, w1).
Proof. exact (fun W A => @head_hit_pf W A). Qed.
Print Assumptions C31_head.
Theorem C31_head_empty : forall W A (src : iterable W A) w r w1, iterates src w [] r w1 ->
  exists n, forall fuel, n <= fuel -> head fuel src w = (match r with Ret _ => Raise ValueError | Raise e => Raise e end, w1).
Proof. exact (fun W A => @head_empty_pf W A). Qed.
Print Assumptions C31_head_empty.
(** Pure callback, any source (also one that never ends or fails after the hit). *)
Theorem C31_try_pick_hit : forall W A B (f : A -> option B) (src : iterable W A) w l x y g1 w1,
  pulls src w (l ++ [x]) g1 w1 -> (forall a, In a l -> f a = None) -> f x = Some y ->
  exists n, forall fuel, n <= fuel -> try_pick fuel (fun a => ret (f a)) src w = (Ret (Some y), w1).
Proof. exact (fun W A B => @try_pick_hit_pf W A B). Qed.
Print Assumptions C31_try_pick_hit.
Theorem C31_try_pick_miss : forall W A B (f : A -> option B) (src : iterable W A) w l r w1,
  iterates src w l r w1 -> (forall a, In a l -> f a = None) ->
  exists n, forall fuel, n <= fuel -> try_pick fuel (fun a => ret (f a)) src w = (rmap (fun _ => None) r, w1).
Proof. exact (fun W A B => @try_pick_miss_pf W A B). Qed.
Print Assumptions C31_try_pick_miss.
Theorem C31_try_find_index_hit : forall W A (p : A -> bool) (src : iterable W A) w l x g1 w1,
  pulls src w (l ++ [x]) g1 w1 -> (forall a, In a l -> p a = false) -> p x = true ->
  exists n, forall fuel, n <= fuel -> try_find_index fuel (fun a => ret (p a)) src w = (Ret (Some (Z.of_nat (List.length l))), w1).
Proof. exact (fun W A => @try_find_index_hit_pf W A). Qed.
Print Assumptions C31_try_find_index_hit.
Theorem C31_try_find_index_miss : forall W A (p : A -> bool) (src : iterable W A) w l r w1,
  iterates src w l r w1 -> (forall a, In a l -> p a = false) ->
  exists n, forall fuel, n <= fuel -> try_find_index fuel (fun a => ret (p a)) src w = (rmap (fun _ => None) r, w1).
Proof. exact (fun W A => @try_find_index_miss_pf W A). Qed.
Print Assumptions C31_try_find_index_miss.
(** Effectful callback: called on the elements in order up to the first hit.  [no_stop]:
    an effect of the source that raises StopIteration is its end. *)
Theorem C31_try_pick_effects : forall W A B (f : A -> M W (option B)) ms fuel, Forall no_stop ms -> List.length ms < fuel ->
  try_pick fuel f (of_script ms) ==m firstM (fun m => do x <- m; f x) ms.
Proof. exact (fun W A B => @try_pick_script_pf W A B). Qed.
Print Assumptions C31_try_pick_effects.
Theorem C31_try_find_index_effects : forall W A (p : A -> M W bool) ms fuel, Forall no_stop ms -> List.length ms < fuel ->
  try_find_index fuel p (of_script ms) ==m
  firstM (fun '(i, m) => do x <- m; do b <- p x; ret (if b : bool then Some i else None)) (number 0 ms).
Proof. exact (fun W A => @try_find_index_script_pf W A). Qed.
Print Assumptions C31_try_find_index_effects.
Example C31_example :
  try_find_index 9 (fun x => ret (Z.leb 4 x)) (init_infinite (fun i (calls : nat) => (Ret (i * i)%Z, S calls))) 0 = (Ret (Some 2%Z), 3) /\
  head 9 (of_list (W := unit) (A := nat) []) tt = (Raise ValueError, tt).
Proof. split; reflexivity. Qed.

(** C32. *)
Theorem C32_fold : forall W A S (F : S -> A -> S) s (src : iterable W A) w l r w1, iterates src w l r w1 ->
  exists n, forall fuel, n <= fuel -> fold fuel (fun s x => ret (F s x)) s src w = (rmap (fun _ => fold_left F l s) r, w1).
Proof. exact (fun W A S => @fold_pf W A S). Qed.
Print Assumptions C32_fold.
Theorem C32_fold_effects : forall W A S (f : S -> A -> M W S) ms s fuel, Forall no_stop ms -> List.length ms < fuel ->
  fold fuel f s (of_script ms) ==m foldM (fun s m => do x <- m; f s x) s ms.
Proof. exact (fun W A S => @fold_script W A S). Qed.
Print Assumptions C32_fold_effects.
Theorem C32_iter_effects : forall W A (f : A -> M W unit) ms fuel, Forall no_stop ms -> List.length ms < fuel ->
  iter fuel f (of_script ms) ==m iterM (fun m => do x <- m; f x) ms.
Proof. exact (fun W A => @iter_script_pf W A). Qed.
Print Assumptions C32_iter_effects.
(** fold_back reads the source first, then calls the folder from the last element on. *)
Theorem C32_fold_back : forall W A S (f : A -> S -> M W S) s (src : iterable W A) w l r w1, iterates src w l r w1 ->
  exists n, forall fuel, n <= fuel -> fold_back fuel f src s w =
    match r with Ret _ => foldM (fun s x => f x s) s (rev l) w1 | Raise e => (Raise e, w1) end.
Proof. exact (fun W A S => @fold_back_pf W A S). Qed.
Print Assumptions C32_fold_back.
Theorem C32_fold_back_pure : forall W A S (F : A -> S -> S) s (src : iterable W A) w l w1, iterates src w l (Ret tt) w1 ->
  exists n, forall fuel, n <= fuel -> fold_back fuel (fun x s => ret (F x s)) src s w = (Ret (fold_right F s l), w1).
Proof. exact (fun W A S => @fold_back_pure_pf W A S). Qed.
Print Assumptions C32_fold_back_pure.
Theorem C32_scan_prefixes_partial : forall A S (F : S -> A -> S) l s,
  List.length (s :: scan_list F s l) = Datatypes.S (List.length l) /\
  List.last (s :: scan_list F s l) s = fold_left F l s /\
  (forall k, k <= List.length l -> nth k (s :: scan_list F s l) s = fold_left F (firstn k l) s).
Proof. exact (fun A S => @scan_last_pf A S). Qed.
Print Assumptions C32_scan_prefixes_partial.
(** with the state None there are not length + 1 elements *)
Theorem C32_scan_none_refuted : forall W A (is_none : A -> bool) (F : A -> A -> A) none l (w : W), is_none none = true ->
  exists out, iterates (scan_value is_none (fun s x => ret (F s x)) none (of_list l)) w out (Ret tt) w /\
    List.length out = List.length l.
Proof. exact (fun W A => @scan_none_length_pf W A). Qed.
Print Assumptions C32_scan_none_refuted.
Theorem C32_length : forall W A (src : iterable W A) w l r w1, iterates src w l r w1 ->
  exists n, forall fuel, n <= fuel -> length fuel src w = (rmap (fun _ => Z.of_nat (List.length l)) r, w1).
Proof. exact (fun W A => @length_pf W A). Qed.
Print Assumptions C32_length.
Theorem C32_sum : forall W A B (zero : B) add (proj : A -> B) (src : iterable W A) w l r w1, iterates src w l r w1 ->
  exists n, forall fuel, n <= fuel -> sum_by fuel zero (fun x y => ret (add x y)) (fun x => ret (proj x)) src w =
    (rmap (fun _ => fold_left add (List.map proj l) zero) r, w1).
Proof. exact (fun W A B => @sum_pf W A B). Qed.
Print Assumptions C32_sum.
(** max with [better x y := x > y], min with [better x y := x < y]: the first of the
    extreme elements. *)
Theorem C32_max_min : forall W A B (better : B -> B -> bool) (proj : A -> B), strict_weak better ->
  forall (src : iterable W A) w l w1, iterates src w l (Ret tt) w1 ->
  exists n, forall fuel, n <= fuel ->
    (l = [] -> best_by fuel better (fun x => ret (proj x)) src w = (Raise ValueError, w1)) /\
    (l <> [] -> exists m, best_by fuel better (fun x => ret (proj x)) src w = (Ret m, w1) /\ first_best better (List.map proj l) m).
Proof. exact (fun W A B => @best_pf W A B). Qed.
Print Assumptions C32_max_min.
Theorem C32_sum_effects : forall W A B (zero : B) add (proj : A -> M W B) ms fuel, Forall no_stop ms -> List.length ms < fuel ->
  sum_by fuel zero add proj (of_script ms) ==m foldM (fun s m => do x <- m; do y <- outside (proj x); add s y) zero ms.
Proof. exact (fun W A B => @sum_script W A B). Qed.
Print Assumptions C32_sum_effects.
(** The projection is called once on every element, in order, also when the values are
    compared as they come. *)
Theorem C32_max_min_effects : forall W A B (better : B -> B -> bool) (proj : A -> M W B) ms fuel,
  strict_weak better -> Forall no_stop ms -> List.length ms < fuel ->
  forall w, match mapM (fun m => do x <- m; outside (proj x)) ms w with
  | (Ret [], w1) => best_by fuel better proj (of_script ms) w = (Raise ValueError, w1)
  | (Ret ys, w1) => exists m, best_by fuel better proj (of_script ms) w = (Ret m, w1) /\ first_best better ys m
  | (Raise e, w1) => best_by fuel better proj (of_script ms) w = (Raise e, w1)
  end.
Proof. exact (fun W A B => @best_script W A B). Qed.
Print Assumptions C32_max_min_effects.
Example C32_effects_example :
  best_by 9 (fun x y => Z.ltb y x) (fun x log => (if Z.eqb x 9 then Raise KeyError else Ret (x * x)%Z, log ++ [x]))
    (of_script [ret 3; ret 7; ret 9; ret 1]%Z) [] = (Raise KeyError, [3; 7; 9]%Z) /\
  sum_by 9 0%Z (fun a b => ret (a + b)%Z) (fun x log => (Ret (x * x)%Z, log ++ [x])) (of_script [ret 3; ret 7]%Z) [] = (Ret 58%Z, [3; 7]%Z).
Proof. split; reflexivity. Qed.
Example C32_example : strict_weak (fun x y => Z.ltb y x) /\
  best_by 9 (fun x y => Z.ltb y x) (fun x => ret x) (of_list (W := unit) [3; 7; 7; 1]%Z) tt = (Ret 7%Z, tt) /\
  fold_back 9 (fun x s => ret (x :: s)) (of_list (W := unit) [1; 2; 3]) [] tt = (Ret [1; 2; 3], tt).
Proof.
  split; [|split; reflexivity]. split; [|split].
  - intros x. apply Z.ltb_irrefl.
  - intros x y z H1 H2. apply Z.ltb_lt in H1, H2. apply Z.ltb_lt. lia.
  - intros x y z H1 H2. apply Z.ltb_ge in H1, H2. apply Z.ltb_ge. lia.
Qed.

(** C33: requesting k elements calls the generator exactly k times, on the successive
    states; the iterator left is the one for the state reached. *)
Theorem C33_unfold_on_demand : forall W A S (f : S -> M W (option (A * S))) l s w g1 w1,
  pulled (unfold f s) w l g1 w1 <-> exists s1, g1 = unfold f s1 /\ unfold_steps f s w l s1 w1.
Proof. exact (fun W A S => @unfold_pulled_pf W A S). Qed.
Print Assumptions C33_unfold_on_demand.
Theorem C33_unfold_ends : forall W A S (f : S -> M W (option (A * S))) l s w r w1,
  produces (unfold f s) w l r w1 <->
  exists s1 w2, unfold_steps f s w l s1 w2 /\
    match r with Ret _ => f s1 w2 = (Ret None, w1) | Raise e => outside (f s1) w2 = (Raise e, w1) end.
Proof. exact (fun W A S => @unfold_produces_pf W A S). Qed.
Print Assumptions C33_unfold_ends.
Theorem C33_init_infinite : forall W A (f : Z -> M W A) l w g1 w1,
  pulls (init_infinite f) w l g1 w1 <->
  (g1 = infinite_loop f (Z.of_nat (List.length l)) /\ mapM f (List.map Z.of_nat (seq 0 (List.length l))) w = (Ret l, w1)).
Proof. exact (fun W A => @init_infinite_pf W A). Qed.
Print Assumptions C33_init_infinite.
(** It ends only when the initializer raises; a StopIteration is then a normal end. *)
Theorem C33_init_infinite_ends : forall W A (f : Z -> M W A) l w r w1,
  iterates (init_infinite f) w l r w1 <->
  exists e w2, mapM f (List.map Z.of_nat (seq 0 (List.length l))) w = (Ret l, w2) /\
    f (Z.of_nat (List.length l)) w2 = (Raise e, w1) /\ r = ended (Raise e).
Proof. exact (fun W A => @init_infinite_ends_pf W A). Qed.
Print Assumptions C33_init_infinite_ends.
Example C33_example : pulled (unfold (fun s (calls : nat) => (Ret (Some (s, s * 2)), S calls)) 1) 0 [1; 2; 4] (unfold (fun s (calls : nat) => (Ret (Some (s, s * 2)), S calls)) 8) 3.
Proof.
  apply C33_unfold_on_demand. exists 8. split; auto.
  eapply us_more; [reflexivity|]. eapply us_more; [reflexivity|]. eapply us_more; [reflexivity|]. constructor.
Qed.

(** C83.  [stops f xs w ys e w1]: called on the elements in order, the callback gives [ys]
    and then raises [e].  Every exception other than StopIteration reaches the consumer as
    it is, after the elements made before it, and nothing is called afterwards. *)
Theorem C83_exceptions_partial : forall W A B S (xs : list A) w e w1, e <> StopIterationExn ->
  (forall (f : A -> M W B) ys, stops f xs w ys e w1 -> iterates (map f (of_list xs)) w ys (Raise e) w1) /\
  (forall (p : A -> M W bool) bs, stops p xs w bs e w1 ->
     iterates (filter p (of_list xs)) w (List.map fst (List.filter snd (combine xs bs))) (Raise e) w1) /\
  (forall (f : A -> M W (option B)) os, stops f xs w os e w1 -> iterates (choose f (of_list xs)) w (flat_map opt_to_list os) (Raise e) w1) /\
  (forall (f : A -> M W (list B)) yss, stops f xs w yss e w1 ->
     iterates (collect (fun x => do ys <- f x; ret (of_list ys)) (of_list xs)) w (List.concat yss) (Raise e) w1) /\
  (forall (f : S -> A -> M W S) s ss, folds_until f s xs w ss e w1 -> iterates (scan f s (of_list xs)) w (s :: ss) (Raise e) w1) /\
  (forall (f : Z -> A -> M W B) ys, stops (fun '(i, x) => f i x) (number 0 xs) w ys e w1 ->
     exists n, forall fuel, n <= fuel -> mapi fuel f (of_list xs) w = (Raise e, w1)) /\
  (forall fuel, List.length xs < fuel ->
     (forall (f : S -> A -> M W S) s ss, folds_until f s xs w ss e w1 -> fold fuel f s (of_list xs) w = (Raise e, w1)) /\
     (forall (f : A -> M W unit) ys, stops f xs w ys e w1 -> iter fuel f (of_list xs) w = (Raise e, w1)) /\
     (forall (f : A -> M W (option B)) os, stops f xs w os e w1 -> (forall o, In o os -> o = None) -> try_pick fuel f (of_list xs) w = (Raise e, w1)) /\
     (forall zero add (proj : A -> M W B) ys, stops proj xs w ys e w1 -> sum_by fuel zero (fun x y => ret (add x y)) proj (of_list xs) w = (Raise e, w1)) /\
     (forall better (proj : A -> M W B) ys, stops proj xs w ys e w1 -> best_by fuel better proj (of_list xs) w = (Raise e, w1))).
Proof.
  intros W A B S xs w e w1 N. destruct (not_stop e N) as [N1 N2]. repeat split; intros.
  - left. eexists _, _. split; [reflexivity|]. rewrite <- N2. eapply opening_produces; [reflexivity|]. now apply map_callback.
  - left. eexists _, _. split; [reflexivity|]. rewrite <- N1. now apply filter_callback.
  - left. eexists _, _. split; [reflexivity|]. rewrite <- N2. eapply opening_produces; [reflexivity|]. now apply choose_callback.
  - left. eexists _, _. split; [reflexivity|]. rewrite <- N2. eapply opening_produces; [reflexivity|]. now apply collect_callback.
  - left. eexists _, _. split; [reflexivity|]. eapply pr_yield; [reflexivity|]. rewrite <- N1. now apply scan_callback.
  - unfold mapi. destruct (to_list_any W B (do g <- of_list xs; ret (mapi_loop f 0 g)) w ys (ended (Raise e)) w1) as (n & T).
    + left. eexists _, _. split; [reflexivity|]. now apply mapi_callback.
    + exists n. intros fuel L. rewrite (T fuel L), N1. reflexivity.
  - rewrite fold_callback; [eapply folds_until_fold; eassumption|assumption].
  - eapply iter_callback; eassumption.
  - eapply try_pick_callback; eassumption.
  - rewrite <- N2. eapply sum_callback; eassumption.
  - rewrite <- N2. eapply best_callback; eassumption.
Qed.
Print Assumptions C83_exceptions_partial.
(** StopIteration: map, choose, collect, sum_by, max_by and min_by raise RuntimeError
    instead; filter, scan and mapi end as if the source had ended, so elements are lost
    without any sign; only plain loops let it through. *)
Theorem C83_stop_iteration_refuted : forall W A B S (xs : list A) w w1,
  (forall (f : A -> M W B) ys, stops f xs w ys StopIterationExn w1 -> iterates (map f (of_list xs)) w ys (Raise RuntimeError) w1) /\
  (forall (f : A -> M W (option B)) os, stops f xs w os StopIterationExn w1 -> iterates (choose f (of_list xs)) w (flat_map opt_to_list os) (Raise RuntimeError) w1) /\
  (forall (f : A -> M W (list B)) yss, stops f xs w yss StopIterationExn w1 ->
     iterates (collect (fun x => do ys <- f x; ret (of_list ys)) (of_list xs)) w (List.concat yss) (Raise RuntimeError) w1) /\
  (forall (p : A -> M W bool) bs, stops p xs w bs StopIterationExn w1 ->
     iterates (filter p (of_list xs)) w (List.map fst (List.filter snd (combine xs bs))) (Ret tt) w1) /\
  (forall (f : S -> A -> M W S) s ss, folds_until f s xs w ss StopIterationExn w1 -> iterates (scan f s (of_list xs)) w (s :: ss) (Ret tt) w1) /\
  (forall (f : Z -> A -> M W B) ys, stops (fun '(i, x) => f i x) (number 0 xs) w ys StopIterationExn w1 ->
     exists n, forall fuel, n <= fuel -> mapi fuel f (of_list xs) w = (Ret ys, w1)) /\
  (forall fuel, List.length xs < fuel ->
     (forall zero add (proj : A -> M W B) ys, stops proj xs w ys StopIterationExn w1 -> sum_by fuel zero (fun x y => ret (add x y)) proj (of_list xs) w = (Raise RuntimeError, w1)) /\
     (forall better (proj : A -> M W B) ys, stops proj xs w ys StopIterationExn w1 -> best_by fuel better proj (of_list xs) w = (Raise RuntimeError, w1)) /\
     (forall (f : S -> A -> M W S) s ss, folds_until f s xs w ss StopIterationExn w1 -> fold fuel f s (of_list xs) w = (Raise StopIterationExn, w1)) /\
     (forall (f : A -> M W unit) ys, stops f xs w ys StopIterationExn w1 -> iter fuel f (of_list xs) w = (Raise StopIterationExn, w1))).
Proof.
  intros W A B S xs w w1. repeat split; intros.
  - left. eexists _, _. split; [reflexivity|]. eapply opening_produces; [reflexivity|]. now apply (map_callback f xs w ys StopIterationExn).
  - left. eexists _, _. split; [reflexivity|]. eapply opening_produces; [reflexivity|]. now apply (choose_callback f xs w os StopIterationExn).
  - left. eexists _, _. split; [reflexivity|]. eapply opening_produces; [reflexivity|]. now apply (collect_callback f xs w yss StopIterationExn).
  - left. eexists _, _. split; [reflexivity|]. now apply (filter_callback p xs w bs StopIterationExn).
  - left. eexists _, _. split; [reflexivity|]. eapply pr_yield; [reflexivity|]. now apply (scan_callback f xs s w ss StopIterationExn).
  - unfold mapi. destruct (to_list_any W B (do g <- of_list xs; ret (mapi_loop f 0 g)) w ys (Ret tt) w1) as (n & T).
    + left. eexists _, _. split; [reflexivity|]. now apply (mapi_callback f xs 0%Z w ys StopIterationExn).
    + exists n. exact T.
  - eapply (sum_callback zero add proj xs w ys StopIterationExn); eassumption.
  - eapply (best_callback better proj xs w ys StopIterationExn); eassumption.
  - rewrite fold_callback; [eapply folds_until_fold; eassumption|assumption].
  - eapply iter_callback; eassumption.
Qed.
Print Assumptions C83_stop_iteration_refuted.
(** A predicate that calls [next] on an exhausted iterator for 2: everything from 2 on is
    lost, though the source has four elements. *)
Example C83_example :
  let p := fun x => if Nat.eqb x 2 then raise StopIterationExn else ret true in
  stops p [1; 2; 3; 4] tt [true] StopIterationExn tt /\
  iterates (filter p (of_list [1; 2; 3; 4])) tt [1] (Ret tt) tt /\
  iterates (map p (of_list [1; 2; 3; 4])) tt [true] (Raise RuntimeError) tt /\
  stops (fun x => if Nat.eqb x 2 then raise KeyError else ret true) [1; 2; 3; 4] tt [true] KeyError tt.
Proof.
  cbv zeta. assert (H : forall e, stops (fun x => if Nat.eqb x 2 then raise e else ret true) [1; 2; 3; 4] tt [true] e tt).
  { intros e. eapply st_later; [reflexivity|]. now apply st_here. }
  repeat split.
  - apply H.
  - apply (C83_stop_iteration_refuted unit nat nat nat [1; 2; 3; 4] tt tt) with (bs := [true]). apply H.
  - apply (C83_stop_iteration_refuted unit nat bool nat [1; 2; 3; 4] tt tt). apply H.
  - apply H.
Qed.
