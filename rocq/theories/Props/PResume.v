(** C119: iterators that are asked again after an exception. *)
From Coq Require Import List ZArith Bool Lia.
From Verif.Model Require Import Base Gen Resume.
From Verif.Model Require Seq.
From Verif.Spec Require Import ResumeSpec.
From Verif.Spec Require SeqSpec.
From Verif.Proofs Require Import ResumeFacts.
Import ListNotations.
Local Open Scope py_scope.

(** Up to the first exception they are the iterators of C27 to C33. *)
Theorem C119_same_elements : forall W A B S (rs : riterable W A) (s : iterable W A), follows_it rs s ->
  (forall f : A -> M W B, follows_it (r_map f rs) (Seq.map f s)) /\
  (forall f : A -> M W (option B), follows_it (r_choose f rs) (Seq.choose f s)) /\
  (forall n, follows_it (r_skip n rs) (Seq.skip n s)) /\
  (forall n, follows_it (r_take n rs) (Seq.take n s)) /\
  follows_it (r_pairwise rs) (Seq.pairwise s) /\
  (forall f : A -> M W B, follows_it (r_dict f rs) (Seq.dict f s)) /\
  (forall p, follows_it (r_filter p rs) (Seq.filter p s)) /\
  (forall (f : S -> A -> M W S) st, follows_it (r_scan f st rs) (Seq.scan f st s)) /\
  (forall (rs2 : riterable W B) s2, follows_it rs2 s2 -> follows_it (r_zip rs rs2) (Seq.zip s s2)) /\
  (forall (rf : A -> M W (riterable W B)) f,
     (forall x w, match rf x w, f x w with
                  | (Ret ri, w1), (Ret it, w2) => w1 = w2 /\ follows_it ri it
                  | (Raise e, w1), (Raise e2, w2) => e = e2 /\ w1 = w2
                  | _, _ => False
                  end) -> follows_it (r_collect rf rs) (Seq.collect f s)).
Proof.
  intros W A B S rs s F.
  exact (conj (map_follows rs s F) (conj (choose_follows rs s F) (conj (skip_follows rs s F) (conj (take_follows rs s F)
    (conj (pairwise_follows rs s F) (conj (dict_follows rs s F) (conj (filter_follows rs s F) (conj (scan_follows rs s F)
    (conj (zip_follows rs s F) (collect_follows rs s F)))))))))).
Qed.
Print Assumptions C119_same_elements.
Theorem C119_same_elements2 : forall W A S,
  (forall xs : list A, follows_it (ret (r_list xs) : riterable W A) (of_list xs)) /\
  (forall ms : list (M W A), follows_it (ret (r_script ms)) (SeqSpec.of_script ms)) /\
  (forall (rs : list (riterable W A)) ss, Forall2 follows_it rs ss -> follows_it (r_concat rs) (Seq.concat ss)) /\
  (forall (m : M W (riterable W A)) (n : M W (iterable W A)),
     (forall w, match m w, n w with
                | (Ret ri, w1), (Ret it, w2) => w1 = w2 /\ follows_it ri it
                | (Raise e, w1), (Raise e2, w2) => e = e2 /\ w1 = w2
                | _, _ => False
                end) -> follows_it (r_delay m) (Seq.delay n)) /\
  (forall (f : S -> M W (option (A * S))) s, follows_it (ret (r_unfold f s)) (ret (Seq.unfold f s))) /\
  (forall f : Z -> M W A, follows_it (r_infinite f) (Seq.init_infinite f)).
Proof.
  intros W A S. split; [|split; [|split; [|split; [|split]]]].
  - intros xs. apply ret_follows, list_follows.
  - intros ms. apply ret_follows, script_follows.
  - apply concat_follows.
  - apply delay_follows.
  - intros f s. apply ret_follows, unfold_follows.
  - intros f. apply ret_follows, infinite_follows.
Qed.
Print Assumptions C119_same_elements2.
Theorem C119_same_outcomes : forall W A (g : gen W A) w l r w1, SeqSpec.produces g w l r w1 -> forall rg, follows rg g ->
  exists g1, nexts rg w (map Got l ++ [match r with Ret _ => Ended | Raise e => Raised e end]) g1 w1.
Proof. exact follows_produces. Qed.
Print Assumptions C119_same_outcomes.

(** The ones written as generators are finished by an exception. *)
Theorem C119_finished_partial : forall W A B S (src : riterable W A),
  (forall f : A -> M W B, ends_for_good_it (r_map f src)) /\
  (forall f : A -> M W (riterable W B), ends_for_good_it (r_collect f src)) /\
  (forall f : A -> M W (option B), ends_for_good_it (r_choose f src)) /\
  (forall its : list (riterable W A), ends_for_good_it (r_concat its)) /\
  (forall n, ends_for_good_it (r_skip n src)) /\
  (forall n, ends_for_good_it (r_take n src)) /\
  ends_for_good_it (r_pairwise src) /\
  (forall f : A -> M W B, ends_for_good_it (r_dict f src)) /\
  (forall m : M W (riterable W A), ends_for_good_it (r_delay m)) /\
  (forall (f : S -> M W (option (A * S))) s, ends_for_good (r_unfold f s)) /\
  ends_for_good_it (seq_of_object (W := W) (A := A)).
Proof.
  intros W A B S src.
  exact (conj (fun f => ret_good _ (wrap_good _)) (conj (fun f => ret_good _ (wrap_good _)) (conj (fun f => ret_good _ (wrap_good _))
    (conj (fun its => ret_good _ (wrap_good _)) (conj (fun n => ret_good _ (wrap_good _)) (conj (fun n => take_good n src)
    (conj (wrap_it_good _ src _) (conj (fun f => dict_good f src) (conj delay_good (conj (fun f s => good_ends _ (unfold_good f s)) (ret_good _ (wrap_good _)))))))))))).
Qed.
Print Assumptions C119_finished_partial.

(** 10 // x, and the calls it got *)
Definition quotient (x : Z) : M (list Z) Z := fun w => if Z.eqb x 0 then (Raise ValueError, w ++ [x]) else (Ret (10 / x)%Z, w ++ [x]).
Definition small (x : Z) : M (list Z) bool := do y <- quotient x; ret (Z.ltb y 5).
Ltac one_next := eapply nxs_more; [first [apply nx_got; reflexivity|apply nx_ended; reflexivity|apply nx_raised; reflexivity
  |eapply nx_skip; [reflexivity|first [apply nx_got; reflexivity|apply nx_ended; reflexivity|apply nx_raised; reflexivity
     |eapply nx_skip; [reflexivity|first [apply nx_got; reflexivity|apply nx_ended; reflexivity|apply nx_raised; reflexivity]]]]]|].
Example C119_finished_instance : exists g g1, r_map quotient (ret (r_list [5; 0; 2]%Z)) [] = (Ret g, []) /\
  nexts g [] [Got 2%Z; Raised ValueError; Ended; Ended] g1 [5; 0]%Z.
Proof. eexists. eexists. split; [reflexivity|]. do 4 one_next. constructor. Qed.

(** filter, scan, zip and init_infinite go on with the next element of their sources. *)
Theorem C119_filter_partial : forall W A (p : A -> M W bool) ms w, let '(os, _, w1) := tried (filter_one p) tt ms w in
  nexts (r_filter_loop p (r_script ms)) w (os ++ [Ended]) (r_filter_loop p (r_script [])) w1.
Proof. exact @filter_goes_on. Qed.
Print Assumptions C119_filter_partial.
Theorem C119_scan_partial : forall W A S (f : S -> A -> M W S) ms s w, let '(os, s1, w1) := tried (scan_one f) s ms w in
  nexts (r_scan_loop f s (r_script ms)) w (os ++ [Ended]) (r_scan_loop f s1 (r_script [])) w1.
Proof. exact @scan_goes_on. Qed.
Print Assumptions C119_scan_partial.
Theorem C119_zip_partial : forall W A B (ms : list (M W A)) (ns : list (M W B)) w, let '(os, ns1, w1) := tried zip_one ns ms w in
  nexts (r_zip_loop None (r_script ms) (r_script ns)) w (os ++ [Ended]) (r_zip_loop None (r_script []) (r_script ns1)) w1.
Proof. exact @zip_goes_on. Qed.
Print Assumptions C119_zip_partial.
Theorem C119_init_infinite_partial : forall W A (f : Z -> M W A) n i w, let '(os, _, w1) := tried (call_one f) tt (upto i n) w in
  nexts (r_infinite_loop f i) w os (r_infinite_loop f (i + Z.of_nat n)) w1.
Proof. exact @infinite_goes_on. Qed.
Print Assumptions C119_init_infinite_partial.
Example C119_filter_partial_instance : tried (filter_one small) tt (map ret [5; 0; 1; 3]%Z) [] = ([Got 5%Z; Raised ValueError; Got 3%Z], tt, [5; 0; 1; 3]%Z).
Proof. reflexivity. Qed.
Example C119_scan_partial_instance :
  tried (scan_one (fun s x => do y <- quotient x; ret (s + y)%Z)) 0%Z (map ret [5; 0; 2]%Z) [] = ([Got 2%Z; Raised ValueError; Got 7%Z], 7%Z, [5; 0; 2]%Z).
Proof. reflexivity. Qed.
Example C119_zip_partial_instance :
  tried zip_one (map ret [1; 2; 3]%Z) [quotient 5%Z; quotient 0%Z; quotient 2%Z] [] = ([Got (2, 1)%Z; Raised ValueError; Got (5, 2)%Z], [ret 3%Z], [5; 0; 2]%Z).
Proof. reflexivity. Qed.
Example C119_init_infinite_partial_instance : tried (call_one quotient) tt (upto 0 3) [] = ([Raised ValueError; Got 10%Z; Got 5%Z], tt, [0; 1; 2]%Z).
Proof. reflexivity. Qed.

(** So these are not finished by an exception. *)
Theorem C119_goes_on_refuted :
  ~ ends_for_good (r_filter_loop small (r_list [0; 5]%Z)) /\
  ~ ends_for_good (r_scan_loop (fun s x => do y <- quotient x; ret (s + y)%Z) 0%Z (r_list [0; 5]%Z)) /\
  ~ ends_for_good (r_zip_loop None (r_script [quotient 0%Z; quotient 5%Z]) (r_list [1; 2]%Z)) /\
  ~ ends_for_good (r_infinite_loop quotient 0).
Proof.
  split; [|split; [|split]]; intros K.
  all: match type of K with ends_for_good ?g =>
    assert (N : exists g1, nexts g [] ([] ++ [Raised ValueError]) g1 [0%Z] /\ exists x g2 w2, next g1 [0%Z] (Got x) g2 w2) end.
  1, 3, 5, 7: eexists; split; [one_next; constructor|];
    do 3 eexists; first [apply nx_got; reflexivity|eapply nx_skip; [reflexivity|apply nx_got; reflexivity]].
  all: destruct N as (g1 & N & x & g2 & w2 & N2);
    specialize (K _ _ _ _ _ N ltac:(discriminate)); destruct (K [0%Z] 1) as (g3 & _ & U);
    destruct (U [Got x] g2 w2) as [E _]; [eapply nxs_more; [exact N2|constructor]|reflexivity|discriminate].
Qed.
Print Assumptions C119_goes_on_refuted.

(** A [for] over a sequence made of such an object ends with the exception; the next [for]
    goes on behind the failed element. *)
Theorem C119_next_loop_partial : forall W A (l l2 : list A) (g : rgen W A) w o g1 w1 o2 g2 w2,
  nexts g w (map Got l ++ [o]) g1 w1 -> (forall a, o <> Got a) ->
  nexts g1 w1 (map Got l2 ++ [o2]) g2 w2 -> (forall a, o2 <> Got a) ->
  exists h h1 h2, seq_of_object (g, w) = (Ret h, (g, w)) /\ nexts h (g, w) (map Got l ++ [o]) h1 (g1, w1) /\
    seq_of_object (g1, w1) = (Ret h, (g1, w1)) /\ nexts h (g1, w1) (map Got l2 ++ [o2]) h2 (g2, w2).
Proof.
  intros W A l l2 g w o g1 w1 o2 g2 w2 N K N2 K2. destruct (object_loop _ _ _ _ _ _ N K) as [h1 H1]. destruct (object_loop _ _ _ _ _ _ N2 K2) as [h2 H2].
  exists (r_wrap r_shared_gen), h1, h2. exact (conj eq_refl (conj H1 (conj eq_refl H2))).
Qed.
Print Assumptions C119_next_loop_partial.
Theorem C119_next_loop_refuted : exists (g : rgen (list Z) Z) g1 g2 h h1 h2,
  r_filter small (ret (r_list [5; 0; 4]%Z)) [] = (Ret g, []) /\
  seq_of_object (g, []) = (Ret h, (g, [])) /\ nexts h (g, []) [Got 5%Z; Raised ValueError] h1 (g1, [5; 0]%Z) /\
  seq_of_object (g1, [5; 0]%Z) = (Ret h, (g1, [5; 0]%Z)) /\ nexts h (g1, [5; 0]%Z) [Got 4%Z; Ended] h2 (g2, [5; 0; 4]%Z).
Proof.
  exists (r_filter_loop small (r_list [5; 0; 4]%Z)), (r_filter_loop small (r_list [4]%Z)), (r_filter_loop small (r_list [])), (r_wrap r_shared_gen).
  do 2 eexists. split; [reflexivity|]. split; [reflexivity|]. split; [|split; [reflexivity|]]; do 2 one_next; constructor.
Qed.
Print Assumptions C119_next_loop_refuted.
