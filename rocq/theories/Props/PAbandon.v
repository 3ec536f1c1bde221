(** C120: iterations that are given up. *)
From Coq Require Import List ZArith Bool Lia.
From Verif.Model Require Import Base Gen Resume Abandon.
From Verif.Spec Require Import ResumeSpec AbandonSpec.
From Verif.Proofs Require Import AbandonFacts.
Import ListNotations.
Local Open Scope py_scope.

(** Over sources that hold nothing these are the iterators of C119. *)
Theorem C120_same_elements : forall W A B S lv (oi : oiterable W A) (ri : riterable W A), tracks_it lv oi ri ->
  (forall f : A -> M W B, tracks_it true (o_map f oi) (r_map f ri)) /\
  (forall fo (fr : A -> M W (riterable W B)), tracks_fun true fo fr -> tracks_it true (o_collect fo oi) (r_collect fr ri)) /\
  (forall f : A -> M W (option B), tracks_it true (o_choose f oi) (r_choose f ri)) /\
  (forall n, tracks_it true (o_skip n oi) (r_skip n ri)) /\
  (forall n, tracks_it true (o_take n oi) (r_take n ri)) /\
  tracks_it true (o_pairwise oi) (r_pairwise ri) /\
  (forall f : A -> M W B, tracks_it true (o_dict f oi) (r_dict f ri)) /\
  (forall p, tracks_it true (o_filter p oi) (r_filter p ri)) /\
  (forall (f : S -> A -> M W S) s, tracks_it true (o_scan f s oi) (r_scan f s ri)) /\
  (forall lv2 (oi2 : oiterable W B) ri2, tracks_it lv2 oi2 ri2 -> tracks_it true (o_zip oi oi2) (r_zip ri ri2)) /\
  tracks_it true (o_seq oi) (do g <- ri; ret (r_wrap g)).
Proof.
  intros W A B S lv oi ri F.
  exact (conj (map_tracks lv oi ri F) (conj (collect_tracks lv oi ri F) (conj (choose_tracks lv oi ri F) (conj (skip_tracks lv oi ri F) (conj (take_tracks lv oi ri F)
    (conj (pairwise_tracks lv oi ri F) (conj (dict_tracks lv oi ri F) (conj (filter_tracks lv oi ri F) (conj (scan_tracks lv oi ri F)
    (conj (zip_tracks lv oi ri F) (seq_tracks lv oi ri F))))))))))).
Qed.
Print Assumptions C120_same_elements.
Theorem C120_same_elements2 : forall W A S,
  (forall xs : list A, tracks_it true (ret (o_list xs) : oiterable W A) (ret (r_list xs))) /\
  (forall (f : S -> M W (option (A * S))) s, tracks_it true (ret (o_unfold f s)) (ret (r_unfold f s))) /\
  (forall (ois : list (oiterable W A)) ris, Forall2 (tracks_it true) ois ris -> tracks_it true (o_concat ois) (r_concat ris)) /\
  (forall lv (m : M W (oiterable W A)) (n : M W (riterable W A)),
     (forall w, match m w, n w with
                | (Ret oi, w1), (Ret ri, w2) => w1 = w2 /\ tracks_it lv oi ri
                | (Raise e, w1), (Raise e2, w2) => e = e2 /\ w1 = w2
                | _, _ => False
                end) -> tracks_it true (o_delay m) (r_delay n)).
Proof.
  intros W A S. split; [|split; [|split]].
  - intros xs. apply ret_tracks, list_tracks.
  - intros f s. apply ret_tracks, unfold_tracks.
  - apply concat_tracks.
  - apply delay_tracks.
Qed.
Print Assumptions C120_same_elements2.
Theorem C120_same_outcomes : forall W A (g : ogen W A) w os g1 w1, calls g w os g1 w1 -> forall lv r, tracks lv g r ->
  exists r1, nexts r w os r1 w1 /\ drop g1 w1 = w1.
Proof. exact tracks_calls. Qed.
Print Assumptions C120_same_outcomes.

(** An iterator that the user holds. *)
Theorem C120_held_partial : forall W A B S b,
  let held : oiterable (ogen W A * W) A := ret (o_shared b) in
  leaves_alone held /\ leaves_alone (o_seq held) /\
  (forall f : A -> M _ B, leaves_alone (o_map f held)) /\
  (forall f : A -> M _ (list B), leaves_alone (o_collect (fun x => do ys <- f x; ret (ret (o_list ys))) held)) /\
  (forall f : A -> M _ (option B), leaves_alone (o_choose f held)) /\
  (forall n, leaves_alone (o_skip n held)) /\
  (forall n, leaves_alone (o_take n held)) /\
  leaves_alone (o_pairwise held) /\
  (forall f : A -> M _ B, leaves_alone (o_dict f held)) /\
  (forall p, leaves_alone (o_filter p held)) /\
  (forall (f : S -> A -> M _ S) s, leaves_alone (o_scan f s held)) /\
  (forall ys : list B, leaves_alone (o_zip held (ret (o_list ys))) /\ leaves_alone (o_zip (ret (o_list ys)) held)) /\
  (forall xs ys : list A, leaves_alone (o_concat [ret (o_list xs); o_seq held; ret (o_list ys)])) /\
  (b = false -> forall xs ys : list A, leaves_alone (o_concat [ret (o_list xs); held; ret (o_list ys)])).
Proof.
  intros W A B S b held. assert (T : tracks_it (negb b) held (ret (forget (o_shared b)))) by apply ret_tracks, shared_tracks.
  assert (LA : forall xs : list A, tracks_it (W := ogen W A * W) true (ret (o_list xs)) (ret (r_list xs))) by (intros xs; apply ret_tracks, list_tracks).
  assert (LB : forall xs : list B, tracks_it (W := ogen W A * W) true (ret (o_list xs)) (ret (r_list xs))) by (intros xs; apply ret_tracks, list_tracks).
  split; [exact (tracks_it_calls _ _ _ _ _ T)|]. split; [exact (tracks_it_calls _ _ _ _ _ (seq_tracks _ _ _ T))|].
  split; [intros f; exact (tracks_it_calls _ _ _ _ _ (map_tracks _ _ _ T f))|].
  split.
  { intros f. refine (tracks_it_calls _ _ _ _ _ (collect_tracks _ _ _ T _ (fun x => do ys <- f x; ret (ret (r_list ys))) _)).
    intros x w. unfold bind. destruct (f x w) as [[ys|e] w1]; split; try reflexivity. apply LB. }
  split; [intros f; exact (tracks_it_calls _ _ _ _ _ (choose_tracks _ _ _ T f))|].
  split; [intros n; exact (tracks_it_calls _ _ _ _ _ (skip_tracks _ _ _ T n))|].
  split; [intros n; exact (tracks_it_calls _ _ _ _ _ (take_tracks _ _ _ T n))|].
  split; [exact (tracks_it_calls _ _ _ _ _ (pairwise_tracks _ _ _ T))|].
  split; [intros f; exact (tracks_it_calls _ _ _ _ _ (dict_tracks _ _ _ T f))|].
  split; [intros p; exact (tracks_it_calls _ _ _ _ _ (filter_tracks _ _ _ T p))|].
  split; [intros f s; exact (tracks_it_calls _ _ _ _ _ (scan_tracks _ _ _ T f s))|].
  split; [intros ys; split; [exact (tracks_it_calls _ _ _ _ _ (zip_tracks _ _ _ T _ _ _ (LB ys)))|exact (tracks_it_calls _ _ _ _ _ (zip_tracks _ _ _ (LB ys) _ _ _ T))]|].
  split.
  - intros xs ys. exact (tracks_it_calls _ _ _ _ _ (concat_tracks _ _ _ _ (Forall2_cons _ _ (LA xs) (Forall2_cons _ _ (seq_tracks _ _ _ T) (Forall2_cons _ _ (LA ys) (Forall2_nil _)))))).
  - intros -> xs ys. exact (tracks_it_calls _ _ _ _ _ (concat_tracks _ _ _ _ (Forall2_cons _ _ (LA xs) (Forall2_cons _ _ T (Forall2_cons _ _ (LA ys) (Forall2_nil _)))))).
Qed.
Print Assumptions C120_held_partial.
Ltac one_call := eapply cls_more; [repeat first [apply cl_got; reflexivity|apply cl_ended; reflexivity|apply cl_raised; reflexivity|eapply cl_skip; [reflexivity|]]|].
(** seq.unfold(lambda n: Some((n, n + 1)), 1) *)
Definition counting : ogen unit Z := o_unfold (fun n => ret (Some (n, n + 1)%Z)) 1%Z.
Definition counting_from (n : Z) : ogen unit Z := o_unfold (fun n => ret (Some (n, n + 1)%Z)) n.
Example C120_held_partial_instance : exists g g1, o_map (fun x => ret (x * 2)%Z) (ret (o_shared true)) (counting, tt) = (Ret g, (counting, tt)) /\
  calls g (counting, tt) [Got 2; Got 4]%Z g1 (counting_from 3, tt) /\ drop g1 (counting_from 3, tt) = (counting_from 3, tt).
Proof. eexists. eexists. split; [reflexivity|]. split; [do 2 one_call; constructor|reflexivity]. Qed.

(** A generator that is given to concat, append or collect is closed with the iteration. *)
Theorem C120_held_refuted : exists g g1 g2 h h1,
  o_concat [ret (o_shared true); ret (o_list [10; 20]%Z)] (counting, tt) = (Ret g, (counting, tt)) /\
  calls g (counting, tt) [Got 1; Got 2]%Z g1 (counting_from 3, tt) /\ calls (counting_from 3) tt [Got 3; Got 4]%Z g2 tt /\
  drop g1 (counting_from 3, tt) = (done, tt) /\ calls (done : ogen unit Z) tt [Ended; Ended] done tt /\
  o_collect (fun _ => ret (ret (o_shared true))) (ret (o_list [0; 0]%Z)) (counting, tt) = (Ret h, (counting, tt)) /\
  calls h (counting, tt) [Got 1; Got 2]%Z h1 (counting_from 3, tt) /\ drop h1 (counting_from 3, tt) = (done, tt).
Proof.
  do 5 eexists. split; [reflexivity|]. split; [do 2 one_call; constructor|]. split; [do 2 one_call; constructor|]. split; [reflexivity|].
  split; [do 2 one_call; constructor|]. split; [reflexivity|]. split; [do 2 one_call; constructor|reflexivity].
Qed.
Print Assumptions C120_held_refuted.

(** Generators that belong to the iteration. *)
Theorem C120_balanced : forall W A B S (open : W -> Z) (src : oiterable W A), balanced open src ->
  balanced open (o_seq src) /\
  (forall f : A -> M W B, (forall x, neutral open (f x)) -> balanced open (o_map f src)) /\
  (forall f : A -> M W (oiterable W B),
     (forall x w, match f x w with (Ret it, w1) => open w1 = open w /\ balanced open it | (Raise _, w1) => open w1 = open w end) -> balanced open (o_collect f src)) /\
  (forall f : A -> M W (option B), (forall x, neutral open (f x)) -> balanced open (o_choose f src)) /\
  (forall c, balanced open (o_skip c src)) /\
  (forall c, balanced open (o_take c src)) /\
  balanced open (o_pairwise src) /\
  (forall f : A -> M W B, (forall x, neutral open (f x)) -> balanced open (o_dict f src)) /\
  (forall p, (forall x, neutral open (p x)) -> balanced open (o_filter p src)) /\
  (forall (f : S -> A -> M W S) s, (forall s x, neutral open (f s x)) -> balanced open (o_scan f s src)) /\
  (forall src2 : oiterable W B, balanced open src2 -> balanced open (o_zip src src2)).
Proof.
  intros W A B S open src F.
  exact (conj (seq_balanced open src F) (conj (map_balanced open src F) (conj (collect_balanced open src F) (conj (choose_balanced open src F) (conj (skip_balanced open src F)
    (conj (take_balanced open src F) (conj (pairwise_balanced open src F) (conj (dict_balanced open src F) (conj (filter_balanced open src F) (conj (scan_balanced open src F)
    (zip_balanced open src F))))))))))).
Qed.
Print Assumptions C120_balanced.
Theorem C120_balanced2 : forall W A S (open : W -> Z),
  (forall xs : list A, balanced open (ret (o_list xs))) /\
  (forall (enter exit : W -> W) (ms : list (M W A)), (forall w, open (enter w) = open w + 1)%Z -> (forall w, open (exit w) = open w - 1)%Z -> Forall (neutral open) ms ->
     balanced open (ret (o_resource enter exit ms))) /\
  (forall (f : S -> M W (option (A * S))) s, (forall s, neutral open (f s)) -> balanced open (ret (o_unfold f s))) /\
  (forall its : list (oiterable W A), Forall (balanced open) its -> balanced open (o_concat its)) /\
  (forall m : M W (oiterable W A),
     (forall w, match m w with (Ret it, w1) => open w1 = open w /\ balanced open it | (Raise _, w1) => open w1 = open w end) -> balanced open (o_delay m)).
Proof.
  intros W A S open. split; [|split; [|split; [|split]]].
  - intros xs. apply ret_balanced, list_owes.
  - intros enter exit ms EN EX N. apply ret_balanced. now apply resource_owes.
  - intros f s N. apply ret_balanced. now apply unfold_owes.
  - apply concat_balanced.
  - apply delay_balanced.
Qed.
Print Assumptions C120_balanced2.
Theorem C120_released : forall W A (open : W -> Z) (it : oiterable W A), balanced open it -> releases open it.
Proof. exact balanced_drop. Qed.
Print Assumptions C120_released.
Theorem C120_released_at_end_partial : forall W A B (open : W -> Z) (src : oiterable W A),
  (forall f : A -> M W B, balanced open (o_map f src) -> releases_at_end open (o_map f src)) /\
  (forall f : A -> M W (oiterable W B), balanced open (o_collect f src) -> releases_at_end open (o_collect f src)) /\
  (forall f : A -> M W (option B), balanced open (o_choose f src) -> releases_at_end open (o_choose f src)) /\
  (forall c, balanced open (o_skip c src) -> releases_at_end open (o_skip c src)) /\
  (forall c, balanced open (o_take c src) -> releases_at_end open (o_take c src)) /\
  (balanced open (o_pairwise src) -> releases_at_end open (o_pairwise src)) /\
  (forall f : A -> M W B, balanced open (o_dict f src) -> releases_at_end open (o_dict f src)) /\
  (balanced open (o_seq src) -> releases_at_end open (o_seq src)) /\
  (forall its, balanced open (o_concat its) -> releases_at_end open (o_concat (A := A) its)) /\
  (forall m, balanced open (o_delay m) -> releases_at_end open (o_delay (A := A) m)).
Proof.
  intros W A B open src.
  exact (conj (fun f K => balanced_end open _ K (ret_tidy _ (wrap_tidy _))) (conj (fun f K => balanced_end open _ K (ret_tidy _ (wrap_tidy _)))
    (conj (fun f K => balanced_end open _ K (ret_tidy _ (wrap_tidy _))) (conj (fun c K => balanced_end open _ K (ret_tidy _ (wrap_tidy _)))
    (conj (fun c K => balanced_end open _ K (take_tidy _ _ c src)) (conj (fun K => balanced_end open _ K (then_tidy _ _ _)) (conj (fun f K => balanced_end open _ K (dict_tidy _ _ _ f src))
    (conj (fun K => balanced_end open _ K (then_tidy _ _ _)) (conj (fun its K => balanced_end open _ K (ret_tidy _ (wrap_tidy _))) (fun m K => balanced_end open _ K (delay_tidy _ _ m))))))))))).
Qed.
Print Assumptions C120_released_at_end_partial.
(** the world counts the open generators *)
Definition file (xs : list Z) : oiterable Z Z := ret (o_resource (fun n => n + 1)%Z (fun n => n - 1)%Z (map ret xs)).
Example C120_released_instance : balanced (fun n => n) (file [1; 2; 3]%Z) /\ exists g g1, o_take 2 (file [1; 2; 3]%Z) 0%Z = (Ret g, 0%Z) /\
  calls g 0%Z [Got 1%Z] g1 1%Z /\ drop g1 1%Z = 0%Z /\ exists g2, calls g 0%Z [Got 1%Z; Got 2%Z; Ended] g2 0%Z.
Proof.
  split. { apply (proj1 (proj2 (C120_balanced2 Z Z unit (fun n => n)))); [reflexivity|reflexivity|]. repeat constructor. }
  do 2 eexists. split; [reflexivity|]. split; [one_call; constructor|]. split; [reflexivity|]. eexists. do 3 one_call. constructor.
Qed.
(** zip and filter keep their sources until they are let go themselves. *)
Theorem C120_at_end_refuted : exists g g1 h h1,
  o_zip (file [1; 2; 3]%Z) (ret (o_list [5]%Z)) 0%Z = (Ret g, 0%Z) /\ calls g 0%Z [Got (1, 5)%Z; Ended] g1 1%Z /\ drop g1 1%Z = 0%Z /\
  o_filter (fun _ => raise ValueError) (file [1; 2; 3]%Z) 0%Z = (Ret h, 0%Z) /\ calls h 0%Z [Raised ValueError] h1 1%Z /\ drop h1 1%Z = 0%Z.
Proof.
  do 4 eexists. split; [reflexivity|]. split; [do 2 one_call; constructor|]. split; [reflexivity|]. split; [reflexivity|]. split; [one_call; constructor|reflexivity].
Qed.
Print Assumptions C120_at_end_refuted.
