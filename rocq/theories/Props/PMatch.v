(** Property theorems C109: match statements take values apart as the constructors put
    them together. *)
From Coq Require Import List Bool String Lia.
From Verif.Model Require Import Base TaggedUnion UnionClass Match.
From Verif.Spec Require Import ListM UnionSpec MatchSpec.
From Verif.Proofs Require Import MatchFacts.
Import ListNotations.
Local Open Scope string_scope.
Local Open Scope py_scope.

(** C109. The patterns U(tag="c", c=p), U(c=p) and, when the tag is declared first,
    U("c", c=p): they try [p] on the payload when [c] is the active case, and fail without
    trying it otherwise. *)
Theorem C109_case : forall W V B fields c (p : pattern W (attr V) B) (t : table V) n v,
  plain fields -> value_of fields t -> In c fields -> c <> "tag" -> active t = Ret (n, v) ->
  let expected := if String.eqb n c then p (AObj v) else ret None in
  tagged_case fields c p t ==m expected /\ keyword_case fields c p t ==m expected /\
  (forall rest, fields = "tag" :: rest -> positional_case fields c p t ==m expected).
Proof. exact (fun W V B => C109_case_pf). Qed.
Print Assumptions C109_case.
(** One branch per case: the first branch for the active case is taken and gets the
    payload; no branch is taken only when there is none for it. *)
Theorem C109_exhaustive : forall W V fields cs (t : table V) n v,
  plain fields -> value_of fields t -> (forall c, In c cs -> In c fields /\ c <> "tag") -> active t = Ret (n, v) ->
  let statement := select (W := W) 0 (List.map (fun c => (tagged_case fields c bound t, no_guard)) cs) in
  (~ In n cs -> statement ==m ret None) /\
  (In n cs -> exists i, first_at n cs i /\ statement ==m ret (Some (i, [AObj v]))).
Proof. exact (fun W V => C109_exhaustive_pf). Qed.
Print Assumptions C109_exhaustive.
(** The guard of a branch is asked about the payload of the active case only; when it
    declines the later branches are tried. *)
Theorem C109_guard : forall W V fields c guard cases (t : table V) n v,
  plain fields -> value_of fields t -> In c fields -> c <> "tag" -> active t = Ret (n, v) ->
  select (W := W) 0 ((tagged_case fields c bound t, guard) :: cases) ==m
  (if String.eqb n c then (do g <- guard [AObj v]; if g : bool then ret (Some (0, [AObj v])) else select 1 cases) else select 1 cases).
Proof. exact (fun W V => C109_guard_pf). Qed.
Print Assumptions C109_guard.
(** The match statements of the library's own methods. *)
Theorem C109_option : forall W V (t : table V) n v, value_of option_fields t -> active t = Ret (n, v) ->
  (n = "some" /\ option_match (W := W) t ==m ret (Some (0, [AObj v]))) \/
  (n = "none" /\ option_match (W := W) t ==m ret (Some (1, []))).
Proof. exact (fun W V => C109_option_pf). Qed.
Print Assumptions C109_option.
Theorem C109_result : forall W V (t : table V) n v, value_of result_fields t -> active t = Ret (n, v) ->
  (n = "ok" /\ result_match (W := W) t ==m ret (Some (0, [AObj v]))) \/
  (n = "error" /\ result_match (W := W) t ==m ret (Some (1, [AObj v]))).
Proof. exact (fun W V => C109_result_pf). Qed.
Print Assumptions C109_result.
(** Positional patterns U(q, p): [p] stands for the first declared case, whatever [q] says. *)
Theorem C109_positional_partial : forall W V B c0 rest (q p : pattern W (attr V) B) (t : table V) n v, let fields := "tag" :: c0 :: rest in
  plain fields -> value_of fields t -> active t = Ret (n, v) ->
  union_pattern fields [q; p] [] t ==m
  (if String.eqb n c0
   then (do r <- q (AObj (PStr n));
         match r with None => ret None | Some bs => do r <- p (AObj v); ret (option_map (fun cs => (bs ++ cs)%list) r) end)
   else ret None).
Proof. exact (fun W V => C109_positional_pf). Qed.
Print Assumptions C109_positional_partial.
(** So [case Option("some", x)] and [case Option(_, x)] fail on every Some, and
    [case Result("error", e)] on every Error. *)
Theorem C109_positional_refuted : forall W V (x : pyobj V) (q : pattern W (attr V) (attr V)),
  exists some error,
    init option_fields [("some", x)] = Ret some /\ union_pattern option_fields [q; bound] [] some ==m ret None /\
    init result_fields [("error", x)] = Ret error /\ union_pattern result_fields [q; bound] [] error ==m ret None.
Proof.
  intros W V x q. do 2 eexists. split; [reflexivity|]. split; [intros w; reflexivity|].
  split; [reflexivity|]. intros w; reflexivity.
Qed.
Print Assumptions C109_positional_refuted.
(** Malformed patterns are a TypeError: too many positional sub-patterns, or the tag both by
    position and by name. *)
Theorem C109_malformed : forall W V B,
  (forall fields (ps : list (pattern W (attr V) B)) ks t, List.length fields < List.length ps ->
     union_pattern fields ps ks t ==m raise TypeError) /\
  (forall rest (q p : pattern W (attr V) B) t n v, plain ("tag" :: rest) -> value_of ("tag" :: rest) t -> active t = Ret (n, v) ->
     union_pattern ("tag" :: rest) [q] [("tag", p)] t ==m raise TypeError).
Proof. exact (fun W V B => conj (C109_too_many_pf B) (C109_twice_pf B)). Qed.
Print Assumptions C109_malformed.
(** A union that is not frozen, after an assignment to another case: U(c=p) matches for two
    cases; with the tag it still matches for the original case only. *)
Theorem C109_assigned_refuted : forall W V d (t : table V) n v c x,
  plain (d_fields d) -> d_frozen d = false -> value_of (d_fields d) t -> active t = Ret (n, v) ->
  In c (d_fields d) -> c <> "tag" -> c <> n ->
  let t' := snd (assign d c (AObj x) t) in
  fst (assign d c (AObj x) t) = Ret tt /\
  keyword_case (W := W) (d_fields d) n bound t' ==m ret (Some [AObj v]) /\
  keyword_case (W := W) (d_fields d) c bound t' ==m ret (Some [AObj x]) /\
  tagged_case (W := W) (d_fields d) c bound t' ==m ret None.
Proof. exact (fun W V => C109_assigned_pf). Qed.
Print Assumptions C109_assigned_refuted.

(** Block([p1, ..., pk]): fails on other lengths, otherwise tries the patterns on the
    elements in order. *)
Theorem C109_block_fixed : forall W A B (ps : list (pattern W A B)) xs,
  (List.length xs <> List.length ps -> block_pattern [sequence_pattern ps None []] xs ==m ret None) /\
  (List.length xs = List.length ps -> forall w, exists r w', tried ps xs w r w' /\ block_pattern [sequence_pattern ps None []] xs w = (r, w')).
Proof. exact (fun W A B => C109_fixed_pf). Qed.
Print Assumptions C109_block_fixed.
(** Block([p1, ..., pk, *rest, q1, ..., qm]): fails on shorter blocks, otherwise splits. *)
Theorem C109_block_star : forall W A B (before : list (pattern W A B)) (show : list A -> list B) (after : list (pattern W A B)) (xs : list A),
  (List.length xs < List.length before + List.length after ->
     block_pattern [sequence_pattern before (Some show) after] xs ==m ret None) /\
  (forall hd mid tl, xs = (hd ++ mid ++ tl)%list -> List.length hd = List.length before -> List.length tl = List.length after -> forall w,
     (forall r w1, tried before hd w r w1 -> (forall bs, r <> Ret (Some bs)) ->
        block_pattern [sequence_pattern before (Some show) after] xs w = (r, w1)) /\
     (forall bs w1 r w2, tried before hd w (Ret (Some bs)) w1 -> tried after tl w1 r w2 ->
        block_pattern [sequence_pattern before (Some show) after] xs w =
        (match r with Ret (Some cs) => Ret (Some (bs ++ show mid ++ cs)%list) | r => r end, w2))).
Proof. exact (fun W A B => C109_star_pf). Qed.
Print Assumptions C109_block_star.
(** The usual two branches, [case Block([])] and [case Block([head, *tail])], cover every
    block and take it apart as [cons] put it together. *)
Theorem C109_block_cons : forall W A (xs : list A),
  let statement := select (W := W) 0
    [(block_pattern [sequence_pattern [] None []] xs, no_guard);
     (block_pattern [sequence_pattern [capture One] (Some (fun r => [Rest r])) []] xs, no_guard)] in
  match xs with
  | [] => statement ==m ret (Some (0, []))
  | x :: xs => statement ==m ret (Some (1, [One x; Rest xs]))
  end.
Proof.
  intros W A [|x xs] statement w; [reflexivity|]. unfold statement.
  assert (E : block_pattern [sequence_pattern [capture One] (Some (fun r => [Rest r])) []] (x :: xs) w = (Ret (Some [One x; Rest xs]), w)).
  { destruct (C109_star_pf [capture (W := W) One] (fun r => [Rest r]) [] (x :: xs)) as [_ S].
    destruct (S [x] xs [] ltac:(cbn; now rewrite app_nil_r) eq_refl eq_refl w) as [_ S2].
    rewrite (S2 [One x] w (Ret (Some [])) w); [reflexivity| |constructor].
    change [One x] with ([One x] ++ @nil (piece A))%list.
    apply (tried_more (capture One) [] x [] w [One x] w (Ret (Some [])) w); [reflexivity|constructor]. }
  cbn [select]. unfold bind at 1.
  replace (block_pattern [sequence_pattern [] None []] (x :: xs) w) with (@Ret (option (list (piece A))) None, w) by reflexivity.
  unfold bind at 1. rewrite E. reflexivity.
Qed.
Print Assumptions C109_block_cons.
(** But a sequence pattern without the class fails on every Block and Seq, the class pattern
    Seq(p) on every Seq, and TypedArray(p) on every TypedArray: their [__match_args__] name
    attributes that instances do not have. *)
Theorem C109_sequence_refuted : forall W A B (p : pattern W (list A) B) xs,
  bare_sequence_pattern block_is_sequence p xs ==m ret None /\ bare_sequence_pattern seq_is_sequence p xs ==m ret None.
Proof. exact (fun W A B p xs => conj (fun w => eq_refl) (fun w => eq_refl)). Qed.
Print Assumptions C109_sequence_refuted.
Theorem C109_seq_refuted : forall W B X (p : pattern W X B) x, seq_pattern [p] x ==m ret None.
Proof. exact (fun W B => C109_seq_pf). Qed.
Print Assumptions C109_seq_refuted.
Theorem C109_array_refuted : forall W B X (p : pattern W X B) (qs : list (pattern W X B)) value typecode, List.length qs <= 1 ->
  array_pattern (p :: qs) value typecode ==m ret None.
Proof. exact (fun W B => C109_array_pf). Qed.
Print Assumptions C109_array_refuted.
(** A TypedArray can be taken apart with a bare sequence pattern. *)
Theorem C109_array_partial : forall W A B (p : pattern W (list A) B) xs, bare_sequence_pattern array_is_sequence p xs ==m p xs.
Proof. exact (fun W A B p xs w => eq_refl). Qed.
Print Assumptions C109_array_partial.

Example C109_case_example :
  exists t : table nat, init ["tag"; "circle"; "square"; "point"] [("square", PObj 5)] = Ret t /\
    value_of ["tag"; "circle"; "square"; "point"] t /\ active t = Ret ("square", PObj 5) /\
    fst (select (W := unit) 0
      [(tagged_case ["tag"; "circle"; "square"; "point"] "circle" bound t, no_guard);
       (tagged_case ["tag"; "circle"; "square"; "point"] "square" bound t, fun _ => ret false);
       (keyword_case ["tag"; "circle"; "square"; "point"] "square" bound t, no_guard);
       (wildcard t, no_guard)] tt) = Ret (Some (2, [AObj (PObj 5)])).
Proof.
  eexists. split; [reflexivity|]. split; [|split; reflexivity].
  exists [("square", PObj 5)]. split; [repeat constructor; cbn; intuition|reflexivity].
Qed.
Example C109_block_example :
  fst (block_pattern (W := unit) [sequence_pattern [capture One] (Some (fun r => [Rest r])) [capture One; wildcard]] [1; 2; 3; 4; 5] tt)
  = Ret (Some [One 1; Rest [2; 3]; One 4]).
Proof. reflexivity. Qed.
