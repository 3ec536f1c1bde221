(** Property theorems C91 (text of Option, Result and Try), C93 (hash and comparison
    operators) and C94 (unions that are not frozen). *)
From Coq Require Import List Bool ZArith String.
From Verif.Model Require Import Base TaggedUnion UnionClass.
From Verif.Spec Require Import ListM UnionSpec KeyInstances.
From Verif.Proofs Require Import TaggedUnionFacts CoreRefute UnionClassFacts.
Import ListNotations.
Local Open Scope string_scope.
Local Open Scope py_scope.

(** C91. [pstr] is str() of a payload, with any effects and exceptions. *)
Theorem C91_option_text : forall V W (pstr : pyobj V -> M W string) (t : table V), value_of option_fields t ->
  (exists v, active t = Ret ("some", v) /\ str COption pstr t ==m (do s <- pstr v; ret ("Some " ++ s))) \/
  (exists v, active t = Ret ("none", v) /\ str COption pstr t ==m ret "Nothing").
Proof. exact (fun V W => C91_option_pf). Qed.
Print Assumptions C91_option_text.
Theorem C91_result_text : forall V W c (pstr : pyobj V -> M W string) (t : table V), c <> COption -> value_of result_fields t ->
  let word yes no := match c with CTry => no | _ => yes end in
  (exists v, active t = Ret ("ok", v) /\ str c pstr t ==m (do s <- pstr v; ret (word "Ok " "Success " ++ s))) \/
  (exists v, active t = Ret ("error", v) /\ str c pstr t ==m (do s <- pstr v; ret (word "Error " "Failure " ++ s))).
Proof. exact (fun V W => C91_result_pf). Qed.
Print Assumptions C91_result_text.
(** the text tells the values of one class apart when the texts of the payloads do
    ([Option(none=5)] is not a value of its type and prints like Nothing) *)
Theorem C91_determined : forall V W c (show : pyobj V -> string) (t1 t2 : table V) (w1 w2 : W) s,
  (forall x y, show x = show y -> x = y) ->
  value_of (d_fields (cls_decl c)) t1 -> value_of (d_fields (cls_decl c)) t2 ->
  (forall t x, t = t1 \/ t = t2 -> active t = Ret ("none", x) -> x = PNone) ->
  fst (str c (fun x => ret (show x)) t1 w1) = Ret s -> fst (str c (fun x => ret (show x)) t2 w2) = Ret s -> t1 = t2.
Proof. exact (fun V W => C91_determined_pf). Qed.
Print Assumptions C91_determined.
(** repr(): the decorator replaces the [__repr__] of the class body, so it is never str() *)
Theorem C91_repr_partial : forall V W c (pstr prepr : pyobj V -> M W string) (t : table V) n v,
  value_of (d_fields (cls_decl c)) t -> active t = Ret (n, v) ->
  repr c pstr prepr t ==m
  (do s <- prepr v; ret (match c with COption => "Option(" | _ => "Result(" end ++ n ++ "=" ++ s ++ ")")).
Proof. exact (fun V W => C91_repr_pf). Qed.
Print Assumptions C91_repr_partial.
Theorem C91_repr_refuted : forall V W c (pstr prepr : pyobj V -> M W string) (t : table V) w w' s s',
  value_of (d_fields (cls_decl c)) t ->
  fst (str c pstr t w) = Ret s -> fst (repr c pstr prepr t w') = Ret s' -> s <> s'.
Proof. exact (fun V W => C91_repr_differs_pf). Qed.
Print Assumptions C91_repr_refuted.
(** copy.copy keeps class and text of options and results, but makes a Result of a Try *)
Theorem C91_copy_partial : forall V c (t : table V), c <> CTry -> value_of (d_fields (cls_decl c)) t ->
  copied (c, t) = Ret (c, t).
Proof. exact (fun V => C91_copy_pf). Qed.
Print Assumptions C91_copy_partial.
Theorem C91_copy_refuted : forall V W (t : table V) (pstr : pyobj V -> M W string) w w' s s', value_of result_fields t ->
  copied (CTry, t) = Ret (CResult, t) /\
  (fst (str CTry pstr t w) = Ret s -> fst (str CResult pstr t w') = Ret s' -> s <> s').
Proof. exact (fun V W => C91_copy_try_pf). Qed.
Print Assumptions C91_copy_refuted.
(** so does deepcopy; pickling keeps the class *)
Theorem C91_copy_class : forall V (dup : pyobj V -> res (pyobj V)) c c' (t t' : table V),
  (copied (c, t) = Ret (c', t') \/ deepcopied dup (c, t) = Ret (c', t') -> c' = match c with COption => COption | _ => CResult end) /\
  (pickled dup (c, t) = Ret (c', t') -> c' = c).
Proof. exact (fun V => C91_class_pf). Qed.
Print Assumptions C91_copy_class.
(** for any class: a [__repr__] of the body counts only when the decorator is told not to make
    one *)
Theorem C91_own_repr : forall V W d (body default : table V -> M W string) prepr (t : table V) n v, active t = Ret (n, v) ->
  py_repr d body default prepr t ==m
  (if d_repr d then (do s <- prepr v; ret (d_name d ++ "(" ++ n ++ "=" ++ s ++ ")")) else if d_body d SRepr then body t else default t).
Proof.
  intros V W d body default prepr t n v H w. unfold py_repr, method, defined. destruct (d_repr d).
  - unfold tu_repr, lift, bind. now rewrite H.
  - now destruct (d_body d SRepr).
Qed.
Print Assumptions C91_own_repr.
Example C91_case :
  let show (x : pyobj nat) : M unit string := match x with PObj 7 => ret "7" | PObj _ => raise ValueError | PStr s => ret s | PNone => ret "None" end in
  let some v := built option_fields "some" v in let ok v := built result_fields "ok" v in
  value_of option_fields (some (PObj 7)) /\
  fst (str COption show (some (PObj 7)) tt) = Ret "Some 7" /\ fst (repr COption show show (some (PObj 7)) tt) = Ret "Option(some=7)" /\
  fst (str COption show (some (PObj 8)) tt) = Raise ValueError /\
  fst (str COption show (built option_fields "none" PNone) tt) = Ret "Nothing" /\
  fst (str CTry show (ok (PStr "x")) tt) = Ret "Success x" /\ fst (str CResult show (ok (PStr "x")) tt) = Ret "Ok x" /\
  copied (CTry, ok (PStr "x")) = Ret (CResult, ok (PStr "x")) /\
  pickled (fun x => Ret x) (CTry, ok (PStr "x")) = Ret (CTry, ok (PStr "x")).
Proof.
  cbv zeta. split; [|vm_compute; repeat split].
  exists [("some", PObj 7)]. split; [repeat constructor; cbn; tauto|reflexivity].
Qed.

(** C93. [ia], [ib]: the identities of the two objects; [ueq], [uhash]: what the class body
    would define, which it does not. *)
Theorem C93_hash_partial : forall V (KO : KeyOrd (pyobj V)) d (ueq : table V -> table V -> res bool) (uhash : table V -> res Z)
    id_hash th phash ia ib (a b : table V),
  plain (d_fields d) -> d_body d SEq = false -> d_body d SHash = false -> (d_frozen d = true \/ d_eq d = false) ->
  value_of (d_fields d) a -> value_of (d_fields d) b -> (ia = ib -> a = b) ->
  (forall x y, eqb x y = true -> phash x = phash y) ->
  py_eq d ueq eqb ia ib a b = Ret true ->
  exists h, py_hash d uhash id_hash th phash ia a = Ret h /\ py_hash d uhash id_hash th phash ib b = Ret h.
Proof. exact (fun V => C93_hash_pf). Qed.
Print Assumptions C93_hash_partial.
(** without [frozen] equal values have different hashes: for every declaration and value *)
Theorem C93_hash_refuted : forall V (KO : KeyOrd (pyobj V)) d (ueq : table V -> table V -> res bool) (uhash : table V -> res Z)
    id_hash th phash ia ib (t : table V),
  plain (d_fields d) -> d_body d SEq = false -> d_body d SHash = false -> d_frozen d = false -> d_eq d = true ->
  value_of (d_fields d) t -> (forall i j, id_hash i = id_hash j -> i = j) -> ia <> ib ->
  py_eq d ueq eqb ia ib t t = Ret true /\
  exists h h', py_hash d uhash id_hash th phash ia t = Ret h /\ py_hash d uhash id_hash th phash ib t = Ret h' /\ h <> h'.
Proof. exact (fun V => C93_hash_differs_pf). Qed.
Print Assumptions C93_hash_refuted.
(** What a class body defines counts only when the decorator is not told to make the method:
    an [__eq__] of the body is replaced when [eq] is set, a [__hash__] when [frozen] is; and a
    body with an [__eq__] and no [__hash__] makes a class that is not frozen unhashable, also
    when the decorator replaces that [__eq__]. *)
Theorem C93_own_methods : forall V d (ueq : table V -> table V -> res bool) (uhash : table V -> res Z)
    peq id_hash th phash ia ib (a b : table V),
  py_eq d ueq peq ia ib a b =
    (if d_eq d then tu_eq peq a b else if d_body d SEq then ueq a b else Ret (Nat.eqb ia ib)) /\
  (d_frozen d = true -> forall n v, active a = Ret (n, v) -> py_hash d uhash id_hash th phash ia a = Ret (th (d_name d) n (phash v))) /\
  (d_frozen d = false -> d_body d SHash = true -> py_hash d uhash id_hash th phash ia a = uhash a) /\
  (d_frozen d = false -> d_body d SHash = false -> d_body d SEq = true -> py_hash d uhash id_hash th phash ia a = Raise TypeError).
Proof.
  intros V d ueq uhash peq id_hash th phash ia ib a b. unfold py_eq, py_hash, method, defined. split; [|split; [|split]].
  - destruct (d_eq d); [reflexivity|]. now destruct (d_body d SEq).
  - intros F n v H. rewrite F. unfold tu_hash. now rewrite H.
  - intros F H. now rewrite F, H.
  - intros F H E. now rewrite F, H, E.
Qed.
Print Assumptions C93_own_methods.
Example C93_methods_case :
  let d eq := {| d_name := "Shape"; d_fields := ["circle"]; d_frozen := false; d_repr := true; d_eq := eq; d_order := false;
                 d_body := fun s => match s with SEq => true | _ => false end |} in
  let t := built ["circle"] "circle" (PObj 7) in
  py_hash (d true) (fun _ => Ret 0%Z) Z.of_nat (fun _ _ z => z) (fun _ => 5%Z) 3 t = Raise TypeError /\
  py_eq (d true) (fun _ _ => Ret false) (fun _ _ => true) 3 4 t t = Ret true /\
  py_eq (d false) (fun _ _ => Ret false) (fun _ _ => true) 3 4 t t = Ret false.
Proof. vm_compute. repeat split. Qed.
(** [order]: < and > compare, <= and >= raise *)
Theorem C93_operators_partial : forall V d (body : special -> table V -> table V -> res (option bool)) peq plt (a b : table V),
  d_order d = true -> d_body d SGt = false ->
  compare d body peq plt SLt a b = tu_lt peq plt a b /\ compare d body peq plt SGt a b = tu_lt peq plt b a.
Proof. exact (fun V => C93_lt_gt_pf). Qed.
Print Assumptions C93_operators_partial.
Theorem C93_operators_refuted : forall V d (body : special -> table V -> table V -> res (option bool)) peq plt (a b : table V),
  d_body d SLe = false -> d_body d SGe = false ->
  compare d body peq plt SLe a b = Raise TypeError /\ compare d body peq plt SGe a b = Raise TypeError.
Proof. exact (fun V => C93_le_ge_pf). Qed.
Print Assumptions C93_operators_refuted.
(** A class body that defines one of [<=] and [>=] has both: the other one asks it with the
    operands exchanged. *)
Theorem C93_own_operators : forall V d (body : special -> table V -> table V -> res (option bool)) peq plt (a b : table V) s s',
  (s, s') = (SLe, SGe) \/ (s, s') = (SGe, SLe) -> d_body d s = true -> d_body d s' = false ->
  compare d body peq plt s a b = (dor r <- body s a b; match r with Some r => Ret r | None => Raise TypeError end) /\
  compare d body peq plt s' a b = (dor r <- body s b a; match r with Some r => Ret r | None => Raise TypeError end).
Proof. exact (fun V => C93_own_pf). Qed.
Print Assumptions C93_own_operators.
(** Option, Result and Try are such classes: hashed by case and payload whatever the identity,
    compared by the decorator's methods, and their cases cannot be assigned. *)
Theorem C93_option_result : forall V c (body : special -> table V -> table V -> res (option bool)) (ueq : table V -> table V -> res bool)
    (uhash : table V -> res Z) id_hash th phash peq plt ia ib (a b : table V) n x name v, active a = Ret (n, x) ->
  py_hash (cls_decl c) uhash id_hash th phash ia a = Ret (th (match c with COption => "Option" | _ => "Result" end) n (phash x)) /\
  py_eq (cls_decl c) ueq peq ia ib a b = tu_eq peq a b /\
  compare (cls_decl c) body peq plt SLt a b = tu_lt peq plt a b /\ compare (cls_decl c) body peq plt SGt a b = tu_lt peq plt b a /\
  (In name (match c with COption => ["tag"; "none"; "some"] | _ => ["tag"; "ok"; "error"] end) -> assign (cls_decl c) name v a = (Raise TypeError, a)).
Proof.
  intros V c body ueq uhash id_hash th phash peq plt ia ib a b n x name v H. split; [|split; [now destruct c|split; [|split]]].
  - unfold py_hash, tu_hash. destruct c; cbn; now rewrite H.
  - apply (C93_operators_partial V (cls_decl c)); now destruct c.
  - apply (C93_operators_partial V (cls_decl c)); now destruct c.
  - intros I. destruct c; cbn in I |- *; intuition (subst; reflexivity).
Qed.
Print Assumptions C93_option_result.
Example C93_option_case :
  let some n : table nat := built option_fields "some" (PObj n) in
  active (some 3) = Ret ("some", PObj 3) /\
  compare option_decl (fun _ _ _ => Ret None) eqb ltb SLt (some 3) (some 4) = Ret true /\
  compare option_decl (fun _ _ _ => Ret None) eqb ltb SLt (some 3) (built option_fields "none" PNone) = Ret false /\
  py_repr {| d_name := "Shape"; d_fields := option_fields; d_frozen := false; d_repr := false; d_eq := true; d_order := false;
             d_body := fun s => match s with SRepr => true | _ => false end |} (fun _ => ret "mine") (fun _ => ret "<object>") (fun _ => ret "3") (some 3) tt = (Ret "mine", tt) /\
  astep option_fields (ADel "note") (some 3) = (Raise AttributeError, some 3).
Proof. vm_compute. repeat split. Qed.
Definition shape (frozen : bool) : decl := {| d_name := "Shape"; d_fields := ["tag"; "circle"; "square"]; d_frozen := frozen;
  d_repr := true; d_eq := true; d_order := true; d_body := fun _ => false |}.
Example C93_own_case :
  let d := {| d_name := "Shape"; d_fields := ["tag"; "circle"]; d_frozen := true; d_repr := true; d_eq := true; d_order := true;
              d_body := fun s => match s with SLe => true | _ => false end |} in
  let circle n : table nat := built (d_fields d) "circle" (PObj n) in
  let le (s : special) (a b : table nat) := match getattr "circle" a, getattr "circle" b with Ret x, Ret y => Ret (Some (negb (ltb y x))) | _, _ => Ret None end in
  compare d le eqb ltb SLe (circle 3) (circle 4) = Ret true /\ compare d le eqb ltb SGe (circle 3) (circle 4) = Ret false.
Proof. vm_compute. auto. Qed.
Example C93_case :
  let circle n : table nat := built (d_fields (shape true)) "circle" (PObj n) in
  let hash fr := py_hash (shape fr) (fun _ => Ret 0%Z) Z.of_nat (fun _ _ z => z) (fun x => match x with PObj n => Z.of_nat n | _ => 0%Z end) in
  plain (d_fields (shape true)) /\ value_of (d_fields (shape true)) (circle 3) /\
  hash true 10 (circle 3) = Ret 3%Z /\ hash true 11 (circle 3) = Ret 3%Z /\
  hash false 10 (circle 3) = Ret 10%Z /\ hash false 11 (circle 3) = Ret 11%Z /\
  compare (shape true) (fun _ _ _ => Ret None) eqb ltb SGt (circle 4) (circle 3) = Ret true /\
  compare (shape true) (fun _ _ _ => Ret None) eqb ltb SLe (circle 3) (circle 4) = Raise TypeError /\
  compare option_decl (fun _ _ _ => Ret None) eqb ltb SGe (circle 3) (circle 4) = Raise TypeError.
Proof.
  cbv zeta. split; [split; [repeat constructor; cbn; intuition congruence|split; cbn; intuition congruence]|].
  split; [|vm_compute; repeat split].
  exists [("circle", PObj 3)]. split; [repeat constructor; cbn; tauto|reflexivity].
Qed.

(** C94: assigning the active case gives the value with the new payload *)
Theorem C94_active_partial : forall V d (t : table V) name value x, plain (d_fields d) -> d_frozen d = false ->
  value_of (d_fields d) t -> active t = Ret (name, value) ->
  exists t', assign d name (AObj x) t = (Ret tt, t') /\ init (d_fields d) [(name, x)] = Ret t'.
Proof. exact (fun V => C94_active_pf). Qed.
Print Assumptions C94_active_partial.
(** assigning another case is accepted and changes nothing that equality, order, hash, text
    or a copy look at *)
Theorem C94_other_refuted : forall V d (t : table V) name n value x, plain (d_fields d) -> d_frozen d = false ->
  value_of (d_fields d) t -> active t = Ret (n, value) -> In name (d_fields d) -> name <> n -> name <> "tag" ->
  exists t', assign d name (AObj x) t = (Ret tt, t') /\ active t' = Ret (n, value) /\ get_index t' = get_index t /\
    tu_copy (d_fields d) t' = Ret t.
Proof. exact (fun V => C94_other_pf). Qed.
Print Assumptions C94_other_refuted.
(** assigning another case and the tag gives a value that equals a fresh one, is smaller than
    it at the same time, and cannot be pickled *)
Theorem C94_retag_refuted : forall V (KO : KeyOrd (pyobj V)) d (t fresh : table V) a b v x l1 l2 l3,
  plain (d_fields d) -> d_frozen d = false -> d_fields d = (l1 ++ a :: l2 ++ b :: l3)%list -> a <> "tag" -> b <> "tag" ->
  In "tag" (d_fields d) -> init (d_fields d) [(a, v)] = Ret t -> init (d_fields d) [(b, x)] = Ret fresh ->
  exists t1 t2, assign d b (AObj x) t = (Ret tt, t1) /\ assign d "tag" (AObj (PStr b)) t1 = (Ret tt, t2) /\
    active t2 = Ret (b, x) /\ tu_eq eqb t2 fresh = Ret true /\ tu_eq eqb fresh t2 = Ret true /\
    tu_lt eqb ltb t2 fresh = Ret true /\
    forall dup, (forall y, dup y = Ret y) -> pickle_round_trip (d_fields d) dup t2 = Raise TypeError.
Proof. exact (fun V => C94_retag_pf). Qed.
Print Assumptions C94_retag_refuted.
Example C94_case : exists t fresh : table nat, let d := shape false in
  d_fields d = (["tag"] ++ "circle" :: [] ++ "square" :: [])%list /\
  init (d_fields d) [("circle", PObj 3)] = Ret t /\ init (d_fields d) [("square", PObj 4)] = Ret fresh /\
  active (snd (assign d "circle" (AObj (PObj 5)) t)) = Ret ("circle", PObj 5) /\
  active (snd (assign d "square" (AObj (PObj 5)) t)) = Ret ("circle", PObj 3) /\
  fst (assign (shape true) "square" (AObj (PObj 5)) t) = Raise TypeError.
Proof. do 2 eexists. cbv zeta. split; [reflexivity|]. split; [reflexivity|]. split; [reflexivity|]. repeat split. Qed.
