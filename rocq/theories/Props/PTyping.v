(** C95: upcast, downcast and try_downcast. *)
From Coq Require Import List Bool.
From Verif.Model Require Import Typing.
From Verif.Spec Require Import TypingSpec.
From Verif.Proofs Require Import TypingFacts.
Import ListNotations.

(** For examples: objects are lists of numbers, with three classes; class 0 has the empty
    list, which stands for None, class 1 the lists of one item and class 2 all lists that
    have a first item above 4; the items of a list are one-item lists. *)
Definition in_class (x : list nat) (c : nat) : bool :=
  match c, x with 0, [] => true | 1, [_] => true | 2, n :: _ => Nat.ltb 4 n | _, _ => false end.
Definition item_of (x : list nat) (i : nat) (y : list nat) : Prop := exists n, In n x /\ y = [n].

(** downcast returns the object itself when it belongs to the type, AssertionError
    otherwise, for everything isinstance accepts *)
Theorem C95_downcast_partial : forall cls obj (inst : obj -> cls -> bool) none holds t x, checkable t ->
  (belongs inst none holds t x -> downcast inst true t x = Returns x) /\ (~ belongs inst none holds t x -> downcast inst true t x = Asserts).
Proof. exact (fun cls obj => downcast_pf). Qed.
Print Assumptions C95_downcast_partial.
(** try_downcast returns the object itself or None, for classes and tuples of classes *)
Theorem C95_try_partial : forall cls obj (inst : obj -> cls -> bool) union_type none holds t x, plain t ->
  (belongs inst none holds t x -> try_downcast inst union_type none t x = Returns x) /\
  (~ belongs inst none holds t x -> try_downcast inst union_type none t x = Returns none).
Proof. exact (fun cls obj => try_downcast_pf). Qed.
Print Assumptions C95_try_partial.
(** a generic is checked up to its type arguments: the class decides *)
Theorem C95_try_generic_partial : forall cls obj (inst : obj -> cls -> bool) union_type none c args x,
  try_downcast inst union_type none (TyGeneric c args) x = try_downcast inst union_type none (TyClass c) x.
Proof. exact (fun cls obj inst u none c args x => eq_refl). Qed.
Print Assumptions C95_try_generic_partial.
(** upcast returns the object whatever the type *)
Theorem C95_upcast : forall cls obj (t : tyexp cls) (x : obj), upcast t x = Returns x.
Proof. exact (fun cls obj t x => eq_refl). Qed.
Print Assumptions C95_upcast.
Example C95_case : let t := TyTuple [0; 1] in
  checkable t /\ plain t /\ belongs in_class [] item_of t [7] /\ ~ belongs in_class [] item_of t [7; 8] /\
  downcast in_class true t [7] = Returns [7] /\ downcast in_class true t [7; 8] = Asserts /\
  try_downcast in_class 9 [] t [7] = Returns [7] /\ try_downcast in_class 9 [] t [7; 8] = Returns [].
Proof.
  cbv zeta. repeat split; try reflexivity.
  - exists 1. split; [right; left; reflexivity|reflexivity].
  - intros (c & [<-|[<-|[]]] & E); discriminate E.
Qed.
(** try_downcast also decides the type None, which downcast refuses. *)
Theorem C95_none_partial : forall cls obj (inst : obj -> cls -> bool) union_type none (holds : obj -> nat -> obj -> Prop) x,
  (belongs inst none holds TyNone x -> try_downcast inst union_type none TyNone x = Returns x) /\
  (~ belongs inst none holds TyNone x -> try_downcast inst union_type none TyNone x = Returns none) /\
  downcast inst true TyNone x = TypeErrorOf.
Proof. intros. split; [intros ->; reflexivity|]. split; reflexivity. Qed.
Print Assumptions C95_none_partial.
(** Not in general.  The type arguments are not checked by try_downcast, and downcast
    raises TypeError for a generic type; a union [a | b] is never recognised by
    try_downcast, which compares the class of the object with types.UnionType, and
    [typing.Union] raises TypeError; None is not accepted by downcast; without assertions
    (-O) downcast returns anything. *)
Theorem C95_casts_refuted : forall cls obj (inst : obj -> cls -> bool) union_type none (holds : obj -> nat -> obj -> Prop),
  (forall c a x y, inst x c = true -> holds x 0 y -> ~ belongs inst none holds a y ->
     ~ belongs inst none holds (TyGeneric c [a]) x /\ try_downcast inst union_type none (TyGeneric c [a]) x = Returns x) /\
  (forall c args x, downcast inst true (TyGeneric c args) x = TypeErrorOf) /\
  (forall cs c x, In c cs -> inst x c = true -> inst x union_type = false ->
     belongs inst none holds (TyBar cs) x /\ try_downcast inst union_type none (TyBar cs) x = Returns none) /\
  (forall cs x, try_downcast inst union_type none (TyUnion cs) x = TypeErrorOf) /\
  (downcast inst true TyNone none = TypeErrorOf) /\
  (forall t x, downcast inst false t x = Returns x) /\
  (forall c, try_downcast inst union_type none (TyClass c) none = Returns none).
Proof.
  intros. split; [|split; [|split; [|split; [|split; [|split]]]]]; try reflexivity.
  - intros c a x y I H N. split; [intros (_ & B & _); apply N, B, H|]. unfold try_downcast. cbn. rewrite I. reflexivity.
  - intros cs c x I E N. split; [exists c; auto|]. unfold try_downcast. cbn. rewrite N. reflexivity.
  - intros c. unfold try_downcast. cbn. destruct (inst none c); reflexivity.
Qed.
Print Assumptions C95_casts_refuted.
Example C95_refuted_case :
  ~ belongs in_class [] item_of (TyGeneric 2 [TyClass 2]) [5; 1] /\
  try_downcast in_class 9 [] (TyGeneric 2 [TyClass 2]) [5; 1] = Returns [5; 1] /\
  belongs in_class [] item_of (TyBar [0; 1]) [3] /\ try_downcast in_class 9 [] (TyBar [0; 1]) [3] = Returns [].
Proof.
  destruct (C95_casts_refuted nat (list nat) in_class 9 [] item_of) as (G & _ & U & _).
  destruct (G 2 (TyClass 2) [5; 1] [1]) as [G1 G2]; [reflexivity|exists 1; cbn; auto|discriminate|].
  destruct (U [0; 1] 1 [3]) as [U1 U2]; [cbn; auto|reflexivity|reflexivity|]. auto.
Qed.
