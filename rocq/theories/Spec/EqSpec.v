(** What values have in them, and when they should count as equal. *)
From Coq Require Import List ZArith Bool.
From Verif.Model Require Import ValueEq.
Import ListNotations.

(** The test holds of the value and of all that is inside it. *)
Fixpoint everywhere (p : value -> bool) (x : value) : bool :=
  p x &&
  match x with
  | VTuple xs | VList xs | VBlock xs | VArray xs => forallb (everywhere p) xs
  | VOption (Some a) => everywhere p a
  | VResult _ a => everywhere p a
  | VMap b => forallb (fun kv => everywhere p (snd kv)) b
  | _ => true
  end.
Definition not_array (x : value) : bool := match x with VArray _ => false | _ => true end.
Definition not_array_or_map (x : value) : bool := match x with VArray _ | VMap _ => false | _ => true end.
Definition not_list_block_array (x : value) : bool := match x with VList _ | VBlock _ | VArray _ => false | _ => true end.
(** The value with tuples for Blocks. *)
Fixpoint plain (x : value) : value :=
  match x with
  | VTuple xs | VBlock xs => VTuple (map plain xs)
  | VList xs => VList (map plain xs)
  | VArray xs => VArray (map plain xs)
  | VOption (Some a) => VOption (Some (plain a))
  | VResult ok a => VResult ok (plain a)
  | VMap b => VMap (map (fun kv => (fst kv, plain (snd kv))) b)
  | x => x
  end.
(** How deep values are nested. *)
Fixpoint depth (x : value) : nat :=
  match x with
  | VTuple xs | VList xs | VBlock xs | VArray xs => S (list_max (map depth xs))
  | VOption (Some a) => S (depth a)
  | VResult _ a => S (depth a)
  | VMap b => S (list_max (map (fun kv => depth (snd kv)) b))
  | _ => 0
  end.
(** The comparison ends, without an exception, and tells whether [P]. *)
Definition tells (r : Base.res bool) (P : Prop) : Prop := exists b, r = Base.Ret b /\ (b = true <-> P).
