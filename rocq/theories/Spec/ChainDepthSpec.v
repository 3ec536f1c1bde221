(** How many frames a chain takes. *)
From Coq Require Import ZArith.
From Verif.Model Require Import Base Chain.

(** Stages that are generators behind a Seq; builtins.filter is none. *)
Fixpoint generators {W A B} (c : chain W A B) : nat :=
  match c with
  | Whole => 0
  | Next s c => match s with SFilter _ => generators c | _ => S (generators c) end
  end.
(** no stage take(0), which never asks its source *)
Fixpoint all_ask {W A B} (c : chain W A B) : Prop :=
  match c with
  | Whole => True
  | Next s c => match s with STake n => (0 < n)%Z | _ => True end /\ all_ask c
  end.
(** [n] times map(identity) *)
Fixpoint maps {W A} (n : nat) : chain W A A :=
  match n with 0 => Whole | S n => Next (SMap (fun x => ret x)) (maps n) end.
(** [n] times append([y]) *)
Fixpoint appends {W A} (n : nat) (y : A) : chain W A A :=
  match n with 0 => Whole | S n => Next (SAppend (cons y nil)) (appends n y) end.
