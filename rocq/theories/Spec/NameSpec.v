(** How a parser was put together, and the parentheses in a text. *)
From Coq Require Import List ZArith.
From Verif.Model Require Import Parser ParserName.
Import ListNotations.

(** A leaf is a parser with a name of its own. *)
Inductive how : Type :=
| Leaf (name : str) | AndThen (a b : how) | OrElse (a b : how) | Mapped (a : how) | Many (a : how) | Many1 (a : how) | Bound (a : how).
Fixpoint how_name (h : how) : str :=
  match h with
  | Leaf name => name
  | AndThen a b => name_and_then (how_name a) (how_name b)
  | OrElse a b => name_or_else (how_name a) (how_name b)
  | Mapped a => name_map (how_name a)
  | Many a => name_many (how_name a)
  | Many1 a => name_many1 (how_name a)
  | Bound a => name_bind (how_name a)
  end.
Fixpoint combinators (h : how) : nat :=
  match h with
  | Leaf _ => 0
  | AndThen a b | OrElse a b => 1 + combinators a + combinators b
  | Mapped a | Many a | Many1 a | Bound a => 1 + combinators a
  end.
Fixpoint leaf_text (h : how) : nat :=
  match h with
  | Leaf name => length name
  | AndThen a b | OrElse a b => leaf_text a + leaf_text b
  | Mapped a | Many a | Many1 a | Bound a => leaf_text a
  end.
(** and_then, or_else and bind *)
Fixpoint sequencers (h : how) : Z :=
  match h with
  | Leaf _ => 0
  | AndThen a b | OrElse a b => 1 + sequencers a + sequencers b
  | Mapped a | Many a | Many1 a => sequencers a
  | Bound a => 1 + sequencers a
  end%Z.
(** Opening minus closing parentheses. *)
Fixpoint unclosed (s : str) : Z :=
  match s with
  | [] => 0
  | c :: s => (if Nat.eqb c 40 then 1 else if Nat.eqb c 41 then -1 else 0) + unclosed s
  end%Z.
Fixpoint leaves_balanced (h : how) : Prop :=
  match h with
  | Leaf name => unclosed name = 0%Z
  | AndThen a b | OrElse a b => leaves_balanced a /\ leaves_balanced b
  | Mapped a | Many a | Many1 a | Bound a => leaves_balanced a
  end.
