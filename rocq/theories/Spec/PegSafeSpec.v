(** Grammars whose functions neither raise nor have effects. *)
From Coq Require Import List.
From Verif.Model Require Import Base OptionResult Parser.
From Verif.Spec Require Export PegSpec.

Section Safe.
  Context {W : Type}.
  Fixpoint safe (g : gram W) : Prop :=
    match g with
    | GAnd _ a b | GOr a b | GSepBy a b => safe a /\ safe b
    | GMap f g => (forall v w, exists u, f v w = (Ret u, w)) /\ safe g
    | GBind f g => (forall v, safe (f v)) /\ safe g
    | GMany g | GMany1 g | GOpt g => safe g
    | GBetween a b g => safe a /\ safe b /\ safe g
    | _ => True
    end.
  Definition calm {X : Type} (r : res X) (w w1 : W) : Prop := w1 = w /\ forall e, r <> Raise e.
End Safe.
