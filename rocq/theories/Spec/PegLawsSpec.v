(** Specification of rewriting grammars. *)
From Coq Require Import List.
From Verif.Model Require Import Base OptionResult Parser.
From Verif.Spec Require Export PegSpec.
Import ListNotations.
Local Open Scope list_scope.

Section Laws.
  Context {W : Type} (rules : nat -> gram W).

  (** Two grammars say the same about every text. *)
  Definition agrees (g1 g2 : gram W) : Prop := forall s w r w1, peg rules g1 s w r w1 <-> peg rules g2 s w r w1.
  (** A grammar whose functions have no effects and do not depend on any. *)
  Definition quiet (g : gram W) : Prop := forall s w r w1, peg rules g s w r w1 -> w1 = w /\ forall w2, peg rules g s w2 r w2.
  (** At most one of two grammars matches. *)
  Definition apart (g1 g2 : gram W) : Prop := forall s w, peg rules g1 s w (Ret None) w \/ peg rules g2 s w (Ret None) w.
  (** Grammars whose functions are pure. *)
  Inductive plain : gram W -> Prop :=
  | pl_char : forall c, plain (GChar c)
  | pl_return : forall v, plain (GReturn v)
  | pl_fail : forall m, plain (GFail m)
  | pl_and : forall k a b, plain a -> plain b -> plain (GAnd k a b)
  | pl_or : forall a b, plain a -> plain b -> plain (GOr a b)
  | pl_map : forall (f : val -> res val) g, plain g -> plain (GMap (fun v w => (f v, w)) g)
  | pl_bind : forall f g, plain g -> (forall v, plain (f v)) -> plain (GBind f g)
  | pl_many : forall g, plain g -> plain (GMany g)
  | pl_many1 : forall g, plain g -> plain (GMany1 g)
  | pl_opt : forall g, plain g -> plain (GOpt g)
  | pl_sep : forall g h, plain g -> plain h -> plain (GSepBy g h)
  | pl_between : forall a b g, plain a -> plain b -> plain g -> plain (GBetween a b g)
  | pl_call : forall n, plain (GCall n)
  | pl_string : forall u, plain (GString u)
  | pl_any : forall c cs, plain (GAnyOf c cs).
End Laws.

(** lambda ab: block.cons(ab[0], ab[1]) on pairs of a value and a list. *)
Definition cons_pair (v : val) : val := match v with VPair a (VList l) => VList (a :: l) | v => v end.
