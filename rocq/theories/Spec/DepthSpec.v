(** What it means that a parser with a stack is a parser without one. *)
From Coq Require Import List.
From Verif.Model Require Import Base Parser ParserDepth.

Section Depth.
  Context {W A : Type}.
  (** With any stack [dp] does what [p] does, or raises RecursionError. *)
  Definition same_or_overflow (dp : dparser W A) (p : parser W A) : Prop :=
    forall d input w, dp d input w = p input w \/ fst (dp d input w) = Raise RecursionError.
  (** A stack of [n] frames is enough for [dp] on all inputs. *)
  Definition enough (n : nat) (dp : dparser W A) (p : parser W A) : Prop :=
    forall d input w, n <= d -> dp d input w = p input w.
  (** ... and anything less never is. *)
  Definition too_little (n : nat) (dp : dparser W A) : Prop :=
    forall d input w, d < n -> fst (dp d input w) = Raise RecursionError.
End Depth.

(** Parsers built from the combinators, with a stack and without, and how deeply the
    combinators are nested. *)
Section Nesting.
  Context (W : Type).
  Inductive nested : nat -> forall A, dparser W A -> parser W A -> Prop :=
  | n_pchar : forall c, nested 0 _ (d_pchar c) (pchar c)
  | n_preturn : forall A (x : A), nested 0 _ (d_preturn x) (preturn x)
  | n_fail : forall A e, nested 0 A (d_fail e) (fail e)
  | n_and_then : forall n m A B dp dq p q, nested n A dp p -> nested m B dq q ->
      nested (S (Nat.max n m)) _ (d_and_then dp dq) (and_then p q)
  | n_or_else : forall n m A dp dq p q, nested n A dp p -> nested m A dq q ->
      nested (S (Nat.max n m)) _ (d_or_else dp dq) (or_else p q)
  | n_map : forall n A B (f : A -> M W B) dp p, nested n A dp p -> nested (S n) _ (d_map f dp) (map f p)
  (** [g] picks the parser that bind goes on with, in both forms *)
  | n_bind : forall n m A B (g : A -> M W (dparser W B * parser W B)) dp p, nested n A dp p ->
      (forall x w r w1, g x w = (Ret r, w1) -> nested m B (fst r) (snd r)) ->
      nested (S (Nat.max n m)) _
        (d_bind (fun x => Base.bind (g x) (fun r => ret (fst r))) dp) (bind (fun x => Base.bind (g x) (fun r => ret (snd r))) p).
End Nesting.
