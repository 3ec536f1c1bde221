(** Independent specification of computation expressions that mix Options and Results. *)
From Coq Require Import List.
From Verif.Model Require Import Base OptionResult Builder Mixed.
From Verif.Spec Require Import BuilderSpec.
Import ListNotations.
Local Open Scope py_scope.

Section MixedSpec.
  Context {A E : Type}.
  (** the value inside, if there is one *)
  Definition inside (u : outcome A E) : option (pyopt A) :=
    match u with UOpt o => o | URes (Ok v) => Some v | URes (Err _) => None end.
  Definition is_option (u : outcome A E) : Prop := exists o, u = UOpt o.
  Definition is_result (u : outcome A E) : Prop := exists r, u = URes r.
  (** binding either: its value is handed on, and without a value it is itself the outcome *)
  Definition either_bind {W} (u : outcome A E) (k : pyopt A -> M W (outcome A E)) : M W (outcome A E) :=
    match inside u with Some v => k v | None => ret u end.
  (** no uncaught Error (Nothing) ends the body *)
  Definition never_fails {W St} (bad : outcome A E -> Prop) (resume : St -> pyopt A -> W -> node (pyopt A) (outcome A E) St * W) : Prop :=
    forall s v w u, fst (resume s v w) = NFail u -> ~ bad u.
  (** Every failure of a seq body is one of an Option or a Result without a value. *)
  Definition fails_with (e : ending (pyopt A) (mseq A E)) (u : outcome A E) : Prop := e = EFail (QOut u) /\ inside u = None.
  Definition no_failure (e : ending (pyopt A) (mseq A E)) : Prop := match e with EFail _ => False | _ => True end.
  (** what is yielded, then what is returned *)
  Definition all_values (vs : list (pyopt A)) (e : ending (pyopt A) (mseq A E)) : list (pyopt A) :=
    vs ++ match e with EReturn (PyVal x) => [PyVal x] | _ => [] end.
End MixedSpec.
