(** Specification of parsers run one behind the other. *)
From Coq Require Import List.
From Verif.Model Require Import Base OptionResult Parser.
Import ListNotations.
Local Open Scope list_scope.

Definition unmatched {X} (r : res (presult X)) : Prop := match r with Ret (Ok _) => False | _ => True end.
(** The same Error or exception, without a value. *)
Definition failed_as {X Y} (r : res (presult X)) (q : res (presult Y)) : Prop :=
  match r, q with Ret (Err e), Ret (Err f) => e = f | Raise e, Raise f => e = f | _, _ => False end.

(** Each parser begins where the one before ended; the first that does not match ends it all. *)
Inductive each {W A} : list (parser W A) -> remaining -> W -> res (presult (list A)) -> W -> Prop :=
| each_end : forall i w, each [] i w (Ret (Ok ([], i))) w
| each_stop : forall p ps i w r q w1, p i w = (r, w1) -> failed_as r q -> each (p :: ps) i w q w1
| each_later : forall p ps i w v i1 w1 r w2, p i w = (Ret (Ok (v, i1)), w1) -> each ps i1 w1 r w2 -> unmatched r -> each (p :: ps) i w r w2
| each_more : forall p ps i w v i1 w1 vs i2 w2, p i w = (Ret (Ok (v, i1)), w1) -> each ps i1 w1 (Ret (Ok (vs, i2))) w2 -> each (p :: ps) i w (Ret (Ok (v :: vs, i2))) w2.

(** A function applied to what was matched. *)
Definition with_all {W A C} (f : list A -> M W C) (r : res (presult (list A))) (w : W) : res (presult C) * W :=
  match r with
  | Ret (Ok (vs, i)) => match f vs w with (Ret y, w1) => (Ret (Ok (y, i)), w1) | (Raise e, w1) => (Raise e, w1) end
  | Ret (Err e) => (Ret (Err e), w)
  | Raise e => (Raise e, w)
  end.

(** Values in front of those of another result. *)
Definition behind {A} (vs : list A) (r : res (presult (list A))) : res (presult (list A)) :=
  match r with Ret (Ok (us, i)) => Ret (Ok (vs ++ us, i)) | r => r end.
