(** Logs of events, latest first. *)
From Coq Require Import List Bool Arith.
Import ListNotations.

Definition count {E} (f : E -> bool) (l : list E) : nat := length (filter f l).
(** [e1] happened before [e2]. *)
Definition before {E} (log : list E) (e1 e2 : E) : Prop := exists l2 l1, log = l2 ++ e2 :: l1 /\ In e1 l1.
