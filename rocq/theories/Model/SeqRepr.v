(** Model of Seq.__repr__ and Seq.__str__, expression/collections/seq.py:390-407.
    Definitions only. *)
From Coq Require Import List ZArith String.
From Verif.Model Require Import Base Gen.
Import ListNotations.
Local Open Scope py_scope.

(** seq.py:390-404: the loop over enumerate(self), with the counter and the text so far;
    [str x] is str(x), which may have effects and raise.  Element number 100 is pulled
    before the loop is left. *)
Definition repr_body {W A} (str : A -> M W string) (s : Z * string) (x : A) : M W ((Z * string) + string) :=
  let (count, result) := s in
  if Z.eqb count 0 then do t <- str x; ret (inl ((count + 1)%Z, (result ++ t)%string))
  else if Z.eqb count 100 then ret (inr (result ++ "; ...")%string)
  else do t <- str x; ret (inl ((count + 1)%Z, (result ++ ("; " ++ t))%string)).
Definition repr {W A} (fuel : nat) (str : A -> M W string) (self : iterable W A) : M W string :=
  do g <- self;
  do r <- for_gen fuel g (0%Z, "["%string) (repr_body str);
  ret (match r with inl (_, result) => result | inr result => result end ++ "]")%string.
