(** Model of the class of a result: expression/core/try_.py makes instances of Try, a
    subclass of Result, and the methods of expression/core/result.py, inherited by Try, make
    instances of Result or hand on what they were given.  An object is its class and the
    [result] of OptionResult.v.  Definitions only. *)
From Coq Require Import List Bool String.
From Verif.Model Require Import Base OptionResult Builder Extra.
Import ListNotations.
Local Open Scope py_scope.

(** Whether an object is of class Result or Try (try_.py:17-30). *)
Inductive kind : Type := KResult | KTry.
Definition kresult (A E : Type) : Type := kind * result A E.

(** result.py:58-71, 324-331: Result.Ok, Result.Error, Ok and Error; also [Result(ok=...)] *)
Definition mkOk {A E} (value : A) : kresult A E := (KResult, Ok value).
Definition mkError {A E} (error : E) : kresult A E := (KResult, Err error).
(** try_.py:33-39 and 42-48 *)
Definition Success {A E} (value : A) : kresult A E := (KTry, Ok value).
Definition Failure {A E} (error : E) : kresult A E := (KTry, Err error).

Section Methods.
  Context {W A B C E F : Type}.
  Implicit Types self : kresult A E.

  (** result.py:97-107 *)
  Definition k_map {A B} (self : kresult A E) (mapper : A -> M W B) : M W (kresult B E) :=
    match snd self with Ok value => do y <- mapper value; ret (mkOk y) | Err error => ret (mkError error) end.
  (** result.py:109-123: [other.map], or [Result(error=error)] *)
  Definition k_map2 self (other : kresult B E) (mapper : A -> B -> M W C) : M W (kresult C E) :=
    match snd self with Ok value => k_map other (fun value_ => mapper value value_) | Err error => ret (mkError error) end.
  (** result.py:125-139 *)
  Definition k_apply self (function : kresult (A -> M W B) E) : M W (kresult B E) :=
    match snd function with Ok mapper => k_map self mapper | Err error => ret (mkError error) end.
  (** result.py:141-151 *)
  Definition k_map_error self (mapper : E -> M W F) : M W (kresult A F) :=
    match snd self with Ok value => ret (mkOk value) | Err error => do y <- mapper error; ret (mkError y) end.
  (** result.py:153-163 *)
  Definition k_bind self (mapper : A -> M W (kresult B E)) : M W (kresult B E) :=
    match snd self with Ok value => mapper value | Err error => ret (mkError error) end.
  (** result.py:173-187 *)
  Definition k_filter self (predicate : A -> M W bool) (default : E) : M W (kresult A E) :=
    match snd self with
    | Ok value => do b <- predicate value; if b : bool then ret self else ret (mkError default)
    | Err _ => ret self
    end.
  (** result.py:189-205 *)
  Definition k_filter_with self (predicate : A -> M W bool) (default : A -> M W E) : M W (kresult A E) :=
    match snd self with
    | Ok value => do b <- predicate value; if b : bool then ret self else do e <- default value; ret (mkError e)
    | Err _ => ret self
    end.
  (** result.py:221-227 *)
  Definition k_swap self : kresult E A :=
    match snd self with Ok value => mkError value | Err error => mkOk error end.
  (** result.py:229-231 *)
  Definition k_or_else self (other : kresult A E) : kresult A E := if res_is_ok (snd self) then self else other.
  (** result.py:233-237 *)
  Definition k_or_else_with self (other : E -> M W (kresult A E)) : M W (kresult A E) :=
    match snd self with Ok _ => ret self | Err error => other error end.
  (** extra/result/catch.py:34-47: what the function returns is handed on when it is a Result
      (or a Try), and wrapped with Ok otherwise *)
  Definition k_catch {X} (matches : exn -> bool) (inj : exn -> E) (fn : X -> M W (A + kresult A E)) : X -> M W (kresult A E) :=
    fun x w =>
      match fn x w with
      | (Ret (inl a), w) => (Ret (mkOk a), w)
      | (Ret (inr r), w) => (Ret r, w)
      | (Raise e, w) => if matches e then (Ret (mkError (inj e)), w) else (Raise e, w)
      end.
End Methods.
(** extra/result/pipeline.py:68-95 *)
Definition k_pipeline {W A E} (fns : list (A -> M W (kresult A E))) : A -> M W (kresult A E) :=
  fold_left (fun acc fn x => do r <- acc x; k_bind r fn) fns (fun x => ret (mkOk x)).

(** result.py:285-290 (Result.__str__) and try_.py:24-30 (Try.__str__) *)
Definition k_str {W A E} (sa : A -> M W string) (se : E -> M W string) (x : kresult A E) : M W string :=
  match x with
  | (KResult, Ok value) => do s <- sa value; ret ("Ok " ++ s)%string
  | (KResult, Err error) => do s <- se error; ret ("Error " ++ s)%string
  | (KTry, Ok value) => do s <- sa value; ret ("Success " ++ s)%string
  | (KTry, Err error) => do s <- se error; ret ("Failure " ++ s)%string
  end.

(** [x = yield from m] and [await m] (result.py:268-283): EffectError carries the object *)
Definition k_yield {A E St} (m : kresult (pyopt A) E) (s : St) : node (pyopt A) (kresult (pyopt A) E) St :=
  match snd m with Ok value => NYield value s | Err _ => NFail m end.
(** effect/result.py:16-90 (ResultBuilder, and TryBuilder that adds nothing): effect.try_ *)
Definition try_builder {A E} : builder (pyopt A) (kresult (pyopt A) E) := {|
  b_bind := fun W xs fn => k_bind xs fn;
  b_return := fun x => mkOk x;
  b_return_from := fun xs => xs;
  b_combine := fun xs ys => match snd xs with Ok _ => ys | Err error => mkError error end;
  b_zero := mkOk PyNone;
  b_delay := fun W fn => fn tt;
  b_run := fun computation => computation
|}.
