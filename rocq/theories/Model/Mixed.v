(** Model of computation expressions whose body meets Options and Results alike
    (expression/core/builder.py, core/async_builder.py and expression/effect/): the
    builders of Builder.v with the values Python lets through.  Definitions only. *)
From Coq Require Import List Bool.
From Verif.Model Require Import Base OptionResult Builder.
Import ListNotations.
Local Open Scope py_scope.

Section Mixed.
  Context {A E : Type}.
  Notation V := (pyopt A).

  (** An Option or a Result. *)
  Inductive outcome : Type :=
  | UOpt (o : option V)
  | URes (r : result V E).

  (** [x = yield from m] in a body, or [await m] when it is not a value: option.py:295-300,
      312-320 and result.py:268-283. *)
  Definition yield_from {St} (m : outcome) (s : St) : node V outcome St :=
    match m with
    | UOpt (Some value) | URes (Ok value) => NYield value s
    | UOpt None | URes (Err _) => NFail m
    end.

  (** A call in a body raises [e].  [_send] catches every EffectError that leaves the body and
      takes its first argument for the outcome (builder.py:74-77, async_builder.py:81-84),
      also when it was not a [yield from] or [await] that raised it.  [EffectErrorExn] stands
      for those that carry Nothing: Map.pick without a match and Map.change
      (map.py:365-370, maptree.py:327-331), iterating Nothing (option.py:295-300). *)
  Definition call_raises {St} (e : exn) : node V outcome St :=
    match e with EffectErrorExn => NFail (UOpt None) | e => NThrow e end.

  (** [xs.bind(fn)]: the method of whatever [xs] is (option.py:138-156, result.py:153-163) *)
  Definition outcome_bind {W} (xs : outcome) (fn : V -> M W outcome) : M W outcome :=
    match xs with
    | UOpt (Some value) | URes (Ok value) => fn value
    | UOpt None => ret (UOpt None)
    | URes (Err error) => ret (URes (Err error))
    end.
  (** effect/option.py:15-96: bind calls option.bind, which calls [xs.bind(fn)]
      (option.py:398-415; result.py:439-450); combine is [xs.bind(lambda _: ys)]; run is inherited *)
  Definition mixed_option_builder : builder V outcome := {|
    b_bind := fun W xs fn => outcome_bind xs fn;
    b_return := fun x => UOpt (Some x);
    b_return_from := fun xs => xs;
    b_combine := fun xs ys => match xs with UOpt (Some _) | URes (Ok _) => ys | _ => xs end;
    b_zero := UOpt None;
    b_delay := fun W fn => fn tt;
    b_run := fun computation => computation
  |}.
  (** effect/result.py:16-87 *)
  Definition mixed_result_builder : builder V outcome := {|
    b_bind := fun W xs fn => outcome_bind xs fn;
    b_return := fun x => URes (Ok x);
    b_return_from := fun xs => xs;
    b_combine := fun xs ys => match xs with UOpt (Some _) | URes (Ok _) => ys | _ => xs end;
    b_zero := URes (Ok PyNone);
    b_delay := fun W fn => fn tt;
    b_run := fun computation => computation
  |}.
  (** effect/async_option.py:27-120: bind and combine give Nothing for anything but a Some *)
  Definition mixed_async_option_builder : builder V outcome := {|
    b_bind := fun W xs fn => match xs with UOpt (Some value) => fn value | _ => ret (UOpt None) end;
    b_return := fun x => UOpt (Some x);
    b_return_from := fun xs => xs;
    b_combine := fun xs ys => match xs with UOpt (Some _) => ys | _ => UOpt None end;
    b_zero := UOpt None;
    b_delay := fun W fn => fn tt;
    b_run := fun computation => computation
  |}.
  (** effect/async_result.py:28-121.  Given an Option, bind and combine fall through their
      match statement and give None; the model raises InternalError in bind and keeps [xs]
      in combine instead.  (A call never gets there.) *)
  Definition mixed_async_result_builder : builder V outcome := {|
    b_bind := fun W xs fn => match xs with
                             | URes (Ok value) => fn value
                             | URes (Err error) => ret (URes (Err error))
                             | UOpt _ => raise InternalError
                             end;
    b_return := fun x => URes (Ok x);
    b_return_from := fun xs => xs;
    b_combine := fun xs ys => match xs with URes (Ok _) => ys | _ => xs end;
    b_zero := URes (Ok PyNone);
    b_delay := fun W fn => fn tt;
    b_run := fun computation => computation
  |}.

  (** What a seq computation makes: the sequences of Builder.v, and Options and Results,
      which are iterables too. *)
  Inductive mseq : Type :=
  | QSeq (vs : list V)
  | QList (vs : list V)
  | QConcat (x y : mseq)
  | QOut (u : outcome).
  (** Iterating: the elements, and the exception that ends it if any.  An Option or Result
      gives its value or raises EffectError (option.py:295-300, result.py:268-273);
      concat: seq.py:503-505. *)
  Fixpoint elements (x : mseq) : list V * option exn :=
    match x with
    | QSeq vs | QList vs => (vs, None)
    | QConcat x y => match elements x with
                     | (vs, Some e) => (vs, Some e)
                     | (vs, None) => let '(us, e) := elements y in (vs ++ us, e)
                     end
    | QOut (UOpt (Some value)) | QOut (URes (Ok value)) => ([value], None)
    | QOut _ => ([], Some EffectErrorExn)
    end.
  (** effect/seq.py:13-27: [[y for x in xs for y in fn(x)]] *)
  Fixpoint mseq_bind_list {W} (xs : list V) (fn : V -> M W mseq) : M W (list V) :=
    match xs with
    | [] => ret []
    | x :: xs =>
        do ys <- fn x;
        match elements ys with
        | (ys, None) => do zs <- mseq_bind_list xs fn; ret (ys ++ zs)
        | (_, Some e) => raise e
        end
    end.
  Definition mseq_bind {W} (xs : mseq) (fn : V -> M W mseq) : M W mseq :=
    do ys <- mseq_bind_list (fst (elements xs)) fn;
    match snd (elements xs) with None => ret (QList ys) | Some e => raise e end.
  (** effect/seq.py:13-99 *)
  Definition mixed_seq_builder : builder V mseq := {|
    b_bind := fun W xs fn => mseq_bind xs fn;
    b_return := fun x => QSeq [x];
    b_return_from := fun xs => xs;
    b_combine := fun xs ys => QConcat xs ys;
    b_zero := QSeq [];
    b_delay := fun W fn => fn tt;
    b_run := fun computation => computation
  |}.
End Mixed.
Arguments outcome A E : clear implicits.
Arguments mseq A E : clear implicits.
