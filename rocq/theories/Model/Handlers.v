(** Bodies of computation expressions with [try], [except], [finally] and [with]: the
    generator that Python makes of such a body, as a machine for Model/Builder.v.  The
    builders (builder.py:65-135, async_builder.py:73-148) only ever [send] to that
    generator; what leaves it decides how the call ends.  There are [for] loops over lists;
    other loops are not part of this syntax (they are arbitrary machines in
    Model/Builder.v), and the code between two suspensions is a chain of effects [PDo].
    Definitions only. *)
From Coq Require Import List.
From Verif.Model Require Import Base OptionResult Builder Mixed.
Import ListNotations.

(** What is raised inside a body: [EffectError(m)] (error.py:4-9), raised by [yield from] or
    [await] of Nothing or Error (option.py:300, 318, result.py:273, 283), or an exception
    raised by something else. *)
Inductive raised (N : Type) : Type :=
| RFail (m : N)
| RThrow (e : exn).
Arguments RFail {N} m.
Arguments RThrow {N} e.

(** How a block of statements comes to its end: it runs off its end, with the values of the
    local variables gathered in one value; it returns; it raises; it leaves or continues the
    loop around it. *)
Inductive completion (V N : Type) : Type :=
| CEnd (v : V)
| CReturn (v : V)
| CRaise (x : raised N)
| CBreak (v : V)
| CContinue (v : V).
Arguments CEnd {V N} v.
Arguments CReturn {V N} v.
Arguments CRaise {V N} x.
Arguments CBreak {V N} v.
Arguments CContinue {V N} v.

(** A [finally] block that ends as [c1] after a block that ended as [c]. *)
Definition overrides {V N} (c1 c : completion V N) : completion V N :=
  match c1 with CEnd _ => c | CReturn v => CReturn v | CRaise x => CRaise x | CBreak v => CBreak v | CContinue v => CContinue v end.

(** Blocks of statements.  [PFrom m k] is [x = yield from m()] (or [await m()]) with an effect
    that gives an Option or Result.  [PDelegate helper k] is [x = yield from helper()] with a
    generator function that is not decorated (or [await helper()] with a coroutine).  [PTry body catches handler final next] is
    [try: body / except ... as x: handler / finally: final], followed by [next]; [catches]
    says which exceptions the except clauses name.  [PWith body exit next] is
    [with manager: body], entered already by an effect before, followed by [next]; [exit] is
    the manager's [__exit__], which is told what was raised, if anything, and says whether
    to go on as if nothing was (the values of local variables are then not passed on).
    [PFor xs v body next] is [for x in xs: body] followed by [next], with [v] the local
    variables before it. *)
Inductive prog (W V N : Type) : Type :=
| PEnd (v : V)
| PReturn (v : V)
| PRaise (x : raised N)
| PDo (m : M W V) (k : V -> prog W V N)
| PYield (v : V) (k : V -> prog W V N)
| PFrom (m : M W N) (k : V -> prog W V N)
| PDelegate (helper : prog W V N) (k : V -> prog W V N)
| PTry (body : prog W V N) (catches : raised N -> bool) (handler : raised N -> prog W V N) (final : prog W V N) (next : V -> prog W V N)
| PWith (body : prog W V N) (exit : option (raised N) -> M W bool) (next : V -> prog W V N)
| PFor (xs : list V) (v : V) (body : V -> V -> prog W V N) (next : V -> prog W V N)
| PBreak (v : V)
| PContinue (v : V).
Arguments PEnd {W V N} v.
Arguments PReturn {W V N} v.
Arguments PRaise {W V N} x.
Arguments PDo {W V N} m k.
Arguments PYield {W V N} v k.
Arguments PFrom {W V N} m k.
Arguments PDelegate {W V N} helper k.
Arguments PTry {W V N} body catches handler final next.
Arguments PWith {W V N} body exit next.
Arguments PFor {W V N} xs v body next.
Arguments PBreak {W V N} v.
Arguments PContinue {W V N} v.

(** A suspended body: what it does when it is sent a value. *)
Inductive susp (W V N : Type) : Type := Susp (on : V -> W -> node V N (susp W V N) * W).
Arguments Susp {W V N} on.
Definition susp_resume {W V N} (s : susp W V N) (v : V) (w : W) : node V N (susp W V N) * W := match s with Susp on => on v w end.

(** option.py:295-300, result.py:268-273: when there is a value *)
Definition outcome_view {A E} (m : outcome A E) : option (pyopt A) :=
  match m with UOpt (Some v) | URes (Ok v) => Some v | UOpt None | URes (Err _) => None end.

Section Run.
  Context {W A E : Type}.
  Notation V := (pyopt A).
  Notation N := (outcome A E).
  Notation after := (completion V N -> W -> node V N (susp W V N) * W).
  (** an async generator: [await m] goes on at once with the value (option.py:312-320,
      result.py:275-283) where [yield from m] yields it (option.py:295-300,
      result.py:268-273) *)
  Variable awaiting : bool.

  (** The block runs up to its next suspension, [K] is what follows it.  The [finally]
      block runs after the body and the handler, however they end; it decides itself when
      it returns or raises. *)
  Fixpoint run (p : prog W V N) (K : after) (w : W) {struct p} : node V N (susp W V N) * W :=
    match p with
    | PEnd v => K (CEnd v) w
    | PReturn v => K (CReturn v) w
    | PRaise x => K (CRaise x) w
    | PDo m k => match m w with (Ret x, w) => run (k x) K w | (Raise e, w) => K (CRaise (RThrow e)) w end
    | PYield v k => (NYield v (Susp (fun x w => run (k x) K w)), w)
    | PFrom m k =>
        match m w with
        | (Ret m, w) =>
            match outcome_view m with
            | Some v => if awaiting then run (k v) K w else (NYield v (Susp (fun x w => run (k x) K w)), w)
            | None => K (CRaise (RFail m)) w
            end
        | (Raise e, w) => K (CRaise (RThrow e)) w
        end
    | PDelegate helper k =>
        run helper (fun c w =>
          match c with
          | CReturn v => run (k v) K w
          | CEnd _ | CBreak _ | CContinue _ => run (k PyNone) K w
          | CRaise x => K (CRaise (match x with RThrow StopIterationExn => RThrow RuntimeError | x => x end)) w
          end) w
    | PTry body catches handler final next =>
        let finally c w :=
          run final (fun c1 w => match overrides c1 c with CEnd v => run (next v) K w | CReturn v => K (CReturn v) w | CRaise x => K (CRaise x) w | CBreak v => K (CBreak v) w | CContinue v => K (CContinue v) w end) w in
        run body (fun c w =>
          match c with
          | CRaise x => if catches x then run (handler x) finally w else finally (CRaise x) w
          | CEnd v => finally (CEnd v) w
          | CReturn v => finally (CReturn v) w
          | CBreak v => finally (CBreak v) w
          | CContinue v => finally (CContinue v) w
          end) w
    | PWith body exit next =>
        run body (fun c w =>
          match exit (match c with CRaise x => Some x | _ => None end) w with
          | (Raise e, w) => K (CRaise (RThrow e)) w
          | (Ret swallow, w) =>
              match c with
              | CEnd v => run (next v) K w
              | CReturn v => K (CReturn v) w
              | CBreak v => K (CBreak v) w
              | CContinue v => K (CContinue v) w
              | CRaise x => if swallow : bool then run (next PyNone) K w else K (CRaise x) w
              end
          end) w
    | PFor xs v body next =>
        (fix loop xs v w :=
           match xs with
           | [] => run (next v) K w
           | x :: xs =>
               run (body v x) (fun c w =>
                 match c with
                 | CEnd v | CContinue v => loop xs v w
                 | CBreak v => run (next v) K w
                 | CReturn v => K (CReturn v) w
                 | CRaise x => K (CRaise x) w
                 end) w
           end) xs v w
    | PBreak v => K (CBreak v) w
    | PContinue v => K (CContinue v) w
    end.

  (** The end of the whole body: of an EffectError the builder does not ask where it comes
      from ([call_raises]).  An async generator cannot return a value (a syntax error),
      its [return] is [return None].  [break] and [continue] outside of a loop are syntax
      errors as well; the model ends there. *)
  Definition leave_body : after := fun c w =>
    (match c with
     | CEnd _ | CBreak _ | CContinue _ => NReturn PyNone
     | CReturn v => NReturn (if awaiting then PyNone else v)
     | CRaise (RFail m) => NFail m
     | CRaise (RThrow e) => call_raises e
     end, w).

  (** The generator before it is started. *)
  Definition generator (p : prog W V N) : susp W V N := Susp (fun _ w => run p leave_body w).
End Run.
