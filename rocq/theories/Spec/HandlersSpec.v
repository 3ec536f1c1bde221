(** What a body with [try], [except], [finally] and [with] means, read as a program in which
    yielding a value is to go on with it: the values yielded, how it ends, the world. *)
From Coq Require Import List.
From Verif.Model Require Import Base OptionResult Builder Mixed Handlers.
From Verif.Spec Require Import BuilderSpec MixedSpec.
Import ListNotations.

Section Means.
  Context {W A E : Type}.
  Notation V := (pyopt A).
  Notation N := (outcome A E).
  Variable awaiting : bool.
  Definition meaning : Type := W -> list V * completion V N * W.

  Definition at_once (c : completion V N) : meaning := fun w => ([], c, w).
  (** one after the other *)
  Definition then_ (m : meaning) (f : completion V N -> meaning) : meaning := fun w =>
    let '(vs, c, w1) := m w in let '(us, d, w2) := f c w1 in (vs ++ us, d, w2).
  Definition effect {X} (m : M W X) (f : X -> meaning) : meaning := fun w =>
    match m w with (Ret x, w1) => f x w1 | (Raise e, w1) => ([], CRaise (RThrow e), w1) end.
  Definition yields (v : V) (m : meaning) : meaning := fun w => let '(vs, c, w1) := m w in (v :: vs, c, w1).
  Definition and_then (m : meaning) (f : V -> meaning) : meaning :=
    then_ m (fun c => match c with CEnd v => f v | CReturn v => at_once (CReturn v) | CRaise x => at_once (CRaise x) | CBreak v => at_once (CBreak v) | CContinue v => at_once (CContinue v) end).
  Definition except (m : meaning) (catches : raised N -> bool) (h : raised N -> meaning) : meaning :=
    then_ m (fun c => match c with CRaise x => if catches x then h x else at_once (CRaise x) | CEnd v => at_once (CEnd v) | CReturn v => at_once (CReturn v) | CBreak v => at_once (CBreak v) | CContinue v => at_once (CContinue v) end).
  (** the block that came last decides, unless it just runs off its end *)
  Definition finally (m : meaning) (final : meaning) : meaning :=
    then_ m (fun c => then_ final (fun d => at_once (match d with CEnd _ => c | CReturn v => CReturn v | CRaise x => CRaise x | CBreak v => CBreak v | CContinue v => CContinue v end))).
  Definition with_ (m : meaning) (exit : option (raised N) -> M W bool) : meaning :=
    then_ m (fun c =>
      match c with
      | CRaise x => effect (exit (Some x)) (fun swallow => at_once (if swallow : bool then CEnd PyNone else CRaise x))
      | c => effect (exit None) (fun _ => at_once c)
      end).

  (** one item after the other; [break] ends the loop, [continue] goes on with the next item *)
  Definition for_ (f : V -> V -> meaning) : list V -> V -> meaning :=
    fix for_ xs v :=
      match xs with
      | [] => at_once (CEnd v)
      | x :: xs => then_ (f v x) (fun c => match c with CEnd v | CContinue v => for_ xs v | CBreak v => at_once (CEnd v) | CReturn v => at_once (CReturn v) | CRaise x => at_once (CRaise x) end)
      end.

  (** the helper's own frame: its [return] is the value *)
  Definition delegate (m : meaning) (f : V -> meaning) : meaning :=
    then_ m (fun c =>
      match c with
      | CReturn v => f v
      | CRaise (RThrow StopIterationExn) => at_once (CRaise (RThrow RuntimeError))
      | CRaise x => at_once (CRaise x)
      | CEnd _ | CBreak _ | CContinue _ => f PyNone
      end).

  Fixpoint means (p : prog W V N) : meaning :=
    match p with
    | PEnd v => at_once (CEnd v)
    | PReturn v => at_once (CReturn v)
    | PRaise x => at_once (CRaise x)
    | PDo m k => effect m (fun x => means (k x))
    | PYield v k => yields v (means (k v))
    | PFrom m k =>
        effect m (fun m =>
          match inside m with
          | Some v => if awaiting then means (k v) else yields v (means (k v))
          | None => at_once (CRaise (RFail m))
          end)
    | PDelegate helper k => delegate (means helper) (fun v => means (k v))
    | PTry body catches handler final next =>
        and_then (finally (except (means body) catches (fun x => means (handler x))) (means final)) (fun v => means (next v))
    | PWith body exit next => and_then (with_ (means body) exit) (fun v => means (next v))
    | PFor xs v body next => and_then (for_ (fun v x => means (body v x)) xs v) (fun v => means (next v))
    | PBreak v => at_once (CBreak v)
    | PContinue v => at_once (CContinue v)
    end.

  (** How the whole body ends, seen from the builder. *)
  Definition ends (c : completion V N) : ending V N :=
    match c with
    | CEnd _ | CBreak _ | CContinue _ => EReturn PyNone
    | CReturn v => EReturn (if awaiting then PyNone else v)
    | CRaise (RFail m) => EFail m
    | CRaise (RThrow EffectErrorExn) => EFail (UOpt None)
    | CRaise (RThrow e) => EThrow (match e with StopIterationExn => RuntimeError | _ => e end)
    end.
End Means.

(** The same body in a world with a counter that it does not touch. *)
Section Counted.
  Context {W V N : Type}.
  Definition beside {X} (m : M W X) : M (W * nat) X := fun s => let '(r, w) := m (fst s) in (r, (w, snd s)).
  Fixpoint counted (p : prog W V N) : prog (W * nat) V N :=
    match p with
    | PEnd v => PEnd v
    | PReturn v => PReturn v
    | PRaise x => PRaise x
    | PDo m k => PDo (beside m) (fun x => counted (k x))
    | PYield v k => PYield v (fun x => counted (k x))
    | PFrom m k => PFrom (beside m) (fun x => counted (k x))
    | PDelegate helper k => PDelegate (counted helper) (fun x => counted (k x))
    | PTry body catches handler final next => PTry (counted body) catches (fun x => counted (handler x)) (counted final) (fun v => counted (next v))
    | PWith body exit next => PWith (counted body) (fun x => beside (exit x)) (fun v => counted (next v))
    | PFor xs v body next => PFor xs v (fun v x => counted (body v x)) (fun v => counted (next v))
    | PBreak v => PBreak v
    | PContinue v => PContinue v
    end.
  Definition tick {X} (x : X) : M (W * nat) X := fun s => (Ret x, (fst s, S (snd s))).
End Counted.
