(** Async sequences that several tasks have, and exceptions thrown into awaits. *)
From Coq Require Import List.
From Verif.Model Require Import Base Gen AsyncShare.
Import ListNotations.

(** * Nobody interferes *)
(** The iterator of Gen.v: an await that is suspended goes on. *)
Inductive same_pstep {W A} (F : pgen W A -> gen W A -> Prop) : pstep A (pgen W A) * W -> res (gstep A (gen W A)) * W -> Prop :=
| sp_yield : forall a p g w, F p g -> same_pstep F (PYield a p, w) (Ret (Yield a g), w)
| sp_skip : forall p g w, F p g -> same_pstep F (PSkip p, w) (Ret (Skip g), w)
| sp_wait : forall k g w, F (k None) g -> same_pstep F (PWait k, w) (Ret (Skip g), w)
| sp_stop : forall p w, same_pstep F (PStop p, w) (Ret Stop, w)
| sp_raise : forall e p w, same_pstep F (PRaise e p, w) (Raise e, w).
CoInductive alone {W A} (p : pgen W A) (g : gen W A) : Prop :=
| alone_next : (forall w, same_pstep alone (pnext p w) (step g w)) -> alone p g.
Inductive same_opening {W P G} (F : P -> G -> Prop) : res P * W -> res G * W -> Prop :=
| so_ret : forall p g w, F p g -> same_opening F (Ret p, w) (Ret g, w)
| so_raise : forall e w, same_opening F (Raise e, w) (Raise e, w).
Definition alone_it {W A} (pi : piterable W A) (it : iterable W A) : Prop := forall w, same_opening alone (pi w) (it w).
Definition alone_fun {W A B} (f : A -> M W (piterable W B)) (g : A -> M W (iterable W B)) : Prop :=
  forall x w, same_opening alone_it (f x w) (g x w).

(** * Exceptions thrown into awaits *)
Inductive passing {W A} (P : pgen W A -> Prop) : pstep A (pgen W A) * W -> Prop :=
| pa_yield : forall a g w, P g -> passing P (PYield a g, w)
| pa_skip : forall g w, P g -> passing P (PSkip g, w)
| pa_stop : forall g w, P g -> passing P (PStop g, w)
| pa_raise : forall e g w, P g -> passing P (PRaise e g, w)
| pa_wait : forall k w, P (k None) ->
    (forall e w1, e <> StopIterationExn -> exists g w2, pnext (k (Some e)) w1 = (PRaise e g, w2) /\ P g) -> passing P (PWait k, w).
(** It does not catch what is thrown into its awaits (and its [finally] blocks do not await). *)
CoInductive passes {W A} (g : pgen W A) : Prop := passes_next : (forall w, passing passes (pnext g w)) -> passes g.
Definition passes_it {W A} (it : piterable W A) : Prop := forall w, match it w with (Ret g, _) => passes g | (Raise _, _) => True end.
(** ... and is over then. *)
Inductive dying {W A} (D : pgen W A -> Prop) : pstep A (pgen W A) * W -> Prop :=
| dy_yield : forall a g w, D g -> dying D (PYield a g, w)
| dy_skip : forall g w, D g -> dying D (PSkip g, w)
| dy_stop : forall w, dying D (PStop p_over, w)
| dy_raise : forall e w, dying D (PRaise e p_over, w)
| dy_wait : forall k w, D (k None) ->
    (forall e w1, e <> StopIterationExn -> exists w2, pnext (k (Some e)) w1 = (PRaise e p_over, w2)) -> dying D (PWait k, w).
CoInductive dies {W A} (g : pgen W A) : Prop := dies_next : (forall w, dying dies (pnext g w)) -> dies g.

(** * Several tasks *)
(** Events of tasks that all ask one object; [Other] does not touch the object. *)
Definition on_object {W A} (e : event W) : event (ostate W A * W) :=
  match e with
  | Ask j => Ask j
  | Goes j => Goes j
  | Throw j x => Throw j x
  | Other f => Other (fun ow => (fst ow, f (snd ow)))
  end.
(** The same done by one task alone. *)
Definition by_one {W} (e : event W) : event W :=
  match e with Ask _ => Ask 0 | Goes _ => Goes 0 | Throw _ x => Throw 0 x | Other f => Other f end.
Definition of_task {W} (e : event W) : option nat :=
  match e with Ask j | Goes j | Throw j _ => Some j | Other _ => None end.
(** [busy]: the task whose request is suspended in the object.  Whoever asks then gets a
    RuntimeError, and that is all that happens; everything else is as if one task had done
    it, who asks nothing that was refused. *)
Inductive as_one {W A} (n : nat) : option nat -> list (event W) -> list (outcome A) -> list (event W) -> list (outcome A) -> option nat -> Prop :=
| ao_none : forall busy, as_one n busy [] [] [] [] busy
| ao_refused : forall i j es os es1 os1 busy, i <> j -> j < n -> as_one n (Some i) es os es1 os1 busy ->
    as_one n (Some i) (Ask j :: es) (Failed RuntimeError :: os) es1 os1 busy
| ao_impossible : forall busy0 e es os es1 os1 busy,
    match e with
    | Ask j => n <= j \/ busy0 = Some j
    | Goes j | Throw j _ => busy0 <> Some j
    | Other _ => False
    end -> as_one n busy0 es os es1 os1 busy -> as_one n busy0 (e :: es) (Impossible :: os) es1 os1 busy
| ao_asked : forall j o es os es1 os1 busy, j < n -> o <> Impossible ->
    as_one n (match o with Waiting => Some j | _ => None end) es os es1 os1 busy ->
    as_one n None (Ask j :: es) (o :: os) (Ask 0 :: es1) (o :: os1) busy
| ao_resumed : forall j e o es os es1 os1 busy, e = Goes j \/ (exists x, e = Throw j x) -> o <> Impossible ->
    as_one n (match o with Waiting => Some j | _ => None end) es os es1 os1 busy ->
    as_one n (Some j) (e :: es) (o :: os) (by_one e :: es1) (o :: os1) busy
| ao_other : forall busy0 f es os es1 os1 busy, as_one n busy0 es os es1 os1 busy ->
    as_one n busy0 (Other f :: es) (Done :: os) (Other f :: es1) (Done :: os1) busy.
(** The elements that were handed out, in the order in which that happened. *)
Definition got {A} (os : list (outcome A)) : list A := flat_map (fun o => match o with Got x => [x] | _ => [] end) os.
(** The request was answered with the end or an exception. *)
Definition ending {A} (o : outcome A) : Prop := match o with Ended => True | Failed e => e <> OutOfFuel | _ => False end.
Definition plain {W} (e : event W) : Prop := match e with Throw _ x => x <> StopIterationExn | _ => True end.
(** What tasks get of an object that is over, and what becomes of the world. *)
Definition of_over {W A} (n : nat) (e : event W) : outcome A :=
  match e with Ask j => if Nat.ltb j n then Ended else Impossible | Other _ => Done | _ => Impossible end.
Definition others {W} (es : list (event W)) (w : W) : W := fold_left (fun w e => match e with Other f => f w | _ => w end) es w.
