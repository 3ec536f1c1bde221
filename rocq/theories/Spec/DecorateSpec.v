(** What decorators promise, one by one and in a stack. *)
From Coq Require Import List Bool.
From Verif.Model Require Import Base Decorate.
Import ListNotations.
Local Open Scope list_scope.

Definition tail_call (v : value) : Prop := exists args, v = VTail args.
Definition coroutine (v : value) : Prop := exists f args, v = VCoro f args.

Section Spec.
  Context {W : Type} (kind_of : nat -> kind) (body : nat -> list value -> M W value) (computation : nat -> list value -> M W (value + value)).
  (** The call ends with this outcome. *)
  Definition gives (f : func) (args : list value) (w : W) (o : res value) (w1 : W) : Prop :=
    o <> Raise OutOfFuel /\ exists fuel, call kind_of body computation fuel f args w = (o, w1).
  (** Calls of what the call before gave. *)
  Definition groups_give (f : func) (groups : list (list value)) (w : W) (o : res value) (w1 : W) : Prop :=
    o <> Raise OutOfFuel /\ exists fuel, call_groups kind_of body computation fuel f groups w = (o, w1).
  Definition awaits (v : value) (w : W) (o : res value) (w1 : W) : Prop :=
    o <> Raise OutOfFuel /\ exists fuel, await kind_of body computation fuel v w = (o, w1).

  (** Tail calls as calls. *)
  Section Loop.
    Variable once : list value -> W -> res value -> W -> Prop.
    Inductive loops : list value -> W -> res value -> W -> Prop :=
    | l_raise : forall args w e w1, once args w (Raise e) w1 -> loops args w (Raise e) w1
    | l_done : forall args w v w1, once args w (Ret v) w1 -> ~ tail_call v -> loops args w (Ret v) w1
    | l_again : forall args w args1 w1 o w2, once args w (Ret (VTail args1)) w1 -> loops args1 w1 o w2 -> loops args w o w2.
  End Loop.
  (** The body of a plain function. *)
  Definition runs (i : nat) (args : list value) (w : W) (o : res value) (w1 : W) : Prop := o <> Raise OutOfFuel /\ body i args w = (o, w1).
End Spec.

(** What is promised of the outcome of a function: a Result when exceptions are caught. *)
Definition as_result (v : value) : value := match v with VOk _ | VError _ => v | _ => VOk v end.
Definition promised (catches : list (exn -> bool)) (eff : bool) (o : res value) : res value :=
  match o with
  | Ret v => Ret (let v := if eff then VOk v else v in match catches with [] => v | _ => as_result v end)
  | Raise e => if existsb (fun c => c e) catches then Ret (VError (VExn e)) else Raise e
  end.

(** The Result of a computation expression. *)
Definition result_of (r : value + value) : value := match r with inl v => VOk v | inr e => VError e end.

(** Tail calls innermost, then the computation expression, then the catches. *)
Definition stack (catches : list (exn -> bool)) (eff : bool) (tails : nat) (f : func) : func :=
  fold_right Catch ((if eff then EffResult else fun f => f) (Nat.iter tails Tailrec f)) catches.

(** A plain function that returns no generators. *)
Definition plain_body {W} (body : nat -> list value -> M W value) (i : nat) : Prop := forall args w j a w1, body i args w <> (Ret (VGen j a), w1).
(** A function whose calls only make a coroutine. *)
Definition async_like {W} (kind_of : nat -> kind) (body : nat -> list value -> M W value) (computation : nat -> list value -> M W (value + value)) (f : func) : Prop :=
  forall args w o w1, gives kind_of body computation f args w o w1 -> w1 = w /\ exists v, o = Ret v /\ coroutine v.
