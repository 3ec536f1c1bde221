(** Independent specification pieces for TypedArray: the ranges of the integer types, what
    a typed storage reads back, and which arrays a program can make. *)
From Coq Require Import List ZArith Bool.
From Verif.Model Require Import Base Array.
Import ListNotations.

(** Two's complement and unsigned ranges. *)
Definition signed (bits : Z) (n : Z) : Prop := (- 2 ^ (bits - 1) <= n < 2 ^ (bits - 1))%Z.
Definition unsigned (bits : Z) (n : Z) : Prop := (0 <= n < 2 ^ bits)%Z.

(** The range a typecode promises; None for the types that are not integers. *)
Definition type_range (tc : typecode) : option (Z -> Prop) :=
  match tc with
  | TByte => Some (unsigned 8)
  | TInt8 => Some (signed 8) | TInt16 => Some (signed 16) | TInt32 => Some (signed 32) | TInt64 => Some (signed 64)
  | TUint8 => Some (unsigned 8) | TUint16 => Some (unsigned 16) | TUint32 => Some (unsigned 32) | TUint64 => Some (unsigned 64)
  | TDouble | TFloat | TAny => None
  end.

Section Spec.
  Context {F U : Type} `{Floats F}.
  Notation val := (pyval F U).

  (** Not an instance of one of the library's sized number classes. *)
  Definition plain (v : val) : Prop :=
    match v with VInt (Some _) _ | VFloat (Some _) _ => False | _ => True end.
  Definition plain_first (vs : list val) : Prop := match vs with [] => True | v :: _ => plain v end.
  (** The same integer, whatever the class. *)
  Definition is_int (v : val) (n : Z) : Prop := exists c, v = VInt c n.
  (** The element satisfies an integer range. *)
  Definition int_in (r : Z -> Prop) (v : val) : Prop := exists n, v = VInt None n /\ r n.
  (** The same value up to the number class. *)
  Inductive same_value : val -> val -> Prop :=
  | sv_int : forall c d n, same_value (VInt c n) (VInt d n)
  | sv_float : forall c d x, same_value (VFloat c x) (VFloat d x)
  | sv_other : forall u, same_value (VOther u) (VOther u).

  (** What an array code of the platform stores: [long] has 64 or 32 bits. *)
  Definition code_type (long64 : bool) (c : acode) : option (Z -> Prop) :=
    match c with
    | Cb => Some (signed 8) | CB => Some (unsigned 8) | Ch => Some (signed 16) | CH => Some (unsigned 16)
    | Cl => Some (signed (if long64 then 64 else 32)) | CL => Some (unsigned (if long64 then 64 else 32))
    | Cq => Some (signed 64) | CQ => Some (unsigned 64) | Cf | Cd => None
    end%Z.
  (** [stored k v x]: a storage of kind [k] accepts [v] and reads it back as [x]. *)
  Inductive stored (long64 : bool) : kind -> val -> val -> Prop :=
  | st_list : forall v, stored long64 KList v v
  | st_byte : forall c n, unsigned 8 n -> stored long64 KBytes (VInt c n) (VInt None n)
  | st_int : forall code r c n, code_type long64 code = Some r -> r n -> stored long64 (KArr code) (VInt c n) (VInt None n)
  | st_double : forall c x, stored long64 (KArr Cd) (VFloat c x) (VFloat None x)
  | st_float : forall c x, stored long64 (KArr Cf) (VFloat c x) (VFloat None (round32 x))
  | st_int_double : forall c n x, of_int n = Ret x -> stored long64 (KArr Cd) (VInt c n) (VFloat None x)
  | st_int_float : forall c n x, of_int n = Ret x -> stored long64 (KArr Cf) (VInt c n) (VFloat None (round32 x)).

  (** [accepts k src ys]: a storage of kind [k] takes [src] in a slice assignment as the
      elements [ys]: a list takes any iterable, a bytearray the iterables of bytes that
      are no array.array, and an array.array only those with its own code. *)
  Inductive accepts (long64 : bool) : kind -> source F U -> list val -> Prop :=
  | ac_list : forall vs, accepts long64 KList (SIter vs) vs
  | ac_bytes : forall vs ys, Forall2 (stored long64 KBytes) vs ys -> accepts long64 KBytes (SIter vs) ys
  | ac_array : forall c vs raw ys, Forall2 (stored long64 (KArr c)) vs ys -> accepts long64 (KArr c) (SArray c vs raw) ys
  | ac_array_list : forall c vs raw ys, Forall2 (stored long64 (KArr c)) vs ys -> accepts long64 KList (SArray c vs raw) ys.

  Definition is_bytes (bs : list val) : Prop := Forall (int_in (unsigned 8)) bs.
  (** A bytearray or bytes object holds bytes. *)
  Definition proper (i : initializer F U) : Prop :=
    match i with FromBytearray bs | FromBytes bs => is_bytes bs | FromIter _ => True end.

  (** The arrays a program can make: constructed, then mutated any number of times. *)
  Inductive made (long64 : bool) : tarray F U -> Prop :=
  | made_new : forall i tc a, proper i -> new long64 i tc = Ret a -> made long64 a
  | made_mutate : forall m a, made long64 a -> made long64 (mutate long64 m a).

  (** A history of mutations through several references. *)
  Definition run (long64 : bool) (h : heap F U) (evs : list (aref * mutation F U)) : heap F U :=
    fold_left (fun h ev => mutate_ref long64 h (fst ev) (snd ev)) evs h.
  (** Only the mutations of one storage object. *)
  Definition on_object (i : nat) (evs : list (aref * mutation F U)) : list (aref * mutation F U) :=
    List.filter (fun ev => Nat.eqb (r_obj (fst ev)) i) evs.
End Spec.

(** For examples: floats are not looked at. *)
#[export] Instance unit_floats : Floats unit := {| round32 := fun x => x; of_int := fun _ => Ret tt; round32_idem := fun _ => eq_refl |}.
(** [300, int8(5), 1000] *)
Definition mixed : list (pyval unit unit) := [VInt None 300; VInt (Some I8) 5; VInt None 1000].
