(** Specification of a calculator that a user writes with parser combinators: sums and
    differences of products of numbers and brackets. *)
From Coq Require Import List Arith ZArith.
From Verif.Model Require Import Base OptionResult Parser.
From Verif.Spec Require Export PegSpec.
Import ListNotations.
Local Open Scope list_scope.

(** Expressions: numbers given by their digits, and operations given by their sign. *)
Inductive expr : Type := Num (ds : list nat) | Op (c : nat) (a b : expr).
Definition operate (c : nat) (x y : Z) : Z := if Nat.eqb c 43 then (x + y)%Z else if Nat.eqb c 45 then (x - y)%Z else (x * y)%Z.
Definition number (ds : list nat) : Z := fold_left (fun acc d => (10 * acc + (Z.of_nat d - 48))%Z) ds 0%Z.
Fixpoint eval (e : expr) : Z := match e with Num ds => number ds | Op c a b => operate c (eval a) (eval b) end.

(** The signs of each level: + and - in sums, * in products. *)
Definition signs (l : nat) : nat * list nat := match l with 0 => (43, [45]) | _ => (42, []) end.
Definition sign (l c : nat) : Prop := In c (fst (signs l) :: snd (signs l)).
Definition digit (c : nat) : Prop := 48 <= c <= 57.

(** The texts of expressions: level 0 are sums, 1 products, 2 numbers and brackets. *)
Inductive text : nat -> expr -> str -> Prop :=
| t_num : forall ds, ds <> [] -> Forall digit ds -> text 2 (Num ds) ds
| t_brackets : forall e s, text 0 e s -> text 2 e ([40] ++ s ++ [41])
| t_up : forall l e s, l < 2 -> text (S l) e s -> text l e s
| t_op : forall l c a b s t, l < 2 -> sign l c -> text l a s -> text (S l) b t -> text l (Op c a b) (s ++ [c] ++ t).

(** What may come behind a text: nothing that would go on with it. *)
Definition stops (l : nat) (rest : str) : Prop := match rest with [] => True | d :: _ => ~ digit d /\ forall m, l <= m -> m < 2 -> ~ sign m d end.

(** The functions and rules of the user's program. *)
Definition step (acc : Z) (v : val) : Z := match v with VPair (VStr [c]) (VInt y) => operate c acc y | _ => acc end.
Definition calc (v : val) : val := match v with VPair (VInt h) (VList vs) => VInt (fold_left step vs h) | v => v end.
Definition code (v : val) : nat := match v with VStr [c] => c | _ => 0 end.
Definition to_int (v : val) : val := match v with VList vs => VInt (number (List.map code vs)) | v => v end.
Section Rules.
  Context {W : Type}.
  Definition more (l : nat) : gram W := GAnd Both (GAnyOf (fst (signs l)) (snd (signs l))) (GCall (S l)).
  Definition digits : gram W := GAnyOf 48 [49; 50; 51; 52; 53; 54; 55; 56; 57].
  (** sum = product (("+" | "-") product)*; product = factor ("*" factor)*; factor = digit+ | "(" sum ")" *)
  Definition calculator (l : nat) : gram W :=
    match l with
    | 0 | 1 => GMap (fun v => ret (calc v)) (GAnd Both (GCall (S l)) (GMany (more l)))
    | _ => GOr (GMap (fun v => ret (to_int v)) (GMany1 digits)) (GBetween (GChar 40) (GChar 41) (GCall 0))
    end.
End Rules.
