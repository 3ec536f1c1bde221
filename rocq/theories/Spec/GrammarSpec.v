(** Specification of a recursive grammar: integers and nested lists of them. *)
From Coq Require Import String List Bool ZArith Decimal.
From Verif.Model Require Import Base OptionResult Parser.
From Verif.Spec Require Export ParserSpec.
Import ListNotations.
Local Open Scope list_scope.

Inductive tree : Type := Num (z : Z) | Lst (ts : list tree).
Fixpoint nesting (t : tree) : nat := match t with Num _ => 0 | Lst ts => S (fold_right (fun t n => Nat.max (nesting t) n) 0 ts) end.

(** The parser a user writes for it, recursive by way of a function:
    def value():
        comma = pchar(",").then_ignore(many(pchar(" ")))
        items = sep_by(Parser(lambda i: value().run(i)), comma)
        return pint.map(Num).or_else(items.between(pchar("["), pchar("]")).map(Lst))
    [depth] is the number of nested calls of value that the stack has room for. *)
Definition comma {W} (limit : nat) : parser W str := then_ignore (pchar [44]) (many limit (pchar [32])).
Fixpoint value {W} (limit int_limit depth : nat) : parser W tree :=
  match depth with
  | 0 => fun _ => raise RecursionError
  | S depth =>
      or_else (map (fun z => ret (Num z)) (pint limit int_limit))
              (map (fun ts => ret (Lst ts)) (between (pchar [91]) (pchar [93]) (sep_by limit (value limit int_limit depth) (comma limit))))
  end.

(** The texts of a tree: numerals, also with leading zeros, and any number of blanks behind a
    comma; [91] [44] [93] [32] are the brackets, the comma and the blank. *)
Inductive says : tree -> str -> Prop :=
| says_num : forall (negative : bool) u, u <> Nil -> says (Num (if negative then - Z.of_uint u else Z.of_uint u)%Z) (minus negative ++ str_of_uint u)
| says_list : forall ts s, says_all ts s -> says (Lst ts) (91 :: s ++ [93])
with says_all : list tree -> str -> Prop :=
| says_none : says_all [] []
| says_some : forall t ts s1 s2, says t s1 -> says_more ts s2 -> says_all (t :: ts) (s1 ++ s2)
with says_more : list tree -> str -> Prop :=
| more_none : says_more [] []
| more_some : forall n t ts s1 s2, says t s1 -> says_more ts s2 -> says_more (t :: ts) (44 :: repeat 32 n ++ s1 ++ s2).

(** How Python prints it: str of a list of integers and lists. *)
Fixpoint show (t : tree) : str :=
  match t with
  | Num z => str_of_Z z
  | Lst [] => [91; 93]
  | Lst (t :: ts) => 91 :: show t ++ flat_map (fun t => 44 :: 32 :: show t) ts ++ [93]
  end.
