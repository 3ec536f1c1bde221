(** Specification of a breadth-first search that a user writes with tailrec, Block and Map: the
    shortest paths of a graph. *)
From Coq Require Import List Bool Arith.
From Verif.Model Require Import Base PyList Block MapTree Map Functions.
Import ListNotations.
Local Open Scope py_scope.

Section Search.
  Context {K W : Type} `{KeyOrd K} (next : K -> M W (block K)).

  (** The user's program.
      @tailrec
      def search(work, seen):
          if work.is_empty(): return seen
          x, d = work.head()
          rest = work.tail()
          if x in seen: return TailCall(rest, seen)
          ns = next(x)
          return TailCall(rest.append(ns.map(lambda n: (n, d + 1))), seen.add(x, d)) *)
  Definition args : Type := (block (K * nat) * tree K nat)%type.
  Definition search (a : args) : M W (bounce args (tree K nat)) :=
    let (work, seen) := a in
    if Block.is_empty work then ret (Functions.Result seen)
    else
      do xd <- lift (Block.head work);
      do rest <- lift (Block.tail work);
      if MapTree.mem (fst xd) seen then ret (TailCall (rest, seen))
      else
        do ns <- next (fst xd);
        do more <- Block.map ns (fun n => ret (n, snd xd + 1));
        do seen1 <- lift (MapTree.add (fst xd) (snd xd) seen);
        ret (TailCall (Block.append rest more, seen1)).
  (** search(roots.map(lambda n: (n, 0)), Map.empty()) *)
  Definition start (roots : list K) : args := (List.map (fun n => (n, 0)) roots, Empty).

  (** The user's function called for some keys, one after the other. *)
  Fixpoint calls (ks : list K) : M W unit :=
    match ks with [] => ret tt | k :: ks => do _ <- next k; calls ks end.

  (** The graph, and the keys that a path of so many edges leads to. *)
  Variables (succ : K -> list K) (roots : list K).
  Inductive path : nat -> K -> Prop :=
  | path_root : forall k, In k roots -> path 0 k
  | path_edge : forall n k k1, path n k -> In k1 (succ k) -> path (S n) k1.

  (** No two of the keys are equal. *)
  Definition distinct (ks : list K) : Prop := ForallOrdPairs (fun a b => eqb a b = false) ks.
  Definition among (k : K) (ks : list K) : Prop := exists k1, In k1 ks /\ eqb k k1 = true.
End Search.
