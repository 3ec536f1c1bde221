(** Model of the text of the collections: Block.__str__ (expression/collections/block.py:532-536),
    TypedArray.__str__ (array.py:468-472) and the item text of Map.__str__ (map.py:245-256;
    the rest is [Map.map_str]).  Each [__repr__] is str(self).  Definitions only. *)
From Coq Require Import List Bool String.
From Verif.Model Require Import Base PyList Map.
From Verif.Model Require Block.
Import ListNotations.
Local Open Scope string_scope.
Local Open Scope py_scope.

(** block.py:532-533: [self.map(str)], then str.join; [str] is str(x), which may raise. *)
Definition block_str {W A} (str : A -> M W string) (self : Block.block A) : M W string :=
  do xs <- Block.map self str; ret ("[" ++ join ", " xs ++ "]").
(** array.py:468-469: [self.map(str)] is a TypedArray of strings; a string is none of the
    numbers that array.py:119-165 looks for, so its storage is the list of the strings.
    [elems] are the elements of the array. *)
Definition array_str {W A} (str : A -> M W string) (elems : list A) : M W string :=
  do xs <- for_calls elems [] str (fun acc _ y => ret (acc ++ [y])%list); ret ("[|" ++ join ", " xs ++ "|]").

(** map.py:246-250 (to_str): a key that is a string is put between quotes. *)
Definition to_str {K V} (key_is_str : K -> bool) (kstr : K -> string) (vstr : V -> string) (item : K * V) : string :=
  let (key, value) := item in
  if key_is_str key then "(""" ++ kstr key ++ """, " ++ vstr value ++ ")"
  else "(" ++ kstr key ++ ", " ++ vstr value ++ ")".
