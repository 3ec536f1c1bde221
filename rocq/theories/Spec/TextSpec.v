(** What a user may expect of the text of collections. *)
From Coq Require Import List String.
Import ListNotations.
Local Open Scope string_scope.

(** [s] contains [sub]. *)
Definition occurs (sub s : string) : Prop := exists a b, s = a ++ sub ++ b.
Definition starts_with (sub s : string) : Prop := exists b, s = sub ++ b.
