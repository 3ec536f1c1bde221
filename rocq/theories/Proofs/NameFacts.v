(** Lemmas for C113. *)
From Coq Require Import String List ZArith Lia Arith.
From Verif.Model Require Import Base Parser ParserName.
From Verif.Spec Require Import NameSpec.
Import ListNotations.
Local Open Scope list_scope.

Lemma unclosed_app : forall a b, unclosed (a ++ b) = (unclosed a + unclosed b)%Z.
Proof. induction a as [|c a IH]; intros b; cbn [app unclosed]; [lia|]. rewrite IH. lia. Qed.
(* the names as plain concatenations *)
Lemma and_then_text : forall p q, name_and_then p q = lit "and_then("%string ++ q ++ lit ", "%string ++ p.
Proof. reflexivity. Qed.
Lemma or_else_text : forall p q, name_or_else p q = lit "or_else("%string ++ q ++ lit ", "%string ++ p.
Proof. reflexivity. Qed.
Lemma map_text : forall p, name_map p = lit "map(A => B, "%string ++ p ++ lit ")"%string.
Proof. reflexivity. Qed.
Lemma many_text : forall p, name_many p = lit "many("%string ++ p ++ lit ")"%string.
Proof. reflexivity. Qed.
Lemma bind_text : forall p, name_bind p = lit "bind(A => Parser[B], "%string ++ p.
Proof. reflexivity. Qed.
Lemma many1_text : forall p, name_many1 p = name_many p.
Proof. reflexivity. Qed.

Ltac texts := rewrite ?many1_text, ?and_then_text, ?or_else_text, ?map_text, ?many_text, ?bind_text.

Lemma unclosed_how : forall h, leaves_balanced h -> unclosed (how_name h) = sequencers h.
Proof.
  induction h as [name|a IHa b IHb|a IHa b IHb|a IHa|a IHa|a IHa|a IHa]; cbn [leaves_balanced how_name sequencers]; intros L; try exact L;
    try (destruct L as [La Lb]; specialize (IHa La); specialize (IHb Lb)); try specialize (IHa L);
    texts; rewrite ?unclosed_app, IHa, ?IHb;
    repeat match goal with |- context [unclosed (lit ?s)] => let v := eval vm_compute in (unclosed (lit s)) in change (unclosed (lit s)) with v end; lia.
Qed.
Lemma length_how : forall h, List.length (how_name h) <= 21 * combinators h + leaf_text h.
Proof.
  induction h as [name|a IHa b IHb|a IHa b IHb|a IHa|a IHa|a IHa|a IHa]; cbn [how_name combinators leaf_text]; [lia|..];
    texts; rewrite ?app_length;
    repeat match goal with |- context [List.length (lit ?s)] => let v := eval vm_compute in (List.length (lit s)) in change (List.length (lit s)) with v end; lia.
Qed.
Lemma length_sep_by1 : forall p sep, 2 * List.length p < List.length (name_sep_by1 p sep).
Proof.
  intros p sep. unfold name_sep_by1, name_ignore_then. texts. rewrite ?app_length.
  repeat match goal with |- context [List.length (lit ?s)] => let v := eval vm_compute in (List.length (lit s)) in change (List.length (lit s)) with v end. lia.
Qed.
Lemma length_levels : forall sep p k, 2 ^ k * List.length p <= List.length (Nat.iter k (fun p => name_sep_by1 p sep) p).
Proof.
  intros sep p. induction k as [|k IH].
  - cbn. lia.
  - change (Nat.iter (S k) (fun p => name_sep_by1 p sep) p) with (name_sep_by1 (Nat.iter k (fun p => name_sep_by1 p sep) p) sep).
    pose proof (length_sep_by1 (Nat.iter k (fun p => name_sep_by1 p sep) p) sep). cbn [Nat.pow]. nia.
Qed.
