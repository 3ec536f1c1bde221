(** Property theorems C92 (text of Block, TypedArray and Map). *)
From Coq Require Import List Bool ZArith Arith String OrderedTypeEx.
From Verif.Model Require Import Base MapTree Map Show.
From Verif.Spec Require Import ListM MapSpec TextSpec.
From Verif.Proofs Require Import MapFacts ShowFacts.
Import ListNotations.
Local Open Scope string_scope.
Local Open Scope py_scope.

(** [str] is str() of an element, with any effects; the elements are printed in order. *)
Theorem C92_text_partial : forall W A (str : A -> M W string) (xs : list A) w,
  fst (mapM str xs w) <> Raise StopIterationExn ->
  block_str str xs w = (do ts <- mapM str xs; ret ("[" ++ String.concat ", " ts ++ "]")) w /\
  array_str str xs w = (do ts <- mapM str xs; ret ("[|" ++ String.concat ", " ts ++ "|]")) w.
Proof. exact (fun W A str xs w H => conj (block_text_pf str xs w H) (array_text_pf str xs w H)). Qed.
Print Assumptions C92_text_partial.
(** an element whose str() raises StopIteration ends the text instead *)
Theorem C92_text_refuted : forall W A (str : A -> M W string) (x : A) xs w,
  fst (str x w) = Raise StopIterationExn -> fst (block_str str (x :: xs) w) = Ret "[]".
Proof. exact (fun W A => block_stop_pf). Qed.
Print Assumptions C92_text_refuted.
Theorem C92_map_text : forall K V (KO : KeyOrd K) (is_str : K -> bool) (kstr : K -> string) (vstr : V -> string)
    (m : tree K V) n fuel, len m < n -> depth m + 2 <= fuel ->
  map_str (to_str is_str kstr vstr) n fuel m =
  Ret ("map [" ++ String.concat "; "
         (List.map (fun kv => let q := if is_str (fst kv) then """" else "" in
                              "(" ++ q ++ kstr (fst kv) ++ q ++ ", " ++ vstr (snd kv) ++ ")") (to_list m)) ++ "]").
Proof. exact (fun K V KO => map_text_spec_pf). Qed.
Print Assumptions C92_map_text.

(** The text tells blocks (and arrays) apart when no element's text is empty or contains the separator. *)
Theorem C92_determined_partial : forall W A (show : A -> string) (xs ys : list A) (w : W),
  (forall x, In x xs \/ In x ys -> show x <> "" /\ ~ occurs ", " (show x)) ->
  (block_str (fun x => ret (show x)) xs w = block_str (fun x => ret (show x)) ys w \/
   array_str (fun x => ret (show x)) xs w = array_str (fun x => ret (show x)) ys w) ->
  List.map show xs = List.map show ys.
Proof. exact (fun W A => block_determined_pf). Qed.
Print Assumptions C92_determined_partial.
Theorem C92_determined_refuted : exists xs ys us vs : list string,
  xs <> ys /\ block_str (fun x => ret x) xs tt = block_str (fun x => ret x) ys tt /\
  array_str (fun x => ret x) xs tt = array_str (fun x => ret x) ys tt /\
  us <> vs /\ List.length us = 0 /\ List.length vs = 1 /\ block_str (fun x => ret x) us tt = block_str (fun x => ret x) vs tt.
Proof. exists ["a, b"], ["a"; "b"], [], [""]. repeat split; try discriminate. Qed.
Print Assumptions C92_determined_refuted.
(** Maps: a string key without a quote, another key whose text has no ", " and does not begin
    with a quote, and no "; " in keys and values. *)
Theorem C92_map_determined_partial : forall K V (KO : KeyOrd K) (is_str : K -> bool) (kstr : K -> string) (vstr : V -> string)
    (m1 m2 : tree K V) n fuel,
  len m1 < n -> len m2 < n -> depth m1 + 2 <= fuel -> depth m2 + 2 <= fuel ->
  (forall k k', kstr k = kstr k' -> k = k') -> (forall v v', vstr v = vstr v' -> v = v') ->
  (forall k v, In (k, v) (to_list m1) \/ In (k, v) (to_list m2) ->
     ~ occurs "; " (kstr k) /\ ~ occurs "; " (vstr v) /\
     (if is_str k then ~ occurs """" (kstr k) else ~ occurs ", " (kstr k) /\ ~ starts_with """" (kstr k))) ->
  map_str (to_str is_str kstr vstr) n fuel m1 = map_str (to_str is_str kstr vstr) n fuel m2 ->
  to_list m1 = to_list m2.
Proof. exact (fun K V KO => map_determined_pf). Qed.
Print Assumptions C92_map_determined_partial.
#[local] Program Instance string_key : KeyOrd string := {| ltb := String.ltb; eqb := String.eqb |}.
Next Obligation. exact (proj1 (string_key_pf a b a)). Qed.
Next Obligation. exact (proj1 (proj2 (string_key_pf a a a))). Qed.
Next Obligation. exact (proj2 (proj2 (string_key_pf a b c)) H H0). Qed.
Next Obligation. apply String.eqb_eq in H. now subst. Qed.
Next Obligation. apply String.eqb_eq in H. now subst. Qed.
Theorem C92_map_determined_refuted : exists m1 m2 : tree string string,
  Reach m1 /\ Reach m2 /\ len m1 = 1 /\ len m2 = 2 /\
  let text m := map_str (to_str (fun _ => true) (fun k => k) (fun v => v)) 9 9 m in
  text m1 = Ret "map [(""a"", 1); (""b"", 2)]" /\ text m2 = text m1.
Proof.
  exists (m_run [OAdd "a" "1); (""b"", 2"]), (m_run [OAdd "b" "2"; OAdd "a" "1"]).
  split; [apply m_run_Reach|]. split; [apply m_run_Reach|]. vm_compute. repeat split.
Qed.
Print Assumptions C92_map_determined_refuted.
Example C92_case :
  let show (n : nat) : M nat string := fun w => (match n with 1 => Ret "1" | 2 => Ret "2" | _ => Raise ValueError end, w + n) in
  block_str show [1; 2] 0 = (Ret "[1, 2]", 3) /\ array_str show [2; 1] 0 = (Ret "[|2, 1|]", 3) /\
  block_str show [1; 7; 2] 0 = (Raise ValueError, 8) /\
  (forall x, In x ["a"; "b,"] \/ In x ["c"] -> x <> "" /\ ~ occurs ", " x) /\
  map_str (to_str (fun k => String.eqb k "x") (fun k => k) (fun v => v)) 9 9 (m_run [OAdd "x" "1"; OAdd "7" "y"]) =
  Ret "map [(7, y); (""x"", 1)]".
Proof.
  cbv zeta. split; [reflexivity|]. split; [reflexivity|]. split; [reflexivity|]. split; [|reflexivity].
  intros x [[<-|[<-|[]]]|[<-|[]]]; (split; [discriminate|]); intros (a & b & E);
    repeat (destruct a as [|? a]; cbn in E; try discriminate E; try (injection E as ? E)); discriminate.
Qed.
