(** C87-C89: Option, Result and Block in pydantic models. *)
From Coq Require Import List String Bool Arith.
From Verif.Model Require Import Base Pydantic.
From Verif.Spec Require Import PydanticSpec.
From Verif.Proofs Require Import PydanticFacts.
Import ListNotations.

(** For examples: one other type, whose values are the numbers; it takes numbers only and
    has no [in]. *)
Definition number (_ : unit) (v : pv nat) : Prop := exists n, v = Atom n.
Definition check_number (_ : unit) (v : pv nat) : res (pv nat) := match v with Atom n => Ret v | _ => Raise ValueError end.
Definition no_in (_ : nat) (_ : string) : res bool := Raise TypeError.

(** C87: validating what dict() gives, for types in which no option is written like
    another value *)
Theorem C87_round_trip_partial : forall base atom (check : base -> pv atom -> res (pv atom)) contains_atom prefers_ok (good : base -> pv atom -> Prop),
  (forall b v, good b v -> check b v = Ret v /\ outsider v) ->
  forall t v, typed good t v -> writable good t -> validate check contains_atom prefers_ok t (dump v) = Ret v.
Proof. exact (fun base atom => dump_typed). Qed.
Print Assumptions C87_round_trip_partial.
Example C87_round_trip_case :
  let t := TBlock (TResult (TOption (TBase tt)) (TBase tt)) in let v := PBlock [POk (PSome (Atom 1)); POk PNothing; PError (Atom 2)] in
  typed number t v /\ writable number t /\ validate check_number no_in (fun _ => false) t (dump v) = Ret v /\
  forall b v, number b v -> check_number b v = Ret v /\ outsider v.
Proof.
  cbv zeta. split; [|split; [|split]].
  - repeat constructor; eexists; reflexivity.
  - split; [|exact I]. split; [|exact I]. intros [n E]. discriminate.
  - reflexivity.
  - intros b v [n ->]. split; [reflexivity|exact I].
Qed.
(** Some(Nothing) comes back as Nothing *)
Theorem C87_nested_refuted : forall base atom (check : base -> pv atom -> res (pv atom)) contains_atom prefers_ok (good : base -> pv atom -> Prop) t,
  typed good (TOption (TOption t)) (PSome PNothing) /\
  validate check contains_atom prefers_ok (TOption (TOption t)) (dump (PSome PNothing)) = Ret PNothing.
Proof. exact (fun base atom check ca pr good t => conj (ty_some _ _ _ (ty_nothing _ _)) eq_refl). Qed.
Print Assumptions C87_nested_refuted.
(** as JSON, for types without Result in which options hold other types only *)
Theorem C87_json_partial : forall base atom (check_json : base -> pv atom -> res (pv atom)) (good : base -> pv atom -> Prop),
  (forall b v, good b v -> check_json b v = Ret v /\ outsider v) ->
  forall t v, typed good t v -> flat good t -> validate_json check_json t (dump v) = Ret v.
Proof. exact (fun base atom => dump_json). Qed.
Print Assumptions C87_json_partial.
Example C87_json_case : let t := TBlock (TOption (TBase tt)) in let v := PBlock [PSome (Atom 1); PNothing] in
  typed number t v /\ flat number t /\ validate_json check_number t (dump v) = Ret v.
Proof. cbv zeta. split; [repeat constructor; eexists; reflexivity|]. split; [intros [n E]; discriminate|reflexivity]. Qed.
(** no Result can be read from JSON: the data are handed to the constructor in a way it
    does not allow *)
Theorem C87_json_result_refuted : forall base atom (check_json : base -> pv atom -> res (pv atom)) t u,
  (forall d, exists e, validate_json check_json (TResult t u) d = Raise e) /\
  (forall x y, validate_json check_json t (dump x) = Ret y -> validate_json check_json (TResult t u) (dump (POk x)) = Raise TypeError) /\
  (forall x y, validate_json check_json u (dump x) = Ret y -> validate_json check_json (TResult t u) (dump (PError x)) = Raise TypeError).
Proof.
  exact (fun base atom c t u => conj (json_result_fails c t u) (conj (fun x y => proj1 (json_result_dump c t u (POk x)) x y eq_refl)
    (fun x y => proj2 (json_result_dump c t u (PError x)) x y eq_refl))).
Qed.
Print Assumptions C87_json_result_refuted.
(** the item of an option read from JSON is left as the decoded data *)
Theorem C87_json_option_refuted : forall base atom (check_json : base -> pv atom -> res (pv atom)) t l,
  validate_json check_json (TOption (TBlock t)) (dump (PSome (PBlock l))) = Ret (PSome (PList (List.map (@dump atom) l))).
Proof. exact (fun base atom c t l => eq_refl). Qed.
Print Assumptions C87_json_option_refuted.

(** C88: data without instances of the three classes, Python input *)
Theorem C88_validated_partial : forall base atom (check : base -> pv atom -> res (pv atom)) contains_atom prefers_ok (good : base -> pv atom -> Prop),
  (forall b d v, data d -> check b d = Ret v -> good b v) ->
  forall t d v, data d -> validate check contains_atom prefers_ok t d = Ret v -> typed good t v.
Proof. exact (fun base atom => validate_typed). Qed.
Print Assumptions C88_validated_partial.
Example C88_validated_case : let d := PDict [("ok", PList [Atom 1; PNone])]%string in let t := TResult (TBlock (TOption (TBase tt))) (TBase tt) in
  data d /\ validate check_number no_in (fun _ => false) t d = Ret (POk (PBlock [PSome (Atom 1); PNothing])) /\
  validate check_number no_in (fun _ => false) t (PDict [("ok", PList [PStr "a"])])%string = Raise ValueError.
Proof. cbv zeta. split; [repeat constructor|]. split; reflexivity. Qed.
(** an instance is taken whatever it holds, and so is every JSON value for an option *)
Theorem C88_instance_refuted : forall base atom (check : base -> pv atom -> res (pv atom)) check_json contains_atom prefers_ok t u v l,
  validate check contains_atom prefers_ok (TOption t) (PSome v) = Ret (PSome v) /\
  validate check contains_atom prefers_ok (TResult t u) (POk v) = Ret (POk v) /\
  validate check contains_atom prefers_ok (TBlock t) (PBlock l) = Ret (PBlock l) /\
  (v <> PNone -> validate_json check_json (TOption t) v = Ret (PSome v)).
Proof.
  exact (fun base atom c cj ca pr t u v l => conj eq_refl (conj eq_refl (conj eq_refl
    (match v as v0 return v0 <> PNone -> validate_json cj (TOption t) v0 = Ret (PSome v0) with PNone => fun N => False_ind _ (N eq_refl) | _ => fun _ => eq_refl end)))).
Qed.
Print Assumptions C88_instance_refuted.
Example C88_instance_case : ~ typed number (TOption (TBase tt)) (PSome (PStr "a")) /\ validate_json check_number (TOption (TBase tt)) (PStr "a") = Ret (PSome (PStr "a")).
Proof. split; [|reflexivity]. intros T. inversion T as [| |? ? T1| | |]; subst. inversion T1 as [? ? [n E]| | | | |]; discriminate. Qed.

(** C89: what is raised for data that do not fit *)
Theorem C89_errors_partial : forall base atom (check : base -> pv atom -> res (pv atom)) contains_atom prefers_ok,
  (forall b d e, check b d = Raise e -> e = ValueError) ->
  (forall t d e, without_result t -> validate check contains_atom prefers_ok t d = Raise e -> e = ValueError) /\
  (forall t u d e, without_result t -> without_result u -> validate check contains_atom prefers_ok (TResult t u) (PDict d) = Raise e -> e = ValueError).
Proof. exact (fun base atom c ca pr V => conj (validate_error c ca pr V) (validate_result_error c ca pr V)). Qed.
Print Assumptions C89_errors_partial.
(** data that are no dictionary, where a Result is expected: the exception of [in] or of
    the subscription leaves the validation *)
Theorem C89_result_refuted : forall base atom (check : base -> pv atom -> res (pv atom)) contains_atom prefers_ok t u,
  validate check contains_atom prefers_ok (TResult t u) PNone = Raise TypeError /\
  (forall l, existsb (is_str "error") l = true -> validate check contains_atom prefers_ok (TResult t u) (PList l) = Raise TypeError) /\
  validate check contains_atom prefers_ok (TResult t u) (PStr "an error") = Raise TypeError /\
  (forall a, contains_atom a "error"%string = Raise TypeError -> validate check contains_atom prefers_ok (TResult t u) (Atom a) = Raise TypeError) /\
  (forall l, existsb (is_str "error") l = false -> existsb (is_str "ok") l = false ->
     validate check contains_atom prefers_ok (TResult t u) (PList l) = Raise ValueError).
Proof.
  intros. repeat split; intros; cbn [validate]; unfold either, validate_case; cbn [contains rbind]; try rewrite H; try rewrite H0; reflexivity.
Qed.
Print Assumptions C89_result_refuted.
(** A text, where a Result is expected: TypeError when one of the words occurs in it, else a
    validation error. *)
Definition occurs (w s : string) : Prop := exists a b, s = (a ++ w ++ b)%string.
Theorem C89_text_partial : forall base atom (check : base -> pv atom -> res (pv atom)) contains_atom prefers_ok t u s,
  (occurs "ok" s \/ occurs "error" s -> validate check contains_atom prefers_ok (TResult t u) (PStr s) = Raise TypeError) /\
  (~ occurs "ok" s -> ~ occurs "error" s -> validate check contains_atom prefers_ok (TResult t u) (PStr s) = Raise ValueError).
Proof.
  intros base atom check contains_atom prefers_ok t u s.
  assert (P : forall w, w <> ""%string -> (occurs w s -> index 0 w s <> None) /\ (index 0 w s <> None -> occurs w s)).
  { intros w N. split.
    - intros (a & b & ->) I. apply (index_correct3 0 (String.length a) w (a ++ w ++ b) I N); [apply Nat.le_0_l|].
      clear I N. induction a as [|c a IH]; cbn [String.append String.length substring]; [|exact IH].
      induction w as [|c w IH]; [destruct b; reflexivity|]. cbn [String.append String.length substring]. now rewrite IH.
    - intros I. destruct (index 0 w s) as [n|] eqn:E; [|congruence]. apply index_correct1 in E. rewrite <- E. generalize (String.length w) as l.
      clear. revert n. induction s as [|c s IH]; intros n l; [exists ""%string, ""%string; destruct n, l; reflexivity|].
      destruct n as [|n].
      + destruct l as [|l]; [exists ""%string, (String c s); reflexivity|]. cbn [substring].
        clear IH. exists ""%string. revert c l. induction s as [|d s IH]; intros c l; [exists ""%string; destruct l; reflexivity|].
        destruct l as [|l]; [exists (String d s); reflexivity|]. destruct (IH d l) as [b E]. exists b. cbn in E |- *. injection E as E. now rewrite <- E.
      + destruct (IH n l) as (a & b & E). exists (String c a), b. cbn [substring String.append]. now rewrite <- E. }
  destruct (P "ok"%string ltac:(discriminate)) as [O1 O2]. destruct (P "error"%string ltac:(discriminate)) as [E1 E2].
  cbn [validate]; unfold either, validate_case; cbn [contains rbind]. split.
  - intros [H|H].
    + apply O1 in H. destruct (index 0 "error" s); [reflexivity|]. destruct (index 0 "ok" s); [reflexivity|congruence].
    + apply E1 in H. destruct (index 0 "error" s); [reflexivity|congruence].
  - intros NO NE. destruct (index 0 "error" s); [elim NE; apply E2; discriminate|]. destruct (index 0 "ok" s); [elim NO; apply O2; discriminate|]. reflexivity.
Qed.
Print Assumptions C89_text_partial.
Example C89_text_case : occurs "ok" "a token" /\ ~ occurs "ok" "7" /\ ~ occurs "error" "7".
Proof.
  split; [exists "a t"%string, "en"%string; reflexivity|].
  split; intros (a & b & E); destruct a as [|c [|d a]]; discriminate E.
Qed.
Example C89_case : validate check_number no_in (fun _ => false) (TBlock (TBase tt)) (PList [Atom 1; PNone]) = Raise ValueError /\
  validate check_number no_in (fun _ => false) (TResult (TBase tt) (TBase tt)) (Atom 3) = Raise TypeError /\
  forall b d e, check_number b d = Raise e -> e = ValueError.
Proof. split; [reflexivity|]. split; [reflexivity|]. intros b [] e; cbn; congruence. Qed.
(** JSON: bad input is a validation error, and what makes a Result fail with a TypeError
    is exactly an object with a str [tag] and a fitting item, the form in which a Result is
    written *)
Theorem C89_json_errors_partial : forall base atom (check_json : base -> pv atom -> res (pv atom)),
  (forall b d e, check_json b d = Raise e -> e = ValueError) ->
  (forall t d e, without_result t -> validate_json check_json t d = Raise e -> e = ValueError) /\
  (forall t u m, without_result t -> without_result u -> NoDup (List.map fst m) ->
     let fitting := exists s x y, In ("tag", PStr s)%string m /\
       (In ("ok", x)%string m /\ validate_json check_json t x = Ret y \/ In ("error", x)%string m /\ validate_json check_json u x = Ret y) in
     (validate_json check_json (TResult t u) (PDict m) = Raise TypeError /\ fitting) \/ (validate_json check_json (TResult t u) (PDict m) = Raise ValueError /\ ~ fitting)) /\
  (forall t u d, without_result t -> without_result u -> (forall m, d <> PDict m) -> validate_json check_json (TResult t u) d = Raise ValueError).
Proof. exact (fun base atom c V => conj (json_error c V) (conj (json_result_dict c V) (json_result_other c V))). Qed.
Print Assumptions C89_json_errors_partial.
Example C89_json_case :
  validate_json check_number (TResult (TBase tt) (TBase tt)) (PDict [("ok", Atom 1)])%string = Raise ValueError /\
  validate_json check_number (TResult (TBase tt) (TBase tt)) (PDict [("tag", PStr "ok"); ("ok", Atom 1)])%string = Raise TypeError /\
  validate_json check_number (TBlock (TBase tt)) (PList [PNone]) = Raise ValueError.
Proof. repeat split. Qed.
