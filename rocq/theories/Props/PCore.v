(** Property theorems C37-C42 (Option, Result, tagged unions). *)
From Coq Require Import List Bool ZArith String.
From Verif.Model Require Import Base OptionResult TaggedUnion.
From Verif.Model Require PyList.
From Verif.Spec Require Import ListM UnionSpec OptionResultSpec.
From Verif.Proofs Require Import OptionResultFacts TaggedUnionFacts CoreRefute.
Import ListNotations.
Local Open Scope list_scope.
Local Open Scope py_scope.

(** C37. [==m]: same result, same effects, same exceptions, for every callback. *)
Theorem C37_option_functor : forall W A B C (o : option A) (f : A -> M W B) (g : B -> M W C),
  opt_map o (fun x => ret x) ==m (ret o : M W (option A)) /\
  (do o1 <- opt_map o f; opt_map o1 g) ==m opt_map o (fun x => do y <- f x; g y).
Proof. exact (fun W A B C => opt_functor_pf). Qed.
Print Assumptions C37_option_functor.
Theorem C37_option_monad : forall W A B C (o : option A) (x : A) (f : A -> M W (option B)) (g : B -> M W (option C)),
  opt_bind (Some x) f ==m f x /\
  opt_bind o (fun x => ret (Some x)) ==m (ret o : M W (option A)) /\
  (do o1 <- opt_bind o f; opt_bind o1 g) ==m opt_bind o (fun x => do o1 <- f x; opt_bind o1 g).
Proof. exact (fun W A B C => opt_monad_pf). Qed.
Print Assumptions C37_option_monad.
Theorem C37_option_map_is_bind : forall W A B (o : option A) (f : A -> M W B),
  opt_map o f ==m opt_bind o (fun x => do y <- f x; ret (Some y)).
Proof. exact (fun W A B => opt_map_bind_pf). Qed.
Print Assumptions C37_option_map_is_bind.
Theorem C37_option_or_else : forall A (a b c : option A),
  opt_or_else (opt_or_else a b) c = opt_or_else a (opt_or_else b c) /\
  opt_or_else None a = a /\ opt_or_else a None = a /\ (forall x, opt_or_else (Some x) b = Some x).
Proof. exact (fun A => opt_or_else_pf). Qed.
Print Assumptions C37_option_or_else.
Theorem C37_option_filter : forall W A (o : option A) (p q : A -> M W bool),
  (do o1 <- opt_filter o p; opt_filter o1 q) ==m
  opt_filter o (fun x => do b <- p x; if b : bool then q x else ret false).
Proof. exact (fun W A => opt_filter_pf). Qed.
Print Assumptions C37_option_filter.
Theorem C37_option_map2_apply : forall W A B C (f : A -> B -> M W C) (a : option A) (b : option B) (h : option (A -> M W B)),
  opt_map2 a f b ==m opt_bind a (fun x => opt_map b (fun y => f x y)) /\
  opt_apply a h ==m opt_bind h (fun g => opt_map a g).
Proof. exact (fun W A B C f a b h => conj (opt_map2_pf f a b) (opt_apply_pf h a)). Qed.
Print Assumptions C37_option_map2_apply.
(** the callback runs once on the value when there is one, and never otherwise *)
Theorem C37_option_calls : forall A B (o : option A) (f : A -> res B) (p : A -> res bool) (g : A -> res (option B)) w,
  snd (opt_map o (fun x w => (f x, w ++ [x])) w) = w ++ opt_to_list o /\
  snd (opt_bind o (fun x w => (g x, w ++ [x])) w) = w ++ opt_to_list o /\
  snd (opt_filter o (fun x w => (p x, w ++ [x])) w) = w ++ opt_to_list o.
Proof. exact opt_calls_pf. Qed.
Print Assumptions C37_option_calls.
(** defaults and alternatives: the getter runs exactly when there is no value *)
Theorem C37_option_fallback : forall W A E (o : option A) (v : A) (g : unit -> M W A) (h : unit -> M W (option A)) (e : unit -> M W E) x,
  opt_default_value (Some x) v = x /\ opt_default_value None v = v /\
  opt_default_with (Some x) g ==m ret x /\ opt_default_with None g ==m g tt /\
  opt_or_else_with (Some x) h ==m ret (Some x) /\ opt_or_else_with None h ==m h tt /\
  opt_to_result_with (Some x) e ==m ret (Ok x) /\ opt_to_result_with (A := A) None e ==m (do y <- e tt; ret (Err y)).
Proof. exact opt_fallback_pf. Qed.
Print Assumptions C37_option_fallback.
(** starmap is map over the unpacked arguments *)
Theorem C37_option_starmap : forall W A B (f : list A -> M W B) (args : list A) (x : A),
  opt_starmap (Some (PyList.Args args)) f ==m opt_map (Some args) f /\
  opt_starmap (Some (PyList.NotIterable x)) f ==m raise TypeError /\
  opt_starmap None f ==m ret None.
Proof. exact opt_starmap_pf. Qed.
Print Assumptions C37_option_starmap.
Example C37_example :
  opt_bind (Some 3) (fun x (w : list nat) => (Ret (if x <? 5 then Some (x + 1) else None), x :: w))%nat [9] = (Ret (Some 4), [3; 9]) /\
  opt_map (Some 3) (fun x (w : list nat) => (Raise (UserExn x) : res nat, x :: w)) [] = (Raise (UserExn 3), [3]).
Proof. split; reflexivity. Qed.

(** C38. *)
Theorem C38_result_functor : forall W A B C E (r : result A E) (f : A -> M W B) (g : B -> M W C),
  res_map r (fun x => ret x) ==m (ret r : M W (result A E)) /\
  (do r1 <- res_map r f; res_map r1 g) ==m res_map r (fun x => do y <- f x; g y).
Proof. exact (fun W A B C E => res_functor_pf). Qed.
Print Assumptions C38_result_functor.
Theorem C38_result_error_functor : forall W A E F G (r : result A E) (f : E -> M W F) (g : F -> M W G),
  res_map_error r (fun x => ret x) ==m (ret r : M W (result A E)) /\
  (do r1 <- res_map_error r f; res_map_error r1 g) ==m res_map_error r (fun x => do y <- f x; g y).
Proof. exact (fun W A E F G => res_functor_error_pf). Qed.
Print Assumptions C38_result_error_functor.
Theorem C38_result_monad : forall W A B C E (r : result A E) (x : A) (f : A -> M W (result B E)) (g : B -> M W (result C E)),
  res_bind (Ok x) f ==m f x /\
  res_bind r (fun x => ret (Ok x)) ==m (ret r : M W (result A E)) /\
  (do r1 <- res_bind r f; res_bind r1 g) ==m res_bind r (fun x => do r1 <- f x; res_bind r1 g).
Proof. exact (fun W A B C E => res_monad_pf). Qed.
Print Assumptions C38_result_monad.
Theorem C38_error_passes_through : forall W A B E (e d : E) (f : A -> M W B) (g : A -> M W (result B E)) (p : A -> M W bool) (h : A -> M W E),
  res_map (Err e) f ==m ret (Err e) /\
  res_bind (Err e) g ==m ret (Err e) /\
  res_filter (Err e) p d ==m ret (Err e) /\
  res_filter_with (Err e) p h ==m ret (Err e).
Proof. exact (fun W A B E => res_error_through_pf). Qed.
Print Assumptions C38_error_passes_through.
Theorem C38_swap : forall W A E F (r : result A E) (f : E -> M W F),
  res_swap (res_swap r) = r /\
  res_is_ok (res_swap r) = res_is_error r /\
  res_map_error r f ==m (do r1 <- res_map (res_swap r) f; ret (res_swap r1)).
Proof. exact (fun W A E F => res_swap_pf). Qed.
Print Assumptions C38_swap.
Theorem C38_map2_apply : forall W A B C E (f : A -> B -> M W C) (a : result A E) (b : result B E) (h : result (A -> M W B) E),
  res_map2 a b f ==m res_bind a (fun x => res_map b (fun y => f x y)) /\
  res_apply a h ==m res_bind h (fun g => res_map a g).
Proof. exact (fun W A B C E f a b h => conj (res_map2_pf f a b) (res_apply_pf h a)). Qed.
Print Assumptions C38_map2_apply.
(** a map2 chain of any length reports its leftmost error *)
Theorem C38_map2_chain_leftmost_error : forall W A E (rs : list (result A E)) (w : W),
  foldM (fun acc r => res_map2 acc r (fun xs x => ret (xs ++ [x]))) (Ok []) rs w = (Ret (all_ok rs), w).
Proof. exact map2_chain_pf. Qed.
Print Assumptions C38_map2_chain_leftmost_error.
(** a bind chain of any length stops calling functions at its first error *)
Theorem C38_bind_chain_stops : forall W A E (fs : list (A -> M W (result A E))) (x : A),
  foldM (fun r f => res_bind r f) (Ok x) fs ==m while_ok x fs.
Proof. exact bind_chain_pf. Qed.
Print Assumptions C38_bind_chain_stops.
Theorem C38_or_else : forall A E (a b c : result A E),
  res_or_else (res_or_else a b) c = res_or_else a (res_or_else b c) /\
  (res_is_ok a = true -> res_or_else a b = a) /\ (res_is_ok a = false -> res_or_else a b = b).
Proof. exact (fun A E => res_or_else_pf). Qed.
Print Assumptions C38_or_else.
Theorem C38_fallback : forall W A E (v : A) (g : E -> M W A) (h : E -> M W (result A E)) (m : result A A) x e,
  res_default_value (E := E) (Ok x) v = x /\ res_default_value (Err e) v = v /\
  res_default_with (Ok x) g ==m ret x /\ res_default_with (Err e) g ==m g e /\
  res_or_else_with (Ok x) h ==m ret (Ok x) /\ res_or_else_with (Err e) h ==m h e /\
  res_merge m ==m (ret (match m with Ok y => y | Err y => y end) : M W A).
Proof. exact res_fallback_pf. Qed.
Print Assumptions C38_fallback.
(** the default is made exactly when the predicate rejects the value *)
Theorem C38_filter : forall W A E (x : A) (p : A -> M W bool) (d : E) (h : A -> M W E) w w1,
  (p x w = (Ret true, w1) -> res_filter (Ok x) p d w = (Ret (Ok x), w1) /\ res_filter_with (Ok x) p h w = (Ret (Ok x), w1)) /\
  (p x w = (Ret false, w1) -> res_filter (Ok x) p d w = (Ret (Err d), w1) /\
     res_filter_with (Ok x) p h w = (do e <- h x; ret (Err e)) w1) /\
  (forall e, p x w = (Raise e, w1) -> res_filter (Ok x) p d w = (Raise e, w1) /\ res_filter_with (Ok x) p h w = (Raise e, w1)).
Proof. exact res_filter_pf. Qed.
Print Assumptions C38_filter.
Example C38_example : all_ok [Ok 1; Err "a"; Ok 2; Err "b"]%string = Err "a"%string /\
  while_ok 1 [fun x => fun w => (Ret (Ok (x + 1)), w ++ [1]); fun x => fun w => (Ret (Err "e"%string), w ++ [2]); fun x => fun w => (Ret (Ok x), w ++ [3])]%nat [] = (Ret (Err "e"%string), [1; 2]).
Proof. split; reflexivity. Qed.

(** C39: all round trips hold, except Option -> Optional -> Option of Some(None). *)
Theorem C39_conversions : forall A E (o : option A) (r : result A E) (e : E),
  res_to_option (res_of_option o e) = o /\
  res_to_option (opt_to_result o e) = o /\
  opt_is_some (opt_of_result r) = res_is_ok r /\
  opt_of_result r = res_to_option r /\
  opt_is_none o = negb (opt_is_some o) /\
  (forall x, opt_value o = Ret x <-> o = Some x) /\
  (opt_value o = Raise ValueError <-> o = None).
Proof. exact conversions_pf. Qed.
Print Assumptions C39_conversions.
(** the error is computed only when it is needed *)
Theorem C39_of_option_with : forall W A E (o : option A) (e : unit -> M W E) (w : W),
  res_of_option_with o e w =
  match o with Some x => (Ret (Ok x), w) | None => (do v <- e tt; ret (Err v)) w end.
Proof. intros W A E [x|] e w; reflexivity. Qed.
Print Assumptions C39_of_option_with.
Example C39_of_option_with_ex : res_of_option_with (Some 3) (fun _ (w : nat) => (Ret 9, S w)) 0 = (Ret (Ok 3), 0) /\
  res_of_option_with (@None nat) (fun _ (w : nat) => (Ret 9, S w)) 0 = (Ret (Err 9), 1).
Proof. split; reflexivity. Qed.
Theorem C39_optional_round_trip_partial : forall A (o : option (pyopt A)),
  opt_of_optional (opt_to_optional o) = o <-> o <> Some PyNone.
Proof. exact optional_round_trip_pf. Qed.
Print Assumptions C39_optional_round_trip_partial.
Theorem C39_optional_inverse : forall A (v : pyopt A), opt_to_optional (opt_of_optional v) = v.
Proof. exact optional_inverse_pf. Qed.
Print Assumptions C39_optional_inverse.
Theorem C39_optional_round_trip_refuted : exists o : option (pyopt nat), opt_of_optional (opt_to_optional o) <> o.
Proof. exact C39_refuted_pf. Qed.
Print Assumptions C39_optional_round_trip_refuted.
Example C39_example : opt_of_optional (opt_to_optional (Some (PyVal 3))) = Some (PyVal 3).
Proof. reflexivity. Qed.

(** C40. *)
Theorem C40_lt_by_case_then_payload : forall V (KO : KeyOrd (pyobj V)) fields (a b : table V) n1 v1 n2 v2,
  plain fields -> value_of fields a -> value_of fields b -> active a = Ret (n1, v1) -> active b = Ret (n2, v2) ->
  exists r, tu_lt eqb ltb a b = Ret r /\
    (n1 = n2 -> r = ltb v1 v2) /\
    (n1 <> n2 -> (r = true <-> exists l1 l2 l3, fields = l1 ++ n1 :: l2 ++ n2 :: l3)).
Proof. exact (fun V KO => C40_lt_pf). Qed.
Print Assumptions C40_lt_by_case_then_payload.
Theorem C40_strict_order_and_equivalence : forall V (KO : KeyOrd (pyobj V)) fields (a b c : table V), plain fields ->
  value_of fields a -> value_of fields b -> value_of fields c ->
  exists ab ba bc ac eab eba ebc eac,
    tu_lt eqb ltb a b = Ret ab /\ tu_lt eqb ltb b a = Ret ba /\ tu_lt eqb ltb b c = Ret bc /\ tu_lt eqb ltb a c = Ret ac /\
    tu_eq eqb a b = Ret eab /\ tu_eq eqb b a = Ret eba /\ tu_eq eqb b c = Ret ebc /\ tu_eq eqb a c = Ret eac /\
    tu_lt eqb ltb a a = Ret false /\ tu_eq eqb a a = Ret true /\
    eba = eab /\ (eab = true -> ebc = true -> eac = true) /\
    (ab = true -> bc = true -> ac = true) /\
    (ab = true -> ba = false) /\
    (eab = true <-> ab = false /\ ba = false) /\
    (eab = true -> ac = bc).
Proof. exact (fun V KO => C40_order_pf). Qed.
Print Assumptions C40_strict_order_and_equivalence.
(** Nothing comes before every Some, every Ok before every Error, whatever [==] and [<] of
    the payloads say. *)
Theorem C40_cases_in_order : forall V (peq plt : pyobj V -> pyobj V -> bool) x y (a b : table V),
  (init option_fields [("none"%string, x)] = Ret a -> init option_fields [("some"%string, y)] = Ret b ->
     tu_lt peq plt a b = Ret true /\ tu_lt peq plt b a = Ret false /\ tu_eq peq a b = Ret false) /\
  (init result_fields [("ok"%string, x)] = Ret a -> init result_fields [("error"%string, y)] = Ret b ->
     tu_lt peq plt a b = Ret true /\ tu_lt peq plt b a = Ret false /\ tu_eq peq a b = Ret false).
Proof. intros V peq plt x y a b. split; intros A B; injection A; injection B; intros; subst; repeat split. Qed.
Print Assumptions C40_cases_in_order.
Theorem C40_equal_values_equal_hash : forall V (KO : KeyOrd (pyobj V)) fields cls th phash (a b : table V),
  plain fields -> value_of fields a -> value_of fields b ->
  (forall x y, eqb x y = true -> phash x = phash y) ->
  tu_eq eqb a b = Ret true -> exists h, tu_hash cls th phash a = Ret h /\ tu_hash cls th phash b = Ret h.
Proof. exact (fun V KO => C40_hash_pf). Qed.
Print Assumptions C40_equal_values_equal_hash.
Example C40_example : exists nothing some1 some2 : table nat,
  init option_fields [("none"%string, PNone)] = Ret nothing /\ init option_fields [("some"%string, PObj 1)] = Ret some1 /\
  init option_fields [("some"%string, PObj 2)] = Ret some2 /\
  tu_lt eqb ltb nothing some1 = Ret true /\ tu_lt eqb ltb some1 some2 = Ret true /\ tu_lt eqb ltb some1 nothing = Ret false /\
  tu_eq eqb some1 some1 = Ret true.
Proof. do 3 eexists. repeat split. Qed.
Example C40_example_fields : plain option_fields /\ plain result_fields.
Proof. split; (split; [repeat constructor; cbn; intuition congruence|split; cbn; intuition congruence]). Qed.

(** C41. *)
Theorem C41_construction : forall V fields (kw : kwargs (V := V)), plain fields -> NoDup (List.map fst kw) ->
  (forall name value, accepted fields kw name value ->
     exists t, init fields kw = Ret t /\
       getattr "tag" t = Ret (PStr name) /\ getattr name t = Ret value /\
       (forall n, In n fields -> n <> "tag"%string -> n <> name -> getattr n t = Raise AttributeError)) /\
  ((forall name value, ~ accepted fields kw name value) -> init fields kw = Raise TypeError).
Proof. exact (fun V => C41_pf). Qed.
Print Assumptions C41_construction.
Example C41_example : accepted (V := nat) result_fields [("error", PObj 3); ("tag", PStr "error")]%string "error" (PObj 3) /\
  init (V := nat) result_fields [("ok", PObj 3); ("tag", PStr "error")]%string = Raise TypeError.
Proof. split; [|reflexivity]. unfold accepted. cbn. intuition (try congruence). Qed.

(** C42. [dup] is deepcopy/pickling of the payload. *)
Theorem C42_copy : forall V fields (t : table V), plain fields -> value_of fields t -> tu_copy fields t = Ret t.
Proof. exact (fun V => C42_copy_pf). Qed.
Print Assumptions C42_copy.
Theorem C42_deepcopy : forall V fields (t : table V) dup name value, plain fields -> value_of fields t -> active t = Ret (name, value) ->
  match dup value with
  | Ret value' => exists t', tu_deepcopy fields dup t = Ret t' /\ value_of fields t' /\ active t' = Ret (name, value')
  | Raise e => tu_deepcopy fields dup t = Raise e
  end.
Proof. exact (fun V => C42_deepcopy_pf). Qed.
Print Assumptions C42_deepcopy.
Theorem C42_pickle : forall V fields (t : table V) dup name value, plain fields -> value_of fields t -> active t = Ret (name, value) ->
  (forall s, dup (PStr s) = Ret (PStr s)) ->
  match dup value with
  | Ret value' => exists t', pickle_round_trip fields dup t = Ret t' /\ value_of fields t' /\ active t' = Ret (name, value')
  | Raise e => pickle_round_trip fields dup t = Raise e
  end.
Proof. exact (fun V => C42_pickle_pf). Qed.
Print Assumptions C42_pickle.
Theorem C42_frozen_rejects : forall V fields (m : amut V) (t : table V), In (amut_name m) fields ->
  astep fields m t = (Raise TypeError, t).
Proof. exact (fun V => C42_frozen_step_pf). Qed.
Print Assumptions C42_frozen_rejects.
(** whatever else is assigned or deleted, the fields of a frozen value never change *)
Theorem C42_frozen_history : forall V fields (ms : list (amut V)) (t : table V) n, In n fields ->
  get_attr n (arun fields ms t) = get_attr n t.
Proof. exact (fun V => C42_frozen_pf). Qed.
Print Assumptions C42_frozen_history.
(** attributes that are not fields are set and deleted as on any object *)
Theorem C42_other_attributes : forall V fields (m : amut V) (t : table V), ~ In (amut_name m) fields ->
  match m with
  | ASet n a => fst (astep fields m t) = Ret tt /\ get_attr n (snd (astep fields m t)) = Some a
  | ADel n => (get_attr n t = None -> astep fields m t = (Raise AttributeError, t)) /\
              (get_attr n t <> None -> fst (astep fields m t) = Ret tt /\ get_attr n (snd (astep fields m t)) = None)
  end /\ forall n, n <> amut_name m -> get_attr n (snd (astep fields m t)) = get_attr n t.
Proof. exact (fun V => C42_other_pf). Qed.
Print Assumptions C42_other_attributes.
Example C42_example : exists t : table nat, value_of option_fields t /\ active t = Ret ("some"%string, PObj 7) /\
  pickle_round_trip option_fields (fun x => Ret x) t = Ret t /\
  active (arun option_fields [ASet "some" (AObj (PObj 9)); ADel "tag"; ASet "x" (AObj PNone)]%string t) = Ret ("some"%string, PObj 7).
Proof.
  eexists. split.
  - exists [("some"%string, PObj 7)]. split; [repeat constructor; cbn; tauto|reflexivity].
  - repeat split.
Qed.

(** C74. *)
Theorem C74_result_dict : forall W A D (str : string -> D) (dump : A -> M W D) (r : result A A) w,
  res_dict str dump r w = match r with
    | Ok v => (rmap (fun d => [("tag", str "ok"); ("ok", d)]) (fst (dump v w)), snd (dump v w))
    | Err v => (rmap (fun d => [("tag", str "error"); ("error", d)]) (fst (dump v w)), snd (dump v w))
    end%string.
Proof. exact result_dict_pf. Qed.
Print Assumptions C74_result_dict.
Theorem C74_result_dict_injective : forall W A D (str : string -> D) (dump : A -> D) (r1 r2 : result A A) (w : W),
  (forall x y, dump x = dump y -> x = y) ->
  res_dict str (fun x => ret (dump x)) r1 w = res_dict str (fun x => ret (dump x)) r2 w -> r1 = r2.
Proof. exact dict_injective_pf. Qed.
Print Assumptions C74_result_dict_injective.
Theorem C74_option_dict : forall W A D (dump : A -> M W D) (o : option A) w,
  opt_dict dump o w = match o with
    | Some v => (rmap PyVal (fst (dump v w)), snd (dump v w))
    | None => (Ret PyNone, w)
    end.
Proof. intros W A D dump [v|] w; [|reflexivity]. cbn. unfold bind. destruct (dump v w) as [[d|e] w1]; reflexivity. Qed.
Print Assumptions C74_option_dict.
(** An option is only recovered from its dict() when its payload does not dump to None. *)
Theorem C74_option_dict_partial : forall W A (dump : A -> pyopt A) (o1 o2 : option A) (w : W),
  (forall x y, dump x = dump y -> x = y) -> (forall x, dump x <> PyNone) ->
  rmap opt_plain (fst (opt_dict (fun x => ret (dump x)) o1 w)) = rmap opt_plain (fst (opt_dict (fun x => ret (dump x)) o2 w)) -> o1 = o2.
Proof. exact opt_dict_pf. Qed.
Print Assumptions C74_option_dict_partial.
Theorem C74_option_dict_refuted : exists o1 o2 : option (option nat), o1 <> o2 /\
  rmap opt_plain (fst (opt_dict (fun o => do d <- opt_dict (fun n => ret n) o; ret d) o1 tt)) =
  rmap opt_plain (fst (opt_dict (fun o => do d <- opt_dict (fun n => ret n) o; ret d) o2 tt)).
Proof. exists (Some None), None. split; [discriminate|reflexivity]. Qed.
Print Assumptions C74_option_dict_refuted.
Example C74_example : res_dict (fun s => s) (fun s => ret s) (Ok "a"%string) 0 = (Ret [("tag", "ok"); ("ok", "a")], 0)%string.
Proof. reflexivity. Qed.
