(** C96: functions of the modules and the methods of the classes agree. *)
From Coq Require Import List ZArith Bool String Arith Lia.
From Verif.Model Require Import Base Functions Modules.
From Verif.Spec Require Import ModulesSpec.
From Verif.Proofs Require Import ModulesFacts.
Import ListNotations.
Local Open Scope list_scope.
Local Open Scope py_scope.

(** [pipe(x, f( *args, **kw))] calls [x.m] with the arguments in the order of the
    parameters, once, and does nothing else. *)
Theorem C96_functions_partial : forall W V (method : V -> string -> list V -> M W V) false_ f, In f (module_functions false_) ->
  forall x args kw vs, NoDup (List.map fst kw) -> supplied (others f) args kw vs -> forall w,
  with_receiver method f x args kw w = method x (f_method f) vs w.
Proof. intros W V method false_ f I x args kw vs N S w. exact (proj1 (forward_pf method f (table_shape V false_ f I) x args kw N w) vs S). Qed.
Print Assumptions C96_functions_partial.

(** Other arguments are a TypeError, and no method is called. *)
Theorem C96_arguments_partial : forall W V (method : V -> string -> list V -> M W V) false_ f, In f (module_functions false_) ->
  forall x args kw, NoDup (List.map fst kw) -> (forall vs, ~ supplied (others f) args kw vs) -> forall w,
  with_receiver method f x args kw w = (Raise TypeError, w).
Proof. intros W V method false_ f I x args kw N S w. exact (proj2 (forward_pf method f (table_shape V false_ f I) x args kw N w) S). Qed.
Print Assumptions C96_arguments_partial.

(** The method has the function's name, but for the listed ones. *)
Theorem C96_names : forall V (false_ : V) f, In f (module_functions false_) -> f_method f = f_name f \/ In (f_name f, f_method f) renamed.
Proof.
  intros V false_ f. revert f. apply Forall_forall. unfold module_functions, block_functions, map_functions, option_functions, result_functions, array_functions. cbn [List.app].
  repeat (apply Forall_cons; [first [left; reflexivity|right; cbn; tauto]|]). apply Forall_nil.
Qed.
Print Assumptions C96_names.

(** A function that is not curried and whose other parameters have no defaults cannot be
    given them alone: a TypeError, and no method is called. *)
Theorem C96_uncurried_partial : forall W V (method : V -> string -> list V -> M W V) false_ f, In f (module_functions false_) -> f_style f = Direct ->
  forall args w, List.length args = List.length (others f) -> call_fun method f args [] w = (Raise TypeError, w).
Proof.
  intros W V method false_ f. revert f. apply (Forall_forall (fun f => f_style f = Direct -> forall args w, List.length args = List.length (others f) -> call_fun method f args [] w = (Raise TypeError, w))).
  unfold module_functions, block_functions, map_functions, option_functions, result_functions, array_functions. cbn [List.app].
  repeat (apply Forall_cons; [cbn [f_style flip1]; intros D args w L; first [discriminate D|unfold others in L; cbn in L; destruct args as [|a [|b args]]; try discriminate L; reflexivity]|]). apply Forall_nil.
Qed.
Print Assumptions C96_uncurried_partial.

(** [map2(f)(x)(y)]: option's hands its method the mapper first, result's hands it last. *)
Theorem C96_map2 : forall W V (method : V -> string -> list V -> M W V) mapper x y w,
  (do c <- call_fun method option_map2 [mapper] []; calls c [([x], []); ([y], [])]) w = (do z <- method x "map2"%string [mapper; y]; ret (inr z)) w /\
  (do c <- call_fun method result_map2 [mapper] []; calls c [([x], []); ([y], [])]) w = (do z <- method x "map2"%string [y; mapper]; ret (inr z)) w.
Proof.
  intros W V method mapper x y w. unfold bind, ret. cbn. unfold bind, ret. cbn. unfold bind, ret, lift. cbn. unfold bind, ret. split.
  - destruct (method x _ _ w) as [[z|e] w1]; reflexivity.
  - destruct (method x _ _ w) as [[z|e] w1]; reflexivity.
Qed.
Print Assumptions C96_map2.

(** The methods that are written with the functions: [x.m(a, b)] is [m(a)(b)(x)], handed
    to the constructor of the class where the method says so. *)
Theorem C96_methods_partial : forall W V (call_name : string -> string -> list V -> M W V) call_value construct m, In m (seq_methods ++ parser_methods) ->
  In (m_class m, m_module m) module_of /\
  forall self args, S (List.length args) = List.length (m_params m) -> forall w,
  run_method call_name call_value construct m (self :: args) w =
  (do y <- piped_call call_name call_value (m_module m) (m_name m) args self; match m_wrap m with Some _ => construct (m_class m) y | None => ret y end) w.
Proof.
  intros W V call_name call_value construct m I. destruct (methods_shape m I) as (S & M & C). split; [exact M|]. intros self args L w.
  rewrite (method_pf call_name call_value construct m S self args L w). unfold bind. destruct (piped_call _ _ _ _ _ _ w) as [[y|e] w1]; [|reflexivity].
  destruct (m_wrap m) as [c|]; [rewrite (C c eq_refl)|]; reflexivity.
Qed.
Print Assumptions C96_methods_partial.

(** [unfold(generator, state)] of the classes is [unfold(generator)(state)]. *)
Theorem C96_unfold : forall W V (call_name : string -> string -> list V -> M W V) call_value construct m, In m unfold_methods ->
  In (m_class m, m_module m) module_of /\
  forall generator state w, run_method call_name call_value construct m [generator; state] w = piped_call call_name call_value (m_module m) "unfold" [generator] state w.
Proof.
  intros W V call_name call_value construct m I. cbn in I.
  assert (X : forall r : res V * W, match r with (Ret y, w1) => ret y w1 | (Raise e, w1) => (Raise e, w1) end = r) by (intros [[y|e] w1]; reflexivity).
  destruct I as [<-|[<-|[<-|[]]]]; (split; [cbn; tauto|]); intros generator state w; unfold run_method, piped_call, bind, lift, ret; cbn;
    (match goal with |- context [call_name ?a ?b ?c w] => destruct (call_name a b c w) as [[f|e] w1] end; [|reflexivity]); unfold bind, ret; destruct (call_value f [state] w1) as [[y|e] w2]; reflexivity.
Qed.
Print Assumptions C96_unfold.

(** Not all agree: [pipe(xs, array.indexed(start))] forgets the start; a table piped into
    map.fold_back is taken for the state, and the method called is the state's; and
    [p.or_else(q)] is [or_else(p)(q)], while [pipe(p, or_else(q))] is [or_else(q)(p)]. *)
Theorem C96_agree_refuted :
  (forall W V (method : V -> string -> list V -> M W V) zero x start w, with_receiver method (array_indexed zero) x [start] [] w = method x "indexed"%string [] w) /\
  (forall W V (method : V -> string -> list V -> M W V) table folder state w, with_receiver method map_fold_back table [folder; state] [] w = method state "fold_back"%string [folder; table] w) /\
  (forall W V (call_name : string -> string -> list V -> M W V) call_value construct x y w,
    run_method call_name call_value construct parser_or_else [x; y] w = piped_call call_name call_value "parser" "or_else" [x] y w).
Proof.
  split; [|split].
  - intros. unfold with_receiver, bind, ret. cbn. unfold bind, ret. cbn. unfold bind, ret, lift. cbn. destruct (method x _ _ w) as [[z|e] w1]; reflexivity.
  - intros. unfold with_receiver, bind, ret. cbn. unfold bind, ret. cbn. unfold bind, ret, lift. cbn. destruct (method state _ _ w) as [[z|e] w1]; reflexivity.
  - intros. unfold run_method, piped_call, bind, lift, ret. cbn. destruct (call_name _ _ _ w) as [[f|e] w1]; [|reflexivity]. unfold bind, ret. destruct (call_value f [y] w1) as [[z|e] w2]; reflexivity.
Qed.
Print Assumptions C96_agree_refuted.

(** Cases: the world logs the calls. *)
Section Cases.
  Let log : nat -> string -> list nat -> M (list (nat * string * list nat)) nat := fun x m args w => (Ret (10 * x + List.length args), w ++ [(x, m, args)]).
  Let sort_with : modfun nat := flip1 "block" "sort_with" [p "source"; p "func"; ("reverse", Some 0)]%string 0 "sort_with" [1; 2].
  Example C96_case_keyword : with_receiver log sort_with 7 [3] [("reverse"%string, 1)] [] = (Ret 72, [(7, "sort_with"%string, [3; 1])]).
  Proof. reflexivity. Qed.
  Example C96_case_default : with_receiver log sort_with 7 [] [("func"%string, 3)] [] = (Ret 72, [(7, "sort_with"%string, [3; 0])]).
  Proof. reflexivity. Qed.
  Example C96_case_in : In sort_with (module_functions 0) /\ supplied (others sort_with) [] [("func"%string, 3)] [3; 0].
  Proof. split; [cbn; tauto|]. apply (su_name "func"%string None _ [] [] 3). apply su_default; [cbn; tauto|]. constructor. Qed.
  Example C96_case_unknown : (forall vs, ~ supplied (others sort_with) [3] [("key"%string, 1)] vs) /\ with_receiver log sort_with 7 [3] [("key"%string, 1)] [] = (Raise TypeError, []).
  Proof.
    split; [|reflexivity]. intros vs H. apply bind_supplied in H; [discriminate|]. repeat constructor. cbn. tauto.
  Qed.
  Example C96_case_nested : with_receiver log (ModFun "map" "iterate" Nested [p "action"; p "table"] 1 "iterate" [0])%string 7 [3] [] [] = (Ret 71, [(7, "iterate"%string, [3])]).
  Proof. reflexivity. Qed.
  Example C96_case_uncurried : call_fun log (ModFun "option" "or_else" Direct [p "option"; p "if_none"] 0 "or_else" [1])%string [3] [] [] = (Raise TypeError, []).
  Proof. reflexivity. Qed.
  Let name : string -> string -> list nat -> M (list (list nat)) nat := fun _ _ args w => (Ret (List.length w), w ++ [args]).
  Let value : nat -> list nat -> M (list (list nat)) nat := fun f args w => (Ret (100 + f), w ++ [f :: args]).
  Example C96_case_between : run_method name value (fun _ y => ret y) (MethodOf "Parser" "between" ["self"; "p2"; "p3"] 0 "parser" "between" [[1]; [2]] None)%string [7; 8; 9] [] = (Ret 200, [[8]; [0; 9]; [100; 7]]).
  Proof. reflexivity. Qed.
  Example C96_case_or_else : run_method name value (fun _ y => ret y) parser_or_else [7; 8] [] = (Ret 100, [[7]; [0; 8]]) /\ piped_call name value "parser" "or_else" [8] 7 [] = (Ret 100, [[8]; [0; 7]]).
  Proof. split; reflexivity. Qed.
  Example C96_case_indexed : with_receiver log (array_indexed 0) 7 [5] [] [] = (Ret 70, [(7, "indexed"%string, [])]).
  Proof. reflexivity. Qed.
End Cases.
