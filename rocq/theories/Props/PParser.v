(** Properties of expression/extra/parser.py. *)
From Coq Require Import String List Bool ZArith Lia Decimal.
From Verif.Model Require Import Base OptionResult Block Parser.
From Verif.Spec Require Import ParserSpec.
From Verif.Proofs Require Import ParserFacts ParserFacts2.
Import ListNotations.
Local Open Scope list_scope.

(** C55: a parser made of the functions of the module keeps the text, never moves back and
    never goes past the end. *)
Theorem C55_position : forall W A (p : parser W A), built W A p ->
  forall text pos w v text1 pos1 w1, p (text, pos) w = (Ret (Ok (v, (text1, pos1))), w1) ->
    text1 = text /\ (pos <= pos1)%Z /\ (pos1 <= Z.max pos (Z.of_nat (List.length text)))%Z.
Proof. intros W A p B text pos w v text1 pos1 w1 H. exact (built_wf A p B text pos w v (text1, pos1) w1 H). Qed.
Print Assumptions C55_position.
Example C55_position_ex : exists p : parser unit (list str * Z), built unit _ p /\
  p (lit "ab12c"%string, 0%Z) tt = (Ret (Ok (([lit "a"%string; lit "b"%string], 12%Z), (lit "ab12c"%string, 4%Z))), tt).
Proof.
  exists (and_then (many 9 parse_lowercase) (pint 9 9)). split; [|reflexivity].
  apply b_and_then; [|apply b_pint]. apply b_many. apply (b_any_of unit (lit "abcdefghijklmnopqrstuvwxyz"%string)). reflexivity.
Qed.

(** C56: alternatives all start at the same place, in order, and the first success wins. *)
Theorem C56_or_else : forall W A (p q : parser W A) input w,
  or_else p q input w =
  match p input w with
  | (Ret (Ok x), w1) => (Ret (Ok x), w1)
  | (Ret (Err _), w1) => q input w1
  | (Raise e, w1) => (Raise e, w1)
  end.
Proof. intros W A p q input w. unfold or_else, Base.bind. destruct (p input w) as [[[x|e]|e] w1]; reflexivity. Qed.
Print Assumptions C56_or_else.
Example C56_or_else_ex : or_else (pchar (lit "a"%string)) (pchar (lit "b"%string)) (lit "b"%string, 0%Z) tt =
  (Ret (Ok (lit "b"%string, (lit "b"%string, 1%Z))), tt).
Proof. reflexivity. Qed.

Theorem C56_choice : forall W A (p : parser W A) ps, exists q, choice (p :: ps) = Ret q /\
  forall e0 input, q input ==m first_ok (p :: ps) e0 input.
Proof. exact (@choice_pf). Qed.
Print Assumptions C56_choice.
Theorem C56_choice_of_nothing : forall W A, choice (W := W) (A := A) [] = Raise ValueError.
Proof. reflexivity. Qed.
Print Assumptions C56_choice_of_nothing.
Example C56_choice_ex : exists q : parser unit nat, choice [fail (lit "x"%string); preturn 1; preturn 2] = Ret q /\
  q ([], 0%Z) tt = (Ret (Ok (1, ([], 0%Z))), tt).
Proof. eexists. split; reflexivity. Qed.

Theorem C56_any_of : forall W (c : nat) cs, exists q, any_of (c :: cs) = Ret q /\ forall s pos (w : W), (0 <= pos)%Z ->
  match rest_of (s, pos) with
  | [] => exists e, q (s, pos) w = (Ret (Err e), w)
  | d :: _ => if existsb (Nat.eqb d) (c :: cs) then q (s, pos) w = (Ret (Ok ([d], (s, (pos + 1)%Z))), w)
              else exists e, q (s, pos) w = (Ret (Err e), w)
  end.
Proof. exact (@any_of_pf). Qed.
Print Assumptions C56_any_of.
Theorem C56_any_of_nothing : forall W, any_of (W := W) [] = Raise ValueError.
Proof. reflexivity. Qed.
Print Assumptions C56_any_of_nothing.
Example C56_any_of_ex : exists q, any_of (lit "xyz"%string) = Ret q /\
  q (lit "abz"%string, 2%Z) tt = (Ret (Ok (lit "z"%string, (lit "abz"%string, 3%Z))), tt).
Proof. eexists. split; reflexivity. Qed.

Theorem C56_character_classes : forall W,
  reads_one_of (W := W) lowercase_code parse_lowercase /\
  reads_one_of (W := W) (fun c => lowercase_code c || uppercase_code c) parse_letters /\
  reads_one_of (W := W) digit_code parse_digit /\
  reads_one_of (W := W) whitespace_code whitespace_char.
Proof. exact (@character_classes_pf). Qed.
Print Assumptions C56_character_classes.
Example C56_character_classes_ex :
  whitespace_char ([97; 11; 98], 1%Z) tt = (Ret (Ok ([11], ([97; 11; 98], 2%Z))), tt) /\
  fst (whitespace_char ([97; 8; 98], 1%Z) tt) <> fst (whitespace_char ([97; 11; 98], 1%Z) tt).
Proof. split; [reflexivity|discriminate]. Qed.

Theorem C56_opt : forall W A (p : parser W A) i w, opt p i w =
  match p i w with
  | (Ret (Ok (v, i1)), w1) => (Ret (Ok (Some v, i1)), w1)
  | (Ret (Err _), w1) => (Ret (Ok (None, i)), w1)
  | (Raise e, w1) => (Raise e, w1)
  end.
Proof. exact (@opt_pf). Qed.
Print Assumptions C56_opt.
Example C56_opt_ex : opt (pchar (lit "a"%string)) (lit "b"%string, 0%Z) tt = (Ret (Ok (None, (lit "b"%string, 0%Z))), tt).
Proof. reflexivity. Qed.

(** C57: monad and functor laws, and the combinators as do-notation. *)
Theorem C57_monad_laws : forall W A B C (p : parser W A) (f : A -> M W (parser W B)) (g : B -> M W (parser W C)) x input,
  bind f (preturn x) input ==m (fun w => Base.bind (f x) (fun q => q input) w) /\
  bind (fun x => ret (preturn x)) p input ==m p input /\
  bind g (bind f p) input ==m bind (fun x => Base.bind (f x) (fun q => ret (bind g q))) p input.
Proof. exact (@monad_pf). Qed.
Print Assumptions C57_monad_laws.
Theorem C57_functor_laws : forall W A B C (p : parser W A) (f : A -> M W B) (g : B -> M W C) input,
  map (fun x => ret x) p input ==m p input /\
  map g (map f p) input ==m map (fun x => Base.bind (f x) g) p input /\
  map f p input ==m bind (fun x => Base.bind (f x) (fun y => ret (preturn y))) p input.
Proof. exact (@functor_pf). Qed.
Print Assumptions C57_functor_laws.
(** bind runs the first parser, then the parser its value selects, at the place reached *)
Theorem C57_bind : forall W A B (f : A -> M W (parser W B)) p input (w : W),
  bind f p input w =
  match p input w with
  | (Ret (Ok (x, i1)), w1) => match f x w1 with (Ret q, w2) => q i1 w2 | (Raise e, w2) => (Raise e, w2) end
  | (Ret (Err e), w1) => (Ret (Err e), w1)
  | (Raise e, w1) => (Raise e, w1)
  end.
Proof. intros W A B f p input w. unfold bind, Base.bind. destruct (p input w) as [[[[x i1]|e]|e] w1]; reflexivity. Qed.
Print Assumptions C57_bind.
Example C57_bind_ex : bind (fun c => ret (pchar c)) (pchar (lit "a"%string)) (lit "aab"%string, 0%Z) tt =
  (Ret (Ok (lit "a"%string, (lit "aab"%string, 2%Z))), tt).
Proof. reflexivity. Qed.
Theorem C57_and_then : forall W A B C (p : parser W A) (q : parser W B) (r : parser W C) input,
  map (fun x => ret (fst (fst x), (snd (fst x), snd x))) (and_then (and_then p q) r) input ==m and_then p (and_then q r) input /\
  and_then p q input ==m bind (fun x => ret (map (fun y => ret (x, y)) q)) p input /\
  map (fun x => ret (snd x)) (and_then (preturn tt) p) input ==m p input /\
  map (fun x => ret (fst x)) (and_then p (preturn tt)) input ==m p input.
Proof. exact (@and_then_pf). Qed.
Print Assumptions C57_and_then.
Example C57_and_then_ex : and_then (pchar (lit "a"%string)) (pint 9 9) (lit "a12"%string, 0%Z) tt =
  (Ret (Ok ((lit "a"%string, 12%Z), (lit "a12"%string, 3%Z))), tt).
Proof. reflexivity. Qed.
Theorem C57_ignoring : forall W A B C (p : parser W A) (q : parser W B) (r : parser W C) input,
  then_ignore p q input ==m bind (fun x => ret (bind (fun _ => ret (preturn x)) q)) p input /\
  ignore_then p q input ==m bind (fun _ => ret q) p input /\
  between p q r input ==m bind (fun _ => ret (bind (fun x => ret (bind (fun _ => ret (preturn x)) q)) r)) p input /\
  ignore p input ==m bind (fun _ => ret (preturn tt)) p input.
Proof. exact (@ignore_pf). Qed.
Print Assumptions C57_ignoring.
Example C57_ignoring_ex : between (pchar (lit "("%string)) (pchar (lit ")"%string)) (pint 9 9) (lit "(12)"%string, 0%Z) tt =
  (Ret (Ok (12%Z, (lit "(12)"%string, 4%Z))), tt).
Proof. reflexivity. Qed.
Theorem C57_lift2_apply : forall W A B C (f : A -> M W (B -> M W C)) (pf : parser W (A -> M W B)) (p : parser W A) (q : parser W B) input,
  lift2 f p q input ==m bind (fun x => Base.bind (f x) (fun g => ret (map g q))) p input /\
  apply pf p input ==m bind (fun f => ret (map f p)) pf input.
Proof. intros. split; [apply lift2_pf|apply apply_pf]. Qed.
Print Assumptions C57_lift2_apply.
(** fail: nothing is read or run, the message given is the error *)
Theorem C57_fail : forall W A B (e : str) (f : A -> M W (parser W B)) (g : A -> M W B) (p : parser W B) (q : parser W A) input (w : W),
  bind f (fail e) input w = (Ret (Err e), w) /\ map g (fail e) input w = (Ret (Err e), w) /\
  and_then (fail e : parser W A) p input w = (Ret (Err e), w) /\
  or_else (fail e) q input ==m q input /\ call (fail e : parser W A) (fst input) w = (Ret (Err e), w).
Proof. intros. repeat split. Qed.
Print Assumptions C57_fail.
(** starts_with reads a text, then a prefix, and tells whether the text begins with it *)
Theorem C57_starts_with : forall W (p q : parser W str) i i1 i2 (w w1 w2 : W) s prefix,
  p i w = (Ret (Ok (s, i1)), w1) -> q i1 w1 = (Ret (Ok (prefix, i2)), w2) ->
  exists b, starts_with p q i w = (Ret (Ok (b, i2)), w2) /\ (b = true <-> exists rest, s = prefix ++ rest).
Proof. exact (@starts_with_pf). Qed.
Print Assumptions C57_starts_with.
Example C57_starts_with_ex : starts_with (preturn (lit "abc"%string)) (preturn (lit "ab"%string)) ([], 0%Z) tt = (Ret (Ok (true, ([], 0%Z))), tt).
Proof. reflexivity. Qed.
(** sequence runs its parsers in order *)
Theorem C57_sequence : forall W A (ps : list (parser W A)) limit, List.length ps < limit ->
  exists q, sequence limit ps = Ret q /\ forall input, q input ==m run_all ps input.
Proof. exact (@sequence_ok). Qed.
Print Assumptions C57_sequence.
Example C57_sequence_ex : exists q, sequence 3 [pchar (lit "a"%string); pchar (lit "b"%string)] = Ret q /\
  q (lit "abc"%string, 0%Z) tt = (Ret (Ok ([lit "a"%string; lit "b"%string], (lit "abc"%string, 2%Z))), tt).
Proof. eexists. split; reflexivity. Qed.

(** C58: pstring, for strings the recursion limit has room for. *)
Theorem C58_pstring_partial : forall W s limit, List.length s < limit -> exists q, pstring (W := W) limit s = Ret q /\
  forall t pos w, (0 <= pos)%Z ->
    q (t, pos) w = (Ret (match mismatch s (rest_of (t, pos)) with
                         | None => Ok (s, (t, (pos + Z.of_nat (List.length s))%Z))
                         | Some e => Err e end), w).
Proof. exact (@pstring_pf). Qed.
Print Assumptions C58_pstring_partial.
Theorem C58_mismatch : forall s text, mismatch s text = None <-> exists rest, text = s ++ rest.
Proof. exact mismatch_none. Qed.
Print Assumptions C58_mismatch.
Example C58_pstring_ex : exists q, pstring 10 (lit "let"%string) = Ret q /\
  q (lit "let x"%string, 0%Z) tt = (Ret (Ok (lit "let"%string, (lit "let x"%string, 3%Z))), tt) /\
  q (lit "lex"%string, 0%Z) tt = (Ret (Err (lit "Expecting 't'. Got 'x'"%string)), tt).
Proof. eexists. repeat split; reflexivity. Qed.
(** Calling the parser with a text reads from its beginning and leaves the rest unread. *)
Theorem C58_call_partial : forall W s limit, List.length s < limit -> exists q, pstring (W := W) limit s = Ret q /\
  forall text w, call q text w = (Ret (match mismatch s text with None => Ok s | Some e => Err e end), w).
Proof.
  intros W s limit L. destruct (C58_pstring_partial W s limit L) as (q & E & H). exists q. split; [exact E|]. intros text w.
  unfold call, Base.bind. rewrite H by lia. unfold rest_of. cbn [fst snd Z.to_nat skipn]. destruct (mismatch s text); reflexivity.
Qed.
Print Assumptions C58_call_partial.
Example C58_call_ex : exists q, pstring 10 (lit "let"%string) = Ret q /\
  call q (lit "let x"%string) tt = (Ret (Ok (lit "let"%string)), tt) /\
  call q (lit "a let"%string) tt = (Ret (Err (lit "Expecting 'l'. Got 'a'"%string)), tt).
Proof. eexists. repeat split; reflexivity. Qed.
Theorem C58_pstring_refuted : forall W limit, exists s, pstring (W := W) limit s = Raise RecursionError.
Proof. intros W limit. exists (repeat 97 limit). apply pstring_long. rewrite repeat_length. lia. Qed.
Print Assumptions C58_pstring_refuted.

(** C59: many, many1, sep_by. *)
Theorem C59_many_partial : forall W A (p : parser W A) limit i w r w1, many limit p i w = (Ret r, w1) <->
  exists vs i1, r = Ok (vs, i1) /\ repeats p i w vs i1 w1 /\ List.length vs < limit.
Proof. exact (@many_ok_pf). Qed.
Print Assumptions C59_many_partial.
Example C59_many_ex : many 5 parse_digit (lit "12a"%string, 0%Z) tt = (Ret (Ok ([lit "1"%string; lit "2"%string], (lit "12a"%string, 2%Z))), tt).
Proof. reflexivity. Qed.
Theorem C59_many_raises : forall W A (p : parser W A) limit i w e w1, many limit p i w = (Raise e, w1) ->
  e = RecursionError \/ exists i0 w0, p i0 w0 = (Raise e, w1).
Proof. exact (@many_raise_pf). Qed.
Print Assumptions C59_many_raises.
Theorem C59_many_total : forall W A (p : parser W A), consumes p -> forall limit i w, inside i ->
  (Z.of_nat (List.length (fst i)) - snd i < Z.of_nat limit)%Z -> exists vs i1 w1, many limit p i w = (Ret (Ok (vs, i1)), w1).
Proof. exact (@many_total_pf). Qed.
Print Assumptions C59_many_total.
Example C59_many_total_ex : consumes (W := unit) parse_digit /\ inside (lit "12a"%string, 1%Z).
Proof. split; [apply digit_consumes_pf|]. unfold inside. cbn. lia. Qed.
Theorem C59_many1_partial : forall W A (p : parser W A) limit i w r w1, many1 limit p i w = (Ret r, w1) <->
  (exists e, p i w = (Ret (Err e), w1) /\ r = Err e) \/
  (exists v vs i1, r = Ok (v :: vs, i1) /\ repeats p i w (v :: vs) i1 w1 /\ List.length vs < limit).
Proof. exact (@many1_pf). Qed.
Print Assumptions C59_many1_partial.
Theorem C59_sep_by_partial : forall W A B (p : parser W A) (sep : parser W B) limit i w r w1, sep_by limit p sep i w = (Ret r, w1) <->
  (exists e, p i w = (Ret (Err e), w1) /\ r = Ok ([], i)) \/
  (exists vs i1, r = Ok (vs, i1) /\ separated p sep i w vs i1 w1 /\ List.length vs <= limit).
Proof. exact (@sep_by_pf). Qed.
Print Assumptions C59_sep_by_partial.
Theorem C59_sep_by1_partial : forall W A B (p : parser W A) (sep : parser W B) limit i w r w1, sep_by1 limit p sep i w = (Ret r, w1) <->
  (exists e, p i w = (Ret (Err e), w1) /\ r = Err e) \/
  (exists vs i1, r = Ok (vs, i1) /\ separated p sep i w vs i1 w1 /\ List.length vs <= limit).
Proof. exact (@sep_by1_pf). Qed.
Print Assumptions C59_sep_by1_partial.
Example C59_sep_by_ex : sep_by 5 (pint 5 5) (pchar (lit ","%string)) (lit "1,2,x"%string, 0%Z) tt = (Ret (Ok ([1%Z; 2%Z], (lit "1,2,x"%string, 3%Z))), tt).
Proof. reflexivity. Qed.
(** the parsers for runs of characters: the longest run of the class is read *)
Theorem C59_runs_partial : forall W limit cs rest (t : str) pos (w : W), (0 <= pos)%Z -> rest_of (t, pos) = cs ++ rest -> List.length cs < limit ->
  let read := (Ret (Ok (List.map (fun c => [c]) cs, (t, (pos + Z.of_nat (List.length cs))%Z))), w) in
  (forallb whitespace_code cs = true -> match rest with [] => True | c :: _ => whitespace_code c = false end ->
     many limit whitespace_char (t, pos) w = read /\
     (if Nat.eqb (List.length cs) 0 then exists e, whitespace limit (t, pos) w = (Ret (Err e), w) else whitespace limit (t, pos) w = read)) /\
  (forallb digit_code cs = true -> match rest with [] => True | c :: _ => digit_code c = false end ->
     many limit parse_digit (t, pos) w = read /\
     (if Nat.eqb (List.length cs) 0 then exists e, digits limit (t, pos) w = (Ret (Err e), w) else digits limit (t, pos) w = read)).
Proof.
  intros W limit cs rest t pos w L E Lim read. destruct (character_classes_pf W) as (_ & _ & D & S).
  split; intros F N; [destruct (class_run_pf W _ _ S limit cs rest t pos w L E F N Lim) as (A & B & C)|destruct (class_run_pf W _ _ D limit cs rest t pos w L E F N Lim) as (A & B & C)];
    (split; [exact A|]; destruct cs as [|c cs]; [exact (C eq_refl)|apply B; discriminate]).
Qed.
Print Assumptions C59_runs_partial.
Example C59_runs_ex : whitespace 9 ([97; 32; 9; 10; 98], 1%Z) tt = (Ret (Ok ([[32]; [9]; [10]], ([97; 32; 9; 10; 98], 4%Z))), tt) /\
  forallb whitespace_code [32; 9; 10] = true /\ whitespace_code 98 = false.
Proof. repeat split. Qed.
(** a parser that consumes nothing *)
Theorem C59_many_refuted : forall W A (x : A) limit i (w : W), many limit (preturn x) i w = (Raise RecursionError, w).
Proof. exact (@many_preturn_pf). Qed.
Print Assumptions C59_many_refuted.
(** and one that does, on a long text *)
Theorem C59_many_long_refuted : forall W limit, exists t, forall w : W, fst (many limit parse_digit (t, 0%Z) w) = Raise RecursionError.
Proof. exact (@many_long_pf). Qed.
Print Assumptions C59_many_long_refuted.

(** C60: pint reads what str(int) writes. *)
Theorem C60_pint_round_trip_partial : forall W limit int_limit z rest t pos (w : W), (0 <= pos)%Z ->
  rest_of (t, pos) = str_of_Z z ++ rest -> no_digit_next rest ->
  List.length (str_of_Z (Z.abs z)) <= limit -> List.length (str_of_Z (Z.abs z)) <= int_limit ->
  pint limit int_limit (t, pos) w = (Ret (Ok (z, (t, (pos + Z.of_nat (List.length (str_of_Z z)))%Z))), w).
Proof. exact (@pint_roundtrip_pf). Qed.
Print Assumptions C60_pint_round_trip_partial.
Example C60_pint_ex : str_of_Z (-120) = lit "-120"%string /\
  pint 9 9 (lit "x-120;"%string, 1%Z) tt = (Ret (Ok ((-120)%Z, (lit "x-120;"%string, 5%Z))), tt).
Proof. split; reflexivity. Qed.
Theorem C60_call_partial : forall W limit int_limit z rest (w : W), no_digit_next rest ->
  List.length (str_of_Z (Z.abs z)) <= limit -> List.length (str_of_Z (Z.abs z)) <= int_limit ->
  call (pint limit int_limit) (str_of_Z z ++ rest) w = (Ret (Ok z), w).
Proof.
  intros W limit int_limit z rest w N L I. unfold call, Base.bind.
  rewrite (C60_pint_round_trip_partial W limit int_limit z rest) by (auto; lia). reflexivity.
Qed.
Print Assumptions C60_call_partial.
Example C60_call_ex : call (pint 9 9) (lit "-120;"%string) tt = (Ret (Ok (-120)%Z), tt).
Proof. reflexivity. Qed.
(** all decimal numerals, with leading zeros *)
Theorem C60_pint_numerals_partial : forall W limit int_limit negative u rest t pos (w : W), (0 <= pos)%Z ->
  rest_of (t, pos) = minus negative ++ str_of_uint u ++ rest -> u <> Nil -> no_digit_next rest ->
  List.length (str_of_uint u) <= limit ->
  pint limit int_limit (t, pos) w =
  (if Nat.leb (List.length (str_of_uint u)) int_limit
   then Ret (Ok ((if negative then - Z.of_uint u else Z.of_uint u)%Z, (t, (pos + Z.of_nat (List.length (minus negative ++ str_of_uint u)))%Z)))
   else Raise ValueError, w).
Proof. exact (@pint_pf). Qed.
Print Assumptions C60_pint_numerals_partial.
(** no number: an Error, nothing raised *)
Theorem C60_pint_no_number : forall W limit int_limit negative rest t pos (w : W), (0 <= pos)%Z ->
  rest_of (t, pos) = minus negative ++ rest -> no_digit_next rest -> (negative = false -> forall r, rest <> 45 :: r) ->
  exists e, pint limit int_limit (t, pos) w = (Ret (Err e), w).
Proof. exact (@pint_none_pf). Qed.
Print Assumptions C60_pint_no_number.
Example C60_pint_no_number_ex : pint 9 9 (lit "-a"%string, 0%Z) tt = (Ret (Err (lit "Expecting '9'. Got 'a'"%string)), tt).
Proof. reflexivity. Qed.
Theorem C60_pint_refuted : forall W limit int_limit, exists z, forall w : W,
  fst (pint limit int_limit (str_of_Z z, 0%Z) w) = Raise RecursionError.
Proof. exact (@pint_refuted_pf). Qed.
Print Assumptions C60_pint_refuted.

(** C75: pfloat takes the longest numeral with an optional fraction. *)
Theorem C75_pfloat_partial : forall W F (to_float : str -> res F) negf limit negative u frac rest t pos (w : W), (0 <= pos)%Z ->
  rest_of (t, pos) = minus negative ++ str_of_uint u ++ fraction frac ++ rest -> u <> Nil -> frac <> Some Nil ->
  no_digit_next rest -> (frac = None -> forall r, rest = 46 :: r -> no_digit_next r) ->
  List.length (str_of_uint u) <= limit -> List.length (fraction frac) <= S limit ->
  pfloat limit to_float negf (t, pos) w =
  (match to_float (str_of_uint u ++ fraction frac) with
   | Ret x => Ret (Ok ((if negative then negf x else x), (t, (pos + Z.of_nat (List.length (minus negative ++ str_of_uint u ++ fraction frac)))%Z)))
   | Raise e => Raise e end, w).
Proof. exact (@pfloat_pf). Qed.
Print Assumptions C75_pfloat_partial.
Example C75_pfloat_ex : pfloat 9 (fun s => Ret s) (fun s => 45 :: s) (lit "-1.50.2"%string, 0%Z) tt =
  (Ret (Ok (lit "-1.50"%string, (lit "-1.50.2"%string, 5%Z))), tt).
Proof. reflexivity. Qed.
Example C75_pfloat_dot_ex : pfloat 9 (fun s => Ret s) (fun s => 45 :: s) (lit "1.x"%string, 0%Z) tt =
  (Ret (Ok (lit "1"%string, (lit "1.x"%string, 1%Z))), tt).
Proof. reflexivity. Qed.

Theorem C75_pfloat_no_number : forall W F (to_float : str -> res F) negf limit negative rest t pos (w : W), (0 <= pos)%Z ->
  rest_of (t, pos) = minus negative ++ rest -> no_digit_next rest -> (negative = false -> forall r, rest <> 45 :: r) ->
  exists e, pfloat limit to_float negf (t, pos) w = (Ret (Err e), w).
Proof. exact (@pfloat_none_pf). Qed.
Print Assumptions C75_pfloat_no_number.
Example C75_pfloat_no_number_ex : exists e, pfloat 9 (fun s => Ret s) (fun s => s) (lit "-.5"%string, 0%Z) tt = (Ret (Err e), tt).
Proof. eexists. reflexivity. Qed.
(** for every recursion limit, a numeral with more digits *)
Theorem C75_pfloat_refuted : forall W F (to_float : str -> res F) negf limit, exists u, u <> Nil /\ forall w : W,
  fst (pfloat limit to_float negf (str_of_uint u, 0%Z) w) = Raise RecursionError.
Proof. intros W. exact (@pfloat_refuted_pf W). Qed.
Print Assumptions C75_pfloat_refuted.

(** C84: [pipe(p, op(q))] is [p.op(q)]: p runs first, q on what p leaves. *)
Theorem C84_sequencing_partial : forall W A B (p : parser W A) (q : parser W B) input (w : W),
  curried_and_then q p input w = method_and_then p q input w /\
  curried_then_ignore q p input w = method_then_ignore p q input w /\
  curried_ignore_then q p input w = method_ignore_then p q input w /\
  (forall e w1, p input w = (Ret (Err e), w1) ->
     curried_and_then q p input w = (Ret (Err e), w1) /\ curried_then_ignore q p input w = (Ret (Err e), w1) /\ curried_ignore_then q p input w = (Ret (Err e), w1)) /\
  (forall x i1 w1 y i2 w2, p input w = (Ret (Ok (x, i1)), w1) -> q i1 w1 = (Ret (Ok (y, i2)), w2) ->
     curried_and_then q p input w = (Ret (Ok ((x, y), i2)), w2) /\ curried_then_ignore q p input w = (Ret (Ok (x, i2)), w2) /\
     curried_ignore_then q p input w = (Ret (Ok (y, i2)), w2)).
Proof.
  intros W A B p q input w. repeat split; intros; unfold curried_and_then, curried_then_ignore, curried_ignore_then, then_ignore, ignore_then, map, and_then, Base.bind;
    repeat match goal with H : _ = _ |- _ => rewrite H; clear H end; reflexivity.
Qed.
Print Assumptions C84_sequencing_partial.
(** or_else takes the parser to try first as its first argument: the piped form tries the
    alternative before the parser it is piped from, whenever both succeed. *)
Theorem C84_or_else_refuted : forall W A (p q : parser W A) input (w : W) x i1 w1 y i2 w2,
  p input w = (Ret (Ok (x, i1)), w1) -> q input w = (Ret (Ok (y, i2)), w2) ->
  method_or_else p q input w = (Ret (Ok (x, i1)), w1) /\ curried_or_else q p input w = (Ret (Ok (y, i2)), w2).
Proof.
  intros W A p q input w x i1 w1 y i2 w2 H1 H2. unfold method_or_else, curried_or_else, or_else, Base.bind. rewrite H1, H2. split; reflexivity.
Qed.
Print Assumptions C84_or_else_refuted.
Example C84_example :
  method_or_else (preturn 1) (preturn 2) (lit "a"%string, 0%Z) tt = (Ret (Ok (1, (lit "a"%string, 0%Z))), tt) /\
  curried_or_else (preturn 2) (preturn 1) (lit "a"%string, 0%Z) tt = (Ret (Ok (2, (lit "a"%string, 0%Z))), tt).
Proof. split; reflexivity. Qed.
