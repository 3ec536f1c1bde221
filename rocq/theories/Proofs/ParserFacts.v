(** Lemmas about the parser combinators. *)
From Coq Require Import String List Bool ZArith Lia Decimal DecimalZ DecimalFacts.
From Verif.Model Require Import Base PyList OptionResult Block Parser.
From Verif.Spec Require Import ListM ParserSpec.
Import ListNotations.
Local Open Scope list_scope.

Ltac fin := cbn in *; repeat split; try reflexivity; lia.
Ltac unb := unfold Base.bind, ret, raise, lift in *.

(** ** C55 *)
Section Inv.
  Context {W : Type}.
  Definition wf {A} (p : parser W A) : Prop := forall s pos w v rem w1, p (s, pos) w = (Ret (Ok (v, rem)), w1) ->
    fst rem = s /\ (pos <= snd rem)%Z /\ (snd rem <= Z.max pos (Z.of_nat (List.length s)))%Z.
  Lemma wf_pchar : forall c, wf (pchar c).
  Proof.
    intros c s pos w v rem w1 H. unfold pchar in H. destruct (Z.leb_spec (Z.of_nat (List.length s)) pos); unb; [discriminate|].
    destruct (index s pos) as [d|]; [|discriminate]. destruct (str_eqb [d] c); [|discriminate].
    injection H; intros; subst; fin.
  Qed.
  Lemma wf_and_then : forall A B (p : parser W A) (q : parser W B), wf p -> wf q -> wf (and_then p q).
  Proof.
    intros A B p q P Q s pos w v rem w1 H. unfold and_then in H. unb.
    destruct (p (s, pos) w) as [[[[x [s1 pos1]]|e]|e] w2] eqn:E1; try discriminate.
    destruct (q (s1, pos1) w2) as [[[[y [s2 pos2]]|e]|e] w3] eqn:E2; try discriminate.
    injection H; intros; subst. apply P in E1. apply Q in E2. cbn in *. destruct E1 as (-> & ? & ?), E2 as (-> & ? & ?). fin.
  Qed.
  Lemma wf_or_else : forall A (p q : parser W A), wf p -> wf q -> wf (or_else p q).
  Proof.
    intros A p q P Q s pos w v rem w1 H. unfold or_else in H. unb.
    destruct (p (s, pos) w) as [[[[x i1]|e]|e] w2] eqn:E1; try discriminate.
    - injection H; intros; subst. eapply P; eauto.
    - eapply Q; eauto.
  Qed.
  Lemma wf_map : forall A B (f : A -> M W B) p, wf p -> wf (map f p).
  Proof.
    intros A B f p P s pos w v rem w1 H. unfold map in H. unb.
    destruct (p (s, pos) w) as [[[[x i1]|e]|e] w2] eqn:E1; try discriminate.
    destruct (f x w2) as [[y|e] w3]; [|discriminate]. injection H; intros; subst. eapply P; eauto.
  Qed.
  Lemma wf_preturn : forall A (x : A), wf (preturn (W := W) x).
  Proof. intros A x s pos w v rem w1 H. injection H; intros; subst; fin. Qed.
  Lemma wf_fail : forall A e, wf (fail (W := W) (A := A) e).
  Proof. intros A e s pos w v rem w1 H. discriminate. Qed.
  Lemma wf_zero_or_more : forall A (p : parser W A), wf p -> forall limit s pos w vs rem w1,
    parse_zero_or_more limit p (s, pos) w = (Ret (vs, rem), w1) ->
    fst rem = s /\ (pos <= snd rem)%Z /\ (snd rem <= Z.max pos (Z.of_nat (List.length s)))%Z.
  Proof.
    intros A p P. induction limit as [|limit IH]; intros s pos w vs rem w1 H; [discriminate|]. cbn in H. unb.
    destruct (p (s, pos) w) as [[[[x [s1 pos1]]|e]|e] w2] eqn:E1; try discriminate.
    - destruct (parse_zero_or_more limit p (s1, pos1) w2) as [[[ys [s2 pos2]]|e] w3] eqn:E2; [|discriminate].
      injection H; intros; subst. apply P in E1. apply IH in E2. cbn in *. destruct E1 as (-> & ? & ?), E2 as (-> & ? & ?). fin.
    - injection H; intros; subst; fin.
  Qed.
  Lemma wf_many : forall A limit (p : parser W A), wf p -> wf (many limit p).
  Proof.
    intros A limit p P s pos w v rem w1 H. unfold many in H. unb.
    destruct (parse_zero_or_more limit p (s, pos) w) as [[[ys i]|e] w3] eqn:E2; [|discriminate].
    injection H; intros; subst. eapply wf_zero_or_more; eauto.
  Qed.
  Lemma wf_many1 : forall A limit (p : parser W A), wf p -> wf (many1 limit p).
  Proof.
    intros A limit p P s pos w v rem w1 H. unfold many1 in H. unb.
    destruct (p (s, pos) w) as [[[[x [s1 pos1]]|e]|e] w2] eqn:E1; try discriminate.
    destruct (parse_zero_or_more limit p (s1, pos1) w2) as [[[ys [s2 pos2]]|e] w3] eqn:E2; [|discriminate].
    injection H; intros; subst. apply P in E1. eapply wf_zero_or_more in E2; eauto. cbn in *. destruct E1 as (-> & ? & ?), E2 as (-> & ? & ?). fin.
  Qed.
  Lemma wf_bind : forall A B (f : A -> M W (parser W B)) p, (forall x w q w1, f x w = (Ret q, w1) -> wf q) -> wf p -> wf (bind f p).
  Proof.
    intros A B f p Fw P s pos w v rem w1 H. unfold bind in H. unb.
    destruct (p (s, pos) w) as [[[[x [s1 pos1]]|e]|e] w2] eqn:E1; try discriminate.
    destruct (f x w2) as [[q|e] w3] eqn:E2; [|discriminate].
    apply P in E1. apply (Fw _ _ _ _ E2) in H. cbn in *. destruct E1 as (-> & ? & ?), H as (-> & ? & ?). fin.
  Qed.
  Lemma for_or : forall A (ps : list (parser W A)) p,
    for_in ps p (fun a b => ret (or_else a b)) tt = (Ret (fold_left or_else ps p), tt).
  Proof. intros A. induction ps as [|q ps IH]; intros p; [reflexivity|]. exact (IH (or_else p q)). Qed.
  Lemma choice_eq : forall A (p : parser W A) ps, choice (p :: ps) = Ret (fold_left or_else ps p).
  Proof.
    intros A p ps. unfold choice, reduce, fold. unfold Base.bind. cbn [Block.is_empty Block.tail Block.head lift]. rewrite for_or. reflexivity.
  Qed.
  Lemma wf_choice : forall A (ps : list (parser W A)) q, (forall p, In p ps -> wf p) -> choice ps = Ret q -> wf q.
  Proof.
    intros A [|p ps] q H E; [discriminate|]. rewrite choice_eq in E. injection E; intros; subst.
    assert (G : forall (ps : list (parser W A)) p, wf p -> (forall q, In q ps -> wf q) -> wf (fold_left or_else ps p)).
    { clear. induction ps as [|q ps IH]; intros p P H; [exact P|]. cbn. apply IH; [apply wf_or_else; auto; apply H; left; reflexivity|].
      intros r R; apply H; right; exact R. }
    apply G; [apply H; left; reflexivity|]. intros r R; apply H; right; exact R.
  Qed.
  Lemma wf_any_of : forall cs q, any_of (W := W) cs = Ret q -> wf q.
  Proof.
    intros cs q E. eapply wf_choice; [|exact E]. intros p I. apply in_map_iff in I. destruct I as (c & <- & _). apply wf_pchar.
  Qed.
  Lemma wf_imported : forall cs, wf (imported (W := W) (any_of cs)).
  Proof. intros cs. destruct (any_of cs) as [q|e] eqn:E; cbn; [eapply wf_any_of; eauto|]. intros s pos w v rem w1 H. discriminate. Qed.
  Lemma wf_apply : forall A B (p : parser W (A -> M W B)) q, wf p -> wf q -> wf (apply p q).
  Proof. intros. apply wf_map, wf_and_then; auto. Qed.
  Lemma wf_lift2 : forall A B C (f : A -> M W (B -> M W C)) p q, wf p -> wf q -> wf (lift2 f p q).
  Proof. intros. apply wf_apply; auto. apply wf_apply; auto. apply wf_preturn. Qed.
  Lemma wf_sequence : forall A limit (ps : list (parser W A)) q, (forall p, In p ps -> wf p) -> sequence limit ps = Ret q -> wf q.
  Proof.
    intros A. induction limit as [|limit IH]; intros ps q H E; [discriminate|]. cbn in E. destruct ps as [|p ps].
    - injection E; intros; subst. apply wf_preturn.
    - destruct (sequence limit ps) as [t|e] eqn:E1; [|discriminate]. cbn in E. injection E; intros; subst.
      apply wf_lift2; [apply H; left; reflexivity|]. eapply IH; [|exact E1]. intros r R; apply H; right; exact R.
  Qed.
  Lemma wf_opt : forall A (p : parser W A), wf p -> wf (opt p).
  Proof. intros. apply wf_or_else; [apply wf_map; auto|apply wf_preturn]. Qed.
  Lemma wf_digits : forall limit, wf (digits (W := W) limit).
  Proof. intros. apply wf_many1, wf_imported. Qed.
  Lemma wf_sep_by1 : forall A B limit (p : parser W A) (s : parser W B), wf p -> wf s -> wf (sep_by1 limit p s).
  Proof. intros. apply wf_map, wf_and_then; auto. apply wf_many, wf_map, wf_and_then; auto. Qed.
  Lemma built_wf : forall A (p : parser W A), built W A p -> wf p.
  Proof.
    induction 1; auto using wf_pchar, wf_and_then, wf_or_else, wf_map, wf_preturn, wf_fail, wf_apply, wf_lift2, wf_many, wf_many1, wf_opt, wf_digits, wf_sep_by1.
    - eapply wf_choice; eauto.
    - eapply wf_any_of; eauto.
    - apply wf_map; auto.
    - eapply wf_sequence; eauto.
    - unfold pstring in H. destruct (sequence limit _) as [q0|] eqn:E; [|discriminate]. injection H; intros; subst. apply wf_map.
      eapply wf_sequence; [|exact E]. intros p I. apply in_map_iff in I. destruct I as (c & <- & _). apply wf_pchar.
    - apply wf_or_else; [apply wf_sep_by1; auto|apply wf_preturn].
    - apply wf_map, wf_and_then; auto.
    - apply wf_map, wf_and_then; auto.
    - apply wf_map, wf_and_then; auto. apply wf_map, wf_and_then; auto.
    - eapply wf_bind; eauto.
    - apply wf_map; auto.
    - apply wf_map, wf_and_then; [apply wf_opt, wf_pchar|apply wf_digits].
    - apply wf_map, wf_and_then; [apply wf_and_then; [apply wf_opt, wf_pchar|apply wf_digits]|].
      apply wf_opt, wf_map, wf_and_then; [apply wf_pchar|apply wf_digits].
    - apply wf_many1, wf_imported.
    - apply wf_lift2; auto.
  Qed.
End Inv.

(** ** C56 *)
Section Choice.
  Context {W : Type}.
  Lemma fold_or : forall A (ps : list (parser W A)) p e0 input,
    fold_left or_else ps p input ==m first_ok (p :: ps) e0 input.
  Proof.
    intros A ps. induction ps as [|q ps IH]; intros p e0 input w.
    - cbn. unb. destruct (p input w) as [[[x|e]|e] w1]; reflexivity.
    - cbn [fold_left]. rewrite (IH (or_else p q) e0). cbn. unfold or_else. unb.
      destruct (p input w) as [[[x|e]|e] w1]; try reflexivity.
  Qed.
  Lemma choice_pf : forall A (p : parser W A) ps, exists q, choice (p :: ps) = Ret q /\
    forall e0 input, q input ==m first_ok (p :: ps) e0 input.
  Proof. intros A p ps. exists (fold_left or_else ps p). split; [apply choice_eq|]. intros; apply fold_or. Qed.
  Lemma index_inside : forall (s : str) pos, (0 <= pos < Z.of_nat (List.length s))%Z ->
    index s pos = match skipn (Z.to_nat pos) s with c :: _ => Ret c | [] => Raise IndexError end.
  Proof.
    intros s pos L. unfold index. destruct (Z.ltb_spec pos 0); [lia|]. destruct (Z.ltb_spec pos 0); [lia|].
    assert (G : forall n (l : str), match nth_error l n with Some x => Ret x | None => Raise IndexError end =
      match skipn n l with c :: _ => Ret c | [] => Raise IndexError end).
    { induction n as [|n IH]; intros [|c l]; try reflexivity. apply IH. }
    apply G.
  Qed.
  Lemma str_eqb_spec : forall a b, str_eqb a b = true <-> a = b.
  Proof. intros a b. unfold str_eqb. destruct (list_eq_dec Nat.eq_dec a b); split; congruence. Qed.
  Lemma rest_cons : forall (s : str) pos c text, (0 <= pos)%Z -> skipn (Z.to_nat pos) s = c :: text ->
    (pos < Z.of_nat (List.length s))%Z /\ skipn (Z.to_nat (pos + 1)) s = text.
  Proof.
    intros s pos c text L H. assert (Z.to_nat pos < List.length s).
    { destruct (Nat.lt_ge_cases (Z.to_nat pos) (List.length s)); auto. rewrite skipn_all2 in H by auto. discriminate. }
    split; [lia|]. rewrite Z2Nat.inj_add by lia. change (Z.to_nat 1) with 1. rewrite Nat.add_1_r.
    assert (G : forall n (l : str), skipn n l = c :: text -> skipn (S n) l = text).
    { induction n as [|n IH]; intros [|d l] Q; try discriminate. - injection Q; intros; subst; reflexivity. - apply (IH l Q). }
    apply G; exact H.
  Qed.
  Lemma rest_nil : forall (s : str) pos, (0 <= pos)%Z -> skipn (Z.to_nat pos) s = [] -> (Z.of_nat (List.length s) <= pos)%Z.
  Proof.
    intros s pos L H. assert (Q : List.length (skipn (Z.to_nat pos) s) = 0) by (rewrite H; reflexivity). rewrite skipn_length in Q. lia.
  Qed.
  (** pchar by the text that is left *)
  Lemma pchar_text : forall c s pos (w : W), (0 <= pos)%Z ->
    pchar c (s, pos) w = (Ret (match skipn (Z.to_nat pos) s with
                               | [] => Err (lit "no more input"%string)
                               | d :: _ => if str_eqb [d] c then Ok (c, (s, (pos + 1)%Z))
                                           else Err (lit "Expecting '"%string ++ c ++ lit "'. Got '"%string ++ [d] ++ lit "'"%string)
                               end), w).
  Proof.
    intros c s pos w L. unfold pchar. destruct (skipn (Z.to_nat pos) s) as [|d text] eqn:E.
    - apply rest_nil in E; auto. destruct (Z.leb_spec (Z.of_nat (List.length s)) pos); [reflexivity|lia].
    - destruct (rest_cons _ _ _ _ L E) as [L1 _]. destruct (Z.leb_spec (Z.of_nat (List.length s)) pos); [lia|].
      rewrite index_inside, E by lia. unb. destruct (str_eqb [d] c); reflexivity.
  Qed.
  Lemma first_char : forall cs s pos e0 (w : W), (0 <= pos)%Z ->
    match skipn (Z.to_nat pos) s with
    | [] => exists e, first_ok (List.map (fun c => pchar [c]) cs) e0 (s, pos) w = (Ret (Err e), w)
    | d :: _ => if existsb (Nat.eqb d) cs then first_ok (List.map (fun c => pchar [c]) cs) e0 (s, pos) w = (Ret (Ok ([d], (s, (pos + 1)%Z))), w)
                else exists e, first_ok (List.map (fun c => pchar [c]) cs) e0 (s, pos) w = (Ret (Err e), w)
    end.
  Proof.
    intros cs s pos e0 w L. revert e0. induction cs as [|c cs IH]; intros e0.
    - destruct (skipn (Z.to_nat pos) s); cbn; eexists; reflexivity.
    - cbn [List.map first_ok]. unfold Base.bind. rewrite pchar_text by exact L. destruct (skipn (Z.to_nat pos) s) as [|d text].
      + destruct (IH (lit "no more input"%string)) as [e H]. exists e. exact H.
      + cbn [existsb]. destruct (str_eqb [d] [c]) eqn:Q.
        * apply str_eqb_spec in Q. injection Q; intros; subst. rewrite Nat.eqb_refl. reflexivity.
        * replace (Nat.eqb d c) with false; [apply IH|]. symmetry. apply Nat.eqb_neq. intros ->.
          assert (str_eqb [c] [c] = true) by (apply str_eqb_spec; reflexivity). congruence.
  Qed.
  Lemma any_of_pf : forall (c : nat) cs, exists q, any_of (c :: cs) = Ret q /\ forall s pos (w : W), (0 <= pos)%Z ->
    match rest_of (s, pos) with
    | [] => exists e, q (s, pos) w = (Ret (Err e), w)
    | d :: _ => if existsb (Nat.eqb d) (c :: cs) then q (s, pos) w = (Ret (Ok ([d], (s, (pos + 1)%Z))), w)
                else exists e, q (s, pos) w = (Ret (Err e), w)
    end.
  Proof.
    intros c cs. unfold any_of. cbn [List.map]. destruct (choice_pf _ (pchar [c]) (List.map (fun c => pchar [c]) cs)) as (q & E & Q).
    exists q. split; [exact E|]. intros s pos w L. unfold rest_of. cbn [fst snd].
    pose proof (first_char (c :: cs) s pos [] w L) as H. destruct (skipn (Z.to_nat pos) s) as [|d text]; rewrite (Q [] (s, pos) w); exact H.
  Qed.
End Choice.

(** ** C57 *)
Section Laws.
  Context {W : Type}.
  Ltac law := unb; repeat match goal with |- context [match ?p ?i ?w with _ => _ end] =>
    let H := fresh in destruct (p i w) as [[[[? ?]|?]|?] ?] eqn:H; try reflexivity end.
  Lemma monad_pf : forall A B C (p : parser W A) (f : A -> M W (parser W B)) (g : B -> M W (parser W C)) x input,
    bind f (preturn x) input ==m (fun w => Base.bind (f x) (fun q => q input) w) /\
    bind (fun x => ret (preturn x)) p input ==m p input /\
    bind g (bind f p) input ==m bind (fun x => Base.bind (f x) (fun q => ret (bind g q))) p input.
  Proof.
    intros A B C p f g x input. repeat (match goal with |- _ /\ _ => split end); intros w; unfold bind, preturn; unb.
    - reflexivity.
    - destruct (p input w) as [[[[v i]|e]|e] w1]; reflexivity.
    - destruct (p input w) as [[[[v i]|e]|e] w1]; try reflexivity. destruct (f v w1) as [[q|e] w2]; reflexivity.
  Qed.
  Lemma functor_pf : forall A B C (p : parser W A) (f : A -> M W B) (g : B -> M W C) input,
    map (fun x => ret x) p input ==m p input /\
    map g (map f p) input ==m map (fun x => Base.bind (f x) g) p input /\
    map f p input ==m bind (fun x => Base.bind (f x) (fun y => ret (preturn y))) p input.
  Proof.
    intros A B C p f g input. repeat (match goal with |- _ /\ _ => split end); intros w; unfold map, bind, preturn; unb;
      destruct (p input w) as [[[[v i]|e]|e] w1]; try reflexivity; destruct (f v w1) as [[y|e] w2]; reflexivity.
  Qed.
  Lemma and_then_pf : forall A B C (p : parser W A) (q : parser W B) (r : parser W C) input,
    map (fun x => ret (fst (fst x), (snd (fst x), snd x))) (and_then (and_then p q) r) input ==m and_then p (and_then q r) input /\
    and_then p q input ==m bind (fun x => ret (map (fun y => ret (x, y)) q)) p input /\
    map (fun x => ret (snd x)) (and_then (preturn tt) p) input ==m p input /\
    map (fun x => ret (fst x)) (and_then p (preturn tt)) input ==m p input.
  Proof.
    intros A B C p q r input. repeat (match goal with |- _ /\ _ => split end); intros w; unfold map, bind, and_then, preturn; unb;
      destruct (p input w) as [[[[v i]|e]|e] w1]; try reflexivity;
      destruct (q i w1) as [[[[v2 i2]|e]|e] w2]; try reflexivity; destruct (r i2 w2) as [[[[v3 i3]|e]|e] w3]; reflexivity.
  Qed.
  Lemma ignore_pf : forall A B C (p : parser W A) (q : parser W B) (r : parser W C) input,
    then_ignore p q input ==m bind (fun x => ret (bind (fun _ => ret (preturn x)) q)) p input /\
    ignore_then p q input ==m bind (fun _ => ret q) p input /\
    between p q r input ==m bind (fun _ => ret (bind (fun x => ret (bind (fun _ => ret (preturn x)) q)) r)) p input /\
    ignore p input ==m bind (fun _ => ret (preturn tt)) p input.
  Proof.
    intros A B C p q r input. repeat (match goal with |- _ /\ _ => split end); intros w; unfold between, then_ignore, ignore_then, ignore, map, bind, and_then, preturn; unb;
      destruct (p input w) as [[[[v i]|e]|e] w1]; try reflexivity;
      try (destruct (q i w1) as [[[[v2 i2]|e]|e] w2]; reflexivity); destruct (r i w1) as [[[[v3 i3]|e]|e] w3]; try reflexivity;
      destruct (q i3 w3) as [[[[v2 i2]|e]|e] w2]; reflexivity.
  Qed.
  Lemma lift2_pf : forall A B C (f : A -> M W (B -> M W C)) (p : parser W A) (q : parser W B) input,
    lift2 f p q input ==m bind (fun x => Base.bind (f x) (fun g => ret (map g q))) p input.
  Proof.
    intros A B C f p q input w. unfold lift2, apply, map, bind, and_then, preturn; unb.
    destruct (p input w) as [[[[v i]|e]|e] w1]; try reflexivity. cbn. destruct (f v w1) as [[g|e] w2]; try reflexivity.
    destruct (q i w2) as [[[[v2 i2]|e]|e] w3]; reflexivity.
  Qed.
  Lemma apply_pf : forall A B (p : parser W (A -> M W B)) (q : parser W A) input,
    apply p q input ==m bind (fun f => ret (map f q)) p input.
  Proof.
    intros A B p q input w. unfold apply, map, bind, and_then; unb. destruct (p input w) as [[[[v i]|e]|e] w1]; try reflexivity.
    destruct (q i w1) as [[[[v2 i2]|e]|e] w3]; reflexivity.
  Qed.
  Lemma sequence_ok : forall A (ps : list (parser W A)) limit, List.length ps < limit ->
    exists q, sequence limit ps = Ret q /\ forall input, q input ==m run_all ps input.
  Proof.
    intros A. induction ps as [|p ps IH]; intros [|limit] L; cbn in L; try lia; cbn [sequence].
    - eexists. split; [reflexivity|]. intros input w. reflexivity.
    - destruct (IH limit) as (q & -> & Q); [lia|]. eexists. split; [reflexivity|]. intros input w. rewrite lift2_pf.
      unfold bind, map. cbn [run_all]. unb. destruct (p input w) as [[[[v i]|e]|e] w1]; try reflexivity.
      rewrite Q. destruct (run_all ps i w1) as [[[[vs i2]|e]|e] w2]; reflexivity.
  Qed.
  Lemma sequence_long : forall A (ps : list (parser W A)) limit, limit <= List.length ps -> sequence limit ps = Raise RecursionError.
  Proof.
    intros A. induction ps as [|p ps IH]; intros [|limit] L; cbn in L; try lia; [reflexivity..|]. cbn [sequence]. rewrite IH by lia. reflexivity.
  Qed.
End Laws.

(** ** C58 *)
Section Pstring.
  Context {W : Type}.
  Lemma run_all_chars : forall s t pos (w : W), (0 <= pos)%Z ->
    run_all (List.map (fun c => pchar [c]) s) (t, pos) w =
    (Ret (match mismatch s (skipn (Z.to_nat pos) t) with
          | None => Ok (List.map (fun c => [c]) s, (t, (pos + Z.of_nat (List.length s))%Z))
          | Some e => Err e end), w).
  Proof.
    induction s as [|c s IH]; intros t pos w L.
    - cbn. rewrite Z.add_0_r. reflexivity.
    - cbn [List.map run_all]. unfold Base.bind. rewrite pchar_text by exact L. cbn [mismatch].
      destruct (skipn (Z.to_nat pos) t) as [|d text] eqn:E; [reflexivity|].
      destruct (str_eqb [d] [c]) eqn:Q.
      + apply str_eqb_spec in Q. injection Q; intros; subst. rewrite Nat.eqb_refl. rewrite IH by lia.
        destruct (rest_cons _ _ _ _ L E) as [_ ->]. destruct (mismatch s text); cbn; [reflexivity|]. unfold ret.
        replace (pos + 1 + Z.of_nat (List.length s))%Z with (pos + Z.pos (Pos.of_succ_nat (List.length s)))%Z by lia. reflexivity.
      + replace (Nat.eqb c d) with false; [reflexivity|]. symmetry. apply Nat.eqb_neq. intros ->.
        assert (str_eqb [d] [d] = true) by (apply str_eqb_spec; reflexivity). congruence.
  Qed.
  Lemma concat_single : forall s : str, List.concat (List.map (fun c => [c]) s) = s.
  Proof. induction s as [|c s IH]; cbn; [|rewrite IH]; reflexivity. Qed.
  Lemma pstring_pf : forall s limit, List.length s < limit -> exists q, pstring (W := W) limit s = Ret q /\
    forall t pos w, (0 <= pos)%Z ->
      q (t, pos) w = (Ret (match mismatch s (rest_of (t, pos)) with
                           | None => Ok (s, (t, (pos + Z.of_nat (List.length s))%Z))
                           | Some e => Err e end), w).
  Proof.
    intros s limit L. destruct (sequence_ok _ (List.map (fun c => pchar (W := W) [c]) s) limit) as (q & E & Q); [rewrite map_length; exact L|].
    unfold pstring. rewrite E. eexists. split; [reflexivity|]. intros t pos w P. unfold map. unfold Base.bind. rewrite Q, run_all_chars by exact P.
    unfold rest_of. cbn [fst snd]. destruct (mismatch s _); [reflexivity|]. unb. rewrite concat_single. reflexivity.
  Qed.
  Lemma pstring_long : forall s limit, limit <= List.length s -> pstring (W := W) limit s = Raise RecursionError.
  Proof. intros s limit L. unfold pstring. rewrite sequence_long; [reflexivity|rewrite map_length; exact L]. Qed.
  Lemma mismatch_none : forall s text, mismatch s text = None <-> exists rest, text = s ++ rest.
  Proof.
    induction s as [|c s IH]; intros text; cbn.
    - split; [eauto|reflexivity].
    - destruct text as [|d text]; [split; [discriminate|intros [r Q]; discriminate]|]. destruct (Nat.eqb_spec c d) as [->|N].
      + rewrite IH. split; intros [r Q]; exists r; [subst; reflexivity|injection Q; auto].
      + split; [discriminate|]. intros [r Q]. injection Q; intros; congruence.
  Qed.
End Pstring.

(** ** C59 *)
Section Many.
  Context {W A B : Type}.
  Implicit Types p : parser W A.
  Lemma zero_or_more_ok : forall p i w vs i1 w1, repeats p i w vs i1 w1 -> forall limit, List.length vs < limit ->
    parse_zero_or_more limit p i w = (Ret (vs, i1), w1).
  Proof.
    induction 1 as [i w e w1 E|i w v i1 w1 vs i2 w2 E R IH]; intros [|limit] L; cbn in L; try lia; cbn [parse_zero_or_more]; unfold Base.bind; rewrite E.
    - reflexivity.
    - rewrite IH by lia. reflexivity.
  Qed.
  Lemma zero_or_more_long : forall p i w vs i1 w1, repeats p i w vs i1 w1 -> forall limit, limit <= List.length vs ->
    fst (parse_zero_or_more limit p i w) = Raise RecursionError.
  Proof.
    induction 1 as [i w e w1 E|i w v i1 w1 vs i2 w2 E R IH]; intros [|limit] L; cbn in L; try lia; try reflexivity.
    cbn [parse_zero_or_more]. unfold Base.bind; rewrite E. specialize (IH limit ltac:(lia)).
    destruct (parse_zero_or_more limit p i1 w1) as [[x|e] w3]; [discriminate|]. injection IH; intros; subst; reflexivity.
  Qed.
  Lemma zero_or_more_inv : forall p limit i w r w1, parse_zero_or_more limit p i w = (r, w1) ->
    match r with
    | Ret (vs, i1) => repeats p i w vs i1 w1 /\ List.length vs < limit
    | Raise e => e = RecursionError \/ exists i0 w0, p i0 w0 = (Raise e, w1)
    end.
  Proof.
    intros p. induction limit as [|limit IH]; intros i w r w1 H; cbn [parse_zero_or_more] in H.
    - injection H; intros; subst. left; reflexivity.
    - unfold Base.bind in H. destruct (p i w) as [[[[v i1]|e]|e] w2] eqn:E.
      + destruct (parse_zero_or_more limit p i1 w2) as [[[vs i2]|e] w3] eqn:E2; apply IH in E2; injection H; intros; subst.
        * destruct E2 as [R L]. split; [eapply rep_more; eauto|cbn; lia].
        * exact E2.
      + injection H; intros; subst. split; [eapply rep_end; eauto|cbn; lia].
      + injection H; intros; subst. right; eauto.
  Qed.
  Lemma many_ok_pf : forall p limit i w r w1, many limit p i w = (Ret r, w1) <->
    exists vs i1, r = Ok (vs, i1) /\ repeats p i w vs i1 w1 /\ List.length vs < limit.
  Proof.
    intros p limit i w r w1. unfold many, Base.bind. split.
    - destruct (parse_zero_or_more limit p i w) as [[[vs i1]|e] w2] eqn:E; [|discriminate]. apply zero_or_more_inv in E.
      intros H; injection H; intros; subst. eauto.
    - intros (vs & i1 & -> & R & L). rewrite (zero_or_more_ok _ _ _ _ _ _ R limit L). reflexivity.
  Qed.
  Lemma many_raise_pf : forall p limit i w e w1, many limit p i w = (Raise e, w1) ->
    e = RecursionError \/ exists i0 w0, p i0 w0 = (Raise e, w1).
  Proof.
    intros p limit i w e w1. unfold many, Base.bind. destruct (parse_zero_or_more limit p i w) as [[[vs i1]|e0] w2] eqn:E; [discriminate|].
    apply zero_or_more_inv in E. intros H; injection H; intros; subst. exact E.
  Qed.
  Lemma repeats_exists : forall p, consumes p -> forall n i w, inside i -> (Z.of_nat (List.length (fst i)) - snd i <= Z.of_nat n)%Z ->
    exists vs i1 w1, repeats p i w vs i1 w1 /\ List.length vs <= n.
  Proof.
    intros p C. induction n as [|n IH]; intros i w I L; specialize (C i w I) as Ci;
      destruct (p i w) as [[[[v i1]|e]|e] w1] eqn:E; try contradiction.
    - destruct Ci as (Q & Lt & I1). destruct I1. rewrite Q in *. lia.
    - exists [], i, w1. split; [eapply rep_end; eauto|cbn; lia].
    - destruct Ci as (Q & Lt & I1). destruct (IH i1 w1 I1) as (vs & i2 & w2 & R & L2); [rewrite Q; lia|].
      exists (v :: vs), i2, w2. split; [eapply rep_more; eauto|cbn; lia].
    - exists [], i, w1. split; [eapply rep_end; eauto|cbn; lia].
  Qed.
  Lemma many_total_pf : forall p, consumes p -> forall limit i w, inside i ->
    (Z.of_nat (List.length (fst i)) - snd i < Z.of_nat limit)%Z -> exists vs i1 w1, many limit p i w = (Ret (Ok (vs, i1)), w1).
  Proof.
    intros p C limit i w I L. destruct (repeats_exists p C (Z.to_nat (Z.of_nat (List.length (fst i)) - snd i)) i w I) as (vs & i1 & w1 & R & L1); [lia|].
    exists vs, i1, w1. apply many_ok_pf. exists vs, i1. split; [reflexivity|]. split; [exact R|]. destruct I. lia.
  Qed.
  Lemma many_preturn_pf : forall (x : A) limit i (w : W), many limit (preturn x) i w = (Raise RecursionError, w).
  Proof.
    intros x limit i w. unfold many, Base.bind.
    assert (G : parse_zero_or_more limit (preturn x) i w = (Raise RecursionError, w)).
    { induction limit as [|limit IH]; [reflexivity|]. cbn [parse_zero_or_more]. unfold Base.bind. unfold preturn at 1, ret at 1. rewrite IH. reflexivity. }
    rewrite G. reflexivity.
  Qed.
  Lemma many1_pf : forall p limit i w r w1, many1 limit p i w = (Ret r, w1) <->
    (exists e, p i w = (Ret (Err e), w1) /\ r = Err e) \/
    (exists v vs i1, r = Ok (v :: vs, i1) /\ repeats p i w (v :: vs) i1 w1 /\ List.length vs < limit).
  Proof.
    intros p limit i w r w1. unfold many1, Base.bind. destruct (p i w) as [[[[v i1]|e]|e] w2] eqn:E.
    - destruct (parse_zero_or_more limit p i1 w2) as [[[vs i2]|e] w3] eqn:E2; pose proof (zero_or_more_inv _ _ _ _ _ _ E2) as Z2; split; intros H.
      + destruct Z2 as [R L]. injection H; intros; subst. right. exists v, vs, i2. split; [reflexivity|]. split; [eapply rep_more; eauto|exact L].
      + destruct H as [(e & H & _)|(v0 & vs0 & i3 & -> & R & L)]; [discriminate|]. inversion R; subst.
        match goal with H : p i w = _ |- _ => rewrite H in E; injection E; intros; subst end.
        match goal with H : repeats p _ _ vs0 _ _ |- _ => rewrite (zero_or_more_ok _ _ _ _ _ _ H limit L) in E2 end.
        injection E2; intros; subst. reflexivity.
      + discriminate.
      + destruct H as [(e' & H & _)|(v0 & vs0 & i3 & -> & R & L)]; [discriminate|]. inversion R; subst.
        match goal with H : p i w = _ |- _ => rewrite H in E; injection E; intros; subst end.
        match goal with H : repeats p _ _ vs0 _ _ |- _ => rewrite (zero_or_more_ok _ _ _ _ _ _ H limit L) in E2 end. discriminate.
    - split; intros H.
      + injection H; intros; subst. left. eauto.
      + destruct H as [(e' & H & ->)|(v0 & vs0 & i3 & -> & R & L)]; [injection H; intros; subst; reflexivity|]. inversion R; subst. congruence.
    - split; intros H; [discriminate|]. destruct H as [(e' & H & _)|(v0 & vs0 & i3 & -> & R & L)]; [discriminate|]. inversion R; subst. congruence.
  Qed.
  (** sep_by *)
  Lemma repeats_items : forall p (sep : parser W B) i w vs i1 w1,
    repeats (ignore_then sep p) i w vs i1 w1 <-> more_items p sep i w vs i1 w1.
  Proof.
    intros p sep.
    assert (X : forall i w, ignore_then sep p i w =
      match sep i w with
      | (Ret (Ok (_, i1)), w1) => p i1 w1
      | (Ret (Err e), w1) => (Ret (Err e), w1)
      | (Raise e, w1) => (Raise e, w1) end).
    { intros i w. unfold ignore_then, map, and_then; unb. destruct (sep i w) as [[[[x i1]|e]|e] w1]; try reflexivity.
      destruct (p i1 w1) as [[[[v i2]|e]|e] w2]; reflexivity. }
    intros i w vs i1 w1; split.
    - induction 1 as [i w e w1 E|i w v i1 w1 vs i2 w2 E R IH]; rewrite X in E; destruct (sep i w) as [[[[x j]|e0]|e0] w3] eqn:S; try discriminate.
      + eapply mi_no_item; eauto.
      + injection E; intros; subst. eapply mi_no_sep; eauto.
      + eapply mi_item; eauto.
    - induction 1 as [i w e w1 S|i w x i1 w1 e w2 S P|i w x i1 w1 v i2 w2 vs i3 w3 S P R IH].
      + eapply rep_end. rewrite X, S. reflexivity.
      + eapply rep_end. rewrite X, S. exact P.
      + eapply rep_more; [rewrite X, S; exact P|exact IH].
  Qed.
  Lemma sep_by1_pf : forall p (sep : parser W B) limit i w r w1, sep_by1 limit p sep i w = (Ret r, w1) <->
    (exists e, p i w = (Ret (Err e), w1) /\ r = Err e) \/
    (exists vs i1, r = Ok (vs, i1) /\ separated p sep i w vs i1 w1 /\ List.length vs <= limit).
  Proof.
    intros p sep limit i w r w1. unfold sep_by1, starmap, map, and_then. unfold Base.bind at 1 2. destruct (p i w) as [[[[v i1]|e]|e] w2] eqn:E; cbn.
    - unfold Base.bind. destruct (many limit (ignore_then sep p) i1 w2) as [[[[vs i2]|e]|e] w3] eqn:E2.
      + apply many_ok_pf in E2. destruct E2 as (vs' & i2' & Q & R & L). injection Q; intros; subst vs' i2'. split; intros H.
        * injection H; intros; subst. right. exists (v :: vs), i2. split; [reflexivity|]. split; [eapply sep_items; eauto; apply repeats_items; exact R|cbn; lia].
        * destruct H as [(e & H & _)|(vs0 & i3 & -> & S & L0)]; [discriminate|]. inversion S; subst.
          match goal with H : p i w = _ |- _ => rewrite H in E; injection E; intros; subst end.
          match goal with H : more_items p sep _ _ _ _ _ |- _ => apply repeats_items in H; cbn in L0;
            assert (Z1 := zero_or_more_ok _ _ _ _ _ _ H limit L0); assert (Z2 := zero_or_more_ok _ _ _ _ _ _ R limit L) end.
          rewrite Z1 in Z2. injection Z2; intros; subst. reflexivity.
      + apply many_ok_pf in E2. destruct E2 as (? & ? & Q & _). discriminate.
      + split; intros H; [discriminate|]. destruct H as [(e' & H & _)|(vs0 & i3 & -> & S & L0)]; [discriminate|]. inversion S; subst.
        match goal with H : p i w = _ |- _ => rewrite H in E; injection E; intros; subst end.
        match goal with H : more_items p sep _ _ _ _ _ |- _ => apply repeats_items in H; cbn in L0; 
          assert (Z1 := proj2 (many_ok_pf (ignore_then sep p) limit i1 w2 (Ok (vs, i3)) w1) (ex_intro _ vs (ex_intro _ i3 (conj eq_refl (conj H L0))))) end.
        congruence.
    - split; intros H.
      + injection H; intros; subst. left. eauto.
      + destruct H as [(e' & H & ->)|(vs0 & i3 & -> & S & L0)]; [injection H; intros; subst; reflexivity|]. inversion S; subst. congruence.
    - split; intros H; [discriminate|]. destruct H as [(e' & H & _)|(vs0 & i3 & -> & S & L0)]; [discriminate|]. inversion S; subst. congruence.
  Qed.
  Lemma sep_by_pf : forall p (sep : parser W B) limit i w r w1, sep_by limit p sep i w = (Ret r, w1) <->
    (exists e, p i w = (Ret (Err e), w1) /\ r = Ok ([], i)) \/
    (exists vs i1, r = Ok (vs, i1) /\ separated p sep i w vs i1 w1 /\ List.length vs <= limit).
  Proof.
    intros p sep limit i w r w1. unfold sep_by, or_else, Base.bind. destruct (sep_by1 limit p sep i w) as [[r0|e] w2] eqn:E.
    - apply sep_by1_pf in E. destruct E as [(e & Ep & ->)|(vs & i1 & -> & S & L)].
      + unfold preturn, ret. split; intros H.
        * injection H; intros; subst. left. eauto.
        * destruct H as [(e' & H & ->)|(vs0 & i3 & -> & S & L0)]; [rewrite Ep in H; injection H; intros; subst; reflexivity|]. inversion S; subst. congruence.
      + unfold ret. split; intros H.
        * injection H; intros; subst. right. eauto.
        * destruct H as [(e' & H & ->)|H]; [inversion S; subst; congruence|].
          assert (E2 := proj2 (sep_by1_pf p sep limit i w r w1) (or_intror H)).
          assert (E3 := proj2 (sep_by1_pf p sep limit i w (Ok (vs, i1)) w2) (or_intror (ex_intro _ vs (ex_intro _ i1 (conj eq_refl (conj S L)))))).
          rewrite E2 in E3. injection E3; intros; subst. reflexivity.
    - split; intros H; [discriminate|]. exfalso. destruct H as [(e' & H & ->)|H].
      + assert (E2 := proj2 (sep_by1_pf p sep limit i w (Err e') w1) (or_introl (ex_intro _ e' (conj H eq_refl)))). congruence.
      + assert (E2 := proj2 (sep_by1_pf p sep limit i w r w1) (or_intror H)). congruence.
  Qed.
  Lemma opt_pf : forall p i w, opt p i w =
    match p i w with
    | (Ret (Ok (v, i1)), w1) => (Ret (Ok (Some v, i1)), w1)
    | (Ret (Err _), w1) => (Ret (Ok (None, i)), w1)
    | (Raise e, w1) => (Raise e, w1)
    end.
  Proof. intros p i w. unfold opt, or_else, map, preturn; unb. destruct (p i w) as [[[[v i1]|e]|e] w1]; reflexivity. Qed.
End Many.

(** The classes of characters. *)
Lemma class_pf : forall W class c cs, (forall d, existsb (Nat.eqb d) (c :: cs) = class d) ->
  reads_one_of (W := W) class (imported (any_of (c :: cs))).
Proof.
  intros W class c cs H s pos w P. destruct (any_of_pf (W := W) c cs) as [q [E Q]]. rewrite E. cbn [imported].
  specialize (Q s pos w P). destruct (rest_of (s, pos)) as [|d r]; [exact Q|]. rewrite <- H. exact Q.
Qed.
Lemma character_classes_pf : forall W,
  reads_one_of (W := W) lowercase_code parse_lowercase /\
  reads_one_of (W := W) (fun c => lowercase_code c || uppercase_code c) parse_letters /\
  reads_one_of (W := W) digit_code parse_digit /\
  reads_one_of (W := W) whitespace_code whitespace_char.
Proof.
  intros W. repeat split; apply class_pf; intros d; do 123 (destruct d as [|d]; [reflexivity|]); reflexivity.
Qed.

Lemma startswith_pf : forall prefix s, startswith s prefix = true <-> exists rest, s = prefix ++ rest.
Proof.
  induction prefix as [|c prefix IH]; intros s; simpl.
  - split; [intros _; now exists s|intros _; now destruct s].
  - destruct s as [|d s]; simpl.
    + split; [discriminate|]. intros [r E]. discriminate.
    + rewrite Bool.andb_true_iff, Nat.eqb_eq, IH. split.
      * intros [-> [r ->]]. exists r. reflexivity.
      * intros [r E]. injection E as -> ->. eauto.
Qed.
Lemma starts_with_pf : forall W (p q : parser W str) i i1 i2 (w w1 w2 : W) s prefix,
  p i w = (Ret (Ok (s, i1)), w1) -> q i1 w1 = (Ret (Ok (prefix, i2)), w2) ->
  exists b, starts_with p q i w = (Ret (Ok (b, i2)), w2) /\ (b = true <-> exists rest, s = prefix ++ rest).
Proof.
  intros W p q i i1 i2 w w1 w2 s prefix P Q. exists (startswith s prefix). split; [|apply startswith_pf].
  unfold starts_with. etransitivity; [apply lift2_pf|]. unfold bind, map, Base.bind, ret. rewrite P. cbn. rewrite Q. reflexivity.
Qed.
