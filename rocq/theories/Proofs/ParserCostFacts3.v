(** The exact number of looks of literals and sets of characters; grammars that are slow. *)
From Coq Require Import String List Bool ZArith Arith Lia.
From Verif.Model Require Import Base PyList OptionResult Block Parser ParserCost.
From Verif.Spec Require Import ParserSpec ParserCostSpec.
From Verif.Proofs Require Import ParserFacts.
Import ListNotations.
Local Open Scope list_scope.
Local Open Scope nat_scope.
Local Open Scope py_scope.

Section Exact.
  Context {W : Type}.
  Notation cparser := (parser (nat * W)).

  Lemma skip_more : forall (s : str) z k text, (0 <= z)%Z -> skipn (Z.to_nat z) s = text -> skipn (Z.to_nat (z + Z.of_nat k)) s = skipn k text.
  Proof.
    intros s z k text L <-. rewrite Z2Nat.inj_add, Nat2Z.id by lia. generalize (Z.to_nat z). clear. intros n. revert s.
    induction n as [|n IH]; intros s; [reflexivity|]. destruct s as [|c s]; cbn; [now rewrite skipn_nil|apply IH].
  Qed.
  Lemma skip_next : forall (s : str) z c text, (0 <= z)%Z -> skipn (Z.to_nat z) s = c :: text -> skipn (Z.to_nat (z + 1)) s = text.
  Proof. intros s z c text L H. exact (skip_more s z 1 _ L H). Qed.

  Lemma pchar_hit : forall c (s : str) z text n (w : W), (0 <= z)%Z -> skipn (Z.to_nat z) s = c :: text ->
    c_pchar [c] (s, z) (n, w) = (Ret (Ok ([c], (s, (z + 1)%Z))), (S n, w)).
  Proof.
    intros c s z text n w L H. unfold c_pchar, Base.bind, tick. cbn [fst snd]. rewrite pchar_text, H by exact L.
    replace (str_eqb [c] [c]) with true; [reflexivity|]. symmetry. now apply str_eqb_spec.
  Qed.
  Lemma pchar_miss : forall c (s : str) z n (w : W), (0 <= z)%Z -> hd_error (skipn (Z.to_nat z) s) <> Some c ->
    exists e, c_pchar [c] (s, z) (n, w) = (Ret (Err e), (S n, w)).
  Proof.
    intros c s z n w L H. unfold c_pchar, Base.bind, tick. cbn [fst snd]. rewrite pchar_text by exact L. destruct (skipn (Z.to_nat z) s) as [|d text]; [eauto|].
    destruct (str_eqb [d] [c]) eqn:Q; [|eauto]. apply str_eqb_spec in Q. injection Q as ->. now destruct H.
  Qed.

  (** ** pstring *)
  Lemma run_all_looks : forall m x y (s : str) z n (w : W), (0 <= z)%Z -> skipn (Z.to_nat z) s = m ++ y ->
    match x with [] => True | c :: _ => hd_error y <> Some c end ->
    fst (snd (run_all (List.map (fun c => c_pchar [c]) (m ++ x)) (s, z) (n, w))) = n + List.length m + match x with [] => 0 | _ :: _ => 1 end.
  Proof.
    induction m as [|c m IH]; intros x y s z n w L H X.
    - cbn [app] in *. destruct x as [|c x]; cbn [List.map run_all]; [cbn; lia|]. unfold Base.bind.
      destruct (pchar_miss c s z n w L) as [e ->]; [now rewrite H|]. cbn. lia.
    - cbn [app List.map run_all]. unfold Base.bind. rewrite (pchar_hit c s z (m ++ y) n w L H). apply skip_next in H; auto.
      specialize (IH x y s (z + 1)%Z (S n) w ltac:(lia) H X). destruct (run_all _ (s, (z + 1)%Z) (S n, w)) as [[r|e] [n1 w1]]; cbn [fst snd ret List.length] in *; lia.
  Qed.
  Lemma pstring_looks : forall limit m x y (p : cparser str) i w, c_pstring limit (m ++ x) = Ret p -> proper i -> rest_of i = m ++ y ->
    match x with [] => True | c :: _ => hd_error y <> Some c end ->
    looks p i w = List.length m + match x with [] => 0 | _ :: _ => 1 end.
  Proof.
    intros limit m x y p [s z] w E [P _] H X. unfold c_pstring in E. cbn [snd] in P.
    destruct (Nat.lt_ge_cases (List.length (List.map (fun c => c_pchar (W := W) [c]) (m ++ x))) limit) as [L|L].
    - destruct (sequence_ok _ _ limit L) as (q & Eq & Q). rewrite Eq in E. cbn [rbind] in E. injection E as <-.
      unfold looks, map, Base.bind. rewrite (Q (s, z) (0, w)). pose proof (run_all_looks m x y s z 0 w P H X) as R.
      destruct (run_all _ (s, z) (0, w)) as [[[[v i1]|e]|e] [n1 w1]]; exact R.
    - rewrite sequence_long in E by exact L. discriminate.
  Qed.

  (** ** any_of *)
  Lemma first_ok_hit : forall pre c post (s : str) z n e0 text (w : W), (0 <= z)%Z -> ~ In c pre -> skipn (Z.to_nat z) s = c :: text ->
    fst (snd (first_ok (List.map (fun c => c_pchar [c]) (pre ++ c :: post)) e0 (s, z) (n, w))) = n + S (List.length pre).
  Proof.
    induction pre as [|d pre IH]; intros c post s z n e0 text w L N H; cbn [app List.map first_ok List.length]; unfold Base.bind.
    - rewrite (pchar_hit c s z text n w L H). cbn. lia.
    - destruct (pchar_miss d s z n w L) as [e ->]; [rewrite H; cbn; intros [= ->]; now destruct N; left|].
      rewrite (IH c post s z (S n) e text w L); [lia| |exact H]. intros I. apply N. now right.
  Qed.
  Lemma first_ok_miss : forall cs (s : str) z n e0 (w : W), (0 <= z)%Z -> (forall c, In c cs -> hd_error (skipn (Z.to_nat z) s) <> Some c) ->
    fst (snd (first_ok (List.map (fun c => c_pchar [c]) cs) e0 (s, z) (n, w))) = n + List.length cs.
  Proof.
    induction cs as [|d cs IH]; intros s z n e0 w L N; cbn [List.map first_ok List.length]; [cbn; lia|]. unfold Base.bind.
    destruct (pchar_miss d s z n w L) as [e ->]; [apply N; now left|]. rewrite IH; [lia|exact L|]. intros c I. apply N. now right.
  Qed.
  Lemma any_of_hit : forall pre c post text (p : cparser str) i w, c_any_of (pre ++ c :: post) = Ret p -> proper i ->
    ~ In c pre -> rest_of i = c :: text -> looks p i w = S (List.length pre).
  Proof.
    intros pre c post text p [s z] w E [P _] N H. unfold c_any_of in E. cbn [snd] in P.
    assert (G : exists d ds, pre ++ c :: post = d :: ds) by (destruct pre; cbn; eauto). destruct G as (d & ds & G).
    pose proof (first_ok_hit pre c post s z 0 [] text w P N H) as F. rewrite G in E, F. cbn [List.map] in E.
    destruct (choice_pf _ (c_pchar (W := W) [d]) (List.map (fun c => c_pchar [c]) ds)) as (q & Eq & Q).
    rewrite Eq in E. injection E as <-. unfold looks. rewrite (Q [] (s, z) (0, w)). exact F.
  Qed.
  Lemma any_of_miss : forall cs (p : cparser str) i w, c_any_of cs = Ret p -> proper i ->
    (forall c, In c cs -> hd_error (rest_of i) <> Some c) -> looks p i w = List.length cs.
  Proof.
    intros [|d ds] p [s z] w E [P _] N; [discriminate|]. unfold c_any_of in E. cbn [snd] in P.
    pose proof (first_ok_miss (d :: ds) s z 0 [] w P N) as F. cbn [List.map] in E.
    destruct (choice_pf _ (c_pchar (W := W) [d]) (List.map (fun c => c_pchar [c]) ds)) as (q & Eq & Q).
    rewrite Eq in E. injection E as <-. unfold looks. rewrite (Q [] (s, z) (0, w)). exact F.
  Qed.

  (** ** nested parentheses *)
  Lemma parens_S : forall k post, parens (S k) ++ post = 40 :: parens k ++ 41 :: post.
  Proof.
    intros k post. unfold parens. cbn [repeat app]. f_equal. rewrite <- !app_assoc. f_equal. cbn [app]. f_equal.
    clear. induction k as [|k IH]; cbn; [reflexivity|]. f_equal. exact IH.
  Qed.
  Lemma parens_length : forall k, List.length (parens k) = 2 * k + 1.
  Proof. intros. unfold parens. rewrite app_length. cbn [List.length]. rewrite !repeat_length. lia. Qed.
  Lemma skip_parens : forall k post, skipn (2 * k + 1) (parens k ++ post) = post.
  Proof. intros. rewrite <- parens_length, skipn_app, skipn_all, Nat.sub_diag. reflexivity. Qed.

  Lemma term_slow : forall k limit (s : str) z post n (w : W), k < limit -> (0 <= z)%Z -> skipn (Z.to_nat z) s = parens k ++ post -> hd_error post <> Some 43 ->
    exists c, 2 ^ k <= c /\ term limit (s, z) (n, w) = (Ret (Ok ([97], (s, (z + Z.of_nat (2 * k + 1))%Z))), (n + c, w)).
  Proof.
    induction k as [|k IH]; intros [|limit] s z post n w K L H N; try lia; cbn [term].
    - cbn [parens repeat app] in H. assert (M40 : hd_error (skipn (Z.to_nat z) s) <> Some 40) by (rewrite H; discriminate).
      exists 3. split; [cbn; lia|]. unfold or_else, then_ignore, between, then_ignore, ignore_then, map, and_then, Base.bind.
      destruct (pchar_miss 40 s z n w L M40) as [e1 ->]. cbn [ret]. destruct (pchar_miss 40 s z (S n) w L M40) as [e2 ->]. cbn [ret].
      rewrite (pchar_hit 97 s z post (S (S n)) w L H). f_equal. f_equal. lia.
    - rewrite parens_S in H. assert (H1 : skipn (Z.to_nat (z + 1)) s = parens k ++ 41 :: post) by (eapply skip_next; eauto).
      assert (N1 : hd_error (41 :: post) <> Some 43) by discriminate. assert (L1 : (0 <= z + 1)%Z) by lia.
      assert (H2 : skipn (Z.to_nat (z + 1 + Z.of_nat (2 * k + 1))) s = 41 :: post) by (rewrite (skip_more _ _ _ _ L1 H1); apply skip_parens).
      set (z2 := (z + 1 + Z.of_nat (2 * k + 1))%Z) in *. assert (L2 : (0 <= z2)%Z) by (unfold z2; lia).
      assert (H3 : skipn (Z.to_nat (z2 + 1)) s = post) by (eapply skip_next; eauto). assert (L3 : (0 <= z2 + 1)%Z) by lia.
      destruct (IH limit s (z + 1)%Z (41 :: post) (S n) w ltac:(lia) L1 H1 N1) as (c1 & C1 & E1).
      destruct (IH limit s (z + 1)%Z (41 :: post) (S (S (S (S n + c1)))) w ltac:(lia) L1 H1 N1) as (c2 & C2 & E2).
      exists (S (S (S (S (S c1 + c2))))). split; [cbn [Nat.pow]; lia|].
      unfold or_else, then_ignore, between, then_ignore, ignore_then, map, and_then, Base.bind.
      rewrite (pchar_hit 40 s z _ n w L H). cbn [ret]. rewrite E1. cbn [ret fst snd]. fold z2. rewrite (pchar_hit 41 s z2 _ _ w L2 H2). cbn [ret fst snd].
      destruct (pchar_miss 43 s (z2 + 1)%Z (S (S n + c1)) w L3) as [e ->]; [now rewrite H3|]. cbn [ret].
      rewrite (pchar_hit 40 s z _ _ w L H). cbn [ret]. rewrite E2. cbn [ret fst snd]. fold z2. rewrite (pchar_hit 41 s z2 _ _ w L2 H2). cbn [ret fst snd].
      replace (z + Z.of_nat (2 * S k + 1))%Z with (z2 + 1)%Z by (unfold z2; lia). unfold ret. f_equal. f_equal. lia.
  Qed.

  (** ** nested repetitions *)
  Lemma many_a : forall k limit (s : str) z n (w : W), k < limit -> (0 <= z)%Z -> skipn (Z.to_nat z) s = repeat 97 k ->
    parse_zero_or_more limit (c_pchar [97]) (s, z) (n, w) = (Ret (repeat [97] k, (s, (z + Z.of_nat k)%Z)), (n + S k, w)).
  Proof.
    induction k as [|k IH]; intros [|limit] s z n w K L H; try lia; cbn [parse_zero_or_more repeat]; unfold Base.bind.
    - destruct (pchar_miss 97 s z n w L) as [e ->]; [now rewrite H|]. unfold ret. cbn [Z.of_nat]. rewrite Z.add_0_r. f_equal. f_equal. lia.
    - cbn [repeat] in H. rewrite (pchar_hit 97 s z _ n w L H). apply skip_next in H; auto. rewrite IH; [|lia|lia|exact H]. unfold ret, Block.cons.
      replace (z + Z.of_nat (S k))%Z with (z + 1 + Z.of_nat k)%Z by lia. f_equal. f_equal. lia.
  Qed.
  Lemma items_slow : forall k limit (s : str) z n (w : W), k < limit -> (0 <= z)%Z -> skipn (Z.to_nat z) s = repeat 97 k ->
    exists c, k * (k + 1) <= 2 * c /\ items limit (s, z) (n, w) = (Ret (Ok (repeat [97] k, (s, (z + Z.of_nat k)%Z))), (n + c, w)).
  Proof.
    intros k limit s z n w K L H. unfold items, many at 1, Base.bind at 1.
    assert (G : forall k limit0 (s : str) z n (w : W), k < limit0 -> k < limit -> (0 <= z)%Z -> skipn (Z.to_nat z) s = repeat 97 k ->
      exists c, k * (k + 1) <= 2 * c /\
        parse_zero_or_more limit0 (or_else (then_ignore (map (fun v => ret (List.concat v)) (many limit (c_pchar [97]))) (c_pchar [98])) (c_pchar [97])) (s, z) (n, w) =
        (Ret (repeat [97] k, (s, (z + Z.of_nat k)%Z)), (n + c, w))).
    { clear k s z n w K L H. induction k as [|k IH]; intros [|limit0] s z n w K0 K L H; try lia; cbn [parse_zero_or_more].
      - exists 3. split; [lia|]. unfold or_else, then_ignore, many, map, and_then, Base.bind.
        rewrite (many_a 0 limit s z n w K L H). cbn [ret Z.of_nat]. rewrite Z.add_0_r. destruct (pchar_miss 98 s z (n + 1) w L) as [e1 ->]; [now rewrite H|]. cbn [ret].
        destruct (pchar_miss 97 s z (S (n + 1)) w L) as [e2 ->]; [now rewrite H|]. unfold ret. cbn [repeat]. f_equal. f_equal. lia.
      - assert (H1 : skipn (Z.to_nat (z + 1)) s = repeat 97 k) by (cbn [repeat] in H; eapply skip_next; eauto).
        assert (H2 : skipn (Z.to_nat (z + Z.of_nat (S k))) s = []) by (rewrite (skip_more _ _ _ _ L H); apply skipn_all2; rewrite repeat_length; lia).
        destruct (IH limit0 s (z + 1)%Z (S (S (n + S (S k)))) w ltac:(lia) ltac:(lia) ltac:(lia) H1) as (c & C & E).
        exists (S (S (S (S k))) + c). split; [nia|].
        assert (I : or_else (then_ignore (map (fun v => ret (List.concat v)) (many limit (c_pchar [97]))) (c_pchar [98])) (c_pchar [97]) (s, z) (n, w) =
                    (Ret (Ok ([97], (s, (z + 1)%Z))), (S (S (n + S (S k))), w))).
        { unfold or_else, then_ignore, many, map, and_then, Base.bind. rewrite (many_a (S k) limit s z n w K L H). cbn [ret].
          destruct (pchar_miss 98 s (z + Z.of_nat (S k))%Z (n + S (S k)) w ltac:(lia)) as [e1 ->]; [now rewrite H2|]. cbn [ret].
          exact (pchar_hit 97 s z (repeat 97 k) _ w L H). }
        unfold Base.bind at 1. rewrite I. unfold Base.bind. rewrite E. unfold ret, Block.cons. cbn [repeat].
        replace (z + Z.of_nat (S k))%Z with (z + 1 + Z.of_nat k)%Z by lia. f_equal. f_equal. lia. }
    destruct (G k limit s z n w K K L H) as (c & C & E). exists c. split; [exact C|]. rewrite E. reflexivity.
  Qed.
End Exact.
