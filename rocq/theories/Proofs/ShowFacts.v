(** Lemmas for C92. *)
From Coq Require Import List Bool ZArith Arith Ascii String Lia OrderedTypeEx.
From Verif.Model Require Import Base PyList MapTree Map Show.
From Verif.Model Require Block.
From Verif.Spec Require Import ListM TextSpec MapSpec.
From Verif.Proofs Require Import BlockFacts MapTreeFacts MapFacts MapMain.
Import ListNotations.
Local Open Scope string_scope.
Local Open Scope py_scope.

Lemma join_concat : forall sep l, join sep l = String.concat sep l.
Proof. intros sep l. induction l as [|x l IH]; auto. Qed.

Lemma block_text_pf : forall {W A} (str : A -> M W string) (xs : list A) w,
  fst (mapM str xs w) <> Raise StopIterationExn ->
  block_str str xs w = (do ts <- mapM str xs; ret ("[" ++ String.concat ", " ts ++ "]")) w.
Proof.
  intros W A str xs w H. unfold block_str, bind at 1 2. rewrite (map_mapM xs str w H).
  destruct (mapM str xs w) as [[ts|e] w1]; reflexivity.
Qed.
Lemma array_text_pf : forall {W A} (str : A -> M W string) (xs : list A) w,
  fst (mapM str xs w) <> Raise StopIterationExn ->
  array_str str xs w = (do ts <- mapM str xs; ret ("[|" ++ String.concat ", " ts ++ "|]")) w.
Proof.
  intros W A str xs w H. unfold array_str, bind at 1 2.
  pose proof (map_mapM xs str w H) as E. unfold Block.map in E. rewrite E.
  destruct (mapM str xs w) as [[ts|e] w1]; reflexivity.
Qed.

(** strings *)
Lemma app_cancel_r : forall a b c : string, a ++ c = b ++ c -> a = b.
Proof.
  assert (L : forall a b : string, String.length (a ++ b) = String.length a + String.length b).
  { induction a as [|x a IH]; intros b; simpl; auto. }
  induction a as [|x a IH]; intros [|y b] c E; simpl in *; auto.
  - exfalso. apply (f_equal String.length) in E. simpl in E. rewrite L in E. lia.
  - exfalso. apply (f_equal String.length) in E. simpl in E. rewrite L in E. lia.
  - injection E as -> E. f_equal. eauto.
Qed.
Lemma app_nil_r_s : forall a : string, a ++ "" = a.
Proof. induction a; simpl; congruence. Qed.
Lemma app_assoc_s : forall a b c : string, a ++ (b ++ c) = (a ++ b) ++ c.
Proof. induction a; simpl; congruence. Qed.

Lemma occurs_cons : forall sub c s, occurs sub s -> occurs sub (String c s).
Proof. intros sub c s (a & b & ->). exists (String c a), b. auto. Qed.
Lemma occurs_here : forall sub s, occurs sub (sub ++ s).
Proof. intros. exists "", s. auto. Qed.

(** a separator of two different characters *)
Section Sep.
  Variables c1 c2 : ascii.
  Hypothesis D : c1 <> c2.
  Notation sep := (String c1 (String c2 "")).

  Lemma split_unique : forall t t' r r', ~ occurs sep t -> ~ occurs sep t' ->
    t ++ sep ++ r = t' ++ sep ++ r' -> t = t' /\ r = r'.
  Proof.
    induction t as [|c t IH]; intros [|c' t'] r r' N N' E; simpl in E.
    - injection E as E. auto.
    - injection E as -> E. destruct t' as [|d t']; simpl in E; injection E as E1 E.
      + congruence.
      + subst. exfalso. apply N'. exists "", t'. auto.
    - injection E as -> E. destruct t as [|d t]; simpl in E; injection E as E1 E.
      + congruence.
      + subst. exfalso. apply N. exists "", t. auto.
    - injection E as -> E. destruct (IH t' r r') as [-> ->]; auto.
      + intros O. now apply N, occurs_cons.
      + intros O. now apply N', occurs_cons.
  Qed.

  Lemma concat_unique : forall ts ts', (forall t, In t ts \/ In t ts' -> t <> "" /\ ~ occurs sep t) ->
    String.concat sep ts = String.concat sep ts' -> ts = ts'.
  Proof.
    induction ts as [|t ts IH]; intros [|t' ts'] H E; auto.
    - exfalso. destruct (H t' ltac:(right; left; auto)) as [Ne _]. simpl in E. destruct ts'; destruct t'; simpl in E; congruence.
    - exfalso. destruct (H t ltac:(left; left; auto)) as [Ne _]. simpl in E. destruct ts; destruct t; simpl in E; congruence.
    - destruct (H t ltac:(left; left; auto)) as [_ O]. destruct (H t' ltac:(right; left; auto)) as [_ O'].
      destruct ts as [|u ts], ts' as [|u' ts'].
      + simpl in E. now subst.
      + exfalso. apply O. exists t', (String.concat sep (u' :: ts')). exact E.
      + exfalso. apply O'. exists t, (String.concat sep (u :: ts)). symmetry. exact E.
      + change (t ++ sep ++ String.concat sep (u :: ts) = t' ++ sep ++ String.concat sep (u' :: ts')) in E.
        apply split_unique in E; auto. destruct E as [-> E]. f_equal. apply IH; auto.
        intros x [I|I]; apply H; [left|right]; right; auto.
  Qed.

  Lemma free_peel : forall c s, c <> c1 -> ~ occurs sep s -> ~ occurs sep (String c s).
  Proof.
    intros c s Nc N (a & b & E). destruct a as [|x a]; simpl in E; injection E as E1 E.
    - congruence.
    - apply N. exists a, b. auto.
  Qed.
  Lemma free_app : forall a q s, q <> c2 -> ~ occurs sep a -> ~ occurs sep (String q s) -> ~ occurs sep (a ++ String q s).
  Proof.
    induction a as [|c a IH]; intros q s Nq Na Ns O; simpl in O; [auto|].
    destruct O as (x & y & E). destruct x as [|d x]; simpl in E; injection E as E1 E.
    - destruct a as [|e a]; simpl in E; injection E as E2 E; [congruence|]. subst. apply Na. exists "", a. auto.
    - apply (IH q s Nq); auto.
      + intros O. now apply Na, occurs_cons.
      + exists x, y. auto.
  Qed.
End Sep.

Lemma char_split : forall c t t' r r', ~ occurs (String c "") t -> ~ occurs (String c "") t' ->
  t ++ String c r = t' ++ String c r' -> t = t' /\ r = r'.
Proof.
  induction t as [|a t IH]; intros [|a' t'] r r' N N' E; simpl in E.
  - injection E as E. auto.
  - injection E as -> E. exfalso. apply N'. exists "", t'. auto.
  - injection E as -> E. exfalso. apply N. exists "", t. auto.
  - injection E as -> E. destruct (IH t' r r') as [-> ->]; auto.
    + intros O. now apply N, occurs_cons.
    + intros O. now apply N', occurs_cons.
Qed.

Section Items.
  Context {K V : Type}.
  Variables (is_str : K -> bool) (kstr : K -> string) (vstr : V -> string).
  Notation item := (to_str is_str kstr vstr).

  Definition good_key (k : K) : Prop :=
    ~ occurs "; " (kstr k) /\
    (if is_str k then ~ occurs """" (kstr k) else ~ occurs ", " (kstr k) /\ ~ starts_with """" (kstr k)).

  Lemma item_free : forall k v, good_key k -> ~ occurs "; " (vstr v) -> ~ occurs "; " (item (k, v)).
  Proof.
    intros k v [Gk _] Gv. unfold to_str.
    assert (Fv : ~ occurs "; " (vstr v ++ ")")).
    { apply free_app; try congruence; auto. apply free_peel; [congruence|]. intros (a & b & E). destruct a; discriminate. }
    destruct (is_str k); cbn [append].
    - apply free_peel; [congruence|]. apply free_peel; [congruence|]. apply free_app; [congruence|auto|].
      apply free_peel; [congruence|]. apply free_peel; [congruence|]. apply free_peel; [congruence|]. auto.
    - apply free_peel; [congruence|]. apply free_app; [congruence|auto|].
      apply free_peel; [congruence|]. apply free_peel; [congruence|]. auto.
  Qed.

  Lemma item_inj : forall k v k' v', good_key k -> good_key k' -> item (k, v) = item (k', v') ->
    is_str k = is_str k' /\ kstr k = kstr k' /\ vstr v = vstr v'.
  Proof.
    intros k v k' v' [_ G] [_ G'] E. unfold to_str in E.
    destruct (is_str k), (is_str k'); cbn [append] in E.
    - injection E as E. apply char_split in E; auto. destruct E as [E1 E]. injection E as E. apply app_cancel_r in E. auto.
    - exfalso. injection E as E. apply (proj2 G').
      destruct (kstr k') as [|c s]; cbn [append] in E; [discriminate|]. injection E as <- _. exists s. auto.
    - exfalso. injection E as E. apply (proj2 G).
      destruct (kstr k) as [|c s]; cbn [append] in E; [discriminate|]. injection E as -> _. exists s. auto.
    - injection E as E. destruct G as [G _], G' as [G' _].
      apply (split_unique "," " ") in E; auto; [|congruence]. destruct E as [E1 E]. apply app_cancel_r in E. auto.
  Qed.
End Items.

Section MapText.
  Context {K V : Type} {KO : KeyOrd K}.
  Variables (is_str : K -> bool) (kstr : K -> string) (vstr : V -> string).

  Lemma map_text_pf : forall (m : tree K V) n fuel, List.length (elements m) < n -> depth m + 2 <= fuel ->
    map_str (to_str is_str kstr vstr) n fuel m =
    Ret ("map [" ++ String.concat "; " (List.map (to_str is_str kstr vstr) (elements m)) ++ "]").
  Proof. intros m n fuel Hn Hf. unfold map_str. rewrite to_seq_ok by auto. cbn [rmap]. now rewrite join_concat. Qed.

  Lemma item_nonempty : forall x, to_str is_str kstr vstr x <> "".
  Proof. intros [k v]. unfold to_str. destruct (is_str k); discriminate. Qed.

  Lemma map_text_unique : forall l1 l2 : list (K * V),
    (forall k v, In (k, v) l1 \/ In (k, v) l2 -> good_key is_str kstr k /\ ~ occurs "; " (vstr v)) ->
    String.concat "; " (List.map (to_str is_str kstr vstr) l1) = String.concat "; " (List.map (to_str is_str kstr vstr) l2) ->
    List.map (fun x => (kstr (fst x), vstr (snd x))) l1 = List.map (fun x => (kstr (fst x), vstr (snd x))) l2.
  Proof.
    intros l1 l2 H E. apply (concat_unique ";" " ") in E; [|congruence|].
    - revert l2 H E. induction l1 as [|[k v] l1 IH]; intros [|[k' v'] l2] H E; try discriminate; auto.
      cbn [List.map] in E. injection E as E1 E.
      destruct (H k v ltac:(left; left; auto)) as [G _]. destruct (H k' v' ltac:(right; left; auto)) as [G' _].
      destruct (item_inj is_str kstr vstr k v k' v' G G' E1) as (_ & Ek & Ev).
      cbn [List.map fst snd]. rewrite Ek, Ev. f_equal. apply IH; auto. intros a b [I|I]; apply H; [left|right]; right; auto.
    - intros t Ht. assert (I : exists x, t = to_str is_str kstr vstr x /\ (In x l1 \/ In x l2)).
      { destruct Ht as [I|I]; apply in_map_iff in I; destruct I as (x & <- & I); eauto. }
      destruct I as ([k v] & -> & I). destruct (H k v I) as [Gk Gv]. split; [apply item_nonempty|]. now apply item_free.
  Qed.
End MapText.

Lemma block_stop_pf : forall {W A} (str : A -> M W string) (x : A) xs w,
  fst (str x w) = Raise StopIterationExn -> fst (block_str str (x :: xs) w) = Ret "[]".
Proof.
  intros W A str x xs w E. unfold block_str, Block.map, bind, for_calls. destruct (str x w) as [r w1]. cbn in E. subst r. reflexivity.
Qed.

Lemma mapM_pure : forall {W A B} (f : A -> B) xs (w : W), mapM (fun x => ret (f x)) xs w = (Ret (List.map f xs), w).
Proof. intros W A B f xs w. induction xs as [|x xs IH]; simpl; auto. unfold bind, ret in *. now rewrite IH. Qed.

Lemma block_determined_pf : forall {W A} (show : A -> string) (xs ys : list A) (w : W),
  (forall x, In x xs \/ In x ys -> show x <> "" /\ ~ occurs ", " (show x)) ->
  (block_str (fun x => ret (show x)) xs w = block_str (fun x => ret (show x)) ys w \/
   array_str (fun x => ret (show x)) xs w = array_str (fun x => ret (show x)) ys w) ->
  List.map show xs = List.map show ys.
Proof.
  intros W A show xs ys w H E.
  assert (E' : String.concat ", " (List.map show xs) = String.concat ", " (List.map show ys)).
  { destruct E as [E|E].
    - rewrite !block_text_pf in E by (rewrite mapM_pure; discriminate). unfold bind in E. rewrite !mapM_pure in E.
      cbn [ret append] in E. injection E as E. now apply app_cancel_r in E.
    - rewrite !array_text_pf in E by (rewrite mapM_pure; discriminate). unfold bind in E. rewrite !mapM_pure in E.
      cbn [ret append] in E. injection E as E. now apply app_cancel_r in E. }
  apply (concat_unique "," " ") in E'; [exact E'|congruence|].
  intros t Ht. assert (I : exists x, t = show x /\ (In x xs \/ In x ys)).
  { destruct Ht as [I|I]; apply in_map_iff in I; destruct I as (x & <- & I); eauto. }
  destruct I as (x & -> & I). auto.
Qed.

Lemma map_text_spec_pf : forall {K V} {KO : KeyOrd K} (is_str : K -> bool) (kstr : K -> string) (vstr : V -> string)
    (m : tree K V) n fuel, len m < n -> depth m + 2 <= fuel ->
  map_str (to_str is_str kstr vstr) n fuel m =
  Ret ("map [" ++ String.concat "; "
         (List.map (fun kv => let q := if is_str (fst kv) then """" else "" in
                              "(" ++ q ++ kstr (fst kv) ++ q ++ ", " ++ vstr (snd kv) ++ ")") (to_list m)) ++ "]").
Proof.
  intros K V KO is_str kstr vstr m n fuel Hn Hf. rewrite map_text_pf; auto.
  - rewrite to_list_elements. do 4 f_equal. apply map_ext. intros [k v]. unfold to_str. cbn [fst snd].
    destruct (is_str k); reflexivity.
  - unfold len in Hn. now rewrite size_elements in Hn.
Qed.

Lemma map_determined_pf : forall {K V} {KO : KeyOrd K} (is_str : K -> bool) (kstr : K -> string) (vstr : V -> string)
    (m1 m2 : tree K V) n fuel,
  len m1 < n -> len m2 < n -> depth m1 + 2 <= fuel -> depth m2 + 2 <= fuel ->
  (forall k k', kstr k = kstr k' -> k = k') -> (forall v v', vstr v = vstr v' -> v = v') ->
  (forall k v, In (k, v) (to_list m1) \/ In (k, v) (to_list m2) ->
     ~ occurs "; " (kstr k) /\ ~ occurs "; " (vstr v) /\
     (if is_str k then ~ occurs """" (kstr k) else ~ occurs ", " (kstr k) /\ ~ starts_with """" (kstr k))) ->
  map_str (to_str is_str kstr vstr) n fuel m1 = map_str (to_str is_str kstr vstr) n fuel m2 ->
  to_list m1 = to_list m2.
Proof.
  intros K V KO is_str kstr vstr m1 m2 n fuel N1 N2 F1 F2 Ik Iv G E.
  unfold len in N1, N2. rewrite size_elements in N1, N2. rewrite !map_text_pf in E by auto.
  rewrite !to_list_elements in *. injection E as E. apply app_cancel_r in E.
  apply map_text_unique in E.
  - revert E. generalize (elements m1) (elements m2). induction l as [|[k v] l IH]; intros [|[k' v'] l'] E; try discriminate; auto.
    cbn in E. injection E as Ek Ev E. f_equal; auto. f_equal; auto.
  - intros k v I. destruct (G k v I) as (A & B & C). split; auto. split; auto.
Qed.

Lemma string_key_pf : forall a b c : string,
  (String.eqb a b = true <-> String.ltb a b = false /\ String.ltb b a = false) /\
  String.ltb a a = false /\
  (String.ltb a b = true -> String.ltb b c = true -> String.ltb a c = true).
Proof.
  intros a b c. assert (R : forall x, String.compare x x = Eq) by (intros x; now apply String_as_OT.cmp_eq).
  unfold String.ltb. split; [|split].
  - rewrite String.eqb_eq, (String.compare_antisym b a). split.
    + intros ->. now rewrite R.
    + destruct (String.compare a b) eqn:E; cbn; intros [H1 H2]; try discriminate. now apply String.compare_eq_iff.
  - now rewrite R.
  - destruct (String.compare a b) eqn:E1; try discriminate. destruct (String.compare b c) eqn:E2; try discriminate.
    intros _ _. apply String_as_OT.cmp_lt in E1. apply String_as_OT.cmp_lt in E2.
    pose proof (String_as_OT.lt_trans _ _ _ E1 E2) as T. apply String_as_OT.cmp_lt in T.
    change (String_as_OT.cmp a c) with (String.compare a c) in T. now rewrite T.
Qed.
