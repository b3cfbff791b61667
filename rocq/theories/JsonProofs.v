(** Reading back the pretty printed JSON. *)

From Coq Require Import List ZArith NArith Bool String Ascii Lia.
From Verif Require Import Base Num Config Writer SpecWriter TextProofs Json SpecJson.
Import ListNotations.
Local Open Scope string_scope.

(** ** The printer without inner recursion *)

Fixpoint items (n : nat) (first : bool) (l : list json) : string :=
  match l with
  | [] => ""
  | x :: t => item_sep first (S n) ++ pretty (S n) x ++ items n false t
  end.
Fixpoint pairs (n : nat) (first : bool) (l : list (string * json)) : string :=
  match l with
  | [] => ""
  | (k, x) :: t => item_sep first (S n) ++ quoted k ++ ": " ++ pretty (S n) x ++ pairs n false t
  end.

Lemma pretty_arr : forall n l, pretty n (JArr l) = "[" ++ items n true l ++ close_sep l n ++ "]".
Proof.
  intros n l. assert (G : forall l b, (fix items (first : bool) (l : list json) : string :=
      match l with [] => "" | x :: t => item_sep first (S n) ++ pretty (S n) x ++ items false t end) b l = items n b l).
  { clear. induction l as [|x l IH]; intros b; cbn [items]; [reflexivity|]. rewrite <- (IH false). reflexivity. }
  cbn [pretty]. rewrite G. reflexivity.
Qed.
Lemma pretty_obj : forall n l, pretty n (JObj l) = "{" ++ pairs n true l ++ close_sep l n ++ "}".
Proof.
  intros n l. assert (G : forall l b, (fix items (first : bool) (l : list (string * json)) : string :=
      match l with [] => "" | (k, x) :: t => item_sep first (S n) ++ quoted k ++ ": " ++ pretty (S n) x ++ items false t end) b l = pairs n b l).
  { clear. induction l as [|[k x] l IH]; intros b; cbn [pairs]; [reflexivity|]. rewrite <- (IH false). reflexivity. }
  cbn [pretty]. rewrite G. reflexivity.
Qed.

(** ** Values whose numbers are JSON numbers *)

Inductive wf : json -> Prop :=
| wf_null : wf JNull
| wf_bool : forall b, wf (JBool b)
| wf_num : forall t, json_number t = true -> wf (JNum t)
| wf_str : forall s, wf (JStr s)
| wf_arr : forall l, Forall wf l -> wf (JArr l)
| wf_obj : forall l, Forall (fun e => wf (snd e)) l -> wf (JObj l).

(** the nesting the reader needs *)
Fixpoint need (j : json) : nat :=
  match j with
  | JArr l => S ((fix go (l : list json) : nat := match l with [] => 0 | x :: t => S (Nat.max (need x) (go t)) end) l)
  | JObj l => S ((fix go (l : list (string * json)) : nat := match l with [] => 0 | (_, x) :: t => S (Nat.max (need x) (go t)) end) l)
  | _ => 1
  end.
Fixpoint need_l (l : list json) : nat := match l with [] => 0 | x :: t => S (Nat.max (need x) (need_l t)) end.
Fixpoint need_p (l : list (string * json)) : nat := match l with [] => 0 | (_, x) :: t => S (Nat.max (need x) (need_p t)) end.
Lemma need_arr : forall l, need (JArr l) = S (need_l l).
Proof. intros l. cbn [need]. f_equal. Qed.
Lemma need_obj : forall l, need (JObj l) = S (need_p l).
Proof. intros l. cbn [need]. f_equal. Qed.

(** ** Characters and white space *)

Lemma skip_indent : forall n s, skip (indent n ++ s) = skip s.
Proof. induction n as [|n IH]; intros s; [reflexivity|]. cbn [indent String.append skip]. exact (IH s). Qed.
Lemma skip_line : forall n s, skip (newline ++ indent n ++ s) = skip s.
Proof. intros n s. change (skip (newline ++ indent n ++ s)) with (skip (indent n ++ s)). apply skip_indent. Qed.

Lemma skip_idem : forall s, skip (skip s) = skip s.
Proof. induction s as [|c s IH]; [reflexivity|]. cbn [skip]. destruct (is_space c) eqn:E; [exact IH|]. cbn [skip]. rewrite E. reflexivity. Qed.

Lemma value_skip : forall n s s', skip s = skip s' -> value n s = value n s'.
Proof. intros [|n] s s' E; [reflexivity|]. cbn [value]. rewrite E. reflexivity. Qed.

(** the beginning of a text is not a character of a number *)
Definition stops (k : string) : Prop := match k with "" => True | String c _ => number_char c = false end.

(** *** Strings *)
Lemma read_escape : forall c s, read_string (escape c ++ s) = put c (read_string s).
Proof. intros [[] [] [] [] [] [] [] []] s; reflexivity. Qed.

Lemma read_escaped : forall s k, read_string (escaped s ++ String quote_char k) = Some (s, k).
Proof.
  induction s as [|c s IH]; intros k; [reflexivity|]. cbn [escaped]. rewrite app_assoc_s, read_escape, IH. reflexivity.
Qed.

Lemma quoted_app : forall s k, quoted s ++ k = String quote_char (escaped s ++ String quote_char k).
Proof. intros s k. unfold quoted. cbn [String.append]. rewrite app_assoc_s. reflexivity. Qed.

(** *** Numbers *)
Lemma digit_number_char : forall c, is_digit c = true -> number_char c = true.
Proof. intros c H. unfold number_char. rewrite H. reflexivity. Qed.

Fixpoint all_number (s : string) : bool := match s with "" => true | String c t => number_char c && all_number t end.

Lemma take_all : forall s k, all_number s = true -> stops k -> take_number (s ++ k) = (s, k).
Proof.
  induction s as [|c s IH]; intros k H K.
  - destruct k as [|c k]; [reflexivity|]. cbn [String.append take_number]. cbn in K. rewrite K. reflexivity.
  - cbn [all_number] in H. apply andb_true_iff in H. destruct H as [H1 H2]. cbn [String.append take_number]. rewrite H1, (IH k H2 K). reflexivity.
Qed.

Lemma all_drop : forall s, all_number (drop_digits s) = true -> all_number s = true.
Proof.
  induction s as [|c s IH]; [reflexivity|]. cbn [drop_digits all_number]. destruct (is_digit c) eqn:E; [|auto].
  intros H. rewrite (digit_number_char c E), (IH H). reflexivity.
Qed.

Lemma all_some : forall k s, (forall s, k s = true -> all_number s = true) -> some_digits k s = true -> all_number s = true.
Proof.
  intros k [|c s] Hk H; [reflexivity|]. cbn [some_digits] in H. apply andb_true_iff in H. destruct H as [H1 H2].
  cbn [all_number]. rewrite (digit_number_char c H1). apply all_drop, Hk, H2.
Qed.

Lemma all_end : forall s, at_end s = true -> all_number s = true.
Proof. intros [|c s] H; [reflexivity|discriminate]. Qed.

Lemma all_exponent : forall s, exponent s = true -> all_number s = true.
Proof.
  intros [|c s] H; [reflexivity|]. cbn [exponent] in H. destruct (Ascii.eqb c "e" || Ascii.eqb c "E")%bool eqn:E; [|discriminate].
  cbn [all_number]. assert (number_char c = true) as -> by (unfold number_char; apply orb_true_iff in E; destruct E as [-> | ->]; rewrite ?orb_true_r; reflexivity).
  destruct s as [|d s]; [discriminate|]. cbn [andb]. destruct (Ascii.eqb d "+" || Ascii.eqb d "-")%bool eqn:E2; [|apply (all_some at_end); [apply all_end|exact H]].
  cbn [all_number]. assert (number_char d = true) as -> by (unfold number_char; apply orb_true_iff in E2; destruct E2 as [-> | ->]; rewrite ?orb_true_r; reflexivity).
  apply (all_some at_end); [apply all_end|exact H].
Qed.

Lemma all_fraction : forall s, fraction s = true -> all_number s = true.
Proof.
  intros [|c s] H; [reflexivity|]. unfold fraction in H. destruct (Ascii.eqb c ".") eqn:E; [|apply all_exponent, H].
  cbn [all_number]. assert (number_char c = true) as -> by (unfold number_char; rewrite E, ?orb_true_r; reflexivity).
  apply (all_some exponent); [apply all_exponent|exact H].
Qed.

Lemma all_integer : forall s, integer_part s = true -> all_number s = true /\ exists c t, s = String c t /\ is_digit c = true.
Proof.
  intros [|c s] H; [discriminate|]. cbn [integer_part] in H. destruct (Ascii.eqb_spec c "0") as [->|N].
  - split; [|exists "0"%char, s; auto]. cbn [all_number]. apply (all_fraction s H).
  - apply andb_true_iff in H. destruct H as [H1 H2]. split; [|exists c, s; auto]. cbn [all_number]. rewrite (digit_number_char c H1). apply all_drop, all_fraction, H2.
Qed.

Lemma all_json_number : forall s, json_number s = true -> all_number s = true /\ exists c t, s = String c t /\ (is_digit c || Ascii.eqb c "-")%bool = true.
Proof.
  intros [|c s] H; [discriminate|]. cbn [json_number] in H. destruct (Ascii.eqb c "-") eqn:E.
  - destruct (all_integer s H) as (H1 & _). split; [|exists c, s; rewrite E, orb_true_r; auto]. cbn [all_number]. rewrite H1. unfold number_char. rewrite E, ?orb_true_r. reflexivity.
  - destruct (all_integer _ H) as (H1 & d & t & H2 & H3). split; [exact H1|]. exists d, t. rewrite H3. auto.
Qed.

(** the first character of a value *)
Definition opening (c : ascii) : Prop := is_space c = false /\ c <> "]"%char /\ c <> "}"%char.

Lemma digit_cases : forall c, is_digit c = true -> exists k, (k < 10)%nat /\ c = ascii_of_nat (48 + k).
Proof.
  intros c H. unfold is_digit, digit in H. destruct ((48 <=? N_of_ascii c) && (N_of_ascii c <=? 57))%N eqn:E; [|discriminate].
  apply andb_true_iff in E. destruct E as [E1 E2]. apply N.leb_le in E1, E2. exists (N.to_nat (N_of_ascii c - 48)). split; [lia|].
  rewrite <- (ascii_N_embedding c) at 1. unfold ascii_of_nat. f_equal. lia.
Qed.

Lemma digit_opening : forall c, (is_digit c || Ascii.eqb c "-")%bool = true -> opening c /\ Ascii.eqb c "[" = false /\ Ascii.eqb c "{" = false /\ Ascii.eqb c (ascii_of_nat 34) = false.
Proof.
  intros c H. apply orb_true_iff in H. destruct H as [H|H].
  - destruct (digit_cases c H) as (k & Hk & ->). do 10 (destruct k as [|k]; [repeat split; (reflexivity || discriminate)|]). lia.
  - apply Ascii.eqb_eq in H. subst c. repeat split; (reflexivity || discriminate).
Qed.

Lemma pretty_head : forall n j, wf j -> exists c t, pretty n j = String c t /\ opening c.
Proof.
  intros n j H. destruct H as [|[]|t H|s|l _|l _].
  1-3: (eexists; eexists; split; [reflexivity|]; repeat split; (reflexivity || discriminate)).
  - destruct (all_json_number t H) as (_ & c & u & -> & D). exists c, u. split; [reflexivity|]. apply digit_opening, D.
  - eexists; eexists; split; [reflexivity|]; repeat split; (reflexivity || discriminate).
  - rewrite pretty_arr. eexists; eexists; split; [reflexivity|]; repeat split; (reflexivity || discriminate).
  - rewrite pretty_obj. eexists; eexists; split; [reflexivity|]; repeat split; (reflexivity || discriminate).
Qed.

(** ** Reading back *)

Lemma skip_open : forall c t, is_space c = false -> skip (String c t) = String c t.
Proof. intros c t H. cbn [skip]. rewrite H. reflexivity. Qed.

Lemma items_stop : forall m l close k, stops (items m false l ++ newline ++ indent m ++ close ++ k).
Proof. intros m [|x l] close k; reflexivity. Qed.
Lemma pairs_stop : forall m l close k, stops (pairs m false l ++ newline ++ indent m ++ close ++ k).
Proof. intros m [|[q x] l] close k; reflexivity. Qed.

Lemma value_line : forall n m s, value n (newline ++ indent m ++ s) = value n s.
Proof. intros n m s. apply value_skip, skip_line. Qed.

Lemma item_first : forall n s, item_sep true n ++ s = newline ++ indent n ++ s.
Proof. reflexivity. Qed.
Lemma item_next : forall n s, item_sep false n ++ s = String "," (newline ++ indent n ++ s).
Proof. reflexivity. Qed.

(** an array or object that is not empty *)
Lemma value_arr : forall n t l k, elements n t = Some (l, k) -> (forall r, skip t <> String "]" r) -> value (S n) (String "[" t) = Some (JArr l, k).
Proof.
  intros n t l k E N. cbn [value]. rewrite skip_open by reflexivity. change (Ascii.eqb "[" "[") with true. cbn iota. rewrite E.
  destruct (skip t) as [|c r]; [reflexivity|]. destruct c as [[] [] [] [] [] [] [] []]; try reflexivity. exfalso. exact (N r eq_refl).
Qed.
Lemma value_obj : forall n t l k, members n t = Some (l, k) -> (forall r, skip t <> String "}" r) -> value (S n) (String "{" t) = Some (JObj l, k).
Proof.
  intros n t l k E N. cbn [value]. rewrite skip_open by reflexivity. change (Ascii.eqb "{" "[") with false. change (Ascii.eqb "{" "{") with true. cbn iota. rewrite E.
  destruct (skip t) as [|c r]; [reflexivity|]. destruct c as [[] [] [] [] [] [] [] []]; try reflexivity. exfalso. exact (N r eq_refl).
Qed.

Lemma reading : forall n,
  (forall j m k, wf j -> (need j <= n)%nat -> stops k -> value n (pretty m j ++ k) = Some (j, k)) /\
  (forall x l m k, Forall wf (x :: l) -> (need_l (x :: l) <= n)%nat ->
     elements n (newline ++ indent (S m) ++ pretty (S m) x ++ items m false l ++ newline ++ indent m ++ "]" ++ k) = Some (x :: l, k)) /\
  (forall q x l m k, Forall (fun e => wf (snd e)) ((q, x) :: l) -> (need_p ((q, x) :: l) <= n)%nat ->
     members n (newline ++ indent (S m) ++ quoted q ++ ": " ++ pretty (S m) x ++ pairs m false l ++ newline ++ indent m ++ "}" ++ k) = Some ((q, x) :: l, k)).
Proof.
  induction n as [|n (IHv & IHe & IHm)].
  { split; [|split].
    - intros j m k _ H. destruct j; cbn in H; lia.
    - intros x l m k _ H. cbn in H. lia.
    - intros q x l m k _ H. cbn in H. lia. }
  split; [|split].
  - intros j m k W Hn K. destruct W as [|[]|t H|s|l H|l H].
    1-3: reflexivity.
    + destruct (all_json_number t H) as (H1 & c & u & E & D). destruct (digit_opening c D) as ((O1 & _) & O2 & O3 & O4).
      cbn [pretty]. pose proof (take_all t k H1 K) as T. rewrite E in *. cbn [String.append] in *. cbn [value]. rewrite (skip_open c _ O1), O2, O3, O4, D, T, H. reflexivity.
    + cbn [pretty]. rewrite quoted_app. cbn [value]. rewrite skip_open by reflexivity. change (Ascii.eqb quote_char "[") with false. change (Ascii.eqb quote_char "{") with false.
      change (Ascii.eqb quote_char (ascii_of_nat 34)) with true. cbn iota. rewrite read_escaped. reflexivity.
    + rewrite need_arr in Hn. rewrite pretty_arr. destruct l as [|x l]; [reflexivity|]. cbn [items close_sep]. rewrite !app_assoc_s, item_first.
      change ("[" ++ ?s) with (String "[" s). apply value_arr; [apply (IHe x l m k H); lia|].
      rewrite skip_line. inversion H as [|? ? Wx Wl]; subst. destruct (pretty_head (S m) x Wx) as (c & u & -> & O1 & O2 & O3).
      cbn [String.append]. rewrite (skip_open c _ O1). congruence.
    + rewrite need_obj in Hn. rewrite pretty_obj. destruct l as [|[q x] l]; [reflexivity|]. cbn [pairs close_sep]. rewrite !app_assoc_s, item_first.
      change ("{" ++ ?s) with (String "{" s). apply value_obj; [apply (IHm q x l m k H); lia|].
      rewrite skip_line, quoted_app, skip_open by reflexivity. discriminate.
  - intros x l m k W Hn. cbn [need_l] in Hn. inversion W as [|? ? Wx Wl]; subst. cbn [elements]. rewrite value_line.
    rewrite (IHv x (S m) _ Wx ltac:(lia) (items_stop m l "]" k)).
    destruct l as [|y l].
    + cbn [items String.append]. rewrite skip_line. reflexivity.
    + cbn [items]. rewrite !app_assoc_s, item_next, skip_open by reflexivity. cbn iota. rewrite (IHe y l m k Wl) by (cbn [need_l] in *; lia). reflexivity.
  - intros q x l m k W Hn. cbn [need_p] in Hn. inversion W as [|? ? Wx Wl]; subst. cbn [snd] in Wx. cbn [members]. rewrite skip_line, quoted_app, (skip_open quote_char) by reflexivity.
    change (Ascii.eqb quote_char (ascii_of_nat 34)) with true. cbn iota. rewrite read_escaped. change (": " ++ ?s) with (String ":" (String " " s)). rewrite (skip_open ":") by reflexivity. cbn iota.
    rewrite (value_skip n (String " " _) (pretty (S m) x ++ pairs m false l ++ newline ++ indent m ++ "}" ++ k)) by reflexivity.
    rewrite (IHv x (S m) _ Wx ltac:(lia) (pairs_stop m l "}" k)).
    destruct l as [|[q' y] l].
    + cbn [pairs String.append]. rewrite skip_line. reflexivity.
    + cbn [pairs]. rewrite !app_assoc_s, item_next, skip_open by reflexivity. cbn iota. rewrite (IHm q' y l m k Wl) by (cbn [need_p] in *; lia). reflexivity.
Qed.

(** the length of the text bounds the nesting *)
Lemma need_length : forall N j n, (need j <= N)%nat -> wf j -> (need j <= 4 * String.length (pretty n j))%nat.
Proof.
  induction N as [|N IH]; intros j n HN W.
  { destruct j; cbn in HN; lia. }
  assert (L : forall b m, (1 <= String.length (item_sep b m))%nat).
  { intros [] m; unfold item_sep; rewrite length_app_s; cbn; lia. }
  destruct W as [|[]|t H|s|l H|l H]; try (cbn; lia).
  - destruct (all_json_number t H) as (_ & c & u & -> & _). cbn. lia.
  - rewrite need_arr in *. rewrite pretty_arr, !length_app_s. change (String.length "[") with 1%nat. change (String.length "]") with 1%nat.
    assert (G : forall b, (need_l l <= 4 * String.length (items n b l))%nat); [|specialize (G true); lia].
    apply le_S_n in HN. revert HN. induction H as [|x l Wx Wl IHl]; intros HN b; cbn [need_l items] in *; [lia|].
    rewrite !length_app_s. specialize (IHl ltac:(lia) false). specialize (IH x (S n) ltac:(lia) Wx). specialize (L b (S n)). lia.
  - rewrite need_obj in *. rewrite pretty_obj, !length_app_s. change (String.length "{") with 1%nat. change (String.length "}") with 1%nat.
    assert (G : forall b, (need_p l <= 4 * String.length (pairs n b l))%nat); [|specialize (G true); lia].
    apply le_S_n in HN. revert HN. induction H as [|[q x] l Wx Wl IHl]; intros HN b; cbn [need_p pairs snd] in *; [lia|].
    rewrite !length_app_s. specialize (IHl ltac:(lia) false). specialize (IH x (S n) ltac:(lia) Wx). specialize (L b (S n)). lia.
Qed.

(** What is printed is read back. *)
Theorem read_pretty : forall j, wf j -> read_json (pretty 0 j) = Some j.
Proof.
  intros j W. unfold read_json. pose proof (need_length (need j) j 0 (le_n _) W) as L.
  destruct (reading (4 * String.length (pretty 0 j))) as (R & _). specialize (R j 0%nat "" W L Logic.I). rewrite app_nil_s in R. rewrite R. reflexivity.
Qed.
