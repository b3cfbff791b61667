(** Lemmas about texts: numbers, padding, splitting. *)

From Coq Require Import List ZArith NArith Bool String Ascii Lia Decimal DecimalString DecimalN DecimalPos DecimalFacts.
From Verif Require Import Base Num Config Mesh State NumFlux Time Writer SpecWriter.
Import ListNotations.
Local Open Scope string_scope.

(** ** Strings *)
Lemma app_assoc_s : forall a b c : string, (a ++ b) ++ c = a ++ (b ++ c).
Proof. induction a; intros; cbn; [reflexivity|]. rewrite IHa. reflexivity. Qed.
Lemma app_nil_s : forall a : string, a ++ "" = a.
Proof. induction a; cbn; [reflexivity|]. rewrite IHa. reflexivity. Qed.
Lemma length_app_s : forall a b, String.length (a ++ b) = (String.length a + String.length b)%nat.
Proof. induction a; intros; cbn; [reflexivity|]. rewrite IHa. reflexivity. Qed.
Lemma app_inv_head_s : forall a b c : string, a ++ b = a ++ c -> b = c.
Proof. induction a; intros b c H; [exact H|]. cbn in H. injection H as H. apply IHa. exact H. Qed.
Lemma app_inv_s : forall a b c d : string, String.length a = String.length b -> a ++ c = b ++ d -> a = b /\ c = d.
Proof.
  induction a; intros [|x b] c d L H; cbn in *; try discriminate; [auto|]. injection H as -> H. injection L as L. destruct (IHa _ _ _ L H) as [-> ->]. auto.
Qed.
Lemma app_inv_tail_s : forall a b c : string, a ++ c = b ++ c -> a = b.
Proof.
  intros a b c H. assert (L : String.length a = String.length b). { apply (f_equal String.length) in H. rewrite !length_app_s in H. lia. }
  apply (app_inv_s _ _ _ _ L H).
Qed.
Lemma length_repeat_char : forall c n, String.length (repeat_char c n) = n.
Proof. induction n; cbn; auto. Qed.
Lemma length_pad : forall c w s, String.length (pad_left c w s) = Nat.max w (String.length s).
Proof. intros. unfold pad_left. rewrite length_app_s, length_repeat_char. lia. Qed.

Fixpoint last_char (s : string) : option ascii :=
  match s with EmptyString => None | String c EmptyString => Some c | String _ t => last_char t end.
Lemma last_char_app : forall a b, b <> "" -> last_char (a ++ b) = last_char b.
Proof.
  induction a as [|x a IH]; intros b H; [reflexivity|]. cbn. rewrite IH by exact H. destruct (a ++ b) eqn:E; [|reflexivity].
  destruct a; [|discriminate]. cbn in E. subst b. congruence.
Qed.

(** ** Comparison *)
Lemma ascii_compare_refl : forall a, Ascii.compare a a = Eq.
Proof. intros a. unfold Ascii.compare. apply N.compare_refl. Qed.
Lemma compare_refl_s : forall a, String.compare a a = Eq.
Proof. induction a; cbn; [reflexivity|]. rewrite ascii_compare_refl. exact IHa. Qed.
Lemma compare_app_l : forall a b c, String.compare (a ++ b) (a ++ c) = String.compare b c.
Proof. induction a; intros; cbn; [reflexivity|]. rewrite ascii_compare_refl. apply IHa. Qed.
Lemma compare_app_r : forall a b c, String.length a = String.length b -> String.compare (a ++ c) (b ++ c) = String.compare a b.
Proof.
  induction a; intros [|x b] c L; cbn in *; try discriminate; [apply compare_refl_s|].
  destruct (Ascii.compare a x); auto.
Qed.

(** ** Reading numbers *)
Lemma number_bounds : forall s acc v, number acc s = Some v ->
  (acc * 10 ^ N.of_nat (String.length s) <= v < (acc + 1) * 10 ^ N.of_nat (String.length s))%N.
Proof.
  induction s as [|c s IH]; intros acc v H; cbn [number String.length] in *.
  - injection H as <-. cbn. lia.
  - destruct (digit c) as [d|] eqn:D; [|discriminate]. apply IH in H.
    assert (Hd : (d <= 9)%N). { unfold digit in D. destruct ((48 <=? N_of_ascii c)%N && (N_of_ascii c <=? 57)%N) eqn:B; [|discriminate]. injection D as <-. apply andb_true_iff in B. destruct B as [B1 B2]. apply N.leb_le in B1, B2. lia. }
    rewrite Nat2N.inj_succ, N.pow_succ_r'. set (P := (10 ^ N.of_nat (String.length s))%N) in *. nia.
Qed.

Lemma digit_inv : forall c d, digit c = Some d -> N_of_ascii c = (48 + d)%N.
Proof.
  intros c d H. unfold digit in H. destruct ((48 <=? N_of_ascii c)%N && (N_of_ascii c <=? 57)%N) eqn:B; [|discriminate]. injection H as <-.
  apply andb_true_iff in B. destruct B as [B1 B2]. apply N.leb_le in B1, B2. lia.
Qed.

Lemma number_compare : forall s t acc v w, String.length s = String.length t -> number acc s = Some v -> number acc t = Some w ->
  String.compare s t = N.compare v w.
Proof.
  induction s as [|c s IH]; intros [|e t] acc v w L Hv Hw; cbn in L; try discriminate.
  - cbn in *. injection Hv as <-. injection Hw as <-. symmetry. apply N.compare_refl.
  - injection L as L. cbn [number String.compare] in *. destruct (digit c) as [d|] eqn:D; [|discriminate]. destruct (digit e) as [d'|] eqn:D'; [|discriminate].
    unfold Ascii.compare. rewrite (digit_inv _ _ D), (digit_inv _ _ D').
    destruct (N.compare_spec (48 + d) (48 + d')) as [Q|Q|Q].
    + assert (d = d') by lia. subst d'. eapply IH; eauto.
    + apply number_bounds in Hv, Hw. rewrite L in Hv. symmetry. apply N.compare_lt_iff. set (P := (10 ^ N.of_nat (String.length t))%N) in *. nia.
    + apply number_bounds in Hv, Hw. rewrite L in Hv. symmetry. apply N.compare_gt_iff. set (P := (10 ^ N.of_nat (String.length t))%N) in *. nia.
Qed.

Lemma number_zeros : forall k s, number 0 (repeat_char "0" k ++ s) = number 0 s.
Proof. induction k; intros s; cbn; auto. Qed.

(** ** Decimal numbers *)
Lemma number_uint_acc : forall d acc, number (Npos acc) (NilEmpty.string_of_uint d) = Some (Npos (Pos.of_uint_acc d acc)).
Proof.
  induction d; intros acc; cbn [NilEmpty.string_of_uint number Pos.of_uint_acc]; try reflexivity.
  all: match goal with |- context [digit ?c] => let r := eval vm_compute in (digit c) in change (digit c) with r end; cbv iota beta.
  all: rewrite <- IHd; f_equal; try lia.
Qed.

Lemma number_uint : forall d, number 0 (NilEmpty.string_of_uint d) = Some (Pos.of_uint d).
Proof.
  induction d; cbn [NilEmpty.string_of_uint number Pos.of_uint]; try reflexivity.
  all: match goal with |- context [digit ?c] => let r := eval vm_compute in (digit c) in change (digit c) with r end; cbv iota beta.
  1: exact IHd.
  all: apply number_uint_acc.
Qed.

Lemma number_dec : forall n, number 0 (dec n) = Some n.
Proof. intros n. unfold dec. rewrite number_uint. f_equal. exact (DecimalN.Unsigned.of_to n). Qed.

Lemma uint_norm : forall n, exists d, N.to_uint n = d /\ (d = D0 Nil \/ (d <> Nil /\ forall l, d <> D0 l)).
Proof.
  intros n. exists (N.to_uint n). split; [reflexivity|].
  assert (H : N.to_uint n = unorm (N.to_uint n)). { rewrite <- (DecimalN.Unsigned.of_to n) at 1. apply DecimalN.Unsigned.to_of. }
  rewrite H. clear H. generalize (N.to_uint n). intros d. unfold unorm. destruct (nzhead d) eqn:E; [left; reflexivity|right; split; [discriminate|]..]; try discriminate.
  exfalso. exact (nzhead_nonzero _ _ E).
Qed.

Lemma dec_nonempty : forall n, dec n <> "".
Proof. intros n. unfold dec. destruct (uint_norm n) as (d & -> & [->|(H & _)]); [discriminate|]. destruct d; try discriminate. congruence. Qed.

Lemma reads_dec : forall n, reads (dec n) n.
Proof. intros n. split; [apply dec_nonempty|apply number_dec]. Qed.

Lemma dec_lower : forall n, n <> 0%N -> (10 ^ N.of_nat (String.length (dec n) - 1) <= n)%N.
Proof.
  intros n Hn. pose proof (number_dec n) as H. unfold dec in *. destruct (uint_norm n) as (d & E & C). rewrite E in *.
  destruct C as [->|(C1 & C2)]; [cbn in H; congruence|].
  destruct d as [|l|l|l|l|l|l|l|l|l|l]; [congruence|exfalso; apply (C2 l); reflexivity|..]; cbn [NilEmpty.string_of_uint number String.length] in *.
  all: match type of H with context [digit ?c] => let r := eval vm_compute in (digit c) in change (digit c) with r in H end; cbv iota beta in H.
  all: apply number_bounds in H; rewrite Nat.sub_succ, Nat.sub_0_r; set (P := (10 ^ N.of_nat (String.length (NilEmpty.string_of_uint l)))%N) in *; nia.
Qed.

Lemma dec_upper : forall n, (n < 10 ^ N.of_nat (String.length (dec n)))%N.
Proof. intros n. pose proof (number_bounds _ _ _ (number_dec n)). lia. Qed.

Lemma dec_length_mono : forall n k, (n <= k)%N -> (String.length (dec n) <= String.length (dec k))%nat.
Proof.
  intros n k H. destruct (N.eq_dec n 0) as [->|Hn].
  - cbn. pose proof (dec_nonempty k). destruct (dec k); [congruence|]. cbn. lia.
  - pose proof (dec_lower n Hn) as L. pose proof (dec_upper k) as U.
    assert (10 ^ N.of_nat (String.length (dec n) - 1) < 10 ^ N.of_nat (String.length (dec k)))%N by lia.
    apply N.pow_lt_mono_r_iff in H0; lia.
Qed.

Lemma number_pad : forall w n, number 0 (pad_left "0" w (dec n)) = Some n.
Proof. intros. unfold pad_left. rewrite number_zeros. apply number_dec. Qed.

Lemma pad_inj : forall w n k, pad_left "0" w (dec n) = pad_left "0" w (dec k) -> n = k.
Proof. intros w n k H. pose proof (number_pad w n) as H1. rewrite H, number_pad in H1. congruence. Qed.

Lemma pad_compare : forall n k mx, (n <= mx)%N -> (k <= mx)%N ->
  String.compare (pad_left "0" (String.length (dec mx)) (dec n)) (pad_left "0" (String.length (dec mx)) (dec k)) = N.compare n k.
Proof.
  intros n k mx Hn Hk. apply (number_compare _ _ 0); try apply number_pad.
  rewrite !length_pad. pose proof (dec_length_mono _ _ Hn). pose proof (dec_length_mono _ _ Hk). lia.
Qed.

(** ** Splitting *)
Fixpoint no_char (c : ascii) (s : string) : Prop :=
  match s with EmptyString => True | String d t => d <> c /\ no_char c t end.

Lemma no_char_app : forall c a b, no_char c (a ++ b) <-> no_char c a /\ no_char c b.
Proof. intros c. induction a; intros b; cbn; [tauto|]. rewrite IHa. tauto. Qed.

Lemma split_none : forall c s, no_char c s -> split c s = [s].
Proof.
  intros c. induction s as [|d s IH]; intros H; [reflexivity|]. cbn in *. destruct H as [H1 H2].
  destruct (Ascii.eqb_spec d c); [contradiction|]. rewrite IH by exact H2. reflexivity.
Qed.

Lemma split_nonempty : forall c s, split c s <> [].
Proof. intros c [|d s]; cbn; [discriminate|]. destruct (Ascii.eqb d c); [discriminate|]. destruct (split c s); discriminate. Qed.

Lemma split_app : forall c a b, no_char c a -> split c (a ++ String c b) = a :: split c b.
Proof.
  intros c. induction a as [|d a IH]; intros b H; cbn in *.
  - rewrite Ascii.eqb_refl. reflexivity.
  - destruct H as [H1 H2]. destruct (Ascii.eqb_spec d c); [contradiction|]. rewrite IH by exact H2. reflexivity.
Qed.

(** lines *)
Lemma text_lines_nil : text_lines "" = []. Proof. reflexivity. Qed.
Lemma text_lines_cons : forall l t, no_char line_break l -> text_lines (l ++ String line_break t) = l :: text_lines t.
Proof.
  intros l t H. unfold text_lines. rewrite split_app by exact H. cbn [removelast].
  pose proof (split_nonempty line_break t). destruct (split line_break t); [congruence|reflexivity].
Qed.

Lemma text_lines_app : forall a b, complete a -> text_lines (a ++ b) = (text_lines a ++ text_lines b)%list.
Proof.
  intros a b (t & ->). rewrite app_assoc_s. cbn [String.append]. revert b. 
  assert (G : forall n t, (String.length t <= n)%nat -> forall b, text_lines (t ++ String line_break b) = (text_lines (t ++ String line_break "") ++ text_lines b)%list).
  { induction n as [|n IH]; intros s L b.
    - destruct s; cbn in L; [|lia]. rewrite (text_lines_cons "" b I). rewrite (text_lines_cons "" "" I). reflexivity.
    - assert (S : no_char line_break s \/ exists x y, s = x ++ String line_break y /\ no_char line_break x).
      { clear. induction s as [|c s IH]; [left; exact I|]. destruct (Ascii.eqb_spec c line_break) as [->|N].
        - right. exists "", s. split; [reflexivity|exact I].
        - destruct IH as [IH|(x & y & -> & H)]; [left; split; auto|right]. exists (String c x), y. split; [reflexivity|split; auto]. }
      destruct S as [S|(x & y & -> & H)].
      + rewrite !text_lines_cons by exact S. reflexivity.
      + rewrite !app_assoc_s. cbn [String.append]. rewrite !(text_lines_cons x) by exact H. rewrite length_app_s in L. cbn in L. rewrite IH by lia. reflexivity. }
  intros b. apply (G (String.length t)). lia.
Qed.

Lemma complete_app : forall a b, complete b -> complete (a ++ b).
Proof. intros a b (t & ->). exists (a ++ t). rewrite app_assoc_s. reflexivity. Qed.

Lemma complete_line : forall l, complete (l ++ String line_break "").
Proof. intros l. exists l. reflexivity. Qed.
