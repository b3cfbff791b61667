(** Proofs about the rendering of doubles: the printed digits are the correctly
    rounded ones. *)

From Coq Require Import List ZArith NArith Reals Lra Lia String Ascii Bool.
From Flocq Require Import Core Relative BinarySingleNaN.
From Verif Require Import Base Num B64 Writer Sci SpecWriter SpecSci TextProofs TableProofs.
Import ListNotations.
Local Open Scope Z_scope.

(** ** Integers *)

Lemma dlen_loop_spec : forall fuel n, 0 <= n < 2 ^ Z.of_nat fuel ->
  (n = 0 /\ dlen_loop fuel n = 0) \/ (0 < n /\ 1 <= dlen_loop fuel n /\ 10 ^ (dlen_loop fuel n - 1) <= n < 10 ^ dlen_loop fuel n).
Proof.
  induction fuel as [|fuel IH]; intros n H; cbn [dlen_loop].
  { change (2 ^ Z.of_nat 0) with 1 in H. left. lia. }
  destruct (Z.leb_spec n 0). { left. lia. }
  rewrite Nat2Z.inj_succ, Z.pow_succ_r in H by lia. right. split; [lia|].
  pose proof (Z.div_mod n 10 ltac:(lia)) as D. pose proof (Z.mod_pos_bound n 10 ltac:(lia)).
  destruct (IH (n / 10)) as [(E & ->)|(P & L1 & L2)].
  { split; [apply Z.div_pos; lia|]. apply Z.div_lt_upper_bound; [lia|]. lia. }
  { cbn. lia. }
  set (l := dlen_loop fuel (n / 10)) in *. clearbody l. split; [lia|].
  replace (1 + l - 1) with (Z.succ (l - 1)) by lia. replace (1 + l) with (Z.succ l) by lia.
  rewrite !Z.pow_succ_r by lia. lia.
Qed.

Lemma dlen_spec : forall n, 0 <= n ->
  (n = 0 /\ dlen n = 0) \/ (0 < n /\ 1 <= dlen n /\ 10 ^ (dlen n - 1) <= n < 10 ^ dlen n).
Proof.
  intros n H. apply dlen_loop_spec. split; [lia|]. destruct (Z.eq_dec n 0) as [->|N]; [reflexivity|].
  pose proof (Z.log2_nonneg n). rewrite Z2Nat.id by lia. apply Z.log2_spec. lia.
Qed.

(** the least exponent above [n] *)
Lemma dlen_least : forall n j, 0 <= n -> 0 <= j -> n < 10 ^ j -> dlen n <= j.
Proof.
  intros n j H Hj L. destruct (dlen_spec n H) as [(-> & ->)|(P & L1 & L2 & L3)]; [exact Hj|].
  assert (10 ^ (dlen n - 1) < 10 ^ j) by lia. apply Z.pow_lt_mono_r_iff in H0; lia.
Qed.

Definition r10 : radix := Build_radix 10 eq_refl.

Lemma dexp_spec : forall num den, 0 < num -> 0 < den ->
  (bpow r10 (dexp num den) <= IZR num / IZR den < bpow r10 (dexp num den + 1))%R.
Proof.
  intros num den Hn Hd. pose proof (IZR_lt 0 _ Hn) as Rn. pose proof (IZR_lt 0 _ Hd) as Rd. unfold dexp. destruct (Z.leb_spec den num) as [L|L].
  - assert (Q : 1 <= num / den) by (apply Z.div_le_lower_bound; lia).
    destruct (dlen_spec (num / den)) as [(E & _)|(_ & L1 & L2 & L3)]; [lia|lia|]. set (l := dlen (num / den)) in *. clearbody l.
    replace (l - 1 + 1) with l by lia. rewrite <- !IZR_Zpower by lia. change (radix_val r10) with 10.
    pose proof (Z.div_mod num den ltac:(lia)) as D. pose proof (Z.mod_pos_bound num den ltac:(lia)).
    split.
    + apply Rmult_le_reg_r with (IZR den); [exact Rd|]. unfold Rdiv. rewrite Rmult_assoc, Rinv_l, Rmult_1_r by lra. rewrite <- mult_IZR. apply IZR_le. nia.
    + apply Rmult_lt_reg_r with (IZR den); [exact Rd|]. unfold Rdiv. rewrite Rmult_assoc, Rinv_l, Rmult_1_r by lra. rewrite <- mult_IZR. apply IZR_lt. nia.
  - assert (Q : 1 <= (den - 1) / num) by (apply Z.div_le_lower_bound; lia).
    destruct (dlen_spec ((den - 1) / num)) as [(E & _)|(_ & L1 & L2 & L3)]; [lia|lia|]. set (l := dlen ((den - 1) / num)) in *. clearbody l.
    pose proof (Z.div_mod (den - 1) num ltac:(lia)) as D. pose proof (Z.mod_pos_bound (den - 1) num ltac:(lia)).
    replace (- l + 1) with (- (l - 1)) by lia. rewrite !bpow_opp, <- !IZR_Zpower by lia. change (radix_val r10) with 10.
    assert (P1 : (0 < IZR (10 ^ l))%R) by (apply IZR_lt; apply Z.pow_pos_nonneg; lia).
    assert (P2 : (0 < IZR (10 ^ (l - 1)))%R) by (apply IZR_lt; apply Z.pow_pos_nonneg; lia).
    split.
    + apply Rmult_le_reg_r with (IZR (10 ^ l)); [exact P1|]. rewrite Rinv_l by lra.
      apply Rmult_le_reg_r with (IZR den); [exact Rd|]. replace (IZR num / IZR den * IZR (10 ^ l) * IZR den)%R with (IZR num * IZR (10 ^ l))%R by (field; lra).
      rewrite Rmult_1_l, <- mult_IZR. apply IZR_le. nia.
    + apply Rmult_lt_reg_r with (IZR (10 ^ (l - 1))); [exact P2|]. rewrite Rinv_l by lra.
      apply Rmult_lt_reg_r with (IZR den); [exact Rd|]. replace (IZR num / IZR den * IZR (10 ^ (l - 1)) * IZR den)%R with (IZR num * IZR (10 ^ (l - 1)))%R by (field; lra).
      rewrite Rmult_1_l, <- mult_IZR. apply IZR_lt. nia.
Qed.

Lemma rnd_div_spec : forall a b, 0 <= a -> 0 < b -> rnd_div a b = ZnearestE (IZR a / IZR b).
Proof.
  intros a b Ha Hb. pose proof (IZR_lt 0 _ Hb) as Rb. unfold rnd_div, Znearest. rewrite Zfloor_div by lia.
  pose proof (Z.div_mod a b ltac:(lia)) as D. pose proof (Z.mod_pos_bound a b ltac:(lia)) as M.
  assert (E : (IZR a / IZR b - IZR (a / b) = IZR (a mod b) / IZR b)%R).
  { rewrite D at 1. rewrite plus_IZR, mult_IZR. field. lra. }
  rewrite E.
  assert (C : (a mod b <> 0 -> Zceil (IZR a / IZR b) = a / b + 1)).
  { intros N. rewrite Zceil_floor_neq; rewrite Zfloor_div by lia; [reflexivity|]. intros K. rewrite <- K in E.
    assert (K2 : (IZR (a mod b) = 0)%R). { apply Rmult_eq_reg_r with (/ IZR b)%R; [|apply Rinv_neq_0_compat; lra]. unfold Rdiv in E. lra. }
    apply eq_IZR in K2. congruence. }
  destruct (Z.compare_spec (2 * (a mod b)) b) as [K|K|K].
  - rewrite Rcompare_Eq. 2: { rewrite <- K at 2. rewrite mult_IZR. field. apply not_0_IZR. lia. }
    rewrite C by lia. destruct (Z.even (a / b)); reflexivity.
  - rewrite Rcompare_Lt; [reflexivity|]. apply Rmult_lt_reg_r with (IZR b); [exact Rb|]. unfold Rdiv. rewrite Rmult_assoc, Rinv_l by lra.
    apply IZR_lt in K. rewrite mult_IZR in K. lra.
  - rewrite Rcompare_Gt; [rewrite C by lia; reflexivity|]. apply Rmult_lt_reg_r with (IZR b); [exact Rb|]. unfold Rdiv. rewrite Rmult_assoc, Rinv_l by lra.
    apply IZR_lt in K. rewrite mult_IZR in K. lra.
Qed.

(** the nearest number with [p + 1] significant decimal digits, ties to even *)
Definition near10 (p : nat) (x : R) : R := round r10 (FLX_exp (Z.of_nat p + 1)) ZnearestE x.

Lemma prec10 : forall p : nat, Prec_gt_0 (Z.of_nat p + 1).
Proof. intros p. unfold Prec_gt_0. lia. Qed.

Lemma sci_digits_spec : forall p num den d k, 0 < num -> 0 < den -> sci_digits p num den = (d, k) ->
  10 ^ Z.of_nat p <= d < 10 ^ (Z.of_nat p + 1) /\ near10 p (IZR num / IZR den) = (IZR d * bpow r10 (k - Z.of_nat p))%R.
Proof.
  intros p num den d k Hn Hd. unfold sci_digits. pose proof (dexp_spec num den Hn Hd) as B. set (e := dexp num den) in *. clearbody e.
  set (v := (IZR num / IZR den)%R) in *. pose proof (IZR_lt 0 _ Hn) as Rn. pose proof (IZR_lt 0 _ Hd) as Rd.
  set (dd := if 0 <=? Z.of_nat p - e then _ else _).
  assert (Ed : dd = ZnearestE (v * bpow r10 (Z.of_nat p - e))).
  { subst dd v. destruct (Z.leb_spec 0 (Z.of_nat p - e)) as [L|L].
    - assert (0 < 10 ^ (Z.of_nat p - e)) by (apply Z.pow_pos_nonneg; lia). rewrite rnd_div_spec by nia. f_equal. rewrite mult_IZR, <- IZR_Zpower by lia. change (radix_val r10) with 10. field. lra.
    - assert (0 < 10 ^ (- (Z.of_nat p - e))) by (apply Z.pow_pos_nonneg; lia). assert (0 < den * 10 ^ (- (Z.of_nat p - e))) by nia. rewrite rnd_div_spec by lia. f_equal. rewrite mult_IZR.
      replace (bpow r10 (Z.of_nat p - e)) with (/ bpow r10 (- (Z.of_nat p - e)))%R by (rewrite <- bpow_opp; f_equal; lia).
      rewrite <- IZR_Zpower by lia. change (radix_val r10) with 10. apply IZR_lt in H. field. split; lra. }
  assert (Bd : 10 ^ Z.of_nat p <= dd <= 10 ^ (Z.of_nat p + 1)).
  { rewrite Ed. assert (LB : (IZR (10 ^ Z.of_nat p) <= v * bpow r10 (Z.of_nat p - e) <= IZR (10 ^ (Z.of_nat p + 1)))%R).
    { change 10 with (radix_val r10). rewrite !IZR_Zpower by lia. pose proof (bpow_gt_0 r10 (Z.of_nat p - e)).
      assert (T1 : bpow r10 (Z.of_nat p) = (bpow r10 e * bpow r10 (Z.of_nat p - e))%R) by (rewrite <- bpow_plus; f_equal; lia).
      assert (T2 : bpow r10 (Z.of_nat p + 1) = (bpow r10 (e + 1) * bpow r10 (Z.of_nat p - e))%R) by (rewrite <- bpow_plus; f_equal; lia).
      rewrite T1, T2. split; apply Rmult_le_compat_r; lra. }
    destruct LB as (L & U). split.
    - rewrite <- (Zrnd_IZR ZnearestE (10 ^ Z.of_nat p)). apply Zrnd_le; [apply valid_rnd_N|exact L].
    - rewrite <- (Zrnd_IZR ZnearestE (10 ^ (Z.of_nat p + 1))). apply Zrnd_le; [apply valid_rnd_N|exact U]. }
  assert (Er : near10 p v = (IZR dd * bpow r10 (e - Z.of_nat p))%R).
  { unfold near10, round, F2R, scaled_mantissa, cexp. cbn [Fnum Fexp]. assert (M : mag r10 v = e + 1 :> Z).
    { apply mag_unique_pos. replace (e + 1 - 1) with e by lia. exact B. }
    rewrite M. unfold FLX_exp. replace (e + 1 - (Z.of_nat p + 1)) with (e - Z.of_nat p) by lia. rewrite Ed. replace (- (e - Z.of_nat p)) with (Z.of_nat p - e) by lia. reflexivity. }
  destruct (Z.eqb_spec dd (10 ^ (Z.of_nat p + 1))) as [E|E]; intros H; apply pair_equal_spec in H; destruct H as (<- & <-).
  - split; [split; [lia|apply Z.pow_lt_mono_r; lia]|]. rewrite Er, E. change 10 with (radix_val r10). rewrite !IZR_Zpower by lia. rewrite <- !bpow_plus. f_equal. lia.
  - split; [lia|]. exact Er.
Qed.

(** ** Texts *)
Local Open Scope string_scope.

Lemma digit_char_spec : forall z, 0 <= z < 10 -> digit (digit_char z) = Some (Z.to_N z).
Proof.
  intros z H. assert (C : In z [0; 1; 2; 3; 4; 5; 6; 7; 8; 9]) by (cbn; lia). cbn in C.
  repeat (destruct C as [<-|C]; [reflexivity|]). contradiction.
Qed.

Lemma number_app : forall a b acc, number acc (a ++ b) = match number acc a with Some v => number v b | None => None end.
Proof. induction a as [|c a IH]; intros b acc; [reflexivity|]. cbn [String.append number]. destruct (digit c); [apply IH|reflexivity]. Qed.

Lemma number_digits : forall n d acc, 0 <= d -> number acc (digits_of n d) = Some (acc * 10 ^ N.of_nat n + Z.to_N (d mod 10 ^ Z.of_nat n))%N.
Proof.
  induction n as [|n IH]; intros d acc H. { cbn [digits_of number]. rewrite Z.mod_1_r. f_equal. cbn. lia. }
  cbn [digits_of]. rewrite number_app, IH by (apply Z.div_pos; lia). cbn [number].
  pose proof (Z.mod_pos_bound d 10 ltac:(lia)) as M. rewrite (digit_char_spec _ M). f_equal.
  rewrite !Nat2N.inj_succ, Nat2Z.inj_succ, N.pow_succ_r', Z.pow_succ_r by lia.
  assert (P : 0 < 10 ^ Z.of_nat n) by (apply Z.pow_pos_nonneg; lia).
  rewrite (Z.rem_mul_r d 10 (10 ^ Z.of_nat n)) by lia.
  pose proof (Z.mod_pos_bound (d / 10) _ P). rewrite Z2N.inj_add, Z2N.inj_mul by lia. change (Z.to_N 10) with 10%N. lia.
Qed.

Lemma nat_N_Z_to : forall n, Z.to_N (Z.of_nat n) = N.of_nat n.
Proof. intros n. lia. Qed.

Lemma digits_len : forall n d, String.length (digits_of n d) = n.
Proof. induction n as [|n IH]; intros d; [reflexivity|]. cbn [digits_of]. rewrite length_app_s, IH. cbn. lia. Qed.

Lemma number_no_char : forall c, digit c = None -> forall s acc v, number acc s = Some v -> no_char c s.
Proof.
  intros c Hc. induction s as [|d s IH]; intros acc v H; [exact I|]. cbn [number] in H. destruct (digit d) eqn:D; [|discriminate].
  split; [congruence|]. eapply IH. exact H.
Qed.

Lemma exp_str_read : forall k, read_int (exp_str k) = Some k.
Proof.
  intros k. unfold exp_str. pose proof (number_dec (Z.to_N (Z.abs k))) as Nd. pose proof (dec_nonempty (Z.to_N (Z.abs k))) as Ne.
  destruct (Z.ltb_spec k 0) as [L|L].
  - change ("-" ++ dec (Z.to_N (Z.abs k))) with (String "-" (dec (Z.to_N (Z.abs k)))). cbn [read_int].
    destruct (dec (Z.to_N (Z.abs k))) as [|c s]; [congruence|]. rewrite Nd. cbn [option_map]. f_equal. rewrite Z2N.id; lia.
  - cbn [String.append]. unfold read_int. destruct (dec (Z.to_N (Z.abs k))) as [|c s] eqn:E; [congruence|].
    assert (Hc : c <> "-"%char). { intros ->. cbn in Nd. discriminate. }
    destruct c as [[] [] [] [] [] [] [] []]; try congruence; rewrite Nd; cbn [option_map]; f_equal; rewrite Z2N.id; lia.
Qed.

Lemma exp_str_no_e : forall k, no_char "e" (exp_str k).
Proof.
  intros k. unfold exp_str. apply no_char_app. split; [destruct (k <? 0)%Z; cbn; auto; split; [discriminate|exact I]|].
  eapply number_no_char; [reflexivity|apply number_dec].
Qed.

Lemma bpow10 : forall e, bpow r10 e = powerRZ 10 e.
Proof. intros e. rewrite bpow_powerRZ. reflexivity. Qed.

Lemma mant_digits : forall p d, 0 <= d < 10 ^ (Z.of_nat p + 1) -> 0 <= d / 10 ^ Z.of_nat p < 10.
Proof.
  intros p d H. assert (P : 0 < 10 ^ Z.of_nat p) by (apply Z.pow_pos_nonneg; lia). split; [apply Z.div_pos; lia|].
  apply Z.div_lt_upper_bound; [exact P|]. rewrite Z.pow_add_r in H by lia. lia.
Qed.

Lemma mant_no_e : forall p d, 0 <= d < 10 ^ (Z.of_nat p + 1) -> no_char "e" (mant_str p d).
Proof.
  intros p d H. unfold mant_str. pose proof (mant_digits p d H) as M. pose proof (digit_char_spec _ M) as D.
  split. { intros E. rewrite E in D. discriminate. }
  destruct p as [|p]; [exact I|]. split; [discriminate|]. eapply number_no_char; [reflexivity|]. apply number_digits with (acc := 0%N).
  apply Z.mod_pos_bound. apply Z.pow_pos_nonneg; lia.
Qed.

Lemma read_mant : forall p d k, 0 <= d < 10 ^ (Z.of_nat p + 1) ->
  read_pos (mant_str p d ++ "e" ++ exp_str k) = Some (IZR d * bpow r10 (k - Z.of_nat p))%R.
Proof.
  intros p d k H. unfold read_pos. change ("e" ++ exp_str k) with (String "e" (exp_str k)).
  rewrite split_app by (apply mant_no_e; exact H). rewrite split_none by apply exp_str_no_e. rewrite exp_str_read.
  pose proof (mant_digits p d H) as M. pose proof (digit_char_spec _ M) as D. rewrite bpow10.
  assert (P : 0 < 10 ^ Z.of_nat p) by (apply Z.pow_pos_nonneg; lia).
  assert (Nd : no_char "." (String (digit_char (d / 10 ^ Z.of_nat p)) "")).
  { split; [|exact I]. intros E. rewrite E in D. discriminate. }
  unfold mant_str. destruct p as [|p].
  - rewrite split_none by exact Nd. cbn [number]. rewrite D. f_equal. change (10 ^ Z.of_nat 0) with 1 in *. rewrite Z.div_1_r in *.
    rewrite N.mul_0_r, N.add_0_l, Z2N.id by lia. f_equal. f_equal. cbn. lia.
  - pose proof (Z.mod_pos_bound d _ P) as Md. set (f := digits_of (S p) (d mod 10 ^ Z.of_nat (S p))).
    assert (Nf : number (Z.to_N (d / 10 ^ Z.of_nat (S p))) f = Some (Z.to_N d)).
    { subst f. rewrite number_digits by lia. f_equal. rewrite Z.mod_mod by lia. rewrite (Z.div_mod d (10 ^ Z.of_nat (S p))) at 3 by lia.
      rewrite Z2N.inj_add, Z2N.inj_mul by lia. rewrite Z2N.inj_pow, nat_N_Z_to by lia. change (Z.to_N 10) with 10%N. lia. }
    assert (Lf : String.length f = S p) by apply digits_len.
    assert (Sf : no_char "." f) by (eapply number_no_char; [reflexivity|exact Nf]). clearbody f.
    pose proof (split_app "." (String _ "") f Nd) as Sp. cbn [String.append] in Sp. rewrite Sp, split_none by exact Sf. cbn [String.append number]. rewrite D, N.mul_0_r, N.add_0_l, Nf, Lf, Z2N.id by lia. reflexivity.
Qed.

Lemma read_sign : forall s t r, read_pos t = Some r -> (forall u, t <> String "-" u) ->
  read_number (sign_str s ++ t) = Some (if s then - r else r)%R.
Proof.
  intros s t r H Nt. destruct s; cbn [sign_str String.append].
  - change (read_number (String "-" t)) with (option_map Ropp (read_pos t)). rewrite H. reflexivity.
  - unfold read_number. destruct t as [|c t]; [exact H|]. assert (c <> "-"%char) by (intros ->; exact (Nt t eq_refl)).
    destruct c as [[] [] [] [] [] [] [] []]; try congruence; exact H.
Qed.

Lemma mant_no_minus : forall p d t, 0 <= d < 10 ^ (Z.of_nat p + 1) -> forall u, mant_str p d ++ t <> String "-" u.
Proof.
  intros p d t H u E. unfold mant_str in E. cbn [String.append] in E. injection E as E _. pose proof (digit_char_spec _ (mant_digits p d H)) as D. rewrite E in D. discriminate.
Qed.

Lemma frac_spec : forall m e num den, frac m e = (num, den) -> 0 < num /\ 0 < den /\ (IZR num / IZR den = F2R (Float radix2 (Zpos m) e))%R.
Proof.
  intros m e num den. unfold frac, F2R. cbn [Fnum Fexp]. destruct (Z.leb_spec 0 e) as [L|L]; intros H; apply pair_equal_spec in H; destruct H as (<- & <-).
  - assert (P : 0 < 2 ^ e) by (apply Z.pow_pos_nonneg; lia). split; [lia|]. split; [lia|]. rewrite mult_IZR. change 2 with (radix_val radix2). rewrite IZR_Zpower by lia. field.
  - assert (P : 0 < 2 ^ (- e)) by (apply Z.pow_pos_nonneg; lia). split; [lia|]. split; [lia|]. change 2 with (radix_val radix2). rewrite IZR_Zpower by lia.
    replace e with (- (- e)) at 2 by lia. rewrite (bpow_opp radix2 (- e)). unfold Rdiv. reflexivity.
Qed.

Lemma near10_opp : forall p x, near10 p (- x) = (- near10 p x)%R.
Proof. intros p x. apply round_NE_opp. Qed.

Lemma near10_0 : forall p, near10 p 0 = 0%R.
Proof. intros p. apply round_0. apply valid_rnd_N. Qed.

(** A printed number reads as the nearest number with as many digits. *)
Lemma read_sci : forall p (x : b64), is_finite x = true -> read_number (sci p x) = Some (near10 p (B2R x)).
Proof.
  intros p x Hx. destruct x as [s|s| |s m e B]; try discriminate; cbn [sci].
  - assert (D : 0 <= 0 < 10 ^ (Z.of_nat p + 1)) by (split; [lia|]; apply Z.pow_pos_nonneg; lia).
    change "e0" with ("e" ++ exp_str 0). rewrite (read_sign s _ _ (read_mant p 0 0 D) (mant_no_minus p 0 _ D)). cbn [B2R]. rewrite near10_0. f_equal.
    rewrite Rmult_0_l. destruct s; [apply Ropp_0|reflexivity].
  - destruct (frac m e) as [num den] eqn:F. destruct (frac_spec _ _ _ _ F) as (Hn & Hd & V).
    destruct (sci_digits p num den) as [d k] eqn:S. destruct (sci_digits_spec _ _ _ _ _ Hn Hd S) as (Bd & Er).
    assert (D : 0 <= d < 10 ^ (Z.of_nat p + 1)). { assert (0 < 10 ^ Z.of_nat p) by (apply Z.pow_pos_nonneg; lia). lia. }
    rewrite (read_sign s _ _ (read_mant p d k D) (mant_no_minus p d _ D)). f_equal. rewrite <- Er, V. cbn [B2R].
    destruct s; cbn [cond_Zopp]; [|reflexivity]. rewrite F2R_Zopp, near10_opp. reflexivity.
Qed.

(** ** Reading back *)

Lemma near10_err : forall p x, (Rabs (near10 p x - x) <= / 2 * bpow r10 (- Z.of_nat p) * Rabs x)%R.
Proof.
  intros p x. pose proof (prec10 p) as Pp. unfold near10.
  pose proof (relative_error_N_FLX r10 (Z.of_nat p + 1) Pp (fun n => negb (Z.even n)) x) as E.
  replace (- (Z.of_nat p + 1) + 1) with (- Z.of_nat p) in E by lia. exact E.
Qed.

Notation f64 := (generic_format radix2 (FLT_exp (-1074) 53)).
Notation rnd64 := (round radix2 (FLT_exp (-1074) 53) ZnearestE).

Lemma back_pos : forall x z, f64 x -> (0 < x)%R -> (Rabs (z - x) <= / 2 * bpow r10 (- 16) * x)%R -> rnd64 z = x.
Proof.
  intros x z Fx Px E. assert (V : Valid_exp (FLT_exp (-1074) 53)) by (apply FLT_exp_valid; reflexivity).
  assert (C : (bpow r10 (- 16) < bpow radix2 (- 53))%R).
  { replace (bpow r10 (- 16)) with (/ bpow r10 16)%R by (symmetry; exact (bpow_opp r10 16)).
    replace (bpow radix2 (- 53)) with (/ bpow radix2 53)%R by (symmetry; exact (bpow_opp radix2 53)). apply Rinv_lt_contravar; [apply Rmult_lt_0_compat; apply bpow_gt_0|]. rewrite <- !IZR_Zpower by lia. apply IZR_lt. reflexivity. }
  assert (C2 : (/ 2 * bpow r10 (-16) * x < / 2 * (bpow radix2 (-53) * x))%R) by nra. apply Rabs_le_inv in E.
  apply Rle_antisym.
  - apply round_N_le_midp; [exact V|exact Fx|]. rewrite succ_eq_pos by lra.
    pose proof (ulp_FLT_gt radix2 (-1074) 53 x) as U. rewrite Rabs_pos_eq in U by lra. cbn [Z.opp] in U. lra.
  - apply round_N_ge_midp; [exact V|exact Fx|]. rewrite pred_eq_pos by lra. unfold pred_pos.
    assert (G : (bpow radix2 (-53) * x <= x - (if Req_bool x (bpow radix2 (mag radix2 x - 1)) then x - bpow radix2 (FLT_exp (-1074) 53 (mag radix2 x - 1)) else x - ulp radix2 (FLT_exp (-1074) 53) x))%R).
    { destruct (Req_bool_spec x (bpow radix2 (mag radix2 x - 1))) as [K|K].
      - ring_simplify. rewrite K at 1. rewrite <- bpow_plus. apply bpow_le. unfold FLT_exp. lia.
      - ring_simplify. pose proof (ulp_FLT_gt radix2 (-1074) 53 x) as U. rewrite Rabs_pos_eq in U by lra. cbn [Z.opp] in U. lra. }
    lra.
Qed.

Lemma back : forall p x, (16 <= p)%nat -> f64 x -> rnd64 (near10 p x) = x.
Proof.
  intros p x Hp Fx. destruct (Req_dec x 0) as [->|N]. { rewrite near10_0. apply round_0. apply valid_rnd_N. }
  assert (E : (Rabs (near10 p x - x) <= / 2 * bpow r10 (- 16) * Rabs x)%R).
  { eapply Rle_trans; [apply near10_err|]. apply Rmult_le_compat_r; [apply Rabs_pos|]. apply Rmult_le_compat_l; [lra|]. apply bpow_le. lia. }
  destruct (Rlt_or_le 0 x) as [P|P].
  - rewrite (Rabs_pos_eq x) in E by lra. apply back_pos; assumption.
  - rewrite (Rabs_left1 x) in E by exact P. assert (B : rnd64 (- near10 p x) = (- x)%R).
    { apply back_pos; [apply generic_format_opp; exact Fx|lra|]. replace (- near10 p x - - x)%R with (- (near10 p x - x))%R by ring. rewrite Rabs_Ropp. exact E. }
    rewrite round_NE_opp in B. lra.
Qed.

Lemma b64_format : forall x : b64, f64 (B2R x).
Proof. intros x. apply (generic_format_B2R 53 1024). Qed.
