(** Rounding-error-free bounds on binary64 operations, and the VanLeer slope in
    binary64. *)

From Coq Require Import Reals ZArith QArith List Bool Lra Lia.
From Flocq Require Import Core BinarySingleNaN.
From Verif Require Import Base Num XReal B64 Config Mesh State NumFlux Spec ConfigProofs.
Local Open Scope R_scope.

Notation rnd64 := (round radix2 (SpecFloat.fexp 53 1024) (round_mode mode_NE)).

Lemma bpow_fmt : forall k, (-1074 <= k <= 1023)%Z -> generic_format radix2 (SpecFloat.fexp 53 1024) (bpow radix2 k).
Proof.
  intros k Hk. apply generic_format_bpow. unfold SpecFloat.fexp, SpecFloat.emin. lia.
Qed.

Lemma rnd_abs_le : forall x k, (-1074 <= k <= 1023)%Z -> Rabs x <= bpow radix2 k -> Rabs (rnd64 x) <= bpow radix2 k.
Proof.
  intros x k Hk H. apply abs_round_le_generic; [apply FLT_exp_valid; reflexivity|apply valid_rnd_N|apply bpow_fmt; exact Hk|exact H].
Qed.

Lemma no_ovf : forall x k, (-1074 <= k <= 1023)%Z -> Rabs x <= bpow radix2 k ->
  Rlt_bool (Rabs (rnd64 x)) (bpow radix2 1024) = true.
Proof.
  intros x k Hk H. apply Rlt_bool_true. eapply Rle_lt_trans; [apply (rnd_abs_le x k Hk H)|].
  apply bpow_lt. lia.
Qed.

Lemma b_mul_bound : forall (x y : b64) k, (-1074 <= k <= 1023)%Z -> is_finite x = true -> is_finite y = true ->
  Rabs (B2R x * B2R y) <= bpow radix2 k ->
  is_finite (b_mul x y) = true /\ Rabs (B2R (b_mul x y)) <= bpow radix2 k.
Proof.
  intros x y k Hk Fx Fy H. pose proof (Bmult_correct 53 1024 _ _ mode_NE x y) as C.
  rewrite (no_ovf _ k Hk H) in C. destruct C as (C1 & C2 & _). unfold b_mul. rewrite C1, C2, Fx, Fy.
  split; [reflexivity|]. apply rnd_abs_le; assumption.
Qed.
Lemma b_add_bound : forall (x y : b64) k, (-1074 <= k <= 1023)%Z -> is_finite x = true -> is_finite y = true ->
  Rabs (B2R x + B2R y) <= bpow radix2 k ->
  is_finite (b_add x y) = true /\ Rabs (B2R (b_add x y)) <= bpow radix2 k.
Proof.
  intros x y k Hk Fx Fy H. pose proof (Bplus_correct 53 1024 _ _ mode_NE x y Fx Fy) as C.
  rewrite (no_ovf _ k Hk H) in C. destruct C as (C1 & C2 & _). unfold b_add. rewrite C1, C2.
  split; [reflexivity|]. apply rnd_abs_le; assumption.
Qed.
Lemma b_div_bound : forall (x y : b64) k, (-1074 <= k <= 1023)%Z -> is_finite x = true -> B2R y <> 0 ->
  Rabs (B2R x / B2R y) <= bpow radix2 k ->
  is_finite (b_div x y) = true /\ Rabs (B2R (b_div x y)) <= bpow radix2 k.
Proof.
  intros x y k Hk Fx Ny H. pose proof (Bdiv_correct 53 1024 _ _ mode_NE x y Ny) as C.
  rewrite (no_ovf _ k Hk H) in C. destruct C as (C1 & C2 & _). unfold b_div. rewrite C1, C2.
  split; [exact Fx|]. apply rnd_abs_le; assumption.
Qed.

Lemma Rabs_split : forall x y M N, Rabs x <= M -> Rabs y <= N -> Rabs (x + y) <= M + N.
Proof. intros. eapply Rle_trans; [apply Rabs_triang|lra]. Qed.
Lemma bpow_dbl : forall k, bpow radix2 k + bpow radix2 k = bpow radix2 (k + 1).
Proof. intros. rewrite bpow_plus. change (bpow radix2 1) with 2. lra. Qed.

(** [|a| + |b| + f64::MIN] for arguments up to 2^200 stays below -2^1023. *)
Lemma denom_bound : forall x : b64, is_finite x = true -> 0 <= B2R x <= bpow radix2 201 ->
  is_finite (b_add x b_MIN) = true /\ B2R (b_add x b_MIN) <= - bpow radix2 1023.
Proof.
  intros x Fx [Hx0 Hx].
  assert (FM : is_finite b_MIN = true) by reflexivity.
  assert (EM : B2R b_MIN = - ((bpow radix2 53 - 1) * bpow radix2 971)).
  { unfold b_MIN. rewrite B2R_Bopp. f_equal. unfold Bmax_float.
    change (B2R _) with (@F2R radix2 {| Fnum := 9007199254740991; Fexp := 971 |}).
    unfold F2R. cbn [Fnum Fexp]. f_equal. change (bpow radix2 53) with (IZR 9007199254740992). rewrite <- minus_IZR. reflexivity. }
  assert (E971 : bpow radix2 201 <= bpow radix2 971) by (apply bpow_le; lia).
  assert (P971 : 0 < bpow radix2 971) by apply bpow_gt_0.
  assert (E1024 : bpow radix2 53 * bpow radix2 971 = bpow radix2 1024) by (rewrite <- bpow_plus; reflexivity).
  assert (E1023 : bpow radix2 52 * bpow radix2 971 = bpow radix2 1023) by (rewrite <- bpow_plus; reflexivity).
  assert (E53 : bpow radix2 53 = 2 * bpow radix2 52) by (change (bpow radix2 53) with (IZR 9007199254740992); change (bpow radix2 52) with (IZR 4503599627370496); lra).
  assert (P52 : 2 <= bpow radix2 52) by (change (bpow radix2 52) with (IZR 4503599627370496); lra).
  assert (Lo : B2R b_MIN <= B2R x + B2R b_MIN <= - bpow radix2 1023).
  { rewrite EM. split; [lra|]. rewrite <- E1023. rewrite E53.
    assert (bpow radix2 971 * 2 <= bpow radix2 971 * bpow radix2 52) by (apply Rmult_le_compat_l; lra). lra. }
  pose proof (Bplus_correct 53 1024 _ _ mode_NE x b_MIN Fx FM) as C. fold (b_add x b_MIN) in C.
  assert (R1 : rnd64 (B2R x + B2R b_MIN) <= - bpow radix2 1023).
  { apply round_le_generic; [apply FLT_exp_valid; reflexivity|apply valid_rnd_N|apply generic_format_opp; apply bpow_fmt; lia|apply Lo]. }
  assert (R2 : B2R b_MIN <= rnd64 (B2R x + B2R b_MIN)).
  { apply round_ge_generic; [apply FLT_exp_valid; reflexivity|apply valid_rnd_N|apply generic_format_B2R|apply Lo]. }
  assert (NO : Rlt_bool (Rabs (rnd64 (B2R x + B2R b_MIN))) (bpow radix2 1024) = true).
  { apply Rlt_bool_true. rewrite Rabs_left1 by (pose proof (bpow_gt_0 radix2 1023); lra).
    lra. }
  rewrite NO in C. destruct C as (C1 & C2 & _). split; [exact C2|]. rewrite C1. exact R1.
Qed.

Lemma vanleer_tiny : forall bln bexp (a b c th : b64), is_finite a = true -> is_finite b = true ->
  Rabs (B2R a) <= bpow radix2 200 -> Rabs (B2R b) <= bpow radix2 200 ->
  let s := slope_fn (A:=B64n bln bexp) VanLeer a b c th in
  is_finite (s : b64) = true /\ Rabs (B2R (s : b64)) < bpow radix2 (-600).
Proof.
  intros bln bexp a b c th Fa Fb Ha Hb s.
  change s with (b_div (b_add (b_mul a (Babs b)) (b_mul b (Babs a))) (b_add (b_add (Babs a) (Babs b)) b_MIN)).
  assert (FBa : is_finite (Babs a) = true) by (rewrite is_finite_Babs; exact Fa).
  assert (FBb : is_finite (Babs b) = true) by (rewrite is_finite_Babs; exact Fb).
  assert (P400 : forall x y, Rabs x <= bpow radix2 200 -> Rabs y <= bpow radix2 200 -> Rabs (x * y) <= bpow radix2 400).
  { intros x y Hx Hy. rewrite Rabs_mult. change 400%Z with (200 + 200)%Z. rewrite bpow_plus.
    apply Rmult_le_compat; auto using Rabs_pos. }
  destruct (b_mul_bound a (Babs b) 400 ltac:(lia) Fa FBb) as [F1 B1].
  { rewrite B2R_Babs. apply P400; [assumption|]. rewrite Rabs_Rabsolu. assumption. }
  destruct (b_mul_bound b (Babs a) 400 ltac:(lia) Fb FBa) as [F2 B2].
  { rewrite B2R_Babs. apply P400; [assumption|]. rewrite Rabs_Rabsolu. assumption. }
  destruct (b_add_bound _ _ 401 ltac:(lia) F1 F2) as [F3 B3].
  { change 401%Z with (400 + 1)%Z. rewrite <- bpow_dbl. apply Rabs_split; assumption. }
  destruct (b_add_bound (Babs a) (Babs b) 201 ltac:(lia) FBa FBb) as [F4 B4].
  { rewrite !B2R_Babs. change 201%Z with (200 + 1)%Z. rewrite <- bpow_dbl. apply Rabs_split; rewrite Rabs_Rabsolu; assumption. }
  assert (P4 : 0 <= B2R (b_add (Babs a) (Babs b))).
  { pose proof (Bplus_correct 53 1024 _ _ mode_NE (Babs a) (Babs b) FBa FBb) as C. rewrite !B2R_Babs in C.
    rewrite (no_ovf _ 201) in C; [|lia|].
    - destruct C as (C1 & _). unfold b_add. rewrite C1.
      apply round_ge_generic; [apply FLT_exp_valid; reflexivity|apply valid_rnd_N|apply generic_format_0|].
      pose proof (Rabs_pos (B2R a)). pose proof (Rabs_pos (B2R b)). lra.
    - change 201%Z with (200 + 1)%Z. rewrite <- bpow_dbl. apply Rabs_split; rewrite Rabs_Rabsolu; assumption. }
  destruct (denom_bound (b_add (Babs a) (Babs b)) F4) as [F5 B5].
  { split; [exact P4|]. eapply Rle_trans; [apply Rle_abs|exact B4]. }
  assert (P1023 := bpow_gt_0 radix2 1023).
  destruct (b_div_bound _ (b_add (b_add (Babs a) (Babs b)) b_MIN) (-622) ltac:(lia) F3) as [F6 B6].
  { lra. }
  { unfold Rdiv. rewrite Rabs_mult. rewrite Rabs_Rinv by lra.
    change (-622)%Z with (401 + - (1023))%Z. rewrite bpow_plus, bpow_opp.
    apply Rmult_le_compat; [apply Rabs_pos|apply Rlt_le, Rinv_0_lt_compat, Rabs_pos_lt; lra|exact B3|].
    apply Rinv_le_contravar; [exact P1023|]. rewrite Rabs_left by lra. lra. }
  split; [exact F6|]. eapply Rle_lt_trans; [exact B6|]. apply bpow_lt. lia.
Qed.

(** The documented slope of differences of equal sign is at least the smaller
    of the two. *)
Lemma vanleer_doc_ge : forall x y, 0 < x * y ->
  Rmin (Rabs x) (Rabs y) <= Rabs ((x * Rabs y + y * Rabs x) / (Rabs x + Rabs y)).
Proof.
  intros x y H.
  assert (Nx : x <> 0) by (intros ->; lra). assert (Ny : y <> 0) by (intros ->; lra).
  pose proof (Rabs_pos_lt x Nx) as Px. pose proof (Rabs_pos_lt y Ny) as Py.
  unfold Rdiv. rewrite Rabs_mult, Rabs_Rinv by lra. rewrite (Rabs_pos_eq (Rabs x + Rabs y)) by lra.
  apply (Rmult_le_reg_r (Rabs x + Rabs y)); [lra|]. rewrite Rmult_assoc, Rinv_l, Rmult_1_r by lra.
  pose proof (Rmin_l (Rabs x) (Rabs y)). pose proof (Rmin_r (Rabs x) (Rabs y)).
  set (mn := Rmin (Rabs x) (Rabs y)) in *.
  destruct (Rlt_dec 0 x).
  - assert (0 < y) by nra. rewrite (Rabs_pos_eq x), (Rabs_pos_eq y) in * by lra.
    rewrite Rabs_pos_eq by nra. assert (mn * x <= y * x) by (apply Rmult_le_compat_r; lra).
    assert (mn * y <= x * y) by (apply Rmult_le_compat_r; lra). lra.
  - assert (x < 0) by (destruct (Req_dec x 0); lra). assert (y < 0) by nra.
    rewrite (Rabs_left x), (Rabs_left y) in * by lra.
    rewrite Rabs_left by nra. assert (mn * - x <= - y * - x) by (apply Rmult_le_compat_r; lra).
    assert (mn * - y <= - x * - y) by (apply Rmult_le_compat_r; lra). lra.
Qed.

Lemma vanleer_refuted : forall bln bexp (a b c th : b64), is_finite a = true -> is_finite b = true ->
  bpow radix2 (-500) <= Rabs (B2R a) <= bpow radix2 200 -> bpow radix2 (-500) <= Rabs (B2R b) <= bpow radix2 200 ->
  0 < B2R a * B2R b ->
  let s := slope_fn (A:=B64n bln bexp) VanLeer a b c th in
  let doc := (B2R a * Rabs (B2R b) + B2R b * Rabs (B2R a)) / (Rabs (B2R a) + Rabs (B2R b)) in
  Rabs (B2R (s : b64)) < bpow radix2 (-100) * Rabs doc.
Proof.
  intros bln bexp a b c th Fa Fb [Ha1 Ha2] [Hb1 Hb2] Hab s doc.
  destruct (vanleer_tiny bln bexp a b c th Fa Fb Ha2 Hb2) as [_ Ht]. fold s in Ht.
  pose proof (vanleer_doc_ge _ _ Hab) as Hd. fold doc in Hd.
  assert (bpow radix2 (-500) <= Rabs doc) by (eapply Rle_trans; [|exact Hd]; apply Rmin_glb; assumption).
  eapply Rlt_le_trans; [exact Ht|]. change (-600)%Z with (-100 + -500)%Z. rewrite bpow_plus.
  apply Rmult_le_compat_l; [apply bpow_ge_0|assumption].
Qed.
