(** Rounding errors of the conversion between primitive and conservative
    variables in binary64. *)

From Coq Require Import Reals ZArith QArith List Lia Bool Lra Psatz.
From Flocq Require Import Core BinarySingleNaN Relative Plus_error.
From Verif Require Import Base Num XReal B64 Config State Spec MeshProofs PhysicsProofs MeshB64 VanLeer SpecConv.
Import ListNotations.
Local Open Scope R_scope.

Notation fx := (FLT_exp (3 - 1024 - 53) 53).
Notation fl := (round radix2 fx (Znearest (fun x => negb (Z.even x)))).
Notation u53 := (bpow radix2 (-53)).

Lemma u53_lt : 0 < u53 < / 1000000.
Proof. split; [apply bpow_gt_0|]. replace u53 with (/ IZR (2 ^ 53)) by reflexivity. apply Rinv_lt_contravar; [apply Rmult_lt_0_compat; [lra|apply IZR_lt; reflexivity]|].
  change (2 ^ 53)%Z with 9007199254740992%Z. lra. Qed.

(** ** Values with a bounded number of relative errors *)
Definition rel (k : nat) (z Z : R) : Prop := exists d, z = Z * d /\ (1 - u53) ^ k <= d <= (1 + u53) ^ k.

Lemma rel_exact : forall z, rel 0 z z.
Proof. intros z. exists 1. cbn. lra. Qed.

Lemma pow_hi : forall k, (k <= 12)%nat -> (1 + u53) ^ k <= 1 + 101 / 100 * INR k * u53.
Proof.
  pose proof u53_lt as (U0 & U1). set (w := u53) in *. clearbody w.
  induction k as [|n IH]; intros Hn; [cbn; lra|]. specialize (IH ltac:(lia)). cbn [pow]. rewrite S_INR. pose proof (pos_INR n) as P.
  assert (B : INR n <= 12) by (replace 12 with (INR 12) by (cbn; ring); apply le_INR; lia).
  apply Rle_trans with ((1 + w) * (1 + 101 / 100 * INR n * w)); [apply Rmult_le_compat_l; lra|].
  assert (X : INR n * w <= 12 * / 1000000) by (apply Rmult_le_compat; lra).
  assert (Y : INR n * w * w <= 12 * / 1000000 * w) by (apply Rmult_le_compat_r; lra). lra.
Qed.

Lemma pow_lo : forall k, 1 - INR k * u53 <= (1 - u53) ^ k.
Proof.
  pose proof u53_lt as (U0 & U1). set (w := u53) in *. clearbody w.
  induction k as [|n IH]; [cbn; lra|]. cbn [pow]. rewrite S_INR. pose proof (pos_INR n) as P.
  apply Rle_trans with ((1 - w) * (1 - INR n * w)); [|apply Rmult_le_compat_l; lra].
  assert (0 <= INR n * w * w) by (apply Rmult_le_pos; [apply Rmult_le_pos|]; lra). lra.
Qed.

Lemma rel_err : forall k z Z, (k <= 12)%nat -> rel k z Z -> Rabs (z - Z) <= 101 / 100 * INR k * u53 * Rabs Z.
Proof.
  intros k z Z Hk (d & -> & L & H). replace (Z * d - Z) with ((d - 1) * Z) by ring. rewrite Rabs_mult. apply Rmult_le_compat_r; [apply Rabs_pos|].
  pose proof (pow_hi k Hk). pose proof (pow_lo k). pose proof u53_lt as (U0 & _). pose proof (pos_INR k).
  assert (0 <= INR k * u53) by (apply Rmult_le_pos; lra). apply Rabs_le. lra.
Qed.

Lemma rel_factor : forall k d, (k <= 12)%nat -> (1 - u53) ^ k <= d <= (1 + u53) ^ k -> 1 / 2 <= d <= 2.
Proof.
  intros k d Hk (L & H). pose proof (pow_hi k Hk). pose proof (pow_lo k). pose proof u53_lt as (U0 & U1). pose proof (pos_INR k).
  assert (B : INR k <= 12) by (replace 12 with (INR 12) by (cbn; ring); apply le_INR; lia).
  assert (INR k * u53 <= 12 * / 1000000) by (apply Rmult_le_compat; lra). lra.
Qed.

Lemma pow_mix : forall k l d e, (1 - u53) ^ k <= d <= (1 + u53) ^ k -> (1 - u53) ^ l <= e <= (1 + u53) ^ l -> (1 - u53) ^ (k + l) <= d * e <= (1 + u53) ^ (k + l).
Proof.
  intros k l d e (L1 & H1) (L2 & H2). pose proof u53_lt as (U0 & U1). rewrite !pow_add.
  assert (0 < (1 - u53) ^ k) by (apply pow_lt; lra). assert (0 < (1 - u53) ^ l) by (apply pow_lt; lra).
  split; apply Rmult_le_compat; lra.
Qed.

(** One rounding, far from overflow and underflow *)
Lemma fl_rel : forall z, z = 0 \/ bpow radix2 (-800) <= Rabs z <= bpow radix2 800 ->
  Rlt_bool (Rabs (fl z)) (bpow radix2 1024) = true /\ rel 1 (fl z) z.
Proof.
  intros z [-> | (L & H)].
  - rewrite round_0 by apply valid_rnd_N. split; [apply Rlt_bool_true; rewrite Rabs_R0; apply bpow_gt_0|].
    exists 1. pose proof u53_lt. cbn [pow]. lra.
  - split.
    + apply (no_ovf z 800); [lia|exact H].
    + destruct (relative_error_N_FLT_ex radix2 (3 - 1024 - 53) 53 ltac:(reflexivity) (fun x => negb (Z.even x)) z) as (e & He & E).
      { eapply Rle_trans; [|exact L]. apply bpow_le. lia. }
      exists (1 + e). split; [exact E|]. cbn [pow]. rewrite !Rmult_1_r.
      replace (/ 2 * bpow radix2 (- (53) + 1)) with u53 in He by (change (- (53) + 1)%Z with (-53 + 1)%Z; rewrite bpow_plus; change (bpow radix2 1) with 2; field).
      apply Rabs_le_inv in He. lra.
Qed.

Lemma rel_step : forall k z0 z Z, rel k z Z -> rel 1 z0 z -> rel (S k) z0 Z.
Proof. intros k z0 z Z (d & -> & D) (e & -> & E). exists (d * e). split; [ring|]. replace (S k) with (k + 1)%nat by lia. apply pow_mix; assumption. Qed.

Lemma rel_size : forall k z Z, (k <= 12)%nat -> rel k z Z -> Z = 0 \/ bpow radix2 (-700) <= Rabs Z <= bpow radix2 700 -> z = 0 \/ bpow radix2 (-800) <= Rabs z <= bpow radix2 800.
Proof.
  intros k z Z Hk (d & -> & D) [-> | (L & H)]; [left; ring|right]. apply rel_factor in D; [|exact Hk].
  rewrite Rabs_mult, (Rabs_pos_eq d) by lra. pose proof (bpow_gt_0 radix2 (-700)).
  split.
  - apply Rle_trans with (bpow radix2 (-701)); [apply bpow_le; lia|]. replace (bpow radix2 (-701)) with (bpow radix2 (-700) * (1 / 2)); [apply Rmult_le_compat; lra|].
    change (-701)%Z with (-700 + -1)%Z. rewrite bpow_plus. change (bpow radix2 (-1)) with (/ 2). field.
  - apply Rle_trans with (bpow radix2 701); [|apply bpow_le; lia]. replace (bpow radix2 701) with (bpow radix2 700 * 2); [apply Rmult_le_compat; try lra; apply Rabs_pos|].
    change 701%Z with (700 + 1)%Z. rewrite bpow_plus. reflexivity.
Qed.

Lemma mul_rel : forall (x y : b64) k l X Y, is_finite x = true -> is_finite y = true -> rel k (B2R x) X -> rel l (B2R y) Y -> (k + l <= 12)%nat ->
  X * Y = 0 \/ bpow radix2 (-700) <= Rabs (X * Y) <= bpow radix2 700 ->
  is_finite (b_mul x y) = true /\ rel (S (k + l)) (B2R (b_mul x y)) (X * Y).
Proof.
  intros x y k l X Y Fx Fy (d & Ed & D) (e & Ee & E) Hkl Sz.
  assert (Rp : rel (k + l) (B2R x * B2R y) (X * Y)) by (exists (d * e); split; [rewrite Ed, Ee; ring|apply pow_mix; assumption]).
  destruct (fl_rel _ (rel_size _ _ _ Hkl Rp Sz)) as (Ov & R1).
  pose proof (Bmult_correct 53 1024 _ _ mode_NE x y) as C. match type of C with context [Rlt_bool ?a ?b] => change (Rlt_bool a b) with (Rlt_bool (Rabs (fl (B2R x * B2R y))) (bpow radix2 1024)) in C end. rewrite Ov in C. destruct C as (C1 & C2 & _).
  unfold b_mul. rewrite C1, C2, Fx, Fy. split; [reflexivity|]. eapply rel_step; eassumption.
Qed.

Lemma div_rel : forall (x y : b64) k X, is_finite x = true -> rel k (B2R x) X -> B2R y <> 0 -> (k <= 12)%nat ->
  X / B2R y = 0 \/ bpow radix2 (-700) <= Rabs (X / B2R y) <= bpow radix2 700 ->
  is_finite (b_div x y) = true /\ rel (S k) (B2R (b_div x y)) (X / B2R y).
Proof.
  intros x y k X Fx (d & Ed & D) Ny Hk Sz.
  assert (Rp : rel k (B2R x / B2R y) (X / B2R y)) by (exists d; split; [rewrite Ed; field; exact Ny|exact D]).
  destruct (fl_rel _ (rel_size _ _ _ Hk Rp Sz)) as (Ov & R1).
  pose proof (Bdiv_correct 53 1024 _ _ mode_NE x y Ny) as C. match type of C with context [Rlt_bool ?a ?b] => change (Rlt_bool a b) with (Rlt_bool (Rabs (fl (B2R x / B2R y))) (bpow radix2 1024)) in C end. rewrite Ov in C. destruct C as (C1 & C2 & _).
  unfold b_div. rewrite C1, C2. split; [exact Fx|]. eapply rel_step; eassumption.
Qed.

(** Sums have no underflow *)
Lemma fl_sum : forall x y : b64, rel 1 (fl (B2R x + B2R y)) (B2R x + B2R y) /\ rel 1 (fl (B2R x - B2R y)) (B2R x - B2R y).
Proof.
  assert (K : forall X Y, generic_format radix2 fx X -> generic_format radix2 fx Y -> rel 1 (fl (X + Y)) (X + Y)).
  { intros X Y GX GY. destruct (FLT_plus_error_N_ex radix2 (3 - 1024 - 53) 53 (fun x => negb (Z.even x)) X Y GX GY) as (e & He & E).
    exists (1 + e). split; [exact E|]. cbn [pow]. rewrite !Rmult_1_r.
    assert (Uu : u_ro radix2 53 = u53) by (unfold u_ro; change (- (53) + 1)%Z with (-53 + 1)%Z; rewrite bpow_plus; change (bpow radix2 1) with 2; field).
    rewrite Uu in He. pose proof u53_lt as (U0 & U1).
    assert (u53 / (1 + u53) <= u53). { apply Rmult_le_reg_r with (1 + u53); [lra|]. unfold Rdiv. rewrite Rmult_assoc, Rinv_l by lra. nra. }
    apply Rabs_le_inv in He. lra. }
  intros x y. pose proof (generic_format_B2R 53 1024 x) as Gx. pose proof (generic_format_B2R 53 1024 y) as Gy.
  split; [apply K; assumption|]. unfold Rminus. apply K; [exact Gx|apply generic_format_opp; exact Gy].
Qed.

(** ** Sizes *)
Definition sz (a : Z) (X : R) : Prop := X = 0 \/ bpow radix2 (- a) <= Rabs X <= bpow radix2 a.

Lemma sz_le : forall a b X, (a <= b)%Z -> sz a X -> sz b X.
Proof.
  intros a b X H [-> | (L & U)]; [left; reflexivity|right]. split.
  - eapply Rle_trans; [|exact L]. apply bpow_le. lia.
  - eapply Rle_trans; [exact U|]. apply bpow_le. lia.
Qed.

Lemma sz_mul : forall a b X Y, sz a X -> sz b Y -> sz (a + b) (X * Y).
Proof.
  intros a b X Y [-> | (L1 & U1)] [-> | (L2 & U2)]; [left; ring..|right]. rewrite Rabs_mult, bpow_plus.
  replace (- (a + b))%Z with (- a + - b)%Z by lia. rewrite bpow_plus.
  pose proof (bpow_ge_0 radix2 (- a)). pose proof (bpow_ge_0 radix2 (- b)). split; apply Rmult_le_compat; try assumption; apply Rabs_pos.
Qed.

Lemma sz_inv : forall a X, X <> 0 -> sz a X -> sz a (/ X).
Proof.
  intros a X N [-> | (L & U)]; [contradiction|right]. rewrite Rabs_inv. rewrite bpow_opp.
  pose proof (bpow_gt_0 radix2 a) as P. pose proof (Rabs_pos_lt X N) as Q. split.
  - apply Rinv_le_contravar; lra.
  - rewrite <- (Rinv_inv (bpow radix2 a)). rewrite <- bpow_opp. apply Rinv_le_contravar; [apply bpow_gt_0|exact L].
Qed.

Lemma sz_700 : forall a X, sz a X -> (a <= 700)%Z -> sz 700 X.
Proof. intros a X H L. exact (sz_le a 700 X L H). Qed.

Lemma moderate_sz : forall x, moderate x -> is_finite x = true /\ sz 100 (B2R x) /\ B2R x <> 0.
Proof.
  intros x (F & L & U). split; [exact F|]. split; [right; split; assumption|]. intros Z. rewrite Z, Rabs_R0 in L. pose proof (bpow_gt_0 radix2 (-100)). lra.
Qed.
Lemma moderate0_sz : forall x, moderate0 x -> is_finite x = true /\ sz 100 (B2R x).
Proof. intros x (F & H). split; [exact F|exact H]. Qed.

(** ** Velocity *)
Lemma velocity_b64 : forall x r : b64, moderate r -> moderate0 x ->
  is_finite (b_div (b_mul x r) r) = true /\ Rabs (B2R (b_div (b_mul x r) r) - B2R x) <= (bpow radix2 (-52) + bpow radix2 (-106)) * Rabs (B2R x).
Proof.
  intros x r Hr Hx. destruct (moderate_sz r Hr) as (Fr & Sr & Nr). destruct (moderate0_sz x Hx) as (Fx & Sx).
  destruct (mul_rel x r 0 0 _ _ Fx Fr (rel_exact _) (rel_exact _) ltac:(lia) (sz_700 _ _ (sz_mul _ _ _ _ Sx Sr) ltac:(lia))) as (Fm & Rm).
  assert (E : B2R x * B2R r / B2R r = B2R x) by (field; exact Nr).
  destruct (div_rel _ r _ _ Fm Rm Nr ltac:(lia)) as (Fd & Rd).
  { rewrite E. exact (sz_700 _ _ Sx ltac:(lia)). }
  split; [exact Fd|]. rewrite E in Rd. destruct Rd as (d & -> & L & H). replace (B2R x * d - B2R x) with ((d - 1) * B2R x) by ring. rewrite Rabs_mult.
  apply Rmult_le_compat_r; [apply Rabs_pos|]. cbn [Nat.add pow] in L, H.
  replace (bpow radix2 (-52)) with (2 * u53) by (change (-52)%Z with (1 + -53)%Z; rewrite bpow_plus; reflexivity).
  replace (bpow radix2 (-106)) with (u53 * u53) by (change (-106)%Z with (-53 + -53)%Z; rewrite bpow_plus; reflexivity).
  pose proof u53_lt as (U0 & _). assert (0 < u53 * u53) by (apply Rmult_lt_0_compat; assumption). apply Rabs_le. lra.
Qed.

(** ** Pressure *)
Lemma half64 : is_finite (b_div (b_ofZ 1) (b_ofZ 2)) = true /\ B2R (b_div (b_ofZ 1) (b_ofZ 2)) = / 2.
Proof.
  split; [reflexivity|]. replace (b_div (b_ofZ 1) (b_ofZ 2)) with (Bldexp mode_NE Bone (-1) : b64) by (apply b_eq_by; vm_compute; reflexivity).
  pose proof (Bldexp_correct 53 1024 Hp64 He64 mode_NE Bone (-1)) as C. rewrite Bone_correct, Rmult_1_l in C.
  rewrite round_generic in C; [|apply valid_rnd_round_mode|apply (bpow_fmt (-1)); lia].
  rewrite Rlt_bool_true in C; [apply C|]. rewrite Rabs_pos_eq by apply bpow_ge_0. apply bpow_lt. lia.
Qed.

Lemma prod_err : forall w x X d t k, 0 <= w <= / 1000000 -> Rabs (x - X) <= k * w * t -> Rabs X <= t -> Rabs (d - 1) <= w -> 0 <= k <= 100 -> Rabs (x * d - X) <= (k + 11 / 10) * w * t.
Proof.
  intros w x X d t k Hw H0 H1 Hd Hk. pose proof (Rabs_pos X) as Pt. replace (x * d - X) with ((x - X) * d + X * (d - 1)) by ring.
  eapply Rle_trans; [apply Rabs_triang|]. rewrite !Rabs_mult.
  assert (Ad : Rabs d <= 1 + w) by (apply Rabs_le_inv in Hd; apply Rabs_le; lra).
  assert (A1 : Rabs (x - X) * Rabs d <= k * w * t * (1 + w)) by (apply Rmult_le_compat; try apply Rabs_pos; assumption).
  assert (A2 : Rabs X * Rabs (d - 1) <= t * w) by (apply Rmult_le_compat; try apply Rabs_pos; assumption).
  assert (A3 : k * w <= / 10000) by (apply Rle_trans with (100 * / 1000000); [apply Rmult_le_compat; lra|lra]).
  assert (A4 : k * w * (w * t) <= / 10000 * (w * t)) by (apply Rmult_le_compat_r; [apply Rmult_le_pos; lra|exact A3]).
  assert (0 <= w * t) by (apply Rmult_le_pos; lra). lra.
Qed.

(** The subtraction of one *)
Lemma gamma_one : forall g : b64, is_finite g = true -> 1 < B2R g <= bpow radix2 100 ->
  let g1 := b_sub g (b_ofZ 1) in
  is_finite g1 = true /\ rel 1 (B2R g1) (B2R g - 1) /\ bpow radix2 (-52) <= B2R g - 1 /\ 0 < B2R g1 /\ sz 101 (B2R g1).
Proof.
  intros g Fg (G1 & G2) g1.
  assert (O1 : is_finite (b_ofZ 1) = true /\ B2R (b_ofZ 1) = 1) by (split; [reflexivity|]; vm_compute; lra).
  destruct O1 as (Fo & Eo).
  assert (L : bpow radix2 (-52) <= B2R g - 1).
  { pose proof (succ_le_lt radix2 fx 1 (B2R g)) as S1.
    assert (F1 : generic_format radix2 fx 1) by (apply (generic_format_bpow radix2 fx 0); intro Q; discriminate Q).
    specialize (S1 F1 (generic_format_B2R 53 1024 g) G1). rewrite succ_eq_pos in S1 by lra.
    change 1 with (bpow radix2 0) in S1 at 2. rewrite ulp_bpow in S1. cbn in S1 |- *. lra. }
  destruct (fl_sum g (b_ofZ 1)) as (_ & R1). rewrite Eo in R1.
  assert (Sm : Rabs (B2R g - 1) <= bpow radix2 100) by (rewrite Rabs_pos_eq by lra; lra).
  pose proof (Bminus_correct 53 1024 _ _ mode_NE g (b_ofZ 1) Fg Fo) as C. rewrite Eo in C.
  rewrite (no_ovf (B2R g - 1) 100 ltac:(lia) Sm) in C. destruct C as (C1 & C2 & _).
  change (B2R g1 = fl (B2R g - 1)) in C1. change (is_finite g1 = true) in C2. rewrite <- C1 in R1.
  split; [exact C2|]. split; [exact R1|]. split; [exact L|].
  destruct R1 as (d & Ed & D). apply rel_factor in D; [|lia]. pose proof (bpow_gt_0 radix2 (-52)) as P0.
  assert (P1 : 0 < B2R g1) by (rewrite Ed; apply Rmult_lt_0_compat; lra). split; [exact P1|].
  right. rewrite Rabs_pos_eq by lra. rewrite Ed. split.
  - apply Rle_trans with (bpow radix2 (-53)); [apply bpow_le; lia|]. replace u53 with (bpow radix2 (-52) * (1 / 2)) by (change (-53)%Z with (-52 + -1)%Z; rewrite bpow_plus; change (bpow radix2 (-1)) with (/ 2); field).
    apply Rmult_le_compat; lra.
  - change 101%Z with (100 + 1)%Z. rewrite bpow_plus. change (bpow radix2 1) with 2. apply Rmult_le_compat; lra.
Qed.

Lemma rel1_err : forall z Z, rel 1 z Z -> exists d, z = Z * d /\ Rabs (d - 1) <= u53.
Proof. intros z Z (d & E & L & H). exists d. split; [exact E|]. cbn [pow] in L, H. apply Rabs_le. lra. Qed.

Lemma pressure_b64 : forall g r x q : b64, is_finite g = true -> 1 < B2R g <= bpow radix2 100 ->
  moderate r -> 0 < B2R r -> moderate0 x -> moderate q -> 0 < B2R q ->
  let half := b_div (b_ofZ 1) (b_ofZ 2) in
  let g1 := b_sub g (b_ofZ 1) in
  let m := b_mul x r in
  let en := b_add (b_mul q (b_div (b_ofZ 1) g1)) (b_mul (b_mul (b_mul half r) x) x) in
  let q' := b_mul g1 (b_sub en (b_mul (b_mul (b_div half r) m) m)) in
  is_finite q' = true /\ Rabs (B2R q' - B2R q) <= bpow radix2 (-49) * stiffness (B2R g) (B2R r) (B2R x) (B2R q).
Proof.
  intros g r x q Fg Hg Mr Pr Mx Mq Pq half g1 m en q'.
  destruct (moderate_sz r Mr) as (Fr & Sr & Nr). destruct (moderate0_sz x Mx) as (Fx & Sx). destruct (moderate_sz q Mq) as (Fq & Sq & Nq).
  destruct (gamma_one g Fg Hg) as (Fg1 & Rg1 & Lg & Pg1 & Sg1). fold g1 in Fg1, Rg1, Pg1, Sg1.
  destruct half64 as (Fh & Eh). fold half in Fh, Eh.
  assert (O1 : is_finite (b_ofZ 1) = true /\ B2R (b_ofZ 1) = 1) by (split; [reflexivity|]; vm_compute; lra). destruct O1 as (Fo & Eo).
  set (G := B2R g1) in *. set (A := B2R q * (/ G)). set (K := / 2 * B2R r * B2R x * B2R x).
  assert (S1 : sz 1 1) by (right; rewrite Rabs_R1; cbn; lra). assert (Sh : sz 1 (/ 2)) by (right; rewrite Rabs_pos_eq by lra; cbn; lra).
  assert (NG : G <> 0) by lra.
  (* the energy *)
  assert (Ro : rel 0 (B2R (b_ofZ 1)) 1) by (rewrite Eo; apply rel_exact). assert (Rh : rel 0 (B2R half) (/ 2)) by (rewrite Eh; apply rel_exact).
  destruct (div_rel (b_ofZ 1) g1 0 1 Fo Ro NG ltac:(lia) (sz_700 _ _ (sz_mul _ _ _ _ S1 (sz_inv _ _ NG Sg1)) ltac:(lia))) as (F1 & R1). fold G in R1.
  replace (1 / G) with (/ G) in R1 by (field; exact NG).
  pose proof (sz_mul _ _ _ _ Sq (sz_inv _ _ NG Sg1)) as SA. fold A in SA.
  destruct (mul_rel q _ 0 1 _ _ Fq F1 (rel_exact _) R1 ltac:(lia) (sz_700 _ _ SA ltac:(lia))) as (F2 & R2). fold A in R2.
  pose proof (sz_mul _ _ _ _ Sh Sr) as T1. pose proof (sz_mul _ _ _ _ T1 Sx) as T2. pose proof (sz_mul _ _ _ _ T2 Sx) as SK. fold K in SK.
  destruct (mul_rel half r 0 0 _ _ Fh Fr Rh (rel_exact _) ltac:(lia) (sz_700 _ _ T1 ltac:(lia))) as (F3 & R3).
  destruct (mul_rel _ x _ 0 _ _ F3 Fx R3 (rel_exact _) ltac:(lia) (sz_700 _ _ T2 ltac:(lia))) as (F4 & R4).
  destruct (mul_rel _ x _ 0 _ _ F4 Fx R4 (rel_exact _) ltac:(lia) (sz_700 _ _ SK ltac:(lia))) as (F5 & R5). fold K in R5.
  set (ba := b_mul q (b_div (b_ofZ 1) g1)) in *. set (bk := b_mul (b_mul (b_mul half r) x) x) in *.
  cbn [Nat.add] in R2, R5.
  assert (PA : 0 < A) by (apply Rmult_lt_0_compat; [exact Pq|apply Rinv_0_lt_compat; exact Pg1]).
  assert (PK : 0 <= K) by (unfold K; pose proof (Rle_0_sqr (B2R x)) as Z; unfold Rsqr in Z; nra).
  (* the momentum *)
  destruct (mul_rel x r 0 0 _ _ Fx Fr (rel_exact _) (rel_exact _) ltac:(lia) (sz_700 _ _ (sz_mul _ _ _ _ Sx Sr) ltac:(lia))) as (F6 & R6). fold m in F6, R6.
  pose proof (sz_mul _ _ _ _ Sx Sr) as Sm. pose proof (sz_mul _ _ _ _ Sh (sz_inv _ _ Nr Sr)) as Shr.
  destruct (div_rel half r 0 _ Fh Rh Nr ltac:(lia) (sz_700 _ _ Shr ltac:(lia))) as (F7 & R7).
  pose proof (sz_mul _ _ _ _ Shr Sm) as T3. pose proof (sz_mul _ _ _ _ T3 Sm) as T4.
  destruct (mul_rel _ m _ _ _ _ F7 F6 R7 R6 ltac:(lia) (sz_700 _ _ T3 ltac:(lia))) as (F8 & R8).
  destruct (mul_rel _ m _ _ _ _ F8 F6 R8 R6 ltac:(lia) (sz_700 _ _ T4 ltac:(lia))) as (F9 & R9).
  set (bk' := b_mul (b_mul (b_div half r) m) m) in *. cbn [Nat.add] in R9.
  replace (/ 2 / B2R r * (B2R x * B2R r) * (B2R x * B2R r)) with K in R9 by (unfold K; field; exact Nr).
  (* sizes *)
  assert (Bnd : forall k z Z, (k <= 12)%nat -> rel k z Z -> sz 700 Z -> Rabs z <= bpow radix2 800).
  { intros k z Z Hk Rz Sz. destruct (rel_size k z Z Hk Rz Sz) as [-> | (_ & U)]; [rewrite Rabs_R0; apply bpow_ge_0|exact U]. }
  pose proof (Bnd 2%nat _ _ ltac:(lia) R2 (sz_700 _ _ SA ltac:(lia))) as B2. pose proof (Bnd 3%nat _ _ ltac:(lia) R5 (sz_700 _ _ SK ltac:(lia))) as B5. pose proof (Bnd 5%nat _ _ ltac:(lia) R9 (sz_700 _ _ SK ltac:(lia))) as B9.
  assert (Dbl : bpow radix2 800 + bpow radix2 800 = bpow radix2 801) by (apply (bpow_dbl 800)).
  assert (BE : is_finite en = true /\ Rabs (B2R en) <= bpow radix2 801).
  { apply (b_add_bound ba bk 801); [lia|exact F2|exact F5|]. rewrite <- Dbl. apply Rabs_split; assumption. }
  destruct BE as (Fe & Be). destruct (b_add_val _ _ Fe) as (_ & _ & Ee). destruct (fl_sum ba bk) as (Re & _).
  change (fl (B2R ba + B2R bk)) with (rnd (B2R ba + B2R bk)) in Re. rewrite <- Ee in Re. fold en in Re.
  set (df := b_sub en bk') in *.
  assert (BD : is_finite df = true /\ Rabs (B2R df) <= bpow radix2 802).
  { assert (L : Rabs (B2R en - B2R bk') <= bpow radix2 802).
    { unfold Rminus. replace (bpow radix2 802) with (bpow radix2 801 + bpow radix2 801) by apply (bpow_dbl 801). apply Rabs_split; [exact Be|]. rewrite Rabs_Ropp. eapply Rle_trans; [exact B9|]. apply bpow_le. lia. }
    pose proof (Bminus_correct 53 1024 _ _ mode_NE en bk' Fe F9) as C. rewrite (no_ovf _ 802 ltac:(lia) L) in C. destruct C as (C1 & C2 & _).
    unfold df, b_sub. rewrite C1, C2. split; [reflexivity|]. apply rnd_abs_le; [lia|exact L]. }
  destruct BD as (Fd & Bd). destruct (b_sub_val _ _ Fd) as (_ & _ & Edf). destruct (fl_sum en bk') as (_ & Rd).
  change (fl (B2R en - B2R bk')) with (rnd (B2R en - B2R bk')) in Rd. rewrite <- Edf in Rd. fold df in Rd.
  assert (BQ : is_finite q' = true).
  { apply (b_mul_bound g1 df 910); [lia|exact Fg1|exact Fd|]. rewrite Rabs_mult.
    apply Rle_trans with (bpow radix2 101 * bpow radix2 802); [|rewrite <- bpow_plus; apply bpow_le; lia].
    apply Rmult_le_compat; try apply Rabs_pos; [|exact Bd]. destruct Sg1 as [Z|(_ & U)]; [contradiction|exact U]. }
  split; [exact BQ|]. destruct (b_mul_val _ _ BQ) as (_ & _ & Eq). fold G in Eq.
  destruct (error_N_FLT radix2 (3 - 1024 - 53) 53 ltac:(reflexivity) (fun x => negb (Z.even x)) (G * B2R df)) as (ep & eta & He & Ht & _ & Ef).
  change (rnd (G * B2R df) = G * B2R df * (1 + ep) + eta) in Ef. rewrite Ef in Eq. clear Ef.
  replace (/ 2 * bpow radix2 (- (53) + 1)) with u53 in He by (change (- (53) + 1)%Z with (-53 + 1)%Z; rewrite bpow_plus; change (bpow radix2 1) with 2; field).
  (* errors *)
  pose proof u53_lt as (U0 & U1). set (w := u53) in *.
  pose proof (rel_err 2 _ _ ltac:(lia) R2) as X2. pose proof (rel_err 3 _ _ ltac:(lia) R5) as X5. pose proof (rel_err 5 _ _ ltac:(lia) R9) as X9.
  destruct (rel1_err _ _ Re) as (de & Ede & Bde). destruct (rel1_err _ _ Rd) as (dd & Edd & Bdd). destruct (rel1_err _ _ Rg1) as (dg & Edg & Bdg).
  fold w in X2, X5, X9, Bde, Bdd, Bdg. rewrite (Rabs_pos_eq A) in X2 by lra. rewrite (Rabs_pos_eq K) in X5, X9 by lra.
  replace (INR 2) with 2 in X2 by reflexivity. replace (INR 3) with 3 in X5 by (cbn; ring). replace (INR 5) with 5 in X9 by (cbn; ring).
  set (T := A + K). assert (PT : 0 < T) by (unfold T; lra). assert (PwT : 0 < w * T) by (apply Rmult_lt_0_compat; assumption).
  assert (PwA : 0 < w * A) by (apply Rmult_lt_0_compat; assumption). assert (PwK : 0 <= w * K) by (apply Rmult_le_pos; lra).
  assert (ET : w * T = w * A + w * K) by (unfold T; ring).
  assert (Y1 : Rabs ((B2R ba + B2R bk) - T) <= 304 / 100 * w * T).
  { unfold T. replace (B2R ba + B2R bk - (A + K)) with ((B2R ba - A) + (B2R bk - K)) by ring. eapply Rle_trans; [apply Rabs_triang|]. fold T. lra. }
  assert (Y2 : Rabs (B2R en - T) <= (304 / 100 + 11 / 10) * w * T).
  { rewrite Ede. apply prod_err; try lra; try assumption. rewrite Rabs_pos_eq by lra. lra. }
  assert (Y3 : Rabs ((B2R en - B2R bk') - A) <= 93 / 10 * w * T).
  { replace (B2R en - B2R bk' - A) with ((B2R en - T) + - (B2R bk' - K)) by (unfold T; ring). eapply Rle_trans; [apply Rabs_triang|]. rewrite Rabs_Ropp. lra. }
  assert (AT : Rabs A <= T) by (rewrite Rabs_pos_eq by lra; unfold T; lra).
  assert (Y4 : Rabs (B2R df - A) <= (93 / 10 + 11 / 10) * w * T).
  { rewrite Edd. apply prod_err; try lra; assumption. }
  assert (Y5 : Rabs (B2R df * (1 + ep) - A) <= (93 / 10 + 11 / 10 + 11 / 10) * w * T).
  { apply prod_err; try lra; try assumption. replace (1 + ep - 1) with ep by ring. exact He. }
  assert (Eqq : B2R q = G * A) by (unfold A; field; exact NG).
  assert (Y6 : Rabs (B2R q' - B2R q) <= 115 / 10 * w * (G * T) + Rabs eta).
  { fold q' in Eq. rewrite Eq, Eqq at 1. replace (G * B2R df * (1 + ep) + eta - G * A) with (G * (B2R df * (1 + ep) - A) + eta) by ring.
    eapply Rle_trans; [apply Rabs_triang|]. apply Rplus_le_compat_r. rewrite Rabs_mult, (Rabs_pos_eq G) by lra.
    replace (115 / 10 * w * (G * T)) with (G * (115 / 10 * w * T)) by ring. apply Rmult_le_compat_l; [lra|]. eapply Rle_trans; [exact Y5|]. right. field. }
  assert (Y7 : Rabs eta <= w * B2R q).
  { eapply Rle_trans; [exact Ht|]. apply Rle_trans with (bpow radix2 (-153)).
    - replace (/ 2 * bpow radix2 (3 - 1024 - 53)) with (bpow radix2 (-1075)) by (change (3 - 1024 - 53)%Z with (-1075 + 1)%Z; rewrite bpow_plus; change (bpow radix2 1) with 2; field). apply bpow_le. lia.
    - change (-153)%Z with (-53 + -100)%Z. rewrite bpow_plus. apply Rmult_le_compat_l; [apply bpow_ge_0|].
      destruct Mq as (_ & L & _). rewrite Rabs_pos_eq in L by lra. exact L. }
  assert (GT : G * T <= (1 + w) * stiffness (B2R g) (B2R r) (B2R x) (B2R q)).
  { unfold T, stiffness. replace (G * (A + K)) with (B2R q + G * K) by (rewrite Eqq; ring). rewrite Edg.
    replace (B2R r * (B2R x * B2R x) / 2) with K by (unfold K; field).
    assert (dg <= 1 + w) by (apply Rabs_le_inv in Bdg; lra).
    assert (P3 : 0 <= (B2R g - 1) * K) by (apply Rmult_le_pos; lra).
    assert ((B2R g - 1) * K * dg <= (B2R g - 1) * K * (1 + w)) by (apply Rmult_le_compat_l; lra).
    assert (0 <= w * B2R q) by (apply Rmult_le_pos; lra). lra. }
  set (ST := stiffness _ _ _ _) in *.
  assert (PST : B2R q <= ST).
  { unfold ST, stiffness. assert (0 <= (B2R g - 1) * (B2R r * (B2R x * B2R x) / 2)); [|lra]. apply Rmult_le_pos; [lra|]. replace (B2R r * (B2R x * B2R x) / 2) with K by (unfold K; field). exact PK. }
  replace (bpow radix2 (-49)) with (16 * w) by (unfold w; change (-49)%Z with (4 + -53)%Z; rewrite bpow_plus; reflexivity).
  assert (Z1 : w * (G * T) <= w * ((1 + w) * ST)) by (apply Rmult_le_compat_l; lra).
  assert (Z2 : w * B2R q <= w * ST) by (apply Rmult_le_compat_l; lra).
  assert (Z3 : w * (w * ST) <= / 1000000 * (w * ST)) by (apply Rmult_le_compat_r; [apply Rmult_le_pos; lra|lra]).
  assert (0 <= w * ST) by (apply Rmult_le_pos; lra). lra.
Qed.
