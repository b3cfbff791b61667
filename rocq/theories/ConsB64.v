(** Rounding errors of a completed step in binary64. *)

From Coq Require Import Reals ZArith QArith Qreals Qabs List Lia Bool Lra Psatz.
From Flocq Require Import Core BinarySingleNaN Relative Plus_error.
From Verif Require Import Base Num XReal B64 Config Mesh State NumFlux Time Spec SpecFlow SpecStep SpecTableau SpecEuler SpecMass MeshProofs PhysicsProofs UpdateProofs FluxProofs FlatProofs
  BoundaryProofs FluxThms FluxReal StepProofs StepInv StepEq EulerStep EulerThms LinRun ConsThms TableauProofs MeshB64 VanLeer ConvB64.
Import ListNotations.
Local Open Scope R_scope.

Notation eta := (bpow radix2 (-1021)).

Lemma fl_any : forall x, Rabs (fl x - x) <= u53 * Rabs x + eta.
Proof.
  intros x. pose proof (bpow_gt_0 radix2 (-1021)). pose proof (Rabs_pos x). pose proof u53_lt as (U0 & _).
  destruct (Rle_or_lt (bpow radix2 (-1022)) (Rabs x)) as [L|L].
  - pose proof (relative_error_N_FLT radix2 (3 - 1024 - 53) 53 ltac:(reflexivity) (fun x => negb (Z.even x)) x L) as K.
    change (/ 2 * bpow radix2 (- (53) + 1)) with (/ 2 * bpow radix2 (-53 + 1)) in K. rewrite bpow_plus in K. change (bpow radix2 1) with 2 in K. lra.
  - pose proof (rnd_abs_le x (-1022) ltac:(lia) ltac:(lra)) as K. change (Rabs (fl x) <= bpow radix2 (-1022)) in K.
    assert (E : eta = bpow radix2 (-1022) + bpow radix2 (-1022)) by (change (-1021)%Z with (-1022 + 1)%Z; rewrite bpow_plus; change (bpow radix2 1) with 2; ring).
    assert (0 <= u53 * Rabs x) by (apply Rmult_le_pos; lra).
    pose proof (Rabs_triang (fl x) (- x)) as T. rewrite Rabs_Ropp in T. unfold Rminus. lra.
Qed.

Lemma fl_mul_val : forall x y : b64, is_finite (b_mul x y) = true ->
  is_finite x = true /\ is_finite y = true /\ B2R (b_mul x y) = fl (B2R x * B2R y).
Proof. exact b_mul_val. Qed.
Lemma fl_sub_val : forall x y : b64, is_finite (b_sub x y) = true ->
  is_finite x = true /\ is_finite y = true /\ B2R (b_sub x y) = fl (B2R x - B2R y).
Proof. exact b_sub_val. Qed.

(** ** One term of the sum *)
Lemma term_err : forall (dt b w f1 f0 : b64) beta,
  is_finite (b_mul (b_mul dt b) (b_mul w (b_sub f1 f0))) = true ->
  wide (B2R dt) -> rel 1 (B2R b) beta -> beta = 0 \/ bpow radix2 (-20) <= Rabs beta <= 2 ->
  is_finite f1 = true /\ is_finite f0 = true /\
  Rabs (B2R (b_mul (b_mul dt b) (b_mul w (b_sub f1 f0))) - B2R dt * beta * (B2R w * (B2R f1 - B2R f0))) <=
    101 / 100 * 5 * u53 * Rabs (B2R dt * beta * (B2R w * (B2R f1 - B2R f0))) + bpow radix2 (-515).
Proof.
  intros dt b w f1 f0 beta F Wd Rb Hb.
  destruct (fl_mul_val _ _ F) as (F1 & F2 & E). rewrite E. clear E.
  destruct (fl_mul_val _ _ F1) as (Fd & Fb & _). destruct (fl_mul_val _ _ F2) as (Fw & F3 & E2). destruct (fl_sub_val _ _ F3) as (G1 & G0 & E3).
  split; [exact G1|]. split; [exact G0|].
  destruct (mul_rel dt b 0 1 (B2R dt) beta Fd Fb (rel_exact _) Rb ltac:(lia)) as (_ & (d1 & D1 & Q1)).
  { destruct Hb as [->|(L & H)]; [left; ring|right]. destruct Wd as (W1 & W2). pose proof (bpow_gt_0 radix2 (-500)). pose proof (bpow_gt_0 radix2 (-20)).
    rewrite Rabs_mult, (Rabs_pos_eq (B2R dt)) by lra. split.
    - apply Rle_trans with (bpow radix2 (-500) * bpow radix2 (-20)); [rewrite <- bpow_plus; apply bpow_le; lia|apply Rmult_le_compat; lra].
    - apply Rle_trans with (bpow radix2 500 * bpow radix2 1); [pose proof (Rabs_pos beta); change (bpow radix2 1) with 2; apply Rmult_le_compat; lra|rewrite <- bpow_plus; apply bpow_le; lia]. }
  destruct (proj2 (fl_sum f1 f0)) as (d2 & D2 & Q2). rewrite <- E3 in D2. rewrite E2, D1, D2. 
  set (X := B2R dt * beta). set (D := B2R f1 - B2R f0). set (W := B2R w). cbn [Nat.add] in Q1.
  pose proof (fl_any (W * (D * d2))) as K1. set (f := fl (W * (D * d2))) in *.
  pose proof (fl_any (X * d1 * f)) as K2. set (g := fl (X * d1 * f)) in *.
  pose proof u53_lt as (U0 & U1). pose proof (rel_factor 1 d2 ltac:(lia) Q2) as B2. pose proof (rel_factor 2 d1 ltac:(lia) Q1) as B1.
  assert (HX : Rabs X <= bpow radix2 501).
  { unfold X. rewrite Rabs_mult. destruct Wd as (W1 & W2). pose proof (bpow_gt_0 radix2 (-500)). rewrite (Rabs_pos_eq (B2R dt)) by lra.
    replace (bpow radix2 501) with (bpow radix2 500 * 2) by (change 501%Z with (500 + 1)%Z; rewrite bpow_plus; reflexivity).
    pose proof (Rabs_pos beta). apply Rmult_le_compat; try lra. destruct Hb as [->|Hb]; [rewrite Rabs_R0; lra|lra]. }
  (* f = W D d2 + z1, g = X d1 f + z2 *)
  set (Y := Rabs (X * (W * D))).
  assert (Yp : 0 <= Y) by apply Rabs_pos.
  assert (A1 : Rabs (X * d1 * f - X * d1 * (W * (D * d2))) <= u53 * (d1 * d2 * Y) + 2 * bpow radix2 501 * eta).
  { replace (X * d1 * f - X * d1 * (W * (D * d2))) with (X * d1 * (f - W * (D * d2))) by ring. rewrite !Rabs_mult, (Rabs_pos_eq d1) by lra.
    apply Rle_trans with (Rabs X * d1 * (u53 * Rabs (W * (D * d2)) + eta)).
    - apply Rmult_le_compat_l; [apply Rmult_le_pos; [apply Rabs_pos|lra]|exact K1].
    - assert (Ey : Rabs (W * (D * d2)) = Rabs (W * D) * d2) by (rewrite !Rabs_mult, (Rabs_pos_eq d2) by lra; ring). rewrite Ey.
      assert (Yy : Y = Rabs X * Rabs (W * D)) by (unfold Y; apply Rabs_mult). 
      replace (Rabs X * d1 * (u53 * (Rabs (W * D) * d2) + eta)) with (u53 * (d1 * d2 * Y) + Rabs X * d1 * eta) by (rewrite Yy; ring).
      apply Rplus_le_compat_l. apply Rmult_le_compat_r; [apply bpow_ge_0|]. rewrite (Rmult_comm 2). apply Rmult_le_compat; try lra. apply Rabs_pos. }
  assert (Z1 : Rabs (X * d1 * (W * (D * d2))) = d1 * d2 * Y).
  { replace (X * d1 * (W * (D * d2))) with (d1 * d2 * (X * (W * D))) by ring. rewrite Rabs_mult, (Rabs_pos_eq (d1 * d2)) by (apply Rmult_le_pos; lra). reflexivity. }
  assert (D12 : rel 3 (d1 * d2) 1).
  { exists (d1 * d2). split; [ring|]. destruct (pow_mix 2 1 d1 d2 Q1 Q2) as (P1 & P2). cbn [Nat.add] in P1, P2. split; assumption. }
  pose proof (rel_err 3 _ _ ltac:(lia) D12) as R3. rewrite Rabs_R1 in R3. cbn [INR] in R3.
  assert (R3' : d1 * d2 <= 1 + 101 / 100 * 3 * u53) by (apply Rabs_le_inv in R3; lra).
  set (P := d1 * d2 * Y) in *.
  assert (HP : 0 <= P <= Y * (1 + 101 / 100 * 3 * u53)).
  { unfold P. assert (0 <= d1 * d2) by (apply Rmult_le_pos; lra). split; [apply Rmult_le_pos; lra|]. rewrite (Rmult_comm Y). apply Rmult_le_compat_r; assumption. }
  assert (A3 : Rabs (X * d1 * (W * (D * d2)) - X * (W * D)) <= 101 / 100 * 3 * u53 * Y).
  { replace (X * d1 * (W * (D * d2)) - X * (W * D)) with ((d1 * d2 - 1) * (X * (W * D))) by ring. rewrite Rabs_mult. fold Y.
    apply Rmult_le_compat_r; [exact Yp|]. lra. }
  assert (A2 : Rabs (X * d1 * f) <= P + u53 * P + 2 * bpow radix2 501 * eta).
  { pose proof (Rabs_triang (X * d1 * f - X * d1 * (W * (D * d2))) (X * d1 * (W * (D * d2)))) as T. rewrite Z1 in T.
    replace (X * d1 * f - X * d1 * (W * (D * d2)) + X * d1 * (W * (D * d2))) with (X * d1 * f) in T by ring. lra. }
  set (h := 2 * bpow radix2 501 * eta) in *.
  assert (Hh : h = bpow radix2 (-519)).
  { unfold h. change 2 with (bpow radix2 1). rewrite <- !bpow_plus. reflexivity. }
  assert (H0 : eta <= bpow radix2 (-519)) by (apply bpow_le; lia).
  assert (H1 : bpow radix2 (-515) = 16 * bpow radix2 (-519)) by (change (-515)%Z with (4 + -519)%Z; rewrite bpow_plus; reflexivity).
  assert (H2 : 0 < bpow radix2 (-519)) by apply bpow_gt_0.
  replace (g - X * (W * D)) with ((g - X * d1 * f) + (X * d1 * f - X * d1 * (W * (D * d2))) + (X * d1 * (W * (D * d2)) - X * (W * D))) by ring.
  eapply Rle_trans; [apply Rabs_triang|]. eapply Rle_trans; [apply Rplus_le_compat_r; apply Rabs_triang|].
  set (v := u53) in *.
  assert (V1 : v * Rabs (X * d1 * f) <= v * (P + v * P + h)) by (apply Rmult_le_compat_l; lra).
  assert (V2 : v * (v * P) <= / 1000000 * (v * P)).
  { apply Rmult_le_compat_r; [apply Rmult_le_pos; lra|lra]. }
  assert (V3 : v * P <= v * (Y * (1 + 101 / 100 * 3 * v))) by (apply Rmult_le_compat_l; lra).
  assert (V4 : v * (Y * (1 + 101 / 100 * 3 * v)) <= v * Y * (1 + / 100000)).
  { replace (v * (Y * (1 + 101 / 100 * 3 * v))) with (v * Y * (1 + 101 / 100 * 3 * v)) by ring. apply Rmult_le_compat_l; [apply Rmult_le_pos; lra|lra]. }
  assert (V5 : v * h <= h) by (rewrite <- (Rmult_1_l h) at 2; apply Rmult_le_compat_r; lra).
  assert (VY : 0 <= v * Y) by (apply Rmult_le_pos; lra).
  change (Rabs (X * (W * D))) with Y. unfold X, W, D in *. rewrite Hh in *. 
  replace (101 / 100 * 5 * v * Y) with (101 / 100 * 5 * (v * Y)) by ring.
  assert (V6 : v * (P + v * P + bpow radix2 (-519)) = v * P + v * (v * P) + v * bpow radix2 (-519)) by ring.
  assert (V7 : 101 / 100 * 3 * v * Y = 101 / 100 * 3 * (v * Y)) by ring.
  lra.
Qed.

(** ** The sum of the stages in a cell *)
Lemma cell_sum : forall (g : nat -> b64) (P : nat -> b64) (X : nat -> R) M n, (n <= 8)%nat ->
  (forall k, (k < n)%nat -> g (S k) = b_sub (g k) (P k)) -> is_finite (g n) = true ->
  (forall k, (k < n)%nat -> is_finite (P k) = true -> Rabs (B2R (P k) - X k) <= 101 / 100 * 5 * u53 * Rabs (X k) + bpow radix2 (-515)) ->
  (forall k, (k <= n)%nat -> Rabs (B2R (g 0%nat)) + rsum k (fun q => Rabs (X q)) <= M) ->
  is_finite (g 0%nat) = true /\
  Rabs (B2R (g n) - (B2R (g 0%nat) - rsum n X)) <= INR n * (8 * u53 * M + bpow radix2 (-513)).
Proof.
  intros g P X M. induction n as [|n IH]; intros Hn Hg F Ht HM.
  - split; [exact F|]. cbn [rsum INR]. rewrite Rmult_0_l. right. replace (B2R (g 0%nat) - (B2R (g 0%nat) - 0)) with 0 by ring. apply Rabs_R0.
  - rewrite Hg in F by lia. destruct (fl_sub_val _ _ F) as (F1 & F2 & E).
    destruct (IH ltac:(lia) ltac:(intros; apply Hg; lia) F1 ltac:(intros; apply Ht; [lia|assumption]) ltac:(intros; apply HM; lia)) as (F0 & K).
    split; [exact F0|]. rewrite Hg by lia.
    specialize (Ht n ltac:(lia) F2). pose proof (HM (S n) ltac:(lia)) as M1. pose proof (HM n ltac:(lia)) as M0. cbn [rsum] in M1.
    destruct (proj2 (fl_sum (g n) (P n))) as (d & D & Q). rewrite <- E in D. cbn [pow] in Q. rewrite !Rmult_1_r in Q.
    set (c := B2R (g n)) in *. set (q := B2R (P n)) in *. set (c0 := B2R (g 0%nat)) in *. set (Y := Rabs (X n)) in *.
    pose proof u53_lt as (U0 & U1). set (v := u53) in *. set (t := bpow radix2 (-515)) in *.
    assert (T : bpow radix2 (-513) = 4 * t) by (unfold t; change (-513)%Z with (2 + -515)%Z; rewrite bpow_plus; reflexivity). rewrite T in *.
    assert (Tp : 0 < t) by apply bpow_gt_0.
    assert (Yp : 0 <= Y) by apply Rabs_pos.
    assert (Np : 0 <= INR n <= 7) by (split; [apply pos_INR|]; replace 7 with (INR 7) by (cbn; ring); apply le_INR; lia).
    assert (S0 : 0 <= rsum n (fun q => Rabs (X q))) by (clear; induction n; cbn [rsum]; [lra|pose proof (Rabs_pos (X n)); lra]).
    assert (S1 : Rabs (rsum n X) <= rsum n (fun q => Rabs (X q))).
    { clear. induction n; cbn [rsum]; [rewrite Rabs_R0; lra|]. eapply Rle_trans; [apply Rabs_triang|]. lra. }
    assert (Mp : 0 <= M) by (pose proof (Rabs_pos c0); lra).
    rewrite D. cbn [rsum]. rewrite S_INR.
    assert (Hc : Rabs (c - X n) <= M + INR n * (8 * v * M + 4 * t)).
    { replace (c - X n) with ((c - (c0 - rsum n X)) + (c0 + - rsum n X + - X n)) by ring. eapply Rle_trans; [apply Rabs_triang|].
      pose proof (Rabs_triang (c0 + - rsum n X) (- X n)) as T1. pose proof (Rabs_triang c0 (- rsum n X)) as T2. rewrite !Rabs_Ropp in *. fold Y in T1. lra. }
    assert (Hq : Rabs (c - q) <= Rabs (c - X n) + (101 / 100 * 5 * v * Y + t)).
    { replace (c - q) with ((c - X n) + (X n - q)) by ring. eapply Rle_trans; [apply Rabs_triang|]. rewrite (Rabs_minus_sym (X n)). lra. }
    replace ((c - q) * d - (c0 - (rsum n X + X n))) with ((c - (c0 - rsum n X)) + ((c - q) * (d - 1)) + - (q - X n)) by ring.
    eapply Rle_trans; [apply Rabs_triang|]. eapply Rle_trans; [apply Rplus_le_compat_r; apply Rabs_triang|]. rewrite Rabs_Ropp, Rabs_mult.
    assert (Hd : Rabs (d - 1) <= v) by (apply Rabs_le; lra).
    assert (W1 : Rabs (c - q) * Rabs (d - 1) <= (M + INR n * (8 * v * M + 4 * t) + (101 / 100 * 5 * v * Y + t)) * v).
    { apply Rmult_le_compat; try apply Rabs_pos; lra. }
    assert (YM : Y <= M) by (pose proof (Rabs_pos c0); lra).
    assert (VY : v * Y <= v * M) by (apply Rmult_le_compat_l; lra).
    assert (VM : 0 <= v * M) by (apply Rmult_le_pos; lra).
    assert (VVM : v * (v * M) <= / 1000000 * (v * M)) by (apply Rmult_le_compat_r; lra).
    assert (VVY : v * (v * Y) <= v * (v * M)) by (apply Rmult_le_compat_l; lra).
    assert (VT : v * t <= / 1000000 * t) by (apply Rmult_le_compat_r; lra).
    assert (NB : INR n * (v * (8 * (v * M) + 4 * t)) <= 7 * (v * (8 * (v * M) + 4 * t))).
    { apply Rmult_le_compat_r; [|lra]. apply Rmult_le_pos; lra. }
    replace ((M + INR n * (8 * v * M + 4 * t) + (101 / 100 * 5 * v * Y + t)) * v) with (v * M + INR n * (v * (8 * (v * M) + 4 * t)) + 101 / 100 * 5 * (v * (v * Y)) + v * t) in W1 by ring.
    replace (v * (8 * (v * M) + 4 * t)) with (8 * (v * (v * M)) + 4 * (v * t)) in * by ring.
    replace ((INR n + 1) * (8 * v * M + 4 * t)) with (INR n * (8 * v * M + 4 * t) + (8 * (v * M) + 4 * t)) by ring.
    replace (101 / 100 * 5 * v * Y) with (101 / 100 * 5 * (v * Y)) in * by ring. lra.
Qed.

(** ** The weights of the methods *)
Lemma ofZ_exact : forall z, (Z.abs z < 2 ^ 53)%Z -> is_finite (b_ofZ z) = true /\ B2R (b_ofZ z) = IZR z.
Proof.
  intros z Hz. pose proof (binary_normalize_correct 53 1024 Hp64 He64 mode_NE z 0 false) as C.
  unfold F2R in C. cbn [Fnum Fexp bpow] in C. rewrite Rmult_1_r in C.
  rewrite round_generic in C.
  - rewrite Rlt_bool_true in C; [split; apply C|]. rewrite <- abs_IZR. apply Rlt_le_trans with (bpow radix2 53).
    + change (bpow radix2 53) with (IZR (2 ^ 53)). apply IZR_lt. exact Hz.
    + change (bpow radix2 53 <= bpow radix2 1024). apply bpow_le. lia.
  - apply valid_rnd_N.
  - apply generic_format_FLT. exists (Float radix2 z 0); [unfold F2R; cbn; ring|exact Hz|discriminate].
Qed.

Definition wrel (x : b64) (b : Q) : Prop := is_finite x = true /\ rel 1 (B2R x) (Q2R b).

Lemma wrel_Z : forall z, (Z.abs z < 2 ^ 53)%Z -> wrel (b_ofZ z) (inject_Z z).
Proof.
  intros z H. destruct (ofZ_exact z H) as (F & E). split; [exact F|]. rewrite E, Q2R_inject. exists 1. pose proof u53_lt. cbn [pow]. split; lra.
Qed.
Lemma wrel_fr : forall a b, (Z.abs a < 2 ^ 53)%Z -> (0 < b < 2 ^ 53)%Z -> wrel (b_div (b_ofZ a) (b_ofZ b)) (inject_Z a / inject_Z b)%Q.
Proof.
  intros a b Ha Hb. destruct (ofZ_exact a Ha) as (Fa & Ea). destruct (ofZ_exact b ltac:(lia)) as (Fb & Eb).
  assert (Pb : 0 < IZR b) by (apply (IZR_lt 0); lia).
  assert (Bb : IZR b < bpow radix2 53) by (change (bpow radix2 53) with (IZR (2 ^ 53)); apply IZR_lt; lia).
  destruct (div_rel (b_ofZ a) (b_ofZ b) 0 (IZR a) Fa ltac:(rewrite Ea; apply rel_exact) ltac:(rewrite Eb; lra) ltac:(lia)) as (F & R).
  - rewrite Eb. destruct (Z.eq_dec a 0) as [->|Na]; [left; unfold Rdiv; ring|right].
    assert (Qa : 1 <= Rabs (IZR a) < bpow radix2 53).
    { rewrite <- abs_IZR. change (bpow radix2 53) with (IZR (2 ^ 53)). split; [apply (IZR_le 1); lia|apply IZR_lt; exact Ha]. }
    unfold Rdiv. rewrite Rabs_mult, Rabs_inv, (Rabs_pos_eq (IZR b)) by lra.
    assert (I1 : bpow radix2 (-53) <= / IZR b).
    { change (-53)%Z with (- (53))%Z. rewrite bpow_opp. apply Rinv_le; lra. }
    assert (I2 : / IZR b <= 1).
    { rewrite <- Rinv_1. apply Rinv_le; [lra|]. apply (IZR_le 1); lia. }
    pose proof (bpow_gt_0 radix2 (-53)). split.
    + apply Rle_trans with (1 * bpow radix2 (-53)); [rewrite Rmult_1_l; apply bpow_le; lia|apply Rmult_le_compat; lra].
    + apply Rle_trans with (bpow radix2 53 * 1); [apply Rmult_le_compat; lra|rewrite Rmult_1_r; apply bpow_le; lia].
  - split; [exact F|]. rewrite Eb in R. rewrite Q2R_div, !Q2R_inject; [exact R|]. unfold Qeq. cbn. lia.
Qed.
Lemma wrel_Q : forall q, (Z.abs (Qnum q) < 2 ^ 53)%Z -> (Zpos (Qden q) < 2 ^ 53)%Z ->
  wrel (b_div (b_ofZ (Qnum q)) (b_ofZ (Zpos (Qden q)))) q.
Proof.
  intros q H1 H2. destruct (wrel_fr (Qnum q) (Zpos (Qden q)) H1 ltac:(lia)) as (F & R). split; [exact F|].
  replace (Q2R q) with (Q2R (inject_Z (Qnum q) / inject_Z (Zpos (Qden q)))); [exact R|].
  apply Qeq_eqR. destruct q as [a b]. cbn [Qnum Qden]. unfold Qdiv, Qinv, inject_Z, Qmult, Qeq. cbn. lia.
Qed.

Section Weights.
Variables (bln bexp : b64 -> b64).
Notation B := (B64n bln bexp).

Lemma high_rel : forall (c : rkf_config B), Forall2 wrel (bt_high (bt_new c)) (bt_high (qtab (rc_mode c))).
Proof.
  intros [md asc r1 r2 r3]. cbn [rc_mode].
  destruct md; unfold bt_new, qtab; cbn [rc_mode bt_high nZ nQ ndiv B64n Qnum_ops];
    repeat (apply Forall2_cons); try apply Forall2_nil;
    lazymatch goal with
    | |- wrel (b_ofZ ?z) _ => refine (wrel_Z z _); reflexivity
    | |- wrel _ (inject_Z ?a / inject_Z ?b)%Q => refine (wrel_fr a b _ _); [reflexivity|split; reflexivity]
    | |- wrel _ ?q => refine (wrel_Q q _ _); reflexivity
    end.
Qed.

Lemma Forall2_nth : forall X Y (P : X -> Y -> Prop) l1 l2 d1 d2 q, Forall2 P l1 l2 -> P d1 d2 -> P (nth q l1 d1) (nth q l2 d2).
Proof. intros X Y P l1 l2 d1 d2 q H. revert q. induction H; intros [|q] Hd; cbn [nth]; auto. Qed.

Lemma weight_rel : forall (c : rkf_config B) q, wrel (at1 (n0 B) (bt_high (bt_new c)) q) (qat (bt_high (qtab (rc_mode c))) q).
Proof. intros c q. unfold at1, qat. apply Forall2_nth; [apply high_rel|]. apply (wrel_Z 0). reflexivity. Qed.

Definition weight_check (b : Q) : bool := Qeq_bool b 0 || (Qle_bool (1 # 1048576) (Qabs b) && Qle_bool (Qabs b) 2).
Lemma weight_size : forall md q, Q2R (qat (bt_high (qtab md)) q) = 0 \/ bpow radix2 (-20) <= Rabs (Q2R (qat (bt_high (qtab md)) q)) <= 2.
Proof.
  intros md q.
  assert (K : weight_check (qat (bt_high (qtab md)) q) = true).
  { unfold qat. assert (G : forallb weight_check (bt_high (qtab md)) = true) by (destruct md; vm_compute; reflexivity).
    rewrite forallb_forall in G. destruct (Nat.lt_ge_cases q (length (bt_high (qtab md)))) as [L|L]; [apply G, nth_In; exact L|].
    rewrite nth_overflow by exact L. reflexivity. }
  set (b := qat (bt_high (qtab md)) q) in *. unfold weight_check in K. apply orb_true_iff in K. destruct K as [K|K].
  - left. apply Qeq_bool_eq, Qeq_eqR in K. rewrite K. unfold Q2R. cbn. ring.
  - right. apply andb_true_iff in K. destruct K as (K1 & K2). apply Qle_bool_iff, Qle_Rle in K1, K2.
    assert (E : Q2R (Qabs b) = Rabs (Q2R b)).
    { destruct (Qlt_le_dec b 0) as [L|L].
      - rewrite Rabs_left by (replace 0 with (Q2R 0) by (unfold Q2R; cbn; ring); apply Qlt_Rlt; exact L). rewrite <- Q2R_opp. apply Qeq_eqR. apply Qabs_neg. apply Qlt_le_weak. exact L.
      - rewrite Rabs_right by (apply Rle_ge; replace 0 with (Q2R 0) by (unfold Q2R; cbn; ring); apply Qle_Rle; exact L). apply Qeq_eqR. apply Qabs_pos. exact L. }
    rewrite E in K1, K2. unfold Q2R in K1 at 1. unfold Q2R in K2 at 2. cbn in K1, K2. change (bpow radix2 (-20)) with (/ 1048576). lra.
Qed.

(** the stage coefficients the code looks up: all zero *)
Lemma looked_up_zero64 : forall (c : rkf_config B) q pp, (pp < q)%nat -> at2 (n0 B) (bt_a (bt_new c)) pp q = (b_ofZ 0 : nF B).
Proof.
  intros [md asc r1 r2 r3] q pp H. unfold at2.
  destruct md; unfold bt_new; cbn [rc_mode bt_a];
    do 7 (destruct pp as [|pp]; [do 7 (destruct q as [|q]; [try lia; try reflexivity|]); cbn; destruct q; reflexivity|]);
    destruct pp; destruct q; reflexivity.
Qed.
End Weights.

(** ** Equality of numbers up to the sign of a zero *)

Lemma znum_refl : forall x, znum x x.
Proof. left. reflexivity. Qed.
Lemma znum_trans : forall x y z, znum x y -> znum y z -> znum x z.
Proof. intros x y z [->|(a & b & c & d)] H2; [exact H2|]. destruct H2 as [<-|(e & f & g & h)]; right; auto. Qed.

Lemma zero_mul : forall x : b64, is_finite x = true -> exists s, b_mul (b_ofZ 0) x = B754_zero s.
Proof.
  intros x H. change (b_ofZ 0) with (B754_zero false : b64). unfold b_mul. destruct x as [s|s| |s e m K]; cbn in *; try discriminate H; eexists; reflexivity.
Qed.
Lemma sub_zero : forall (x : b64) s, znum (b_sub x (B754_zero s)) x.
Proof.
  intros x s. unfold b_sub. destruct x as [t|t| |t e m K]; cbn; try (left; reflexivity).
  destruct (eqb t (negb s)); right; repeat split.
Qed.

(** ** The evaluations of the stages of a step *)
Section Stages.
Variable A : Num.
Variable N : numflux_impl A.
Variables (p : phys) (S : nat) (m : mesh A) (good : nf_T N -> Prop).
Hypothesis HS : (5 <= S)%nat.
Hypothesis Hmem : memoryless N p S m good.

Lemma fold_left_ext_in : forall X Y (f g : X -> Y -> X) l x, (forall y z, In y l -> f z y = g z y) -> fold_left f l x = fold_left g l x.
Proof. intros X Y f g. induction l as [|y l IH]; intros x H; cbn [fold_left]; [reflexivity|]. rewrite H by (left; reflexivity). apply IH. intros z w Hz. apply H. right. exact Hz. Qed.

(** the conserved variables of stage [q] *)
Definition stage_cons (dt : nF A) (a : list (list (nF A))) (ks : list (list (list (nF A)))) (q : nat) (c : list (list (nF A))) : list (list (nF A)) :=
  fold_left (fun c pp => sub_scaled (nE p) S (nmul A dt (at2 (n0 A) a pp q)) (nth pp ks []) c) (seq 0 q) c.

Lemma shape_stage_cons : forall dt a ks q c, shape (nE p) S c -> shape (nE p) S (stage_cons dt a ks q c).
Proof.
  intros dt a ks q c H. unfold stage_cons. generalize (seq 0 q). intros l. revert c H.
  induction l as [|y l IHl]; intros x Hx; cbn [fold_left]; [exact Hx|]. apply IHl. apply shape_mtab.
Qed.

Lemma stages_evals : forall val dt u, wss p S u -> forall n q0 (k : rkf A) (h : rhs A N) k' h',
  same_setup p S good k h k h -> (q0 + n <= length (rk_k k))%nat ->
  rkf_stages val p S m dt u (seq q0 n) k h = (k', h', Ok tt) ->
  (forall q, (q < q0)%nat -> nth q (rk_k k') [] = nth q (rk_k k) []) /\
  forall q, (q0 <= q < q0 + n)%nat -> exists kq hq hq' w,
    same_setup p S good k h kq hq /\
    rhs_update val p S hq (stage_state A (stage_cons dt (bt_a (rk_bt k)) (rk_k k') q (cons (cent u))) (rk_utilde kq) u) m = (hq', w, Ok tt) /\
    nth q (rk_k k') [] = r_full hq'.
Proof.
  intros val dt u Hu. induction n as [|n IH]; intros q0 k h k' h' SS Hl E; cbn [seq rkf_stages] in E.
  - injection E as <- <-. split; [reflexivity|]. intros q Hq. lia.
  - cbn [cent state_assign] in E. cbn [cons vars_assign set_c_sound set_cons set_prim] in E.
    change (fold_left (fun c pp => sub_scaled (nE p) S (nmul A dt (at2 (n0 A) (bt_a (rk_bt k)) pp q0)) (nth pp (rk_k k) []) c) (seq 0 q0) (cons (cent u)))
      with (stage_cons dt (bt_a (rk_bt k)) (rk_k k) q0 (cons (cent u))) in E.
    set (c := stage_cons dt (bt_a (rk_bt k)) (rk_k k) q0 (cons (cent u))) in *.
    assert (Hc : shape (nE p) S c) by (apply shape_stage_cons; apply Hu).
    change (set_cent (set_cons c (vars_assign (cent (rk_utilde k)) (cent u))) (state_assign (rk_utilde k) u)) with (stage_state A c (rk_utilde k) u) in E.
    destruct (rhs_update val p S h (stage_state A c (rk_utilde k) u) m) as [[g w] o1] eqn:R.
    pose proof (stage_keeps A N p S m good HS Hmem val c u k h g w o1 Hu Hc SS R) as Kp.
    destruct o1 as [[]|e| |]; try discriminate.
    set (k1 := rk_set_k (upd q0 (r_full g) (rk_k (rk_set_utilde w k))) (rk_set_utilde w k)) in *.
    assert (K2 : same_setup p S good k h k1 g).
    { destruct Kp as [a1 a2 a3 a4 a5 a6 a7 a8 a9 a10 a11]. split; cbn [rk_utilde rk_bt rk_set_utilde rk_set_k k1] in *; auto. }
    destruct (IH (Datatypes.S q0) k1 g k' h') as (I1 & I2).
    + eapply same_setup_trans; [apply same_setup_sym; exact K2|exact K2].
    + unfold k1. cbn [rk_k rk_set_k rk_set_utilde]. rewrite length_upd. lia.
    + exact E.
    + cbn [k1 rk_k rk_set_k rk_set_utilde] in I1.
      assert (P1 : forall q, (q < q0)%nat -> nth q (rk_k k') [] = nth q (rk_k k) []).
      { intros q Hq. rewrite I1 by lia. apply nth_upd_ne. lia. }
      split; [exact P1|]. intros q Hq. destruct (Nat.eq_dec q q0) as [->|Hne].
      * exists k, h, g, w. split; [exact SS|]. split.
        -- rewrite <- R. do 2 f_equal. unfold c, stage_cons. apply fold_left_ext_in. intros y z Hy. apply in_seq in Hy. rewrite P1 by lia. reflexivity.
        -- rewrite I1 by lia. apply nth_upd_eq. lia.
      * destruct (I2 q ltac:(lia)) as (kq & hq & hq' & wq & X1 & X2 & X3). exists kq, hq, hq', wq.
        split; [eapply same_setup_trans; [exact K2|exact X1]|]. split; [exact X2|exact X3].
Qed.

(** what a completed step adds to the conserved variables *)
Lemma step_evals : forall val fuel (s s' : sim A N), solver_ok p S good s -> rkf_next val fuel p S m s = (s', Ok tt) ->
  exists v0 ks, update_vars_from_cons p S (r_bw (s_rhs s)) (r_be (s_rhs s)) m v0 = Ok (cent (s_u s')) /\
    wsv A p S v0 /\ gamma v0 = gamma (cent (s_u s)) /\ (val = true -> vars_validate (cent (s_u s')) = Ok tt) /\
    cons v0 = rkf_combine (nE p) S (ts_dt (s_ts s')) (bt_high (rk_bt (s_rk s))) ks (bt_order (rk_bt (s_rk s))) (cons (cent (s_u s))) /\
    forall q, (q < bt_order (rk_bt (s_rk s)))%nat -> exists kq hq hq' w,
      same_setup p S good (s_rk s) (s_rhs s) kq hq /\
      rhs_update val p S hq (stage_state A (stage_cons (ts_dt (s_ts s')) (bt_a (rk_bt (s_rk s))) ks q (cons (cent (s_u s)))) (rk_utilde kq) (s_u s)) m = (hq', w, Ok tt) /\
      nth q ks [] = r_full hq'.
Proof.
  intros val fuel s s' Hok E.
  pose proof (next_keep A N p S m good HS Hmem val fuel s s' (Ok tt) Hok E) as Kp.
  destruct Hok as (Hu & Hg & SS).
  unfold rkf_next in E.
  destruct (calc_dt_expl p S (ts_set_iter (ts_iter (s_ts s) + 1)%N (s_ts s)) (s_u s) m) as [ts1 p1].
  destruct p1 as [[]|e| |]; try discriminate.
  destruct (rkf_asc val fuel p S (cap_dt ts1) (s_u s) (s_rk s) (s_rhs s) m) as [[[ts2 k] h] o2] eqn:E2.
  pose proof (rkf_asc_keep A N p S m good HS Hmem val (s_u s) fuel (cap_dt ts1) (s_rk s) (s_rhs s) ts2 k h o2 Hu SS E2) as K2.
  destruct o2 as [[]|e| |]; try discriminate.
  destruct (calc_rkf_solution val p S (ts_dt ts2) (s_u s) k h m) as [[k3 h3] o3] eqn:E3.
  destruct o3 as [x|e| |]; try discriminate.
  pose proof (calc_static _ _ _ _ _ _ _ _ _ _ _ _ _ E3) as (_ & (B1 & B2) & _).
  set (u1 := set_cent (set_cons (cons (cent (rk_utilde k3))) (cent (s_u s))) (s_u s)) in *.
  destruct (st_update_from_cons p S (r_bw h3) (r_be h3) m u1) as [u2| | |] eqn:E4; try discriminate.
  apply st_update_Ok in E4. destruct E4 as (v & E4 & ->).
  destruct (if val then state_validate (set_cent v u1) else Ok tt) as [[]|e1| |] eqn:E5; try discriminate.
  apply (f_equal fst) in E. cbn [fst] in E. subst s'. cbn [s_u s_ts s_rk s_rhs ts_dt ts_set_t cent set_cent] in *.
  assert (Bw : r_bw h = r_bw (s_rhs s) /\ r_be h = r_be (s_rhs s) /\ rk_bt k = rk_bt (s_rk s)) by (destruct K2; repeat split; congruence).
  destruct Bw as (Bw & Be & Bt). rewrite B1, B2, Bw, Be in E4.
  assert (Hk3 : wss p S (rk_utilde k3)) by (destruct Kp; assumption).
  unfold calc_rkf_solution in E3. rewrite Bt in E3.
  set (z := repeat (zeros2 (A:=A) (nE p) S) (bt_order (rk_bt (s_rk s)))) in *.
  assert (SZ : same_setup p S good (s_rk s) (s_rhs s) (rk_set_k z k) h) by (destruct K2; split; cbn [rk_utilde rk_bt rk_set_k] in *; auto).
  destruct (rkf_stages val p S m (ts_dt ts2) (s_u s) (seq 0 (bt_order (rk_bt (s_rk s)))) (rk_set_k z k) h) as [[l g] o1] eqn:R.
  destruct o1 as [[]|e| |]; try discriminate.
  assert (Hl : (0 + bt_order (rk_bt (s_rk s)) <= length (rk_k (rk_set_k z k)))%nat) by (cbn [rk_k rk_set_k]; unfold z; rewrite repeat_length; lia).
  destruct (stages_evals val (ts_dt ts2) (s_u s) Hu _ _ _ _ _ _ (same_setup_trans A N p S good _ _ _ _ _ _ (same_setup_sym A N p S good _ _ _ _ SZ) SZ)
    Hl R) as (_ & Q).
  exists (set_cons (cons (cent (rk_utilde k3))) (cent (s_u s))), (rk_k l).
  split; [exact E4|]. split; [apply wsv_set_cons; [apply Hu|apply Hk3]|]. split; [reflexivity|].
  split; [intros ->; unfold state_validate in E5; exact E5|]. split.
  - cbn [cons set_cons].
    destruct (rk_accepted _) in E3;
    match type of E3 with context [if val then ?x else _] => destruct (if val then x else Ok tt) as [[]|e1| |] end;
    try discriminate E3; apply (f_equal fst) in E3; cbn [fst] in E3; apply (f_equal fst) in E3; cbn [fst] in E3; subst k3;
    cbn [rk_utilde rk_set_utilde rk_set_err cent cons set_cent set_cons]; reflexivity.
  - intros q Hq. destruct (Q q ltac:(lia)) as (kq & hq & hq' & w & X1 & X2 & X3). exists kq, hq, hq', w.
    split; [eapply same_setup_trans; [exact SZ|exact X1]|]. split; [|exact X3]. cbn [rk_bt rk_set_k] in X2. rewrite Bt in X2. exact X2.
Qed.
End Stages.

Lemma choose : forall (X : Type) (d : X) n (P : nat -> X -> Prop), (forall q, (q < n)%nat -> exists x, P q x) -> exists f, forall q, (q < n)%nat -> P q (f q).
Proof.
  intros X d. induction n as [|n IH]; intros P H; [exists (fun _ => d); intros; lia|].
  destruct (IH P ltac:(intros; apply H; lia)) as (f & Hf). destruct (H n ltac:(lia)) as (x & Hx).
  exists (fun q => if Nat.eq_dec q n then x else f q). intros q Hq. destruct (Nat.eq_dec q n) as [->|]; [exact Hx|apply Hf; lia].
Qed.

(** ** Fluxes of an evaluation, and the mass after a step *)
Section Mass.
Variables (bln bexp : b64 -> b64).
Notation B := (B64n bln bexp).
Variable N : numflux_impl B.
Variable fluxes : nf_T N -> list (list (nF B)).
Variables (p : phys) (S : nat) (c : config B).
Let m := mesh_build S (cf_mesh c).
Variable good : nf_T N -> Prop.
Hypothesis HS : (5 <= S)%nat.
Hypothesis Hmem : memoryless N p S m good.
Hypothesis Hform : forall val (h : rhs B N) u h' w, wss p S u -> rhs_update val p S h u m = (h', w, Ok tt) ->
  forall j i, (j < nE p)%nat -> (2 <= i <= S - 3)%nat ->
  at2 (n0 B) (r_full h') j i =
    nmul B (at1 (n0 B) (m_deta_dphi_d_volume m) i) (nsub B (at2 (n0 B) (fluxes (r_nf h')) j i) (at2 (n0 B) (fluxes (r_nf h')) j (i - 1))).

Let w : b64 := at1 (n0 B) (m_deta_dphi_d_volume m) 2.

Lemma vol_w : forall i, (2 <= i <= S - 3)%nat -> at1 (n0 B) (m_deta_dphi_d_volume m) i = w.
Proof. intros i Hi. apply (dddv_flat B S (cf_mesh c)); lia. Qed.

Lemma cons_finite : forall g (X Y : nat -> nF B), (forall j, (j < nE p)%nat -> Y j = c2p B p g X j) ->
  (forall j, (j < nE p)%nat -> is_finite (p2c B p g Y j : b64) = true) ->
  forall j, (j < nE p)%nat -> is_finite (X j : b64) = true.
Proof.
  intros g X Y HY H j Hj.
  assert (F0 : is_finite (X 0%nat : b64) = true).
  { specialize (H 0%nat ltac:(destruct p; cbn; lia)). rewrite p2c_0, HY, c2p_0 in H by (destruct p; cbn; lia). exact H. }
  assert (F1 : is_finite (X 1%nat : b64) = true).
  { assert (H1 : (1 < nE p)%nat) by (destruct p; cbn; lia). specialize (H 1%nat H1).
    assert (K : is_finite (Y 1%nat : b64) = true).
    { assert (E1 : p2c B p g Y 1%nat = (b_mul (Y 1%nat) (Y 0%nat) : nF B)) by (destruct p; reflexivity). rewrite E1 in H. apply (fl_mul_val _ _ H). }
    rewrite HY, c2p_1 in K by exact H1. apply (b_div_val _ _ K F0). }
  destruct p; destruct j as [|[|[|j]]]; cbn [nE] in Hj; try lia; auto.
  specialize (H 2%nat ltac:(cbn; lia)). pose proof (HY 2%nat ltac:(cbn; lia)) as K.
  assert (E2 : exists a b, p2c B Adiab g Y 2%nat = (b_add (b_mul (Y 2%nat) a) b : nF B)) by (eexists; eexists; reflexivity).
  destruct E2 as (a & b & E2). rewrite E2 in H. destruct (b_add_val _ _ H) as (G1 & _). apply fl_mul_val in G1. destruct G1 as (G1 & _).
  assert (E3 : exists a b, c2p B Adiab g X 2%nat = (b_mul a (b_sub (X 2%nat) b) : nF B)) by (eexists; eexists; reflexivity).
  destruct E3 as (a' & b' & E3). rewrite K, E3 in G1. apply fl_mul_val in G1. destruct G1 as (_ & G1 & _). apply fl_sub_val in G1. apply G1.
Qed.

(** the value of the weighted sum *)
Lemma combine_S : forall dt b (ks : list (list (list (nF B)))) n cc j i, (j < nE p)%nat -> (i < S)%nat ->
  at2 (n0 B) (rkf_combine (nE p) S dt b ks (Datatypes.S n) cc) j i =
  (b_sub (at2 (n0 B) (rkf_combine (nE p) S dt b ks n cc) j i) (b_mul (b_mul dt (at1 (n0 B) b n)) (at2 (n0 B) (nth n ks []) j i)) : nF B).
Proof.
  intros dt b ks n cc j i Hj Hi. unfold rkf_combine. rewrite seq_S, fold_left_app. cbn [fold_left Nat.add]. unfold sub_scaled at 1. rewrite at2_mtab by assumption. reflexivity.
Qed.

Lemma combine_finite : forall dt b (ks : list (list (list (nF B)))) cc j i, (j < nE p)%nat -> (i < S)%nat -> forall n,
  is_finite (at2 (n0 B) (rkf_combine (nE p) S dt b ks n cc) j i : b64) = true ->
  is_finite (at2 (n0 B) cc j i : b64) = true /\
  forall q, (q < n)%nat -> is_finite (b_mul (b_mul dt (at1 (n0 B) b q)) (at2 (n0 B) (nth q ks []) j i)) = true.
Proof.
  intros dt b ks cc j i Hj Hi. induction n as [|n IH]; intros H; [split; [exact H|intros; lia]|].
  rewrite combine_S in H by assumption. destruct (fl_sub_val _ _ H) as (F1 & F2 & _). destruct (IH F1) as (I1 & I2). split; [exact I1|].
  intros q Hq. destruct (Nat.eq_dec q n) as [->|]; [exact F2|apply I2; lia].
Qed.

(** stages are evaluated at the state itself *)
Lemma stage_znum : forall dt a (ks : list (list (list (nF B)))) j i, (j < nE p)%nat -> (i < S)%nat -> is_finite dt = true -> forall l cc,
  (forall pp, In pp l -> a pp = (b_ofZ 0 : nF B)) -> (forall pp, In pp l -> is_finite (at2 (n0 B) (nth pp ks []) j i : b64) = true) ->
  znum (at2 (n0 B) (fold_left (fun c pp => sub_scaled (nE p) S (nmul B dt (a pp)) (nth pp ks []) c) l cc) j i) (at2 (n0 B) cc j i).
Proof.
  intros dt a ks j i Hj Hi Fd. induction l as [|q l IH]; intros cc Ha Hk; cbn [fold_left]; [apply znum_refl|].
  eapply znum_trans; [apply IH; intros pp Hp; [apply Ha|apply Hk]; right; exact Hp|].
  unfold sub_scaled. rewrite at2_mtab by assumption. rewrite Ha by (left; reflexivity).
  specialize (Hk q (or_introl eq_refl)). set (x := at2 (n0 B) (nth q ks []) j i : b64) in *. change (is_finite x = true) in Hk.
  change (znum (b_sub (at2 (n0 B) cc j i) (b_mul (b_mul dt (b_ofZ 0)) x)) (at2 (n0 B) cc j i)).
  assert (E : exists s, b_mul (b_mul dt (b_ofZ 0)) x = B754_zero s).
  { change (b_ofZ 0) with (B754_zero false : b64). clearbody x. clear - Fd Hk. unfold b_mul.
    destruct dt as [s|s| |s e k K]; cbn in Fd; try discriminate Fd; destruct x as [t|t| |t f l L]; cbn in Hk; try discriminate Hk; cbn; eexists; reflexivity. }
  destruct E as (s & ->). apply sub_zero.
Qed.

Lemma rsum_mono : forall (f : nat -> R) n k, (forall q, 0 <= f q) -> (k <= n)%nat -> rsum k f <= rsum n f.
Proof. intros f n k H. induction n as [|n IH]; intros L; [replace k with 0%nat by lia; lra|]. destruct (Nat.eq_dec k (Datatypes.S n)) as [->|]; [lra|]. cbn [rsum]. pose proof (H n). specialize (IH ltac:(lia)). lra. Qed.
Lemma rsum_le : forall n f g, (forall i, (i < n)%nat -> f i <= g i) -> rsum n f <= rsum n g.
Proof. induction n as [|n IH]; intros f g H; cbn [rsum]; [lra|]. pose proof (IH f g ltac:(intros; apply H; lia)). pose proof (H n ltac:(lia)). lra. Qed.
Lemma rsum_abs : forall n f, Rabs (rsum n f) <= rsum n (fun i => Rabs (f i)).
Proof. induction n as [|n IH]; intros f; cbn [rsum]; [rewrite Rabs_R0; lra|]. eapply Rle_trans; [apply Rabs_triang|]. pose proof (IH f). lra. Qed.
Lemma rsum_add : forall n f g, rsum n (fun i => f i + g i) = rsum n f + rsum n g.
Proof. induction n as [|n IH]; intros f g; cbn [rsum]; [ring|]. rewrite IH. ring. Qed.
Lemma rsum_scal : forall n a f, rsum n (fun i => a * f i) = a * rsum n f.
Proof. induction n as [|n IH]; intros a f; cbn [rsum]; [ring|]. rewrite IH. ring. Qed.
Lemma rsum_const : forall n a, rsum n (fun _ => a) = INR n * a.
Proof. induction n as [|n IH]; intros a; [cbn; ring|]. cbn [rsum]. rewrite IH, S_INR. ring. Qed.
Lemma rsum_swap : forall n k f, rsum n (fun i => rsum k (f i)) = rsum k (fun q => rsum n (fun i => f i q)).
Proof.
  induction n as [|n IH]; intros k f; cbn [rsum].
  - rewrite (rsum_const k 0). ring.
  - rewrite IH, <- rsum_add. reflexivity.
Qed.
Lemma rsum_faces : forall n a F, rsum n (fun i => a * (F (i + 2)%nat - F (i + 2 - 1)%nat)) = a * (F (n + 1)%nat - F 1%nat).
Proof.
  intros n a F. induction n as [|n IH]; cbn [rsum]; [cbn; ring|]. rewrite IH.
  replace (n + 2 - 1)%nat with (n + 1)%nat by lia. replace (Datatypes.S n + 1)%nat with (n + 2)%nat by lia. ring.
Qed.

Lemma order_le : forall rc : rkf_config B, (bt_order (bt_new rc) <= 6)%nat.
Proof. intros [md ? ? ? ?]. destruct md; cbn; lia. Qed.

Lemma wide_finite : forall x : b64, wide (B2R x) -> is_finite x = true.
Proof. intros x (L & _). pose proof (bpow_gt_0 radix2 (-500)). destruct x as [s|s| |s e k K]; try reflexivity; exfalso; simpl (B2R _) in L; lra. Qed.

Definition qty (j : nat) (s : sim B N) (i : nat) : R := B2R (at2 (n0 B) (cons (cent (s_u s))) j i : b64).

Lemma row_step : forall val fuel (s s' : sim B N), reached p S c m good s -> solver_next val fuel p S m s = (s', Ok tt) ->
  (val = true \/ forall j i, (j < nE p)%nat -> (2 <= i <= S - 3)%nat -> is_finite (at2 (n0 B) (cons (cent (s_u s'))) j i : b64) = true) ->
  let dt := B2R (ts_dt (s_ts s') : b64) in let mode := rc_mode (nc_time (cf_numerics c)) in
  let n := bt_order (qtab mode) in let beta := fun q => Q2R (qat (bt_high (qtab mode)) q) in
  wide dt ->
  exists v0 : vars B, gamma v0 = pc_gamma (cf_physics c) /\
    (forall j i, (j < nE p)%nat -> (2 <= i <= S - 3)%nat -> is_finite (at2 (n0 B) (cons v0) j i : b64) = true /\
      is_finite (at2 (n0 B) (cons (cent (s_u s'))) j i : b64) = true /\
      at2 (n0 B) (cons (cent (s_u s'))) j i = p2c B p (gamma v0) (fun k => at2 (n0 B) (prim (cent (s_u s'))) k i) j /\
      at2 (n0 B) (prim (cent (s_u s'))) j i = c2p B p (gamma v0) (fun k => at2 (n0 B) (cons v0) k i) j) /\
    forall j, (j < nE p)%nat -> exists F : nat -> nat -> R, (forall q, (q < n)%nat -> num_fluxes j fluxes p S m good s (F q)) /\
    forall i, (2 <= i <= S - 3)%nat ->
      Rabs (B2R (at2 (n0 B) (cons v0) j i : b64) - (qty j s i - rsum n (fun q => dt * beta q * B2R w * (F q i - F q (i - 1)%nat)))) <=
      3 / 4 * (bpow radix2 (-47) * (Rabs (qty j s i) + rsum n (fun q => Rabs (dt * beta q * B2R w * (F q i - F q (i - 1)%nat))))) + 3 / 4 * bpow radix2 (-510).
Proof.
  intros val fuel s s' Hr E Hf dt mode n beta Wd.
  destruct (reached_ok B N p S m good HS Hmem c s Hr) as (Hok & Hb & Hgh & Hg & _).
  apply next_of_solver in E.
  destruct (step_evals B N p S m good HS Hmem val fuel s s' Hok E) as (v0 & ks & Up & W0 & G0 & Va & Co & Ev).
  rewrite Hb in Co, Ev. set (rc := nc_time (cf_numerics c)) in *.
  assert (On : bt_order (bt_new rc) = n) by (unfold n, mode; destruct rc as [[] ? ? ? ?]; reflexivity).
  assert (N6 : (n <= 6)%nat) by (rewrite <- On; apply order_le).
  rewrite On in Co, Ev.
  set (DT := ts_dt (s_ts s') : b64) in *.
  assert (Fd : is_finite DT = true) by (apply wide_finite; exact Wd).
  destruct (update_from_cons_view B p S _ _ m v0 _ HS W0 Up) as (W' & _ & _ & _ & P' & C').
  assert (Hfin : forall j i, (j < nE p)%nat -> (2 <= i <= S - 3)%nat -> is_finite (at2 (n0 B) (cons (cent (s_u s'))) j i : b64) = true).
  { destruct Hf as [Hv|Hf]; [|exact Hf]. intros j i Hj Hi. apply (validate_finite B p S _ W' (Va Hv) j i Hj ltac:(lia)). }
  assert (Hv0 : forall j i, (j < nE p)%nat -> (2 <= i <= S - 3)%nat -> is_finite (at2 (n0 B) (cons v0) j i : b64) = true).
  { intros j i Hj Hi. apply (cons_finite (gamma v0) (fun k => at2 (n0 B) (cons v0) k i) (fun k => at2 (n0 B) (prim (cent (s_u s'))) k i)); [| |exact Hj].
    - intros k Hk. apply P'; [exact Hk|unfold interior; lia].
    - intros k Hk. destruct (C' i ltac:(lia)) as (C1 & _). rewrite <- C1 by exact Hk. apply Hfin; assumption. }
  assert (H0 : (0 < nE p)%nat) by (destruct p; cbn; lia).
  assert (Kf : forall q j i, (q < n)%nat -> (j < nE p)%nat -> (2 <= i <= S - 3)%nat ->
    is_finite (b_mul (b_mul DT (at1 (n0 B) (bt_high (bt_new rc)) q)) (at2 (n0 B) (nth q ks []) j i)) = true).
  { intros q j i Hq Hj Hi. pose proof (Hv0 j i Hj Hi) as K. rewrite Co in K. apply (combine_finite DT _ ks _ j i Hj ltac:(lia) n K). exact Hq. }
  assert (Gz : forall q j i, (q < n)%nat -> (j < nE p)%nat -> (i < S)%nat -> (i < 2 \/ S - 3 < i)%nat -> is_finite (at2 (n0 B) (nth q ks []) j i : b64) = true).
  { intros q j i Hq Hj Hi Hgi. destruct (Ev q Hq) as (kq & hq & hq' & wq & X1 & X2 & X3). rewrite X3.
    set (cq := stage_cons B p S DT (bt_a (bt_new rc)) ks q (cons (cent (s_u s)))) in *.
    assert (Wu : wss p S (s_u s)) by apply Hok.
    assert (Sc : shape (nE p) S cq) by (apply shape_stage_cons; apply Wu).
    assert (Sq : same_setup p S good kq hq kq hq) by (eapply same_setup_trans; [apply same_setup_sym; exact X1|exact X1]).
    pose proof (stage_keeps B N p S m good HS Hmem val cq (s_u s) kq hq hq' wq (Ok tt) Wu Sc Sq X2) as K.
    destruct K as [_ _ _ _ _ _ _ _ Kg _ _]. rewrite <- Kg by assumption. destruct X1 as [_ _ _ _ _ _ _ _ Xg _ _]. rewrite <- Xg by assumption. rewrite Hgh by assumption. reflexivity. }
  assert (Kall : forall q j i, (q < n)%nat -> (j < nE p)%nat -> (i < S)%nat -> is_finite (at2 (n0 B) (nth q ks []) j i : b64) = true).
  { intros q j i Hq Hj Hi.
    destruct (le_lt_dec 2 i) as [L1|L1]; [destruct (le_lt_dec i (S - 3)) as [L2|L2]|]; [|apply Gz; auto..].
    pose proof (Kf q j i Hq Hj (conj L1 L2)) as K. apply fl_mul_val in K. apply K. }
  exists v0. split; [rewrite G0; exact Hg|]. split.
  { intros j i Hj Hi. split; [apply Hv0; assumption|]. split; [apply Hfin; assumption|]. split; [apply (C' i ltac:(lia)); exact Hj|apply P'; [exact Hj|unfold interior; lia]]. }
  intros j0 Hj0.
  assert (Ex : forall q, (q < n)%nat -> exists f : nat -> R, num_fluxes j0 fluxes p S m good s f /\
    forall i, (2 <= i <= S - 3)%nat -> exists f1 f0 : b64, at2 (n0 B) (nth q ks []) j0 i = (b_mul w (b_sub f1 f0) : nF B) /\ B2R f1 = f i /\ B2R f0 = f (i - 1)%nat).
  { intros q Hq. destruct (Ev q Hq) as (kq & hq & hq' & wq & X1 & X2 & X3).
    destruct Hok as (Hu & Hga & SS). pose proof X1 as [a1 a2 a3 a4 a5 a6 a7 a8 a9 a10 a11].
    set (cq := stage_cons B p S DT (bt_a (bt_new rc)) ks q (cons (cent (s_u s)))) in *.
    assert (Sc : shape (nE p) S cq) by (apply shape_stage_cons; apply Hu).
    destruct (same_stage B p S cq (rk_utilde kq) (rk_utilde kq) (s_u s) Hu a3 a3 ltac:(repeat split) Sc) as (Y1 & Y2 & Y3).
    assert (T1 : wss p S (stage_state B cq (rk_utilde kq) (s_u s))) by (split; [apply Y1|split; [apply Y2|apply Y3]]).
    pose proof (Hform val hq _ hq' wq T1 X2) as Fm.
    assert (Fm0 : forall i, (2 <= i <= S - 3)%nat -> at2 (n0 B) (nth q ks []) j0 i = (b_mul w (b_sub (at2 (n0 B) (fluxes (r_nf hq')) j0 i) (at2 (n0 B) (fluxes (r_nf hq')) j0 (i - 1))) : nF B)).
    { intros i Hi. rewrite X3, Fm by assumption. rewrite vol_w by exact Hi. reflexivity. }
    assert (Ff : forall i, (2 <= i <= S - 3)%nat -> is_finite (at2 (n0 B) (fluxes (r_nf hq')) j0 i : b64) = true /\ is_finite (at2 (n0 B) (fluxes (r_nf hq')) j0 (i - 1) : b64) = true).
    { intros i Hi. pose proof (Kall q j0 i Hq Hj0 ltac:(lia)) as K. rewrite Fm0 in K by exact Hi.
      apply fl_mul_val in K. destruct K as (_ & K & _). apply fl_sub_val in K. split; apply K. }
    exists (fun i => B2R (at2 (n0 B) (fluxes (r_nf hq')) j0 i : b64)). split.
    - exists val, hq, (stage_state B cq (rk_utilde kq) (s_u s)), hq', wq.
      split; [exact T1|]. split; [exact X2|]. split; [congruence|]. split; [congruence|]. split; [exact a6|]. split; [destruct a4 as (g1 & _), Hga as (g2 & _); cbn; congruence|]. split; [reflexivity|]. split.
      + intros j i Hj Hi. change (cons (cent (stage_state B cq (rk_utilde kq) (s_u s)))) with cq. unfold cq, stage_cons.
        apply (stage_znum DT (fun pp => at2 (n0 B) (bt_a (bt_new rc)) pp q)); auto.
        * intros pp Hp. apply in_seq in Hp. apply looked_up_zero64. lia.
        * intros pp Hp. apply in_seq in Hp. apply Kall; [lia|exact Hj|exact Hi].
      + intros i Hi. split; [|reflexivity]. destruct (Nat.eq_dec i 1) as [->|]; [apply (Ff 2%nat ltac:(lia))|apply Ff; lia].
    - intros i Hi. eexists. eexists. split; [apply Fm0; exact Hi|]. split; reflexivity. }
  destruct (choose _ (fun _ => 0) n _ Ex) as (F & HF). exists F. split; [intros q Hq; apply HF; exact Hq|].
  set (X := fun i q => dt * beta q * B2R w * (F q i - F q (i - 1)%nat)).
  intros i Hi.
    set (g := fun k : nat => at2 (n0 B) (rkf_combine (A:=B) (nE p) S DT (bt_high (bt_new rc)) ks k (cons (cent (s_u s)))) j0 i : b64).
    set (P := fun k => b_mul (b_mul DT (at1 (n0 B) (bt_high (bt_new rc)) k)) (at2 (n0 B) (nth k ks []) j0 i)).
    set (M := Rabs (qty j0 s i) + rsum n (fun q => Rabs (X i q))).
    destruct (cell_sum g P (X i) M n ltac:(lia)) as (_ & K).
    - intros k Hk. unfold g, P. apply combine_S; [exact Hj0|lia].
    - unfold g. rewrite <- Co. apply Hv0; assumption.
    - intros k Hk FP. destruct (proj2 (HF k Hk) i Hi) as (f1 & f0 & Ek & E1 & E0). unfold P in FP |- *. rewrite Ek in FP |- *.
      destruct (weight_rel bln bexp rc k) as (_ & Rb).
      destruct (term_err DT (at1 (n0 B) (bt_high (bt_new rc)) k) w f1 f0 (beta k) FP Wd Rb (weight_size mode k)) as (_ & _ & T).
      rewrite E1, E0 in T. unfold X. replace (dt * beta k * B2R w * (F k i - F k (i - 1)%nat)) with (B2R DT * beta k * (B2R w * (F k i - F k (i - 1)%nat))) by (unfold dt; ring). exact T.
    - intros k Hk. unfold M. apply Rplus_le_compat_l. apply (rsum_mono (fun q => Rabs (X i q))); [intros; apply Rabs_pos|exact Hk].
    - assert (Eg : B2R (g n) = B2R (at2 (n0 B) (cons v0) j0 i : b64)) by (unfold g; rewrite <- Co; reflexivity).
      rewrite Eg in K. change (B2R (g 0%nat)) with (qty j0 s i) in K. eapply Rle_trans; [exact K|].
      assert (Mp : 0 <= M).
      { unfold M. pose proof (Rabs_pos (qty j0 s i)). pose proof (rsum_mono (fun q => Rabs (X i q)) n 0 ltac:(intros; apply Rabs_pos) ltac:(lia)) as Y. cbn [rsum] in Y. lra. }
      assert (Np : 0 <= INR n <= 6) by (split; [apply pos_INR|]; replace 6 with (INR 6) by (cbn; ring); apply le_INR; lia).
      assert (U : u53 = bpow radix2 (-47) * / 64) by (change u53 with (bpow radix2 (-53)); change (-53)%Z with (-47 + -6)%Z; rewrite bpow_plus; reflexivity).
      assert (T : bpow radix2 (-513) = bpow radix2 (-510) * / 8) by (change (-513)%Z with (-510 + -3)%Z; rewrite bpow_plus; reflexivity).
      rewrite U, T. pose proof (bpow_gt_0 radix2 (-47)) as Q1. pose proof (bpow_gt_0 radix2 (-510)) as Q2.
      set (y := bpow radix2 (-47)) in *. set (z := bpow radix2 (-510)) in *.
      assert (Y0 : 0 <= y * M) by (apply Rmult_le_pos; lra).
      apply Rle_trans with (6 * (8 * (y * / 64) * M + z * / 8)).
      + apply Rmult_le_compat_r; [|lra]. replace (8 * (y * / 64) * M) with (/ 8 * (y * M)) by field. lra.
      + right. unfold M, X. field.
Qed.

(** from the cells to the sum *)
Lemma total_step : forall n (Q Q' : nat -> R) (a : nat -> R) (F : nat -> nat -> R) y z (r : nat -> R),
  (forall i, (2 <= i <= S - 3)%nat ->
    Rabs (Q' i - (Q i - rsum n (fun q => a q * (F q i - F q (i - 1)%nat)))) <= y * (Rabs (Q i) + rsum n (fun q => Rabs (a q * (F q i - F q (i - 1)%nat)))) + z + r i) ->
  Rabs (inner_sum S Q' - inner_sum S Q + rsum n (fun q => a q * (F q (S - 3)%nat - F q 1%nat))) <=
    y * inner_sum S (fun i => Rabs (Q i) + rsum n (fun q => Rabs (a q * (F q i - F q (i - 1)%nat)))) + INR (S - 4) * z + inner_sum S r.
Proof.
  intros n Q Q' a F y z r Cell. set (X := fun i q => a q * (F q i - F q (i - 1)%nat)).
  unfold inner_sum.
  replace (rsum (S - 4) (fun i => Q' (i + 2)%nat) - rsum (S - 4) (fun i => Q (i + 2)%nat) + rsum n (fun q => a q * (F q (S - 3)%nat - F q 1%nat)))
    with (rsum (S - 4) (fun i => Q' (i + 2)%nat - (Q (i + 2)%nat - rsum n (X (i + 2)%nat)))).
  - eapply Rle_trans; [apply rsum_abs|]. eapply Rle_trans; [apply rsum_le; intros i Hi; apply Cell; lia|].
    rewrite !rsum_add, rsum_scal, rsum_const, rsum_add. right. reflexivity.
  - rewrite (rsum_ext _ _ (fun i => (Q' (i + 2)%nat + -1 * Q (i + 2)%nat) + rsum n (X (i + 2)%nat))) by (intros; ring).
    rewrite !rsum_add, rsum_scal, rsum_swap. f_equal; [ring|]. apply rsum_ext. intros q Hq. unfold X.
    rewrite rsum_faces. replace (S - 4 + 1)%nat with (S - 3)%nat by lia. reflexivity.
Qed.

Definition rho (s : sim B N) (i : nat) : R := qty 0 s i.

Lemma mass_step : forall val fuel (s s' : sim B N), reached p S c m good s -> solver_next val fuel p S m s = (s', Ok tt) ->
  (val = true \/ forall j i, (j < nE p)%nat -> (2 <= i <= S - 3)%nat -> is_finite (at2 (n0 B) (cons (cent (s_u s'))) j i : b64) = true) ->
  let dt := B2R (ts_dt (s_ts s') : b64) in let mode := rc_mode (nc_time (cf_numerics c)) in
  let n := bt_order (qtab mode) in let beta := fun q => Q2R (qat (bt_high (qtab mode)) q) in
  wide dt ->
  exists F : nat -> nat -> R, (forall q, (q < n)%nat -> num_fluxes 0 fluxes p S m good s (F q)) /\
    Rabs (inner_sum S (rho s') - inner_sum S (rho s) + rsum n (fun q => dt * beta q * B2R w * (F q (S - 3)%nat - F q 1%nat))) <=
      bpow radix2 (-47) * inner_sum S (fun i => Rabs (rho s i) + rsum n (fun q => Rabs (dt * beta q * B2R w * (F q i - F q (i - 1)%nat)))) +
      INR (S - 4) * bpow radix2 (-510).
Proof.
  intros val fuel s s' Hr E Hf dt mode n beta Wd.
  destruct (row_step val fuel s s' Hr E Hf Wd) as (v0 & _ & Hv & HR).
  assert (H0 : (0 < nE p)%nat) by (destruct p; cbn; lia).
  destruct (HR 0%nat H0) as (F & HF & Cell). exists F. split; [exact HF|].
  pose proof (total_step n (rho s) (rho s') (fun q => dt * beta q * B2R w) F (bpow radix2 (-47)) (bpow radix2 (-510)) (fun _ => 0)) as T.
  eapply Rle_trans; [apply T|].
  - intros i Hi. destruct (Hv 0%nat i H0 Hi) as (_ & _ & C1 & C2).
    assert (R1 : rho s' i = B2R (at2 (n0 B) (cons v0) 0 i : b64)) by (unfold rho, qty; rewrite C1, p2c_0, C2, c2p_0 by exact H0; reflexivity).
    rewrite R1. eapply Rle_trans; [apply Cell; exact Hi|]. unfold rho.
    match goal with |- 3 / 4 * ?a + 3 / 4 * ?b <= _ => assert (P1 : 0 <= a); [|assert (P2 : 0 <= b) by apply bpow_ge_0; apply Rle_trans with (a + b + 0); [lra|right; reflexivity]] end.
    apply Rmult_le_pos; [apply bpow_ge_0|]. apply Rplus_le_le_0_compat; [apply Rabs_pos|].
    eapply Rle_trans; [apply Rabs_pos|apply rsum_abs].
  - unfold inner_sum at 2. rewrite rsum_const. lra.
Qed.

(** Momentum is recomputed from the velocity, which adds two roundings. *)
Lemma there_and_back : forall mm rr : b64, is_finite rr = true -> is_finite (b_mul (b_div mm rr) rr) = true ->
  Rabs (B2R (b_mul (b_div mm rr) rr) - B2R mm) <= 201 / 100 * u53 * Rabs (B2R mm) + 2 * eta * Rabs (B2R rr) + eta.
Proof.
  intros mm rr Fr F. destruct (fl_mul_val _ _ F) as (Fa & _ & ->). destruct (b_div_val _ _ Fa Fr) as (_ & Nr & ->).
  change (rnd (B2R mm / B2R rr)) with (fl (B2R mm / B2R rr)).
  set (x := B2R mm). set (r := B2R rr) in *. pose proof (fl_any (x / r)) as K1. set (a := fl (x / r)) in *.
  pose proof (fl_any (a * r)) as K2. set (b := fl (a * r)) in *.
  pose proof u53_lt as (U0 & U1). set (v := u53) in *. pose proof (bpow_gt_0 radix2 (-1021)) as E0. set (e := eta) in *.
  assert (A1 : Rabs (a * r - x) <= v * Rabs x + e * Rabs r).
  { replace (a * r - x) with ((a - x / r) * r) by (field; exact Nr). rewrite Rabs_mult.
    apply Rle_trans with ((v * Rabs (x / r) + e) * Rabs r); [apply Rmult_le_compat_r; [apply Rabs_pos|exact K1]|].
    right. rewrite Rmult_plus_distr_r, Rmult_assoc, <- Rabs_mult. replace (x / r * r) with x by (field; exact Nr). reflexivity. }
  assert (A2 : Rabs (a * r) <= Rabs x + (v * Rabs x + e * Rabs r)).
  { replace (a * r) with (x + (a * r - x)) by ring. eapply Rle_trans; [apply Rabs_triang|]. lra. }
  assert (A3 : v * Rabs (a * r) <= v * (Rabs x + (v * Rabs x + e * Rabs r))) by (apply Rmult_le_compat_l; lra).
  pose proof (Rabs_pos x). pose proof (Rabs_pos r).
  assert (V1 : 0 <= v * Rabs x) by (apply Rmult_le_pos; lra). assert (V2 : 0 <= e * Rabs r) by (apply Rmult_le_pos; lra).
  assert (V3 : v * (v * Rabs x) <= / 1000000 * (v * Rabs x)) by (apply Rmult_le_compat_r; lra).
  assert (V4 : v * (e * Rabs r) <= / 1000000 * (e * Rabs r)) by (apply Rmult_le_compat_r; lra).
  replace (b - x) with ((b - a * r) + (a * r - x)) by ring. eapply Rle_trans; [apply Rabs_triang|].
  replace (v * (Rabs x + (v * Rabs x + e * Rabs r))) with (v * Rabs x + v * (v * Rabs x) + v * (e * Rabs r)) in A3 by ring.
  replace (201 / 100 * v * Rabs x) with (201 / 100 * (v * Rabs x)) by ring. replace (2 * e * Rabs r) with (2 * (e * Rabs r)) by ring. lra.
Qed.

Lemma momentum_step : forall val fuel (s s' : sim B N), reached p S c m good s -> solver_next val fuel p S m s = (s', Ok tt) ->
  (val = true \/ forall j i, (j < nE p)%nat -> (2 <= i <= S - 3)%nat -> is_finite (at2 (n0 B) (cons (cent (s_u s'))) j i : b64) = true) ->
  let dt := B2R (ts_dt (s_ts s') : b64) in let mode := rc_mode (nc_time (cf_numerics c)) in
  let n := bt_order (qtab mode) in let beta := fun q => Q2R (qat (bt_high (qtab mode)) q) in
  wide dt ->
  exists F : nat -> nat -> R, (forall q, (q < n)%nat -> num_fluxes 1 fluxes p S m good s (F q)) /\
    Rabs (inner_sum S (qty 1 s') - inner_sum S (qty 1 s) + rsum n (fun q => dt * beta q * B2R w * (F q (S - 3)%nat - F q 1%nat))) <=
      bpow radix2 (-47) * inner_sum S (fun i => Rabs (qty 1 s i) + rsum n (fun q => Rabs (dt * beta q * B2R w * (F q i - F q (i - 1)%nat)))) +
      INR (S - 4) * bpow radix2 (-510) + bpow radix2 (-1020) * inner_sum S (fun i => Rabs (rho s' i)).
Proof.
  intros val fuel s s' Hr E Hf dt mode n beta Wd.
  destruct (row_step val fuel s s' Hr E Hf Wd) as (v0 & _ & Hv & HR).
  assert (H0 : (0 < nE p)%nat) by (destruct p; cbn; lia). assert (H1 : (1 < nE p)%nat) by (destruct p; cbn; lia).
  destruct (HR 1%nat H1) as (F & HF & Cell). exists F. split; [exact HF|].
  pose proof (total_step n (qty 1 s) (qty 1 s') (fun q => dt * beta q * B2R w) F (bpow radix2 (-47)) (bpow radix2 (-510)) (fun i => bpow radix2 (-1020) * Rabs (rho s' i))) as T.
  eapply Rle_trans; [apply T|].
  - intros i Hi. destruct (Hv 0%nat i H0 Hi) as (F00 & _ & C1 & C2). destruct (Hv 1%nat i H1 Hi) as (F10 & F1 & D1 & D2).
    set (mm := at2 (n0 B) (cons v0) 1 i : b64) in *. set (rr := at2 (n0 B) (cons v0) 0 i : b64) in *.
    assert (R1 : at2 (n0 B) (cons (cent (s_u s'))) 0 i = rr) by (rewrite C1, p2c_0, C2, c2p_0 by exact H0; reflexivity).
    assert (M1 : at2 (n0 B) (cons (cent (s_u s'))) 1 i = (b_mul (b_div mm rr) rr : nF B)).
    { rewrite D1. assert (E1 : forall g f, p2c B p g f 1%nat = (b_mul (f 1%nat) (f 0%nat) : nF B)) by (intros; destruct p; reflexivity).
      rewrite E1, D2, C2, c2p_1, c2p_0 by assumption. reflexivity. }
    assert (Fm : is_finite (b_mul (b_div mm rr) rr) = true) by (rewrite <- (M1 : _ = _); exact F1).
    pose proof (there_and_back mm rr F00 Fm) as K.
    unfold rho, qty at 1. rewrite M1. unfold qty at 3. rewrite R1.
    set (M := Rabs (qty 1 s i) + rsum n (fun q => Rabs (dt * beta q * B2R w * (F q i - F q (i - 1)%nat)))) in *.
    set (I := qty 1 s i - rsum n (fun q => dt * beta q * B2R w * (F q i - F q (i - 1)%nat))) in *.
    assert (HI : Rabs I <= M).
    { unfold I, M, Rminus. eapply Rle_trans; [apply Rabs_triang|]. rewrite Rabs_Ropp. apply Rplus_le_compat_l. apply rsum_abs. }
    assert (Cl : Rabs (B2R mm - I) <= 3 / 4 * (bpow radix2 (-47) * M) + 3 / 4 * bpow radix2 (-510)) by exact (Cell i Hi).
    set (x := B2R mm) in *. set (x' := B2R (b_mul (b_div mm rr) rr)) in *.
    assert (U : u53 = bpow radix2 (-47) * / 64) by (change u53 with (bpow radix2 (-53)); change (-53)%Z with (-47 + -6)%Z; rewrite bpow_plus; reflexivity).
    assert (Et : bpow radix2 (-1020) = 2 * eta) by (change (-1020)%Z with (1 + -1021)%Z; rewrite bpow_plus; reflexivity).
    assert (Ez : eta <= / 8 * bpow radix2 (-510)).
    { replace (/ 8 * bpow radix2 (-510)) with (bpow radix2 (-513)) by (change (-513)%Z with (-3 + -510)%Z; rewrite bpow_plus; reflexivity). apply bpow_le. lia. }
    pose proof u53_lt as (U0 & U1). rewrite U in *. rewrite Et. pose proof (bpow_gt_0 radix2 (-510)) as Zp. 
    set (y := bpow radix2 (-47)) in *. set (z := bpow radix2 (-510)) in *. set (e := eta) in *.
    assert (Mp : 0 <= M) by (pose proof (Rabs_pos I); lra).
    assert (Hx : Rabs x <= Rabs I + (3 / 4 * (y * M) + 3 / 4 * z)).
    { replace x with (I + (x - I)) by ring. eapply Rle_trans; [apply Rabs_triang|]. lra. }
    assert (Y0 : 0 <= y * M) by (apply Rmult_le_pos; lra).
    assert (Y1 : y * M <= M) by (rewrite <- (Rmult_1_l M) at 2; apply Rmult_le_compat_r; lra).
    assert (Hx' : Rabs x <= 2 * M + z) by lra.
    assert (YX : y * Rabs x <= y * (2 * M + z)) by (apply Rmult_le_compat_l; lra).
    assert (YZ : y * z <= z) by (rewrite <- (Rmult_1_l z) at 2; apply Rmult_le_compat_r; lra).
    replace (x' - I) with ((x' - x) + (x - I)) by ring. eapply Rle_trans; [apply Rabs_triang|].
    replace (201 / 100 * (y * / 64) * Rabs x) with (201 / 6400 * (y * Rabs x)) in K by field. lra.
  - apply Rplus_le_compat_l. right. exact (rsum_scal (S - 4) (bpow radix2 (-1020)) (fun i => Rabs (rho s' (i + 2)%nat))).
Qed.
End Mass.

(** ** The library's schemes are in flux form *)
Section Forms.
Variable A : Num.
Variables (p : phys) (S : nat) (mc : mesh_config A).
Let m := mesh_build S mc.
Hypothesis HS : (5 <= S)%nat.

Lemma hll_form : forall val (h : rhs A (Hll A)) u h' w, rhs_update val p S h u m = (h', w, Ok tt) ->
  forall j i, (j < nE p)%nat -> (2 <= i <= S - 3)%nat ->
  at2 (n0 A) (r_full h') j i =
    nmul A (at1 (n0 A) (m_deta_dphi_d_volume m) i) (nsub A (at2 (n0 A) (h_flux_num (r_nf h')) j i) (at2 (n0 A) (h_flux_num (r_nf h')) j (i - 1))).
Proof.
  intros val h u h' w E j i Hj Hi.
  destruct (rhs_update_Ok _ _ _ _ _ _ _ _ _ _ _ E) as [(u1 & nf & full & E1 & E2 & ->)|[(_ & _ & _ & X)|[(e & _ & _ & _ & X)|(_ & _ & _ & X)]]]; try discriminate X.
  cbn [r_full r_nf] in *. cbn [nf_calc Hll] in E2.
  pose proof (hll_dflux A val p S (r_nf h) (r_full h) u1 m (std_build A S _) j i Hj ltac:(lia)) as Hd.
  rewrite inner_true in Hd by exact Hi.
  pose proof (hll_num A val p S (r_nf h) (r_full h) u1 m (std_build A S _) j i Hj ltac:(lia) ltac:(lia) ltac:(lia)) as H1.
  pose proof (hll_num A val p S (r_nf h) (r_full h) u1 m (std_build A S _) j (i - 1) Hj ltac:(lia) ltac:(lia) ltac:(lia)) as H2.
  rewrite E2 in Hd, H1, H2. cbn [fst snd] in Hd, H1, H2. rewrite Hd, <- H1, <- H2. reflexivity.
Qed.

Lemma kt_form : forall val (h : rhs A (Kt A)) u h' w, wss p S u -> rhs_update val p S h u m = (h', w, Ok tt) ->
  forall j i, (j < nE p)%nat -> (2 <= i <= S - 3)%nat ->
  at2 (n0 A) (r_full h') j i =
    nmul A (at1 (n0 A) (m_deta_dphi_d_volume m) i) (nsub A (at2 (n0 A) (k_flux_num (r_nf h')) j i) (at2 (n0 A) (k_flux_num (r_nf h')) j (i - 1))).
Proof.
  intros val h u h' w (_ & Ww & We) E j i Hj Hi.
  destruct (rhs_update_Ok _ _ _ _ _ _ _ _ _ _ _ E) as [(u1 & nf & full & E1 & E2 & ->)|[(_ & _ & _ & X)|[(e & _ & _ & _ & X)|(_ & _ & _ & X)]]]; try discriminate X.
  destruct (st_update_Ok _ _ _ _ _ _ _ _ E1) as (v1 & Hv1 & ->).
  cbn [r_full r_nf] in *. cbn [nf_calc Kt] in E2.
  pose proof (kt_dflux A val p S (r_nf h) (r_full h) (set_cent v1 u) m (std_build A S _) Ww We j i Hj ltac:(lia)) as Hd.
  rewrite inner_true in Hd by exact Hi.
  pose proof (kt_num A val p S (r_nf h) (r_full h) (set_cent v1 u) m (std_build A S _) Ww We j i Hj ltac:(lia) ltac:(lia) ltac:(lia)) as H1.
  pose proof (kt_num A val p S (r_nf h) (r_full h) (set_cent v1 u) m (std_build A S _) Ww We j (i - 1) Hj ltac:(lia) ltac:(lia) ltac:(lia)) as H2.
  rewrite E2 in Hd, H1, H2. cbn [fst snd] in Hd, H1, H2. rewrite Hd, <- H1, <- H2. reflexivity.
Qed.
End Forms.
