(** Times of a run in binary64. *)

From Coq Require Import Reals ZArith NArith QArith Qreals List Bool Lia Lra String.
From Flocq Require Import Core BinarySingleNaN.
From Verif Require Import Base Num XReal B64 Config Mesh State NumFlux Time Writer Runner Spec SpecFlow SpecStep ConfigProofs PhysicsProofs MeshB64
  StepProofs StepInv TimeProofs TimeMore P_Time SpecRun RunProofs SpecTimes64.
Import ListNotations.
Local Open Scope R_scope.

(** ** Where a shortened step ends *)
Notation fe := (SpecFloat.fexp 53 1024).
Notation big := (bpow radix2 1024).

Lemma rnd_err : forall v, Rabs (rnd v - v) <= / 2 * ulp radix2 fe v.
Proof. intros v. apply error_le_half_ulp. apply (FLT_exp_valid (3 - 1024 - 53) 53). Qed.

Lemma land_real : forall t tn : b64, is_finite t = true -> is_finite tn = true -> 0 <= B2R t <= B2R tn ->
  (forall y : b64, B2R tn < B2R y -> rnd (B2R t + rnd (B2R tn - B2R t)) <= B2R y) /\
  (forall y : b64, B2R y < B2R tn -> B2R y <= rnd (B2R t + rnd (B2R tn - B2R t))).
Proof.
  intros t tn Ft Fn H.
  pose proof (FLT_exp_valid (3 - 1024 - 53) 53 : Valid_exp fe) as Ve.
  pose proof (FLT_exp_monotone (3 - 1024 - 53) 53 : Monotone_exp fe) as Mo.
  assert (Gn : generic_format radix2 fe (B2R tn)) by apply generic_format_B2R.
  pose proof (rnd_err (B2R tn - B2R t)) as Er. apply Rabs_le_inv in Er.
  pose proof (ulp_ge_0 radix2 fe (B2R tn)) as U0.
  split; intros y Hy; assert (Gy : generic_format radix2 fe (B2R y)) by apply generic_format_B2R.
  - rewrite <- (rnd_id y). apply rnd_le.
    assert (U : ulp radix2 fe (B2R tn - B2R t) <= ulp radix2 fe (B2R tn)) by (apply ulp_le_pos; [exact Ve|exact Mo|lra|lra]).
    pose proof (succ_le_lt radix2 fe _ _ Gn Gy Hy) as Hs. rewrite succ_eq_pos in Hs by lra. lra.
  - destruct (Rle_lt_or_eq_dec _ _ (proj1 H)) as [Hp|Hz].
    + destruct (Rle_lt_dec (B2R y) (B2R t)) as [Hyt|Hyt].
      { rewrite <- (rnd_id y). apply rnd_le. assert (0 <= rnd (B2R tn - B2R t)) by (rewrite <- rnd_0; apply rnd_le; lra). lra. }
      rewrite <- (rnd_id y). apply rnd_le.
      assert (P0 : 0 <= B2R tn - B2R t) by lra.
      pose proof (ulp_DN radix2 fe _ P0) as UD.
      set (dn := round radix2 fe Zfloor (B2R tn - B2R t)) in *.
      assert (Gd : generic_format radix2 fe dn) by (apply generic_format_round; [exact Ve|apply valid_rnd_DN]).
      assert (Ld : dn <= B2R tn - B2R t) by (apply round_DN_pt; exact Ve).
      assert (L0 : 0 <= dn) by (apply round_ge_generic; [exact Ve|apply valid_rnd_DN|apply generic_format_0|exact P0]).
      assert (Lp : dn <= pred radix2 fe (B2R tn)) by (apply pred_ge_gt; [exact Ve|exact Gd|exact Gn|lra]).
      assert (Ly : B2R y <= pred radix2 fe (B2R tn)) by (apply pred_ge_gt; [exact Ve|exact Gy|exact Gn|exact Hy]).
      assert (U : ulp radix2 fe dn <= ulp radix2 fe (pred radix2 fe (B2R tn))) by (apply ulp_le_pos; [exact Ve|exact Mo|exact L0|exact Lp]).
      pose proof (pred_plus_ulp radix2 fe (B2R tn) ltac:(lra) Gn) as PU.
      pose proof (ulp_ge_0 radix2 fe (pred radix2 fe (B2R tn))). lra.
    + rewrite <- Hz, Rminus_0_r, Rplus_0_l, !rnd_id. lra.
Qed.

(** A shortened step ends at the output time or next to it. *)
Lemma land_near : forall t tn : b64, is_finite t = true -> is_finite tn = true -> 0 <= B2R t <= B2R tn ->
  at_most_next tn (b_add t (b_sub tn t)) /\ at_least_prev tn (b_add t (b_sub tn t)).
Proof.
  intros t tn Ft Fn H. destruct (gap_b64 t tn Ft Fn H) as (Fd & Pd).
  assert (Ed : B2R (b_sub tn t) = rnd (B2R tn - B2R t)).
  { pose proof (Bminus_correct 53 1024 Hp64 He64 mode_NE tn t Fn Ft) as C.
    destruct (Rlt_bool _ _); [destruct C as (C & _); exact C|]. exfalso. destruct C as (C & _).
    unfold b_sub in Fd. apply SF_inf in C. congruence. }
  destruct (land_real t tn Ft Fn H) as (Up & Dn).
  pose proof (Bplus_correct 53 1024 Hp64 He64 mode_NE t (b_sub tn t) Ft Fd) as C.
  change (round radix2 fe (round_mode mode_NE) (B2R t + B2R (b_sub tn t))) with (rnd (B2R t + B2R (b_sub tn t))) in C. rewrite Ed in C.
  change (Bplus mode_NE t (b_sub tn t)) with (b_add t (b_sub tn t)) in C.
  set (x := b_add t (b_sub tn t)) in *.
  set (r := rnd (B2R t + rnd (B2R tn - B2R t))) in *.
  assert (R0 : 0 <= r).
  { unfold r. rewrite <- rnd_0. apply rnd_le. assert (0 <= rnd (B2R tn - B2R t)) by (rewrite <- rnd_0 at 1; apply rnd_le; lra). lra. }
  destruct (Rlt_bool (Rabs r) big) eqn:B.
  - destruct C as (C1 & C2 & _). split; intros z Hz; rewrite (b_fin_b2x x C2), C1, (b_fin_b2x tn Fn) in *.
    + destruct (is_finite z) eqn:Fz.
      * rewrite (b_fin_b2x z Fz) in *. cbn [xlt xle] in *. apply Up. exact Hz.
      * destruct z as [s|[]| |s mm e Bb]; try discriminate; cbn [b2x xlt xle] in *; auto.
    + destruct (is_finite z) eqn:Fz.
      * rewrite (b_fin_b2x z Fz) in *. cbn [xlt xle] in *. apply Dn. exact Hz.
      * destruct z as [s|[]| |s mm e Bb]; try discriminate; cbn [b2x xlt xle] in *; auto.
  - assert (Bg : big <= r). { destruct (Rlt_bool_spec (Rabs r) big) as [?|G]; [discriminate|]. rewrite Rabs_pos_eq in G by exact R0. exact G. }
    assert (Ex : x = B754_infinity false).
    { destruct C as (C & S2). assert (Sx : Bsign t = false \/ Bsign t = true) by (destruct (Bsign t); auto).
      destruct (Rle_lt_or_eq_dec _ _ (proj1 H)) as [Hp|Hz0].
      - rewrite (b_pos_sign t Hp) in C. destruct x; cbn in C; try discriminate. injection C as ->. reflexivity.
      - exfalso. unfold r in Bg. rewrite <- Hz0, Rminus_0_r, Rplus_0_l, !rnd_id in Bg.
        pose proof (abs_B2R_lt_emax 53 1024 tn) as Q. rewrite Rabs_pos_eq in Q by lra. lra. }
    rewrite Ex. split; intros z Hz.
    + destruct z as [s|[]| |s mm e Bb]; try (cbn [b2x xlt xle] in *; auto; fail); rewrite (b_fin_b2x tn Fn) in Hz; try (exfalso; exact Hz).
      * exfalso. cbn [b2x xlt] in Hz. pose proof (Up (B754_zero s) Hz) as G. cbn in G. pose proof (bpow_gt_0 radix2 1024). lra.
      * exfalso. cbn [b2x xlt] in Hz. pose proof (Up (B754_finite s mm e Bb) Hz) as G.
        pose proof (abs_B2R_lt_emax 53 1024 (B754_finite s mm e Bb)) as Q. apply Rabs_lt_inv in Q. lra.
    + destruct z as [s|[]| |s mm e Bb]; rewrite (b_fin_b2x tn Fn) in Hz; cbn [b2x xlt xle] in *; auto.
Qed.

Lemma b_sub_le : forall x d : b64, is_finite x = true -> xlt (Fin 0) (b2x d) -> xle (b2x (b_sub x d)) (b2x x).
Proof.
  intros x d Fx Hd. destruct (is_finite d) eqn:Fd.
  - rewrite (b_fin_b2x d Fd) in Hd. cbn [xlt] in Hd.
    pose proof (Bminus_correct 53 1024 Hp64 He64 mode_NE x d Fx Fd) as C.
    change (Bminus mode_NE x d) with (b_sub x d) in C.
    assert (L : rnd (B2R x - B2R d) <= B2R x) by (rewrite <- (rnd_id x) at 2; apply rnd_le; lra).
    destruct (Rlt_bool_spec (Rabs (rnd (B2R x - B2R d))) big) as [B|B].
    + destruct C as (C1 & C2 & _). rewrite (b_fin_b2x _ C2), (b_fin_b2x x Fx). cbn [xle]. rewrite C1. exact L.
    + destruct C as (C & Sg). pose proof (b_pos_sign d Hd) as Sd. rewrite Sd in Sg. cbn [negb] in Sg. rewrite Sg in C.
      destruct (b_sub x d); cbn in C; try discriminate. injection C as ->. rewrite (b_fin_b2x x Fx). exact Logic.I.
  - destruct d as [s|[]| |s mm e B]; try discriminate; cbn [b2x xlt] in Hd; try contradiction.
    destruct x as [s|s| |s mm e B]; try discriminate; cbn; exact Logic.I.
Qed.

Lemma xle_fin : forall x y : b64, is_finite x = true -> is_finite y = true -> xle (b2x x) (b2x y) <-> B2R x <= B2R y.
Proof. intros x y Fx Fy. rewrite (b_fin_b2x x Fx), (b_fin_b2x y Fy). cbn. tauto. Qed.
Lemma xlt_fin : forall x y : b64, is_finite x = true -> is_finite y = true -> xlt (b2x x) (b2x y) <-> B2R x < B2R y.
Proof. intros x y Fx Fy. rewrite (b_fin_b2x x Fx), (b_fin_b2x y Fy). cbn. tauto. Qed.

Lemma amn_le : forall x y : b64, xle (b2x y) (b2x x) -> at_most_next x y.
Proof.
  intros x y H z Hz. destruct (b2x x), (b2x y), (b2x z); cbn [xle xlt] in *; auto; try contradiction. lra.
Qed.

(** a number between a finite one and one that is finite *)
Lemma fin_between : forall x y z : b64, is_finite x = true -> is_finite z = true -> xle (b2x x) (b2x y) -> xle (b2x y) (b2x z) -> is_finite y = true.
Proof.
  intros x y z Fx Fz H1 H2. rewrite (b_fin_b2x x Fx) in H1. rewrite (b_fin_b2x z Fz) in H2.
  destruct y as [s|[]| |s mm e B]; cbn [b2x xle] in *; try contradiction; reflexivity.
Qed.

(** ** No interval is lost if the last is not *)
Lemma b_add_fin : forall x y : b64, is_finite (b_add x y) = true -> is_finite x = true /\ is_finite y = true /\ B2R (b_add x y) = rnd (B2R x + B2R y).
Proof.
  intros x y F. assert (Fx : is_finite x = true) by (destruct x as [|a| |], y as [|b| |]; try reflexivity; try destruct a; try destruct b; discriminate).
  assert (Fy : is_finite y = true) by (destruct x as [|a| |], y as [|b| |]; try reflexivity; try destruct a; try destruct b; discriminate).
  split; [exact Fx|]. split; [exact Fy|]. pose proof (Bplus_correct 53 1024 Hp64 He64 mode_NE x y Fx Fy) as C.
  destruct (Rlt_bool _ _); [destruct C as (C & _); exact C|]. destruct C as (C & _). unfold b_add in F. apply SF_inf in C. congruence.
Qed.

Lemma spread_last : forall (t0 D : b64) n, is_finite (planned t0 D (S n)) = true -> xlt (b2x (planned t0 D n)) (b2x (planned t0 D (S n))) -> spread t0 D n.
Proof.
  intros t0 D n F L. set (P := planned t0 D) in *.
  assert (St : forall j, P (S j) = b_add (P j) D) by reflexivity.
  assert (Fi : forall k, (k <= S n)%nat -> is_finite (P (S n - k)%nat) = true).
  { induction k as [|k IH]; intros Hk; [rewrite Nat.sub_0_r; exact F|]. specialize (IH ltac:(lia)).
    replace (S n - k)%nat with (S (S n - S k)) in IH by lia. rewrite St in IH. apply b_add_fin in IH. apply IH. }
  assert (Ff : forall j, (j <= S n)%nat -> is_finite (P j) = true) by (intros j Hj; replace j with (S n - (S n - j))%nat by lia; apply Fi; lia).
  assert (R : forall j, (j <= n)%nat -> B2R (P (S j)) = rnd (B2R (P j) + B2R D)) by (intros j Hj; rewrite St; apply b_add_fin; rewrite <- St; apply Ff; lia).
  apply xlt_fin in L; [|apply Ff; lia|exact F].
  assert (HD : 0 < B2R D).
  { apply Rnot_le_lt. intros Q. rewrite R in L by lia. assert (rnd (B2R (P n) + B2R D) <= B2R (P n)); [|lra]. rewrite <- (rnd_id (P n)) at 2. apply rnd_le. lra. }
  intros i Hi. split; [apply Ff; lia|]. apply xlt_fin; [apply Ff; lia|apply Ff; lia|]. fold P.
  apply Rnot_le_lt. intros Q.
  assert (Ge : B2R (P i) <= B2R (P (S i))) by (rewrite R by exact Hi; rewrite <- (rnd_id (P i)) at 1; apply rnd_le; lra).
  assert (C : forall k, (i + k <= S n)%nat -> B2R (P (i + k)%nat) = B2R (P i)).
  { induction k as [|k IH]; intros Hk; [rewrite Nat.add_0_r; reflexivity|]. rewrite Nat.add_succ_r, R, IH by lia. rewrite <- R by exact Hi. lra. }
  pose proof (C (n - i)%nat ltac:(lia)) as C1. pose proof (C (S n - i)%nat ltac:(lia)) as C2.
  replace (i + (n - i))%nat with n in C1 by lia. replace (i + (S n - i))%nat with (S n) in C2 by lia. lra.
Qed.

Section Times.
Variables (bln bexp : b64 -> b64).
Notation A := (B64n bln bexp).
Variable N : numflux_impl A.

(** ** One step *)
Lemma step64 : forall val fuel p S m (s s' : sim A N) o,
  bt_asc (rk_bt (s_rk s)) = false -> is_finite (ts_t (s_ts s)) = true -> is_finite (ts_t_next (s_ts s)) = true ->
  0 <= B2R (ts_t (s_ts s)) <= B2R (ts_t_next (s_ts s)) -> 0 < B2R (ts_t_next (s_ts s)) ->
  xlt (Fin 0) (b2x (ts_dt_min (s_ts s))) -> xlt (Fin 0) (b2x (ts_dt_max (s_ts s))) ->
  solver_next val fuel p S m s = (s', o) ->
  xle (b2x (ts_t (s_ts s))) (b2x (ts_t (s_ts s'))) /\ at_most_next (ts_t_next (s_ts s)) (ts_t (s_ts s')) /\
  ts_static A (s_ts s) (s_ts s') /\ rk_bt (s_rk s') = rk_bt (s_rk s).
Proof.
  intros val fuel p S m s s' o Ha Ft Fn Hr Hp Hmin Hmax E.
  unfold solver_next in E. destruct (rkf_next val fuel p S m s) as [s1 o1] eqn:E1.
  assert (Es : s' = s1).
  { destruct o1 as [[]|e| |]; try (apply (f_equal fst) in E; cbn [fst] in E; congruence).
    destruct (ts_iter_max (s_ts s1) <=? ts_iter (s_ts s1))%N; apply (f_equal fst) in E; cbn [fst] in E; congruence. }
  subst s1. clear E.
  assert (Same : ts_t (s_ts s') = ts_t (s_ts s) -> xle (b2x (ts_t (s_ts s))) (b2x (ts_t (s_ts s'))) /\ at_most_next (ts_t_next (s_ts s)) (ts_t (s_ts s'))).
  { intros Q. rewrite Q. split; [apply xle_fin; auto; lra|]. apply amn_le. apply xle_fin; auto. apply Hr. }
  destruct (rkf_next_cases _ _ _ _ _ _ _ _ _ _ E1) as (RK & _ & ST & _ & C). destruct RK as (RK & _).
  assert (G : xle (b2x (ts_t (s_ts s))) (b2x (ts_t (s_ts s'))) /\ at_most_next (ts_t_next (s_ts s)) (ts_t (s_ts s'))); [|tauto].
  destruct C as [(_ & _ & T)|(k & _ & [(_ & _ & T)|(v & _ & _ & [(e & _ & _ & _ & T)|(-> & _ & T)])])]; auto.
  destruct (next_dt _ _ _ _ _ _ _ _ _ Ha E1) as (dt & C & L & D).
  apply cfl_fin in C. pose proof (dt_pos_b64 dt _ C Hmin L) as P. destruct (b_min_pos dt _ C P Hmax) as (Fm & Pm).
  set (d := b_min dt (ts_dt_max (s_ts s))) in *.
  assert (D' : ts_dt (s_ts s') = if Bltb (b_ofZ 1) (b_div (b_add d (ts_t (s_ts s))) (ts_t_next (s_ts s))) then b_sub (ts_t_next (s_ts s)) (ts_t (s_ts s)) else d).
  { rewrite D. unfold cap_dt. cbn [ts_dt ts_dt_max ts_t ts_t_next ts_set_dt].
    change (nadd A) with b_add. change (nmin A) with b_min. fold d. change (n1 A) with (b_ofZ 1). change (ndiv A) with b_div. change (nsub A) with b_sub. change (nltb A) with (@Bltb 53 1024).
    destruct (Bltb (b_ofZ 1) (b_div (b_add d (ts_t (s_ts s))) (ts_t_next (s_ts s)))); reflexivity. }
  rewrite T, D'. change (nadd A) with b_add.
  destruct (Bltb (b_ofZ 1) (b_div (b_add d (ts_t (s_ts s))) (ts_t_next (s_ts s)))) eqn:L2.
  - destruct (gap_b64 _ _ Ft Fn Hr). split; [apply fwd_b64; assumption|]. apply land_near; assumption.
  - split; [apply fwd_b64; [exact Ft|exact Fm|lra]|].
    destruct (cap_b64 d (ts_t (s_ts s)) (ts_t_next (s_ts s)) Fm Ft Fn Pm (proj1 Hr) Hp L2) as (F & Le).
    destruct (TimeProofs.b_add_ge d (ts_t (s_ts s)) Fm Ft Pm (proj1 Hr) F) as (_ & Ex & F2).
    apply amn_le. apply xle_fin; auto. rewrite <- Ex. exact Le.
Qed.

(** ** The invariant of a run *)
Variable c : config A.
Hypothesis Hv : valid_config (A:=B64n bln bexp) b2x c.
Notation t0 := (nc_t0 (cf_numerics c) : b64).
Notation dmin := (nc_dt_min (cf_numerics c) : b64).
Notation D := (interval t0 (nc_t_end (cf_numerics c)) (cf_output_max c)).
Notation P := (planned t0 D).
Variable n : nat.
Hypothesis HS : spread t0 D n.
Lemma HP : forall i, (i <= n)%nat -> xlt (b2x (P i)) (b2x (P (Datatypes.S i))).
Proof. intros i Hi. apply (HS i Hi). Qed.

Lemma t0_ok : is_finite t0 = true /\ 0 <= B2R t0.
Proof. destruct Hv as [_ _ _ _ _ V0 V1 _ _ _ _ _ _ _]. exact (fin_nonneg _ _ V0 V1). Qed.
Lemma dmin_ok : xlt (Fin 0) (b2x dmin).
Proof. exact (vc_dt_min _ _ _ Hv). Qed.
Lemma dmax_ok : xlt (Fin 0) (b2x (nc_dt_max (cf_numerics c) : b64)).
Proof. exact (vc_dt_max _ _ _ Hv). Qed.

Lemma P_ok : forall i, (i <= n)%nat -> is_finite (P i) = true /\ 0 <= B2R (P i) /\ ((0 < i)%nat -> 0 < B2R (P i)).
Proof.
  induction i as [|i IH]; intros Hi.
  - pose proof t0_ok as (F & G). split; [exact F|]. split; [exact G|]. lia.
  - destruct (IH ltac:(lia)) as (F & G & _). pose proof (HP i ltac:(lia)) as L.
    pose proof (proj1 (HS i ltac:(lia))) as F2.
    apply xlt_fin in L; auto. split; [exact F2|]. split; lra.
Qed.

(** after [k] outputs *)
Record inv (s : sim A N) (k : nat) : Prop := {
  iv_fin : is_finite (ts_t (s_ts s)) = true;
  iv_ge : B2R t0 <= B2R (ts_t (s_ts s));
  iv_next : ts_t_next (s_ts s) = P k;
  iv_le : at_most_next (P k) (ts_t (s_ts s));
  iv_dmin : ts_dt_min (s_ts s) = dmin;
  iv_dmax : ts_dt_max (s_ts s) = nc_dt_max (cf_numerics c);
  iv_out : ts_dt_output (s_ts s) = D;
  iv_asc : bt_asc (rk_bt (s_rk s)) = false }.

Lemma xle_refl_fin : forall x : b64, is_finite x = true -> xle (b2x x) (b2x x).
Proof. intros x F. apply xle_fin; auto. lra. Qed.
Lemma xle_trans : forall x y z, xle x y -> xle y z -> xle x z.
Proof. intros [x| | |] [y| | |] [z| | |]; cbn; auto; try contradiction. lra. Qed.

Lemma inv_start : forall p S (s : sim A N), rc_asc (nc_time (cf_numerics c)) = false -> at_start p S c s -> inv s 0.
Proof.
  intros p S s Hasc (E1 & E2). pose proof t0_ok as (F & G).
  split; rewrite ?E1, ?E2; cbn [ts_new ts_t ts_t_next ts_dt_min ts_dt_max ts_t_end ts_dt_output]; auto.
  - lra.
  - apply amn_le. apply xle_refl_fin. exact F.
  - unfold rkf_new. cbn [rk_bt]. unfold bt_new. destruct (rc_mode (nc_time (cf_numerics c))); cbn [bt_asc]; auto.
Qed.

(** the time is not after the next output time: where steps are made *)
Definition before (s : sim A N) : Prop := B2R (ts_t (s_ts s)) <= B2R (ts_t_next (s_ts s)).

Lemma inv_moved : forall s k, (k < n)%nat -> inv s k -> inv (moved_on s) (Datatypes.S k) /\ before (moved_on s).
Proof.
  intros s k Hk [I0 I1 I2 I3 I4 I5 I6 I7].
  assert (En : ts_t_next (s_ts (moved_on s)) = P (Datatypes.S k)) by (cbn [moved_on s_ts ts_set_next ts_t_next]; rewrite I2, I6; reflexivity).
  pose proof (I3 _ (HP k ltac:(lia))) as L. destruct (P_ok (Datatypes.S k) ltac:(lia)) as (F & _ & _).
  split.
  - split; auto. cbn [moved_on s_ts ts_set_next ts_t]. apply amn_le. exact L.
  - unfold before. rewrite En. cbn [moved_on s_ts ts_set_next ts_t]. apply xle_fin; auto.
Qed.

Lemma not_due : forall s k, (k <= n)%nat -> inv s k -> due s = false -> before s /\ (0 < k)%nat.
Proof.
  intros s k Hk [I0 I1 I2 I3 I4 I5 I6 I7] Du. destruct (P_ok k Hk) as (F & _ & _).
  unfold due in Du. change (nleb A) with (@Bleb 53 1024) in Du. change (nsub A) with b_sub in Du. rewrite I4, I2 in Du.
  pose proof (b_sub_le (P k) dmin F dmin_ok) as L.
  assert (G : ~ xle (b2x (b_sub (P k) dmin)) (b2x (ts_t (s_ts s)))) by (intros G; apply Bleb_xle in G; congruence).
  assert (G2 : B2R (ts_t (s_ts s)) <= B2R (P k)).
  { apply Rnot_lt_le. intros Q. apply G. eapply xle_trans; [exact L|]. apply xle_fin; auto. lra. }
  split; [unfold before; rewrite I2; exact G2|]. destruct k; [|lia]. exfalso. apply G.
  eapply xle_trans; [exact L|]. apply xle_fin; auto.
Qed.

Lemma inv_step : forall val fuel p S m s s' o k, (0 < k <= n)%nat -> inv s k -> before s -> solver_next val fuel p S m s = (s', o) ->
  inv s' k /\ xle (b2x (ts_t (s_ts s))) (b2x (ts_t (s_ts s'))).
Proof.
  intros val fuel p S m s s' o k Hk [I0 I1 I2 I3 I4 I5 I6 I7] B E. unfold before in B. pose proof t0_ok as (F0 & G0).
  destruct (P_ok k ltac:(lia)) as (F & _ & Pp). specialize (Pp ltac:(lia)). pose proof (HP k ltac:(lia)) as L.
  assert (Q : xle (b2x (ts_t (s_ts s))) (b2x (ts_t (s_ts s'))) /\ at_most_next (ts_t_next (s_ts s)) (ts_t (s_ts s')) /\
    ts_static A (s_ts s) (s_ts s') /\ rk_bt (s_rk s') = rk_bt (s_rk s)).
  { apply (step64 val fuel p S m s s' o); rewrite ?I4, ?I5; auto using dmin_ok, dmax_ok; try (rewrite I2 in *; assumption).
    split; [lra|exact B]. }
  destruct Q as (S1 & S2 & S3 & S4).
  destruct S3 as (X1 & X2 & X3 & X4 & X5 & X6 & X7). rewrite I2 in S2.
  assert (F1 : is_finite (ts_t (s_ts s')) = true).
  { exact (fin_between _ _ _ I0 (proj1 (HS k ltac:(lia))) S1 (S2 _ L)). }
  split; [|exact S1]. split; auto; try congruence. apply xle_fin in S1; auto. lra.
Qed.

(** [tr] is a list of [k] outputs at the right times, the last not after
    [t]. *)
Inductive good_trace : list (snapshot A) -> nat -> b64 -> Prop :=
| gt_nil : forall t, good_trace [] 0 t
| gt_snoc : forall tr k t (x : snapshot A) t', good_trace tr k t -> ts_t (fst x) = t -> is_finite t = true -> ts_kind (fst x) <> KErrorDump ->
    xle (b2x (b_sub (P k) dmin)) (b2x t) -> at_most_next (P k) t -> xle (b2x t) (b2x t') -> good_trace (tr ++ [x]) (Datatypes.S k) t'.

Lemma good_mono : forall tr k t t', good_trace tr k t -> xle (b2x t) (b2x t') -> good_trace tr k t'.
Proof. intros tr k t t' H. destruct H; intros; [apply gt_nil|]. eapply gt_snoc; eauto using xle_trans. Qed.

Lemma good_length : forall tr k t, good_trace tr k t -> List.length tr = k.
Proof. intros tr k t H. induction H; [reflexivity|]. rewrite app_length. cbn. lia. Qed.

Lemma good_nth : forall tr k t, good_trace tr k t -> forall i x, nth_error tr i = Some x ->
  is_finite (ts_t (fst x)) = true /\ xle (b2x (b_sub (P i) dmin)) (b2x (ts_t (fst x))) /\ at_most_next (P i) (ts_t (fst x)) /\
  ts_kind (fst x) <> KErrorDump /\ xle (b2x (ts_t (fst x))) (b2x t).
Proof.
  intros tr k t H. induction H as [|tr k t x t' H IH Ex Fx Kx B1 B2 L]; intros i y E.
  - destruct i; discriminate.
  - pose proof (good_length _ _ _ H) as Len. destruct (lt_dec i (List.length tr)) as [Hi|Hi].
    + rewrite nth_error_app1 in E by exact Hi. destruct (IH _ _ E) as (P0 & P1 & P2 & P3 & P4).
      repeat match goal with |- _ /\ _ => split end; auto. eapply xle_trans; eauto.
    + rewrite nth_error_app2 in E by lia. destruct (i - List.length tr)%nat as [|j] eqn:Ej; [|destruct j; discriminate]. cbn in E. injection E as <-.
      assert (i = k) by lia. subst i. rewrite Ex. repeat match goal with |- _ /\ _ => split end; auto.
Qed.

Lemma good_sorted : forall tr k t, good_trace tr k t -> forall i j x y, (i <= j)%nat -> nth_error tr i = Some x -> nth_error tr j = Some y ->
  xle (b2x (ts_t (fst x))) (b2x (ts_t (fst y))).
Proof.
  intros tr k t H. induction H as [|tr k t z t' H IH Ex Fx Kx B1 B2 L]; intros i j x y Hij Ei Ej.
  - destruct i; discriminate.
  - destruct (lt_dec j (List.length tr)) as [Hj|Hj].
    + rewrite nth_error_app1 in Ei by lia. rewrite nth_error_app1 in Ej by lia. exact (IH i j x y Hij Ei Ej).
    + rewrite nth_error_app2 in Ej by lia. destruct (j - List.length tr)%nat as [|q] eqn:Eq; [|destruct q; discriminate]. cbn in Ej. injection Ej as <-.
      rewrite Ex. destruct (lt_dec i (List.length tr)) as [Hi|Hi].
      * rewrite nth_error_app1 in Ei by exact Hi. apply (good_nth _ _ _ H _ _ Ei).
      * assert (i = j) by lia. subst j. rewrite nth_error_app2, Eq in Ei by lia. cbn in Ei. injection Ei as <-. rewrite Ex. apply xle_refl_fin. exact Fx.
Qed.

Lemma due_64 : forall s k, inv s k -> due s = true -> xle (b2x (b_sub (P k) dmin)) (b2x (ts_t (s_ts s))).
Proof.
  intros s k [I0 I1 I2 I3 I4 I5 I6 I7] Du. unfold due in Du. change (nleb A) with (@Bleb 53 1024) in Du. change (nsub A) with b_sub in Du.
  rewrite I4, I2 in Du. apply Bleb_xle. exact Du.
Qed.

Section Loop.
Variable fmt : nat -> nF A -> string.
Variables (val : bool) (sched : BinNums.N -> list nat) (afuel : nat) (p : phys) (S : nat) (m : mesh A).
Variables (s0 : sim A N) (wr0 : writer A) (w0 : world).
Hypothesis Hasc : rc_asc (nc_time (cf_numerics c)) = false.
Hypothesis Hs : at_start p S c s0.
Notation af := (after (N:=N) fmt val sched afuel p S m s0 wr0 w0).
Notation rd := (ready (N:=N) fmt val sched afuel p S m s0 wr0 w0).

Lemma after_inv : forall i s wr w tr, af i s wr w tr -> (List.length tr <= n)%nat ->
  inv s (List.length tr) /\ good_trace tr (List.length tr) (ts_t (s_ts s)) /\ ts_kind (s_ts s) <> KErrorDump.
Proof.
  intros i s wr w tr H. induction H as [|i s wr w tr wr1 w1 s2 H IH Du O F X|i s wr w tr s2 H IH Du F X]; intros Hl.
  - split; [eapply inv_start; eauto|]. split; [apply gt_nil|]. destruct Hs as (E & _). rewrite E. discriminate.
  - rewrite app_length in *. cbn [List.length] in *. rewrite Nat.add_1_r in *. destruct (IH ltac:(lia)) as (I & G & K).
    assert (Ha : (List.length tr < n)%nat) by lia. assert (Hb : (0 < Datatypes.S (List.length tr) <= n)%nat) by lia.
    destruct (inv_moved _ _ Ha I) as (I2 & B2). destruct (inv_step _ _ _ _ _ _ _ _ _ Hb I2 B2 X) as (I3 & L).
    split; [exact I3|]. split; [|eapply (next_kind A N); eauto].
    eapply gt_snoc; [exact G|reflexivity|exact (iv_fin _ _ I)|exact K|exact (due_64 _ _ I Du)|exact (iv_le _ _ I)|exact L].
  - destruct (IH Hl) as (I & G & K). destruct (not_due _ _ Hl I Du) as (B & Hk).
    destruct (inv_step _ _ _ _ _ _ _ _ _ (conj Hk Hl) I B X) as (I3 & L).
    split; [exact I3|]. split; [eapply good_mono; eauto|]. eapply (next_kind A N); eauto.
Qed.

Lemma ready_inv : forall i s wr w tr, rd i s wr w tr -> (List.length tr <= n)%nat ->
  inv s (List.length tr) /\ before s /\ (0 < List.length tr)%nat /\ good_trace tr (List.length tr) (ts_t (s_ts s)).
Proof.
  intros i s wr w tr [s1 wr1 w1 tr1 wr2 w2 H Du O|s1 wr1 w1 tr1 H Du] Hl.
  - rewrite app_length in *. cbn [List.length] in *. rewrite Nat.add_1_r in *. destruct (after_inv _ _ _ _ _ H ltac:(lia)) as (I & G & K).
    assert (Ha : (List.length tr1 < n)%nat) by lia.
    destruct (inv_moved _ _ Ha I) as (I2 & B2). split; [exact I2|]. split; [exact B2|]. split; [lia|].
    eapply gt_snoc; [exact G|reflexivity|exact (iv_fin _ _ I)|exact K|exact (due_64 _ _ I Du)|exact (iv_le _ _ I)|].
    apply xle_refl_fin. exact (iv_fin _ _ I).
  - destruct (after_inv _ _ _ _ _ H Hl) as (I & G & K). destruct (not_due _ _ Hl I Du) as (B & Hk). auto.
Qed.

(** [tr] are the outputs of a run. *)
Definition run_trace (tr : list (snapshot A)) : Prop :=
  exists tr1 k t, good_trace tr1 k t /\
    (tr = tr1 \/ exists x, tr = tr1 ++ [x] /\ is_finite (ts_t (fst x)) = true /\ xle (b2x t) (b2x (ts_t (fst x))) /\ at_most_next (P k) (ts_t (fst x)) /\ ts_kind (fst x) = KErrorDump).

Lemma run_trace_loop : forall fuel e r, run_loop fmt val sched afuel fuel p S m s0 wr0 w0 = (e, r) -> (List.length (e_trace e) <= n)%nat -> run_trace (e_trace e).
Proof.
  intros fuel e r E Hl. apply loop_ends in E.
  destruct E as [s1 wr1 w1 tr1 H|i s1 wr1 w1 tr1 wr2 w2 r Hn H Du O NO|i s1 wr1 w1 tr1 Hn H F|i s1 wr1 w1 tr1 s2 er s3 wr2 w2 r Hn H F X -> O|i s1 wr1 w1 tr1 s2 r Hn H F X R]; cbn [e_trace] in *.
  - destruct (after_inv _ _ _ _ _ H Hl) as (I & G & K). exists tr1, (List.length tr1), (ts_t (s_ts s1)). auto.
  - rewrite app_length in Hl. cbn [List.length] in Hl. destruct (after_inv _ _ _ _ _ H ltac:(lia)) as (I & G & K).
    do 3 eexists. split; [|left; reflexivity].
    eapply gt_snoc; [exact G|reflexivity|exact (iv_fin _ _ I)|exact K|exact (due_64 _ _ I Du)|exact (iv_le _ _ I)|].
    apply xle_refl_fin. exact (iv_fin _ _ I).
  - destruct (ready_inv _ _ _ _ _ H Hl) as (I & B & Hk & G). exists tr1, (List.length tr1), (ts_t (s_ts s1)). auto.
  - rewrite app_length in Hl. cbn [List.length] in Hl. destruct (ready_inv _ _ _ _ _ H ltac:(lia)) as (I & B & Hk & G).
    exists tr1, (List.length tr1), (ts_t (s_ts s1)). split; [exact G|]. right.
    assert (Hb : (0 < List.length tr1 <= n)%nat) by lia.
    destruct (inv_step _ _ _ _ _ _ _ _ _ Hb I B X) as (I' & L). eexists. split; [reflexivity|]. cbn [fst].
    split; [exact (iv_fin _ _ I')|]. split; [exact L|]. split; [exact (iv_le _ _ I')|reflexivity].
  - destruct (ready_inv _ _ _ _ _ H Hl) as (I & B & Hk & G). exists tr1, (List.length tr1), (ts_t (s_ts s1)). auto.
Qed.

Lemma run_trace_nth : forall tr, run_trace tr -> forall i (x : snapshot A), nth_error tr i = Some x ->
  is_finite (ts_t (fst x)) = true /\ at_most_next (P i) (ts_t (fst x)) /\ (ts_kind (fst x) <> KErrorDump -> xle (b2x (b_sub (P i) dmin)) (b2x (ts_t (fst x)))).
Proof.
  intros tr (tr1 & k & t & G & C) i x E. destruct C as [->|(y & -> & Fy & Ey & B & Ky)].
  - destruct (good_nth _ _ _ G _ _ E) as (P0 & P1 & P2 & _). auto.
  - pose proof (good_length _ _ _ G). destruct (lt_dec i (List.length tr1)) as [Hi|Hi].
    + rewrite nth_error_app1 in E by exact Hi. destruct (good_nth _ _ _ G _ _ E) as (P0 & P1 & P2 & _). auto.
    + rewrite nth_error_app2 in E by lia. destruct (i - List.length tr1)%nat as [|q] eqn:Eq; [|destruct q; discriminate]. cbn in E. injection E as <-.
      replace i with k by lia. split; [exact Fy|]. split; [exact B|]. intros Q. contradiction.
Qed.

Lemma run_trace_sorted : forall tr, run_trace tr -> forall i j (x y : snapshot A), (i <= j)%nat -> nth_error tr i = Some x -> nth_error tr j = Some y ->
  xle (b2x (ts_t (fst x))) (b2x (ts_t (fst y))).
Proof.
  intros tr (tr1 & k & t & G & C) i j x y Hij Ei Ej. destruct C as [->|(z & -> & Fz & Ez & B & Kz)].
  - exact (good_sorted _ _ _ G i j x y Hij Ei Ej).
  - destruct (lt_dec j (List.length tr1)) as [Hj|Hj].
    + rewrite nth_error_app1 in Ei by lia. rewrite nth_error_app1 in Ej by lia. exact (good_sorted _ _ _ G i j x y Hij Ei Ej).
    + rewrite nth_error_app2 in Ej by lia. destruct (j - List.length tr1)%nat as [|q] eqn:Eq; [|destruct q; discriminate]. cbn in Ej. injection Ej as <-.
      destruct (lt_dec i (List.length tr1)) as [Hi|Hi].
      * rewrite nth_error_app1 in Ei by exact Hi. destruct (good_nth _ _ _ G _ _ Ei) as (_ & _ & _ & _ & P4). eapply xle_trans; eauto.
      * assert (i = j) by lia. subst j. rewrite nth_error_app2, Eq in Ei by lia. cbn in Ei. injection Ei as <-. apply xle_refl_fin. exact Fz.
Qed.
End Loop.
End Times.
