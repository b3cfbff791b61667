(** Step size selection: proofs. *)

From Coq Require Import Reals ZArith NArith QArith Qreals List Bool Lia Lra.
From Flocq Require Import Core BinarySingleNaN.
From Verif Require Import Base Num XReal B64 Config Mesh State NumFlux Time Spec SpecFlow SpecStep
  ConfigProofs MeshProofs BoundaryProofs PhysicsProofs FluxProofs UpdateProofs VanLeer StepProofs StepInv.
Import ListNotations.
Local Open Scope R_scope.

(** ** The maximum in calc_dt_cfl *)
Lemma fold_max_R : forall (l : list nat) (x : nat -> R) a,
  exists M, fold_left (fun acc i => nmax XRn acc (nabs XRn (Fin (x i)))) l (Fin a) = Fin M /\
  a <= M /\ (forall i, In i l -> Rabs (x i) <= M) /\ (M = a \/ exists i, In i l /\ M = Rabs (x i)).
Proof.
  induction l as [|k l IH]; intros x a; cbn [fold_left].
  - exists a. repeat match goal with |- _ /\ _ => split end; auto; [lra|]. intros i [].
  - rewrite X_abs, X_max. destruct (IH x (Rmax a (Rabs (x k)))) as (M & E & L & B & T). exists M.
    pose proof (Rmax_l a (Rabs (x k))). pose proof (Rmax_r a (Rabs (x k))).
    repeat match goal with |- _ /\ _ => split end; [exact E|lra| |].
    + intros i [<-|Hi]; [lra|auto].
    + destruct T as [->|(i & Hi & ->)]; [|right; exists i; cbn; auto].
      unfold Rmax. destruct (Rle_dec a (Rabs (x k))); [right; exists k; cbn; auto|auto].
Qed.

Lemma fold_left_ext : forall {X Y} (f g : X -> Y -> X) l a, (forall x y, In y l -> f x y = g x y) -> fold_left f l a = fold_left g l a.
Proof.
  induction l as [|y l IH]; intros a H; cbn [fold_left]; [reflexivity|]. rewrite H by (left; reflexivity). apply IH.
  intros x z Hz. apply H. right. exact Hz.
Qed.

Lemma dt_cfl_R : forall S ev c m x, (forall i, (i < S)%nat -> nmul XRn (at1 (n0 XRn) ev i) (at1 (n0 XRn) (m_cell_width_inv m) i) = Fin (x i)) ->
  0 < c ->
  match calc_dt_cfl S ev (Fin c : nF XRn) m with
  | Ok (Fin dt) => 0 < dt /\ (forall i, (i < S)%nat -> dt * Rabs (x i) <= c) /\ exists i, (i < S)%nat /\ dt * Rabs (x i) = c
  | Err EDtNonFinite => forall i, (i < S)%nat -> x i = 0
  | _ => False
  end.
Proof.
  intros S ev c m x Hx Hc. unfold calc_dt_cfl.
  rewrite (fold_left_ext _ (fun acc i => nmax XRn acc (nabs XRn (Fin (x i) : nF XRn)))).
  2:{ intros a i Hi. apply in_seq in Hi. rewrite Hx by lia. reflexivity. }
  destruct (fold_max_R (seq 0 S) x 0) as (M & E & L & B & T). rewrite X_n0. rewrite E.
  destruct (Req_dec M 0) as [->|HM].
  - cbn. destruct (Req_EM_T 0 0) as [_|K]; [|lra]. unfold xinf_sgn. destruct (Rlt_dec 0 c); [|lra]. cbn.
    intros i Hi. specialize (B i ltac:(apply in_seq; lia)). pose proof (Rabs_pos (x i)). destruct (Req_dec (x i) 0); [assumption|]. apply Rabs_pos_lt in H0. lra.
  - rewrite X_div by exact HM. rewrite X_fin. assert (0 < M) by lra. split; [apply Rdiv_lt_0_compat; lra|]. split.
    + intros i Hi. specialize (B i ltac:(apply in_seq; lia)). apply Rmult_le_reg_r with M; [assumption|].
      replace (c / M * Rabs (x i) * M) with (c * Rabs (x i)) by (field; lra). apply Rmult_le_compat_l; lra.
    + destruct T as [T|(i & Hi & T)]; [contradiction|]. exists i. apply in_seq in Hi. split; [lia|]. rewrite <- T. field. exact HM.
Qed.

Lemma eigen_max_at : forall A p S (v : vars A) i, shape (nE p) S (eigen_vals v) ->
  at1 (n0 A) (eigen_max p v) i = at2 (n0 A) (eigen_vals v) (nE p - 1) i.
Proof. intros. unfold eigen_max, at2. reflexivity. Qed.

(** CFL condition on a mesh of the library. *)
Lemma cfl_mesh : forall p S md a b c u bw be vel cs,
  let m := mesh_build (A:=XRn) S (mkMC (A:=XRn) md (Fin a) (Fin b)) in
  (5 <= S)%nat -> a < b -> 0 < c ->
  consistent p S bw be m (cent u) -> shape (nE p) S (eigen_vals (cent u)) ->
  (forall i, (i < S)%nat -> at2 (n0 XRn) (prim (cent u)) 1 i = Fin (vel i) /\ at1 (n0 XRn) (c_sound (cent u)) i = Fin (cs i)) ->
  match st_calc_dt_cfl p S u (Fin c : nF XRn) m with
  | Ok (Fin dt) => 0 < dt /\ (forall i, (i < S)%nat -> dt * Rabs (vel i + cs i) <= c * hx S a b) /\
                   exists i, (i < S)%nat /\ dt * Rabs (vel i + cs i) = c * hx S a b
  | Err EDtNonFinite => forall i, (i < S)%nat -> vel i + cs i = 0
  | _ => False
  end.
Proof.
  intros p S md a b c u bw be vel cs m HS Hab Hc HC Hsh HV. unfold st_calc_dt_cfl.
  pose proof (hx_pos S a b ltac:(lia) Hab) as Hh.
  pose proof (dt_cfl_R S (eigen_max p (cent u)) c m (fun i => (vel i + cs i) * / hx S a b)) as H.
  assert (Hx : forall i, (i < S)%nat -> nmul XRn (at1 (n0 XRn) (eigen_max p (cent u)) i) (at1 (n0 XRn) (m_cell_width_inv m) i) = Fin ((vel i + cs i) * / hx S a b)).
  { intros i Hi. rewrite eigen_max_at with (S := S) by assumption. rewrite (cst_fast _ _ _ _ _ _ _ HC) by assumption.
    unfold m. rewrite mesh_width_inv_R by (try lia; try assumption). destruct (HV i Hi) as [-> ->]. reflexivity. }
  specialize (H Hx Hc).
  assert (Rh : Rabs (/ hx S a b) = / hx S a b) by (apply Rabs_right; left; apply Rinv_0_lt_compat; exact Hh).
  destruct (calc_dt_cfl S (eigen_max p (cent u)) (Fin c : nF XRn) m) as [[dt| | |]|[]| |]; try contradiction.
  - destruct H as (H1 & H2 & i & Hi & H3). split; [exact H1|]. split.
    + intros k Hk. specialize (H2 k Hk). rewrite Rabs_mult, Rh in H2. apply Rmult_le_reg_r with (/ hx S a b); [apply Rinv_0_lt_compat; exact Hh|].
      replace (c * hx S a b * / hx S a b) with c by (field; lra). lra.
    + exists i. split; [exact Hi|]. rewrite Rabs_mult, Rh in H3. rewrite <- H3. field. lra.
  - intros i Hi. specialize (H i Hi). apply Rmult_integral in H. destruct H as [H|H]; [exact H|].
    pose proof (Rinv_0_lt_compat _ Hh). lra.
Qed.

(** ** cap_dt in exact arithmetic *)
Lemma cap_R : forall (ts : timestep XRn) d t tn, ts_dt ts = Fin d -> ts_t ts = Fin t -> ts_t_next ts = Fin tn ->
  0 <= t <= tn -> 0 <= d -> xle (Fin 0) (ts_dt_max ts) -> (0 < tn \/ 0 < d /\ xlt (Fin 0) (ts_dt_max ts)) ->
  exists d', ts_dt (cap_dt ts) = Fin d' /\ 0 <= d' /\ t + d' <= tn /\ xle (Fin d') (ts_dt_max ts) /\ d' <= d /\
    (d' = tn - t \/ d' = d \/ ts_dt_max ts = Fin d').
Proof.
  intros ts d t tn Ed Et En Ht Hd HM Hn. unfold cap_dt. cbn [ts_dt ts_set_dt ts_t ts_t_next ts_dt_max]. rewrite Ed, Et, En.
  assert (exists d1, nmin XRn (Fin d : nF XRn) (ts_dt_max ts) = Fin d1 /\ 0 <= d1 <= d /\ xle (Fin d1) (ts_dt_max ts) /\ (d1 = d \/ ts_dt_max ts = Fin d1) /\
          (0 < d /\ xlt (Fin 0) (ts_dt_max ts) -> 0 < d1)) as (d1 & E1 & B1 & B2 & B3 & B4).
  { destruct (ts_dt_max ts) as [M| | |]; cbn in HM; try contradiction.
    - rewrite X_min. exists (Rmin d M). cbn [xle xlt]. unfold Rmin. destruct (Rle_dec d M); repeat match goal with |- _ /\ _ => split end; auto; try lra; intros [? ?]; lra.
    - cbn. exists d. cbn. repeat match goal with |- _ /\ _ => split end; auto; lra. }
  rewrite E1, X_add, X_n1.
  destruct (Req_dec tn 0) as [Z|Z].
  - subst tn. assert (t = 0) by lra. subst t. assert (0 < d1) by (apply B4; destruct Hn as [?|?]; [lra|assumption]).
    cbn [ndiv XRn xdiv]. destruct (Req_EM_T 0 0); [|lra]. unfold xinf_sgn. destruct (Rlt_dec 0 (d1 + 0)); [|lra].
    cbn. exists (0 - 0). repeat match goal with |- _ /\ _ => split end; try lra; try (left; reflexivity); try (f_equal; ring).
    all: destruct (ts_dt_max ts); cbn in *; auto; lra.
  - rewrite X_div by exact Z. rewrite X_ltb. destruct (Rlt_dec 1 ((d1 + t) / tn)) as [Hc|Hc]; cbn [ts_dt ts_set_dt ts_t ts_t_next].
    + rewrite ?En, ?Et, X_sub. exists (tn - t). assert (tn - t < d1).
      { apply Rmult_lt_compat_r with (r := tn) in Hc; [|lra]. unfold Rdiv in Hc. rewrite Rmult_assoc, Rinv_l, Rmult_1_r in Hc by exact Z. lra. }
      repeat match goal with |- _ /\ _ => split end; try lra; auto.
      destruct (ts_dt_max ts); cbn in *; auto; lra.
    + exists d1. assert (t + d1 <= tn).
      { apply Rnot_lt_le in Hc. apply Rmult_le_compat_r with (r := tn) in Hc; [|lra]. unfold Rdiv in Hc. rewrite Rmult_assoc, Rinv_l, Rmult_1_r in Hc by exact Z. lra. }
      repeat match goal with |- _ /\ _ => split end; try lra; auto.
Qed.


(** The time step of a completed call without automated step control: what
    calc_dt_expl and cap_dt leave. *)
Lemma next_dt : forall A (N : numflux_impl A) val fuel p S m (s s' : sim A N),
  bt_asc (rk_bt (s_rk s)) = false -> rkf_next val fuel p S m s = (s', Ok tt) ->
  exists dt, st_calc_dt_cfl p S (s_u s) (ts_cfl (s_ts s)) m = Ok dt /\
    nltb A dt (ts_dt_min (s_ts s)) = false /\
    ts_dt (s_ts s') = ts_dt (cap_dt (ts_set_dt dt (s_ts s))).
Proof.
  intros A N val fuel p S m s s' Ha H. unfold rkf_next, calc_dt_expl in H.
  cbn [ts_cfl ts_set_iter] in H.
  destruct (st_calc_dt_cfl p S (s_u s) (ts_cfl (s_ts s)) m) as [dt|e| |] eqn:E; try discriminate. exists dt. split; [reflexivity|].
  cbn [ts_dt_min ts_set_dt ts_set_iter] in H. destruct (nltb A dt (ts_dt_min (s_ts s))) eqn:L; [discriminate|]. split; [reflexivity|].
  unfold rkf_asc in H. rewrite Ha in H.
  match type of H with context [calc_rkf_solution ?a ?b ?c ?d ?e ?f ?g ?h] => destruct (calc_rkf_solution a b c d e f g h) as [[rk rh] o] end.
  destruct o as [x|e| |]; try discriminate.
  match type of H with context [st_update_from_cons ?a ?b ?c ?d ?e ?f] => destruct (st_update_from_cons a b c d e f) as [u2|e2| |] end; try discriminate.
  match type of H with context [if val then ?a else ?b] => destruct (if val then a else b) as [[]|e3| |] end; try discriminate.
  apply (f_equal fst) in H. cbn [fst] in H. subst s'. cbn [s_ts ts_set_t ts_dt].
  unfold cap_dt. cbn [ts_dt ts_set_dt ts_t ts_t_next ts_dt_max ts_set_kind ts_set_iter].
  match goal with |- context [if ?b then _ else _] => destruct b end; reflexivity.
Qed.

Lemma next_dt_min : forall A (N : numflux_impl A) val fuel p S m (s : sim A N) dt,
  st_calc_dt_cfl p S (s_u s) (ts_cfl (s_ts s)) m = Ok dt -> nltb A dt (ts_dt_min (s_ts s)) = true ->
  snd (solver_next val fuel p S m s) = Err EDtMin.
Proof.
  intros A N val fuel p S m s dt E L. unfold solver_next, rkf_next, calc_dt_expl. cbn [ts_cfl ts_set_iter]. rewrite E.
  cbn [ts_dt_min ts_set_dt ts_set_iter]. rewrite L. reflexivity.
Qed.

(** ** Divisions of doubles that exceed one *)
Lemma b_div_gt1 : forall x y : b64, is_finite x = true -> is_finite y = true -> 0 < B2R y < B2R x ->
  xlt (Fin 1) (b2x (Bdiv mode_NE x y)).
Proof.
  intros x y Fx Fy [Hy Hxy]. pose proof (FLT_exp_valid (3 - 1024 - 53) 53 : Valid_exp (SpecFloat.fexp 53 1024)) as Ve.
  assert (Fm : generic_format radix2 (SpecFloat.fexp 53 1024) (B2R y)) by apply generic_format_B2R.
  assert (Fmx : generic_format radix2 (SpecFloat.fexp 53 1024) (B2R x)) by apply generic_format_B2R.
  pose proof (succ_le_lt radix2 (SpecFloat.fexp 53 1024) _ _ Fm Fmx Hxy) as Hs.
  rewrite succ_eq_pos in Hs by lra.
  assert (U : ulp radix2 (SpecFloat.fexp 53 1024) (B2R y) > B2R y * bpow radix2 (-53)).
  { rewrite ulp_neq_0 by lra. unfold cexp. destruct (mag radix2 (B2R y)) as [e He]. cbn [mag_val]. specialize (He ltac:(lra)).
    rewrite Rabs_right in He by lra. destruct He as [_ He].
    assert (bpow radix2 (e - 53) <= bpow radix2 (SpecFloat.fexp 53 1024 e)) by (apply bpow_le; unfold SpecFloat.fexp; lia).
    replace (e - 53)%Z with (e + -53)%Z in H by lia. rewrite bpow_plus in H. pose proof (bpow_gt_0 radix2 (-53)). nra. }
  assert (Q : 1 + bpow radix2 (-53) < B2R x / B2R y).
  { apply Rmult_lt_reg_r with (B2R y); [lra|]. unfold Rdiv. rewrite Rmult_assoc, Rinv_l by lra. lra. }
  assert (F1 : generic_format radix2 (SpecFloat.fexp 53 1024) 1) by (change 1 with (bpow radix2 0); apply bpow_fmt; lia).
  assert (S1 : succ radix2 (SpecFloat.fexp 53 1024) 1 = 1 + bpow radix2 (-52)).
  { rewrite succ_eq_pos by lra. f_equal. change 1 with (bpow radix2 0). rewrite ulp_bpow. reflexivity. }
  assert (G : 1 + bpow radix2 (-52) <= rnd64 (B2R x / B2R y)).
  { rewrite <- S1. apply round_N_ge_midp; [exact Ve|apply generic_format_succ; [exact Ve|exact F1]|]. rewrite pred_succ by (exact F1 || exact Ve). rewrite S1.
    eapply Rle_lt_trans; [|exact Q].
    pose proof (bpow_plus radix2 (-53) 1) as E. change (-53 + 1)%Z with (-52)%Z in E. rewrite E. cbn. lra. }
  pose proof (Bdiv_correct 53 1024 Hp64 He64 mode_NE x y ltac:(lra)) as H. cbn [round_mode] in H.
  destruct (Rlt_bool (Rabs (round radix2 (SpecFloat.fexp 53 1024) ZnearestE (B2R x / B2R y))) (bpow radix2 1024)).
  - destruct H as (H & Hf & _). destruct (Bdiv mode_NE x y) as [s0|s0| |s0 mm ee Bb] eqn:E.
    + cbn [b2x xlt]. rewrite H. pose proof (bpow_gt_0 radix2 (-52)). cbn [round_mode] in G. lra.
    + rewrite Fx in Hf. discriminate.
    + rewrite Fx in Hf. discriminate.
    + cbn [b2x xlt]. rewrite H. pose proof (bpow_gt_0 radix2 (-52)). cbn [round_mode] in G. lra.
  - assert (Sx : Bsign x = false).
    { destruct x as [s0|s0| |[] mm ee Bb]; cbn in *; try lra; try discriminate; auto.
      exfalso. assert (0 < @F2R radix2 {| Fnum := Z.neg mm; Fexp := ee |}) by (unfold B2R in *; lra). apply gt_0_F2R in H0. cbn in H0. lia. }
    assert (Sy : Bsign y = false).
    { destruct y as [s0|s0| |[] mm ee Bb]; cbn in *; try lra; try discriminate; auto.
      exfalso. assert (0 < @F2R radix2 {| Fnum := Z.neg mm; Fexp := ee |}) by (unfold B2R in *; lra). apply gt_0_F2R in H0. cbn in H0. lia. }
    rewrite Sx, Sy in H. cbn [xorb] in H. unfold binary_overflow in H. cbn [overflow_to_inf] in H.
    destruct (Bdiv mode_NE x y) as [s0|s0| |s0 mm ee Bb] eqn:E; cbn in H; try discriminate. injection H as ->. cbn. exact I.
Qed.

Lemma b_fin_b2x : forall x : b64, is_finite x = true -> b2x x = Fin (B2R x).
Proof. intros [s|s| |s mm e B] H; try discriminate; reflexivity. Qed.

Lemma b_pos_sign : forall x : b64, 0 < B2R x -> Bsign x = false.
Proof.
  intros [s|s| |[] mm e B] H; cbn in H; try lra; try reflexivity.
  exfalso. assert (G : 0 < @F2R radix2 {| Fnum := Z.neg mm; Fexp := e |}) by exact H. apply gt_0_F2R in G. cbn in G. lia.
Qed.

Lemma b_one : b2x (b_ofZ 1) = Fin 1.
Proof. replace (b_ofZ 1) with (Bone : b64) by (apply b_eq_by; vm_compute; reflexivity). rewrite b_fin_b2x by reflexivity. rewrite Bone_correct. reflexivity. Qed.

(** The sum of two non-negative doubles is finite and correctly rounded, or
    infinite. *)
Lemma b_add_nonneg : forall x y : b64, is_finite x = true -> is_finite y = true -> 0 < B2R x -> 0 <= B2R y ->
  (is_finite (b_add x y) = true /\ B2R (b_add x y) = rnd64 (B2R x + B2R y)) \/ b_add x y = B754_infinity false.
Proof.
  intros x y Fx Fy Hx Hy. pose proof (Bplus_correct 53 1024 Hp64 He64 mode_NE x y Fx Fy) as C.
  destruct (Rlt_bool (Rabs (round radix2 (SpecFloat.fexp 53 1024) (round_mode mode_NE) (B2R x + B2R y))) (bpow radix2 1024)).
  - left. unfold b_add. destruct C as (C1 & C2 & _). auto.
  - right. destruct C as (C1 & C2). rewrite (b_pos_sign x Hx) in C1. unfold b_add.
    destruct (Bplus mode_NE x y); cbn in C1; try discriminate. injection C1 as ->. reflexivity.
Qed.

(** An uncapped step does not pass the output time, in binary64. *)
Lemma cap_b64 : forall d t tn : b64, is_finite d = true -> is_finite t = true -> is_finite tn = true ->
  0 < B2R d -> 0 <= B2R t -> 0 < B2R tn ->
  Bltb (b_ofZ 1) (b_div (b_add d t) tn) = false ->
  is_finite (b_add d t) = true /\ B2R (b_add d t) <= B2R tn.
Proof.
  intros d t tn Fd Ft Fn Hd Ht Hn H.
  assert (K : ~ xlt (Fin 1) (b2x (b_div (b_add d t) tn))).
  { intros K. rewrite <- b_one in K. apply Bltb_xlt in K. congruence. }
  destruct (b_add_nonneg d t Fd Ft Hd Ht) as [[F E]|E].
  - split; [exact F|]. apply Rnot_lt_le. intros L. apply K. apply b_div_gt1; auto.
  - exfalso. apply K. rewrite E. pose proof (b_pos_sign tn Hn) as Sg. destruct tn as [s|s| |s mm e B]; try discriminate; cbn in Hn; [lra|].
    cbn in Sg. subst s. cbn. exact I.
Qed.

(** Adding a non-negative number does not decrease. *)
Lemma b_add_ge : forall d t : b64, is_finite d = true -> is_finite t = true -> 0 < B2R d -> 0 <= B2R t ->
  is_finite (b_add d t) = true -> B2R t <= B2R (b_add d t) /\ B2R (b_add d t) = B2R (b_add t d) /\ is_finite (b_add t d) = true.
Proof.
  intros d t Fd Ft Hd Ht F. destruct (b_add_nonneg d t Fd Ft Hd Ht) as [[_ E]|E]; [|rewrite E in F; discriminate].
  assert (F2 : is_finite (b_add t d) = true /\ B2R (b_add t d) = rnd64 (B2R t + B2R d)).
  { pose proof (Bplus_correct 53 1024 Hp64 He64 mode_NE d t Fd Ft) as C1.
    pose proof (Bplus_correct 53 1024 Hp64 He64 mode_NE t d Ft Fd) as C2.
    rewrite (Rplus_comm (B2R t)) in *.
    destruct (Rlt_bool (Rabs (round radix2 (SpecFloat.fexp 53 1024) (round_mode mode_NE) (B2R d + B2R t))) (bpow radix2 1024)).
    - unfold b_add. destruct C2 as (Q1 & Q2 & _). auto.
    - destruct C1 as (C1 & _). unfold b_add in F. destruct (Bplus mode_NE d t); cbn in C1, F; try discriminate.
      all: unfold binary_overflow in C1; cbn in C1; discriminate. }
  destruct F2 as (F2 & E2). split; [|split; [rewrite E, E2, Rplus_comm; reflexivity|exact F2]].
  rewrite E. apply round_ge_generic; [apply FLT_exp_valid; reflexivity|apply valid_rnd_N|apply generic_format_B2R|lra].
Qed.

Lemma b_sub_self : forall x : b64, is_finite x = true -> b_sub x x = B754_zero false.
Proof.
  intros x F. pose proof (Bminus_correct 53 1024 Hp64 He64 mode_NE x x F F) as C. rewrite Rminus_diag_eq in C by reflexivity.
  rewrite round_0 in C by (apply valid_rnd_N). rewrite Rabs_R0, Rlt_bool_true in C by (apply bpow_gt_0).
  destruct C as (C1 & C2 & C3). unfold b_sub. rewrite Rcompare_Eq in C3 by reflexivity.
  destruct (Bminus mode_NE x x) as [s|s| |s mm e B] eqn:E; try discriminate.
  - cbn in C3. f_equal. destruct (Bsign x); cbn in C3; exact C3.
  - exfalso. cbn in C1. destruct s; [assert (G : @F2R radix2 {| Fnum := Z.neg mm; Fexp := e |} = 0) by exact C1|assert (G : @F2R radix2 {| Fnum := Z.pos mm; Fexp := e |} = 0) by exact C1]; apply eq_0_F2R in G; discriminate.
Qed.

(** A fresh time step: the next output time is the current time. *)
Lemma fresh_b64 : forall d t : b64, is_finite d = true -> is_finite t = true -> 0 < B2R d -> 0 <= B2R t -> Bsign t = false ->
  b2x (b_add t (if Bltb (b_ofZ 1) (b_div (b_add d t) t) then b_sub t t else d)) = b2x t.
Proof.
  intros d t Fd Ft Hd Ht Sg.
  destruct (Bltb (b_ofZ 1) (b_div (b_add d t) t)) eqn:L.
  - rewrite b_sub_self by exact Ft. destruct (b_add_zero_r t false Ft) as [-> | [-> ->]]; reflexivity.
  - destruct (Rle_lt_or_eq_dec 0 (B2R t) Ht) as [Hp|Hz].
    + destruct (cap_b64 d t t Fd Ft Ft Hd Ht Hp L) as (F & Le).
      destruct (b_add_ge d t Fd Ft Hd Ht F) as (Ge & E & F2). rewrite !b_fin_b2x by assumption. f_equal. lra.
    + exfalso. destruct t as [s|s| |s mm e B]; try discriminate.
      * cbn in Sg. subst s. destruct d as [s|s| |s mm e B]; try discriminate; cbn in Hd; [lra|].
        pose proof (b_pos_sign (B754_finite s mm e B) Hd) as Sd. cbn in Sd. subst s. cbn in L.
        assert (K : Bltb (b_ofZ 1) (B754_infinity false : b64) = true) by (apply Bltb_xlt; rewrite b_one; exact I).
        congruence.
      * cbn in Hz. destruct s; [assert (G : @F2R radix2 {| Fnum := Z.neg mm; Fexp := e |} = 0) by (symmetry; exact Hz)|assert (G : @F2R radix2 {| Fnum := Z.pos mm; Fexp := e |} = 0) by (symmetry; exact Hz)]; apply eq_0_F2R in G; discriminate.
Qed.
