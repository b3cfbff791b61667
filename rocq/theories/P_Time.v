(** Properties of the step size selection: C28, C29, C30, C32, C33 and the
    second half of C54. *)

From Coq Require Import Reals ZArith NArith QArith Qabs Qreals List Bool Lia Lra.
From Flocq Require Import Core BinarySingleNaN.
From Verif Require Import Base Num XReal B64 Config Mesh State NumFlux Time Spec SpecFlow SpecStep SpecTableau
  ConfigProofs MeshProofs BoundaryProofs PhysicsProofs FluxProofs UpdateProofs MeshB64 VanLeer StepProofs StepInv TimeProofs TimeMore TableauProofs AscProofs Demo RealRun.
Import ListNotations.
Local Open Scope R_scope.

(** C28: the CFL condition on a mesh from [a] to [b]; a cell has the width
    (b - a) / (S - 4).  The step is positive, keeps the wave [v + c] of every
    cell below the fraction [c] of a cell, and is the largest such step; the
    call fails exactly if no wave moves. *)
Theorem C28_cfl_condition : forall p S md a b c u bw be vel cs,
  let m := mesh_build (A:=XRn) S (mkMC (A:=XRn) md (Fin a) (Fin b)) in
  (5 <= S)%nat -> a < b -> 0 < c ->
  consistent p S bw be m (cent u) -> shape (nE p) S (eigen_vals (cent u)) ->
  (forall i, (i < S)%nat -> at2 (n0 XRn) (prim (cent u)) 1 i = Fin (vel i) /\ at1 (n0 XRn) (c_sound (cent u)) i = Fin (cs i)) ->
  match st_calc_dt_cfl p S u (Fin c : nF XRn) m with
  | Ok (Fin dt) => 0 < dt /\ (forall i, (i < S)%nat -> dt * Rabs (vel i + cs i) <= c * ((b - a) / INR (S - 4))) /\
                   exists i, (i < S)%nat /\ dt * Rabs (vel i + cs i) = c * ((b - a) / INR (S - 4))
  | Err EDtNonFinite => forall i, (i < S)%nat -> vel i + cs i = 0
  | _ => False
  end.
Proof. exact cfl_mesh. Qed.
Print Assumptions C28_cfl_condition.

(** The other acoustic wave is not limited: its CFL number can exceed the
    configured one by any factor. *)
Theorem C28_left_wave_refuted : forall K S md a b c, (6 <= S)%nat -> a < b -> 0 < c -> 0 < K ->
  let m := mesh_build (A:=XRn) S (mkMC (A:=XRn) md (Fin a) (Fin b)) in
  exists u vel cs dt, consistent Isot S (init_bc BNoGradients 2) (init_bc BNoGradients 2) m (cent u) /\ wsv XRn Isot S (cent u) /\ 0 < cs /\
    (forall i, (i < S)%nat -> at2 (n0 XRn) (prim (cent u)) 0 i = Fin 1 /\ at2 (n0 XRn) (prim (cent u)) 1 i = Fin vel /\ at1 (n0 XRn) (c_sound (cent u)) i = Fin cs) /\
    st_calc_dt_cfl Isot S u (Fin c : nF XRn) m = Ok (Fin dt : nF XRn) /\
    K * (c * ((b - a) / INR (S - 4))) < dt * Rabs (vel - cs).
Proof.
  intros K S md a b c HS Hab Hc HK m.
  assert (Hn : 0 < INR (S - 4)) by (apply lt_0_INR; lia).
  assert (Hh : 0 < (b - a) / INR (S - 4)) by (apply Rdiv_lt_0_compat; lra).
  set (h := (b - a) / INR (S - 4)) in *.
  assert (Hi : 0 < / K) by (apply Rinv_0_lt_compat; exact HK).
  destruct (uniform_cfl S md a b c (-(1 + / K)) 1 HS Hab Hc ltac:(lra)) as (u & Co & W & P & D). fold m in Co, D. fold h in D.
  exists u, (-(1 + / K)), 1, (c * h / Rabs (-(1 + / K) + 1)).
  split; [exact Co|]. split; [exact W|]. split; [lra|]. split; [exact P|]. split; [exact D|].
  rewrite (Rabs_left (-(1 + / K) + 1)) by lra. rewrite (Rabs_left (-(1 + / K) - 1)) by lra.
  replace (c * h / - (- (1 + / K) + 1) * - (- (1 + / K) - 1)) with (c * h * (2 * K + 1)) by (field; lra).
  assert (0 < c * h) by (apply Rmult_lt_0_compat; assumption). nra.
Qed.
Print Assumptions C28_left_wave_refuted.

(** A state in the scope of C28: gas moving at speed 1, sound speed 2. *)
Example C28_example : forall S md, (6 <= S)%nat ->
  let m := mesh_build (A:=XRn) S (mkMC (A:=XRn) md (Fin 1) (Fin 2)) in
  exists u, consistent Isot S (init_bc BNoGradients 2) (init_bc BNoGradients 2) m (cent u) /\
    (forall i, (i < S)%nat -> at2 (n0 XRn) (prim (cent u)) 1 i = Fin 1 /\ at1 (n0 XRn) (c_sound (cent u)) i = Fin 2) /\
    st_calc_dt_cfl Isot S u (Fin (4 / 10) : nF XRn) m = Ok (Fin (4 / 10 * ((2 - 1) / INR (S - 4)) / 3) : nF XRn).
Proof.
  intros S md HS m. destruct (uniform_cfl S md 1 2 (4 / 10) 1 2 HS ltac:(lra) ltac:(lra) ltac:(lra)) as (u & Co & W & P & D). fold m in Co, D.
  exists u. split; [exact Co|]. split; [intros i Hi; destruct (P i Hi) as (_ & P1 & P2); auto|].
  rewrite D. rewrite Rabs_pos_eq by lra. replace (1 + 2) with 3 by ring. reflexivity.
Qed.

(** C54, second half: the step size of a mirrored flow differs.  Uniform flows
    are their own mirror images up to the sign of the velocity. *)
Theorem C54_step_size_refuted : forall S md a b c, (6 <= S)%nat -> a < b -> 0 < c ->
  let m := mesh_build (A:=XRn) S (mkMC (A:=XRn) md (Fin a) (Fin b)) in
  exists u u' dt dt' (q : nat -> R), consistent Isot S (init_bc BNoGradients 2) (init_bc BNoGradients 2) m (cent u) /\
    consistent Isot S (init_bc BNoGradients 2) (init_bc BNoGradients 2) m (cent u') /\
    c_sound (cent u') = c_sound (cent u) /\
    (forall j i, (j < 2)%nat -> (i < S)%nat -> at2 (n0 XRn) (prim (cent u)) j i = Fin (q j) /\
                                 at2 (n0 XRn) (prim (cent u')) j (S - 1 - i) = Fin (mirrored q j)) /\
    st_calc_dt_cfl Isot S u (Fin c : nF XRn) m = Ok (Fin dt : nF XRn) /\
    st_calc_dt_cfl Isot S u' (Fin c : nF XRn) m = Ok (Fin dt' : nF XRn) /\ dt' = 3 * dt /\ 0 < dt.
Proof.
  intros S md a b c HS Hab Hc m.
  assert (Hn : 0 < INR (S - 4)) by (apply lt_0_INR; lia).
  assert (Hh : 0 < (b - a) / INR (S - 4)) by (apply Rdiv_lt_0_compat; lra).
  destruct (uniform_cfl S md a b c 1 2 HS Hab Hc ltac:(lra)) as (u & Co & W & P & D).
  destruct (uniform_cfl S md a b c (-1) 2 HS Hab Hc ltac:(lra)) as (u' & Co' & W' & P' & D').
  fold m in Co, D, Co', D'. set (h := (b - a) / INR (S - 4)) in *.
  exists u, u', (c * h / 3), (c * h), (fun j => match j with 0%nat => 1 | _ => 1 end).
  split; [exact Co|]. split; [exact Co'|]. split.
  { apply list_ext with (d := n0 XRn); [destruct W as (_ & _ & _ & _ & ->), W' as (_ & _ & _ & _ & ->); reflexivity|].
    intros i Hi. destruct W' as (_ & _ & _ & _ & L). rewrite L in Hi. destruct (P i Hi) as (_ & _ & E1), (P' i Hi) as (_ & _ & E2).
    unfold at1 in E1, E2. congruence. }
  split.
  { intros j i Hj Hi. destruct (P i Hi) as (E1 & E2 & _). destruct (P' (S - 1 - i)%nat ltac:(lia)) as (E3 & E4 & _).
    destruct j as [|[|j]]; [| |lia]; cbn [mirrored Nat.eqb]; auto. }
  split; [rewrite D, Rabs_pos_eq by lra; replace (1 + 2) with 3 by ring; reflexivity|].
  split; [rewrite D', Rabs_pos_eq by lra; replace (c * h / (-1 + 2)) with (c * h) by field; reflexivity|].
  assert (0 < c * h) by (apply Rmult_lt_0_compat; assumption). lra.
Qed.
Print Assumptions C54_step_size_refuted.

(** C29: the step size of a completed step without step control (exact
    arithmetic). *)
Theorem C29_step_size : forall (N : numflux_impl XRn) validation fuel p S m (s s' : sim XRn N) t tn dmin,
  bt_asc (rk_bt (s_rk s)) = false ->
  ts_t (s_ts s) = Fin t -> ts_t_next (s_ts s) = Fin tn -> 0 <= t <= tn -> 0 < tn ->
  ts_dt_min (s_ts s) = Fin dmin -> 0 < dmin -> xlt (Fin 0) (ts_dt_max (s_ts s)) ->
  solver_next validation fuel p S m s = (s', Ok tt) ->
  exists dt, ts_dt (s_ts s') = Fin dt /\ ts_t (s_ts s') = Fin (t + dt) /\
    0 <= dt /\ t + dt <= tn /\ xle (Fin dt) (ts_dt_max (s_ts s)) /\
    (dt < dmin -> t + dt = tn \/ ts_dt_max (s_ts s) = Fin dt).
Proof.
  intros N validation fuel p S m s s' t tn dmin Ha Ht Hn Hr Hp Hm Hmp HM E.
  unfold solver_next in E. destruct (rkf_next validation fuel p S m s) as [s1 o1] eqn:E1.
  assert (Q : s' = s1 /\ o1 = Ok tt).
  { destruct o1 as [[]|e| |]; try discriminate.
    destruct (ts_iter_max (s_ts s1) <=? ts_iter (s_ts s1))%N; [discriminate|]. apply (f_equal fst) in E; cbn [fst] in E; auto. }
  destruct Q as (-> & ->).
  destruct (next_dt _ _ _ _ _ _ _ _ _ Ha E1) as (dt & C & L & D).
  assert (T : ts_t (s_ts s1) = nadd XRn (ts_t (s_ts s)) (ts_dt (s_ts s1))).
  { destruct (rkf_next_cases _ _ _ _ _ _ _ _ _ _ E1) as (_ & _ & _ & _ & [(X & _)|(k & _ & [(X & _)|(v & _ & _ & [(e & X & _)|(_ & _ & X)])])]);
      [congruence|discriminate|discriminate|exact X]. }
  apply cfl_fin in C. apply xfin_inv in C. destruct C as (d & ->). rewrite Hm, X_ltb in L.
  assert (Hd : dmin <= d) by (destruct (Rlt_dec d dmin); [discriminate|lra]).
  destruct (cap_R (ts_set_dt (Fin d : nF XRn) (s_ts s)) d t tn eq_refl Ht Hn Hr ltac:(lra)) as (d' & D1 & D2 & D3 & D4 & D5 & D6).
  { cbn [ts_dt_max ts_set_dt]. destruct (ts_dt_max (s_ts s)); cbn [xlt xle] in *; auto; lra. }
  { left. exact Hp. }
  cbn [ts_dt_max ts_set_dt] in *. exists d'. rewrite D, D1 in T |- *. rewrite Ht, X_add in T.
  repeat match goal with |- _ /\ _ => split end; auto.
  intros Hlt. destruct D6 as [->|[->|D6]]; [left; ring|lra|right; exact D6].
Qed.
Print Assumptions C29_step_size.

(** If the CFL step falls below dt_min the call fails, in every arithmetic. *)
Theorem C29_dt_min_error : forall A (N : numflux_impl A) validation fuel p S m (s : sim A N) dt,
  st_calc_dt_cfl p S (s_u s) (ts_cfl (s_ts s)) m = Ok dt -> nltb A dt (ts_dt_min (s_ts s)) = true ->
  snd (solver_next validation fuel p S m s) = Err EDtMin.
Proof. exact next_dt_min. Qed.
Print Assumptions C29_dt_min_error.

Lemma fwd_b64 : forall t d : b64, is_finite t = true -> is_finite d = true -> 0 <= B2R d -> xle (b2x t) (b2x (b_add t d)).
Proof.
  intros t d Ft Fd Hd. apply Bleb_xle. apply PhysicsProofs.b_add_ge; try assumption.
  rewrite (Bleb_correct 53 1024) by (try assumption; reflexivity). apply Rle_bool_true. exact Hd.
Qed.

Lemma gap_b64 : forall t tn : b64, is_finite t = true -> is_finite tn = true -> 0 <= B2R t <= B2R tn ->
  is_finite (b_sub tn t) = true /\ 0 <= B2R (b_sub tn t).
Proof.
  intros t tn Ft Fn H. assert (B : 0 <= rnd (B2R tn - B2R t) <= B2R tn).
  { split; [rewrite <- rnd_0 at 1|rewrite <- (rnd_id tn) at 2]; apply rnd_le; lra. }
  pose proof (Bminus_correct 53 1024 Hp64 He64 mode_NE tn t Fn Ft) as C. rewrite Rlt_bool_true in C.
  - destruct C as (C1 & C2 & _). unfold b_sub. rewrite C1. split; [exact C2|apply B].
  - rewrite Rabs_pos_eq by apply B. apply Rle_lt_trans with (1 := proj2 B). apply Rle_lt_trans with (1 := Rle_abs _). apply abs_B2R_lt_emax.
Qed.

(** The same in binary64: time does not run backwards, and unless it is shortened to the next output time, a
    step ends at most there, rounding included; shortened, its size is the
    rounded difference. *)
Theorem C29_step_size_b64 : forall bln bexp, let A := B64n bln bexp in
  forall (N : numflux_impl A) validation fuel p S m (s s' : sim A N),
  bt_asc (rk_bt (s_rk s)) = false ->
  is_finite (ts_t (s_ts s)) = true -> is_finite (ts_t_next (s_ts s)) = true ->
  0 <= B2R (ts_t (s_ts s)) <= B2R (ts_t_next (s_ts s)) -> 0 < B2R (ts_t_next (s_ts s)) ->
  xlt (Fin 0) (b2x (ts_dt_min (s_ts s))) -> xlt (Fin 0) (b2x (ts_dt_max (s_ts s))) ->
  solver_next validation fuel p S m s = (s', Ok tt) ->
  let t' : b64 := ts_t (s_ts s') in
  xle (b2x (ts_t (s_ts s))) (b2x t') /\
  ((is_finite t' = true /\ B2R t' <= B2R (ts_t_next (s_ts s)) /\ 0 < B2R (ts_dt (s_ts s'))) \/
  (ts_dt (s_ts s') = b_sub (ts_t_next (s_ts s)) (ts_t (s_ts s)) /\ t' = b_add (ts_t (s_ts s)) (ts_dt (s_ts s')) /\
   (B2R (ts_t (s_ts s)) = 0 \/ B2R (ts_t_next (s_ts s)) <= 2 * B2R (ts_t (s_ts s)) -> b2x t' = b2x (ts_t_next (s_ts s))))).
Proof.
  intros bln bexp A N validation fuel p S m s s' Ha Ft Fn Hr Hp Hmin Hmax E t'.
  unfold solver_next in E. destruct (rkf_next validation fuel p S m s) as [s1 o1] eqn:E1.
  assert (Q : s' = s1 /\ o1 = Ok tt).
  { destruct o1 as [[]|e| |]; try discriminate.
    destruct (ts_iter_max (s_ts s1) <=? ts_iter (s_ts s1))%N; [discriminate|]. apply (f_equal fst) in E; cbn [fst] in E; auto. }
  destruct Q as (-> & ->).
  destruct (next_dt _ _ _ _ _ _ _ _ _ Ha E1) as (dt & C & L & D).
  assert (T : ts_t (s_ts s1) = nadd A (ts_t (s_ts s)) (ts_dt (s_ts s1))).
  { destruct (rkf_next_cases _ _ _ _ _ _ _ _ _ _ E1) as (_ & _ & _ & _ & [(X & _)|(k & _ & [(X & _)|(v & _ & _ & [(e & X & _)|(_ & _ & X)])])]);
      [congruence|discriminate|discriminate|exact X]. }
  apply cfl_fin in C. pose proof (dt_pos_b64 dt _ C Hmin L) as P. destruct (b_min_pos dt _ C P Hmax) as (Fm & Pm).
  set (d := b_min dt (ts_dt_max (s_ts s))) in *.
  assert (D' : ts_dt (s_ts s1) = if Bltb (b_ofZ 1) (b_div (b_add d (ts_t (s_ts s))) (ts_t_next (s_ts s))) then b_sub (ts_t_next (s_ts s)) (ts_t (s_ts s)) else d).
  { rewrite D. unfold cap_dt. cbn [ts_dt ts_dt_max ts_t ts_t_next ts_set_dt].
    change (nadd A) with b_add. change (nmin A) with b_min. fold d. change (n1 A) with (b_ofZ 1). change (ndiv A) with b_div. change (nsub A) with b_sub. change (nltb A) with (@Bltb 53 1024).
    destruct (Bltb (b_ofZ 1) (b_div (b_add d (ts_t (s_ts s))) (ts_t_next (s_ts s)))); reflexivity. }
  unfold t'. destruct (Bltb (b_ofZ 1) (b_div (b_add d (ts_t (s_ts s))) (ts_t_next (s_ts s)))) eqn:L2.
  - split; [rewrite T, D'; destruct (gap_b64 _ _ Ft Fn Hr); apply fwd_b64; assumption|]. right. split; [exact D'|]. split; [exact T|]. intros Hc. rewrite T, D'. apply land_exact; assumption.
  - split; [rewrite T, D'; apply fwd_b64; [exact Ft|exact Fm|lra]|]. left. destruct (cap_b64 d (ts_t (s_ts s)) (ts_t_next (s_ts s)) Fm Ft Fn Pm (proj1 Hr) Hp L2) as (F & Le).
    destruct (b_add_ge d (ts_t (s_ts s)) Fm Ft Pm (proj1 Hr) F) as (_ & Ex & F2).
    rewrite T, D'. change (nadd A) with b_add. split; [exact F2|]. split; [|exact Pm]. rewrite <- Ex || rewrite Ex. exact Le.
Qed.
Print Assumptions C29_step_size_b64.

(** A step in the scope of C29: uniform flow, CFL step 0.4 * 0.25 / 3 on an
    8-cell mesh, next output at t = 1. *)
Example C29_example : exists (s s' : sim XRn (Hll XRn)), bt_asc (rk_bt (s_rk s)) = false /\
  ts_t (s_ts s) = Fin 0 /\ ts_t_next (s_ts s) = Fin 1 /\ ts_dt_min (s_ts s) = Fin (1 / 1000000) /\ ts_dt_max (s_ts s) = Fin 1000 /\
  solver_next false 5 Isot 8 (rmesh 8) s = (s', Ok tt).
Proof.
  destruct (rsim_step (Hll XRn) 8 CHll RK2 (4 / 10) (mkHll [] [] [] [] []) 1 2 1 5 ltac:(lia) (hll_total XRn Isot 8 (rmesh 8)) ltac:(lra)) as (v & _ & _ & _ & _ & _ & s' & E & _).
  { rewrite Rabs_pos_eq by lra. cbn. lra. } { lra. }
  eexists _, s'. split; [|split; [|split; [|split; [|split; [|exact E]]]]]; reflexivity.
Qed.

(** C30: on a solver as init_corries returns it, any number of calls of
    next_solution leaves the time at t0, in binary64 (t0 other than minus
    zero) and in exact arithmetic. *)
Theorem C30_no_progress_b64 : forall bln bexp, let A := B64n bln bexp in
  forall (N : numflux_impl A) validation fuel p S m n (c : config A) (s s' : sim A N) o,
  valid_config (A:=B64n bln bexp) b2x c -> Bsign (nc_t0 (cf_numerics c)) = false ->
  s_ts s = ts_new (cf_numerics c) (cf_output_max c) -> rk_bt (s_rk s) = bt_new (nc_time (cf_numerics c)) ->
  rc_asc (nc_time (cf_numerics c)) = false ->
  next_n validation fuel p S m n s = (s', o) -> ts_t (s_ts s') = nc_t0 (cf_numerics c).
Proof.
  intros bln bexp A N validation fuel p S m n c s s' o V Sg Hts Hbt Hasc E.
  assert (Ha : bt_asc (bt_new (nc_time (cf_numerics c))) = false) by (unfold bt_new; destruct (rc_mode (nc_time (cf_numerics c))); cbn [bt_asc]; auto).
  assert (F0 : is_finite (nc_t0 (cf_numerics c)) = true /\ 0 <= B2R (nc_t0 (cf_numerics c))).
  { destruct V as [_ _ _ _ _ V0 V1 _ _ _ _ _ _ _]. exact (fin_nonneg _ _ V0 V1). }
  set (P := fun ts : timestep A => xlt (Fin 0) (b2x (ts_dt_min ts)) /\ xlt (Fin 0) (b2x (ts_dt_max ts)) /\ is_finite (ts_t ts) = true /\ 0 <= B2R (ts_t ts) /\ Bsign (ts_t ts) = false /\ ts_t_next ts = ts_t ts).
  assert (HP : P (s_ts s)).
  { rewrite Hts. unfold P, ts_new; cbn [ts_dt_min ts_dt_max ts_t ts_t_next]. destruct V as [_ _ _ _ _ V0 V1 V2 V3 _ _ _ _ _], F0 as (F1 & F2). auto 8. }
  rewrite (stuck_n A N validation fuel p S m P (bt_new (nc_time (cf_numerics c)))) with (5 := E); [rewrite Hts; reflexivity| | |exact Hbt|exact HP].
  - intros s0 s1 o1 Hb (P1 & P2 & P3 & P4 & P5 & P6) E1. exact (fresh_step bln bexp N validation fuel p S m s0 s1 o1 (eq_trans (f_equal (bt_asc (A:=A)) Hb) Ha) P1 P2 P3 P4 P5 P6 E1).
  - intros t t' (P1 & P2 & P3 & P4 & P5 & P6) H1 H2 H3 H4. unfold P. rewrite H1, H2, H3, H4. auto 8.
Qed.
Print Assumptions C30_no_progress_b64.

Theorem C30_no_progress : forall (N : numflux_impl XRn) validation fuel p S m n (c : config XRn) (s s' : sim XRn N) o,
  valid_config (A:=XRn) (fun x => x) c ->
  s_ts s = ts_new (cf_numerics c) (cf_output_max c) -> rk_bt (s_rk s) = bt_new (nc_time (cf_numerics c)) ->
  rc_asc (nc_time (cf_numerics c)) = false ->
  next_n validation fuel p S m n s = (s', o) -> ts_t (s_ts s') = nc_t0 (cf_numerics c).
Proof.
  intros N validation fuel p S m n c s s' o V Hts Hbt Hasc E.
  assert (Ha : bt_asc (bt_new (nc_time (cf_numerics c))) = false) by (unfold bt_new; destruct (rc_mode (nc_time (cf_numerics c))); cbn [bt_asc]; auto).
  assert (F0 : exists t, nc_t0 (cf_numerics c) = Fin t /\ 0 <= t).
  { destruct V as [_ _ _ _ _ V0 V1 _ _ _ _ _ _ _]. destruct (nc_t0 (cf_numerics c)) as [z| | |]; cbn [xle xlt] in *; try contradiction; eauto. }
  set (P := fun ts : timestep XRn => xlt (Fin 0) (ts_dt_min ts) /\ xlt (Fin 0) (ts_dt_max ts) /\ (exists t, ts_t ts = Fin t /\ 0 <= t) /\ ts_t_next ts = ts_t ts).
  assert (HP : P (s_ts s)).
  { rewrite Hts. unfold P, ts_new; cbn [ts_dt_min ts_dt_max ts_t ts_t_next]. destruct V as [_ _ _ _ _ V0 V1 V2 V3 _ _ _ _ _]. auto. }
  rewrite (stuck_n XRn N validation fuel p S m P (bt_new (nc_time (cf_numerics c)))) with (5 := E); [rewrite Hts; reflexivity| | |exact Hbt|exact HP].
  - intros s0 s1 o1 Hb (P1 & P2 & (t & P3 & P4) & P5) E1. exact (fresh_step_R N validation fuel p S m s0 s1 o1 t (eq_trans (f_equal (bt_asc (A:=XRn)) Hb) Ha) P1 P2 P3 P4 P5 E1).
  - intros t t' (P1 & P2 & P3 & P4) H1 H2 H3 H4. unfold P. rewrite H1, H2, H3, H4. auto 8.
Qed.
Print Assumptions C30_no_progress.

(** Such a step succeeds, for instance for a uniform flow. *)
Example C30_example : let c := rcfg CHll RK2 false (4 / 10) in valid_config (A:=XRn) (fun x => x) c /\
  exists s s' : sim XRn (Hll XRn), s_ts s = ts_new (cf_numerics c) (cf_output_max c) /\ rk_bt (s_rk s) = bt_new (nc_time (cf_numerics c)) /\
    next_n false 5 Isot 8 (rmesh 8) 1 s = (s', Ok tt).
Proof.
  intros c. split.
  - split; cbn [c rcfg cf_mesh cf_physics cf_numerics cf_writer mc_xi_in mc_xi_out pc_gamma nc_numflux nc_iter_max nc_t0 nc_t_end nc_dt_min nc_dt_max nc_dt_cfl nc_time rc_rtol rc_atol rc_friction xlt xle];
      try lra; try lia. discriminate. intros o [].
  - destruct (rsim_step (Hll XRn) 8 CHll RK2 (4 / 10) (mkHll [] [] [] [] []) 1 2 0 5 ltac:(lia) (hll_total XRn Isot 8 (rmesh 8)) ltac:(lra)) as (v & _ & _ & _ & _ & _ & s' & E & _).
    { rewrite Rabs_pos_eq by lra. cbn. lra. } { lra. }
    eexists _, s'. split; [|split; [|cbn [next_n]; rewrite E; reflexivity]]; reflexivity.
Qed.

(** C32: the stored tableaus, as exact numbers.  [named_order md] is the order
    of the method the mode is named after, [named_low] that of its embedded
    method, if it has one. *)
Definition named_stages (md : rkf_mode) : nat :=
  match md with RK1 => 1 | RK2 => 2 | RK3 => 3 | RK4 => 4 | Heun2 => 2 | RKF12 => 3 | RKF45 => 6 | SSPRK3 => 3 | SSPRK5 => 5 end.
Definition named_order (md : rkf_mode) : nat :=
  match md with RK1 => 1 | RK2 => 2 | RK3 => 3 | RK4 => 4 | Heun2 => 2 | RKF12 => 2 | RKF45 => 5 | SSPRK3 => 3 | SSPRK5 => 3 end.
Definition named_low (md : rkf_mode) : option nat :=
  match md with RK1 | RK2 | RK4 => None | RK3 => Some 2%nat | Heun2 => Some 1%nat | RKF12 => Some 1%nat | RKF45 => Some 4%nat | SSPRK3 => Some 2%nat | SSPRK5 => Some 4%nat end.

(** [t] stores the exact values [a], [b], [bl], [cn]. *)
Definition stores (t : butcher XRn) (n : nat) (a : list (list Q)) (b bl cn : list Q) : Prop :=
  bt_order t = n /\ bt_a t = map (map (fun x => Fin (Q2R x))) a /\ bt_high t = map (fun x => Fin (Q2R x)) b /\
  bt_low t = map (fun x => Fin (Q2R x)) bl /\ bt_c t = map (fun x => Fin (Q2R x)) cn.

Theorem C32_tableaus : forall (c : rkf_config XRn), rc_mode c <> SSPRK5 ->
  let md := rc_mode c in let n := named_stages md in
  exists a b bl cn, stores (bt_new c) n a b bl cn /\ explicit n a /\ length b = n /\ length bl = n /\ length cn = n /\
    (forall i, (i < n)%nat -> row_sum n a cn i) /\ has_order (named_order md) n a b /\
    match named_low md with Some k => has_order k n a bl | None => forall i, qat bl i = 0%Q end.
Proof.
  intros c Hm md n. exists (bt_a (qtab md)), (bt_high (qtab md)), (bt_low (qtab md)), (bt_c (qtab md)).
  destruct (tab_real c) as (T1 & T2 & T3 & T4 & T5). fold md in T1, T2, T3, T4, T5.
  split. { unfold stores. rewrite T1, T2, T3, T4, T5. repeat split. unfold n. destruct md; reflexivity. }
  clear T1 T2 T3 T4 T5. unfold n. clear n. fold md in Hm.
  split; [apply explicit_check_ok; destruct md; vm_compute; reflexivity|].
  split; [destruct md; reflexivity|]. split; [destruct md; reflexivity|]. split; [destruct md; reflexivity|].
  split; [apply rows_check_ok; destruct md; try congruence; vm_compute; reflexivity|].
  split; [apply order_check_ok; destruct md; try congruence; vm_compute; reflexivity|].
  destruct md; cbn [named_low]; try congruence; try (apply order_check_ok; vm_compute; reflexivity).
  all: intros [|[|[|[|[|i]]]]]; reflexivity.
Qed.
Print Assumptions C32_tableaus.

(** SSPRK5 is rounded to five decimals: third (weights for the solution) and
    fourth order (embedded weights, the better method of the two) hold up to
    10^-5, two nodes differ from the row sums. *)
Theorem C32_ssprk5 : forall (c : rkf_config XRn), rc_mode c = SSPRK5 ->
  exists a b bl cn, stores (bt_new c) 5 a b bl cn /\ explicit 5 a /\
    near_order (1 # 100000) 3 5 a b /\ near_order (1 # 100000) 4 5 a bl /\
    forall i, (i < 5)%nat -> (Qabs (qsum 5 (qat2 a i) - qat cn i) <= 1 # 100000)%Q.
Proof.
  intros c Hm. exists (bt_a (qtab SSPRK5)), (bt_high (qtab SSPRK5)), (bt_low (qtab SSPRK5)), (bt_c (qtab SSPRK5)).
  destruct (tab_real c) as (T1 & T2 & T3 & T4 & T5). rewrite Hm in *.
  split. { unfold stores. rewrite T1, T2, T3, T4, T5. repeat split. }
  split; [apply explicit_check_ok; vm_compute; reflexivity|].
  split; [apply near_check_ok; vm_compute; reflexivity|]. split; [apply near_check_ok; vm_compute; reflexivity|].
  intros i Hi. apply Qle_bool_iff. do 5 (destruct i as [|i]; [vm_compute; reflexivity|]). lia.
Qed.
Print Assumptions C32_ssprk5.

Theorem C32_ssprk5_refuted : forall (c : rkf_config XRn), rc_mode c = SSPRK5 ->
  exists a b bl cn, stores (bt_new c) 5 a b bl cn /\ ~ has_order 1 5 a b /\ ~ near_order (1 # 1000) 4 5 a b /\
    ~ row_sum 5 a cn 3 /\ ~ row_sum 5 a cn 4.
Proof.
  intros c Hm. exists (bt_a (qtab SSPRK5)), (bt_high (qtab SSPRK5)), (bt_low (qtab SSPRK5)), (bt_c (qtab SSPRK5)).
  destruct (tab_real c) as (T1 & T2 & T3 & T4 & T5). rewrite Hm in *.
  split. { unfold stores. rewrite T1, T2, T3, T4, T5. repeat split. }
  split; [intros H; specialize (H (Node []) ltac:(cbn; lia)); vm_compute in H; discriminate|].
  split. { intros H. specialize (H (Node [Node [Node [Node []]]]) ltac:(cbn; lia)).
    rewrite weight_red in H by (try reflexivity; intros r [<-|[<-|[<-|[<-|[<-|[]]]]]]; reflexivity).
    apply Qle_bool_iff in H. vm_compute in H. discriminate. }
  split; intros H; vm_compute in H; discriminate.
Qed.
Print Assumptions C32_ssprk5_refuted.

Example C32_example : has_order 4 4 (bt_a (qtab RK4)) (bt_high (qtab RK4)) /\ ~ has_order 5 4 (bt_a (qtab RK4)) (bt_high (qtab RK4)).
Proof.
  split; [apply order_check_ok; vm_compute; reflexivity|].
  intros H. specialize (H (Node [Node [Node [Node [Node []]]]]) ltac:(cbn; lia)).
  rewrite weight_red in H by (try reflexivity; intros r [<-|[<-|[<-|[<-|[]]]]]; reflexivity). vm_compute in H. discriminate.
Qed.

(** C33: the step size one evaluation with step control proposes.  [e] is the
    error estimate of this evaluation and [eo] that of the previous one; an
    evaluation is accepted if [e < 1]. *)
Theorem C33_proposal_bounds : forall (N : numflux_impl XRn) validation p S d u rk rh m rk' rh' dt' f eo,
  calc_rkf_solution (N:=N) validation p S (Fin d : nF XRn) u rk rh m = (rk', rh', Ok dt') -> rk_accepted rk = false ->
  (0 < bt_order (rk_bt rk))%nat -> 0 < d -> rk_friction rk = Fin f -> 0 < f -> rk_err_old rk = Fin eo -> 0 <= eo ->
  exists d', dt' = Fin d' /\
    match rk_err_new rk' with
    | Fin e => 0 <= e /\ (e < 1 -> 0 <= d' <= 4 * d) /\ (1 <= e -> d / 4 <= d' <= d) /\ (1 <= e -> eo = 0 \/ eo = e -> d' <= 9 / 10 * d)
    | PInf => d' = d / 4
    | _ => False
    end.
Proof. exact asc_bounds. Qed.
Print Assumptions C33_proposal_bounds.

(** An evaluation in the scope of C33. *)
Example C33_example : let rk := rk_set_accepted false (rkf_new Isot 8 (rcfg CHll SSPRK5 true (4 / 10))) in
  exists u (rh : rhs XRn (Hll XRn)) rk' rh' dt',
    calc_rkf_solution false Isot 8 (Fin (1 / 100) : nF XRn) u rk rh (rmesh 8) = (rk', rh', Ok dt') /\
    rk_accepted rk = false /\ (0 < bt_order (rk_bt rk))%nat /\ rk_friction rk = Fin (8 / 100) /\ rk_err_old rk = Fin 0.
Proof.
  intros rk. destruct (rdemo Isot 8 (14 / 10) 1 (fun j _ => match j with 0%nat => 1 | _ => 2 end) (rmesh 8) ltac:(lia)) as (v & _).
  set (rh := mkRhs (zeros2 (A:=XRn) 2 8) (mkHll [] [] [] [] [] : nf_T (Hll XRn)) (init_bc BNoGradients 2) (init_bc BNoGradients 2)).
  destruct (total_calc XRn (Hll XRn) Isot 8 (rmesh 8) (hll_total XRn Isot 8 (rmesh 8)) (Fin (1 / 100) : nF XRn) (one_state v) rk rh eq_refl eq_refl) as (rk' & rh' & x & E & _).
  exists (one_state v), rh, rk', rh', x. split; [exact E|]. split; [reflexivity|]. split; [cbn; lia|]. split; [reflexivity|].
  unfold rk, rkf_new. cbn [rk_err_old rk_set_accepted]. apply X_n0.
Qed.
