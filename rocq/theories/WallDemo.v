(** A concrete closed box in exact arithmetic: a density jump at rest between
    walls.  Nothing here is a model of code. *)

From Coq Require Import Reals ZArith NArith QArith Qreals List Bool Lia Lra.
From Verif Require Import Base Num XReal Config Mesh State NumFlux Time Spec SpecFlow SpecStep SpecTableau SpecEuler SpecWall
  MeshProofs BoundaryProofs PhysicsProofs FluxProofs UpdateProofs FluxReal FluxThms FluxMore StepProofs StepInv StepEq TableauProofs
  TimeProofs TimeMore AscProofs EulerStep RealRun EulerThms LinRun ConsThms WallProofs.
Import ListNotations.
Local Open Scope R_scope.

(** ** Validated fluxes *)
Lemma hll_valid : forall p S md a b g (self : nf_T (Hll XRn)) d u (U : nat -> nat -> R) cs, 
  let m := mesh_build (A:=XRn) S (mkMC (A:=XRn) md (Fin a) (Fin b)) in
  (5 <= S)%nat -> shape (nE p) S (flux (cent u)) ->
  self = mkHll (zeros S) (zeros S) (zeros S) (zeros S) (zeros2 (nE p) S) ->
  (forall i, (i < S)%nat -> 0 < cs i /\ rcell p g (cent u) i (fun j => U j i) (cs i)) ->
  exists n f w, nf_calc (Hll XRn) true p S self d u m = (n, f, w, Ok tt) /\
    f = calc_dflux_generic (nE p) S d (h_flux_num n) m /\ prim (cent w) = prim (cent u) /\
    forall j i, (j < nE p)%nat -> (1 <= i <= S - 3)%nat -> at2 (n0 XRn) (h_flux_num n) j i =
      Fin (rff (rlo (U 1%nat i / U 0%nat i - cs i) (U 1%nat (i+1)%nat / U 0%nat (i+1)%nat - cs (i+1)%nat))
               (rhi (U 1%nat i / U 0%nat i + cs i) (U 1%nat (i+1)%nat / U 0%nat (i+1)%nat + cs (i+1)%nat))
               (euler_flux p g (cs i) (fun j => U j i) j) (euler_flux p g (cs (i+1)%nat) (fun j => U j (i+1)%nat) j) (U j i) (U j (i+1)%nat)).
Proof.
  intros p S md a b g self d u U cs m HS Hf Hs Hr.
  pose proof (std_build XRn S (mkMC (A:=XRn) md (Fin a) (Fin b))) as Hix. fold m in Hix.
  assert (Ord : forall i, (i < S)%nat -> (i + 1 < S)%nat ->
     rlo (U 1%nat i / U 0%nat i - cs i) (U 1%nat (i+1)%nat / U 0%nat (i+1)%nat - cs (i+1)%nat) <
     rhi (U 1%nat i / U 0%nat i + cs i) (U 1%nat (i+1)%nat / U 0%nat (i+1)%nat + cs (i+1)%nat)).
  { intros i Hi Hi1. apply (face_order (fun i => U 1%nat i / U 0%nat i) cs i). apply Hr; exact Hi. }
  assert (Num : forall j i, (j < nE p)%nat -> (1 <= i <= S - 3)%nat -> 
     at2 (n0 XRn) (h_flux_num (fst (fst (fst (hll_calc true p S self d u m))))) j i =
      Fin (rff (rlo (U 1%nat i / U 0%nat i - cs i) (U 1%nat (i+1)%nat / U 0%nat (i+1)%nat - cs (i+1)%nat))
               (rhi (U 1%nat i / U 0%nat i + cs i) (U 1%nat (i+1)%nat / U 0%nat (i+1)%nat + cs (i+1)%nat))
               (euler_flux p g (cs i) (fun j => U j i) j) (euler_flux p g (cs (i+1)%nat) (fun j => U j (i+1)%nat) j) (U j i) (U j (i+1)%nat))).
  { intros j i Hj Hi. rewrite (hll_num XRn true p S self d u m Hix j i Hj) by lia.
    apply (hll_fn_R p S g (cent u) j i (fun j => U j i) (cs i) (fun j => U j (i+1)%nat) (cs (i+1)%nat)); [exact Hj|lia|exact Hf|apply Hr; lia|apply Hr; lia|apply Ord; lia]. }
  assert (Val : hll_validate (fst (fst (fst (hll_calc true p S self d u m)))) = Ok tt).
  { destruct Hix as (I1 & I2).
    set (n := fst (fst (fst (hll_calc true p S self d u m)))) in *.
    assert (Sl : forall i, (i < S)%nat -> at1 (n0 XRn) (h_sl n) i = if (1 <=? i)%nat && (i <=? S - 3)%nat then
       Fin (rlo (U 1%nat i / U 0%nat i - cs i) (U 1%nat (i+1)%nat / U 0%nat (i+1)%nat - cs (i+1)%nat)) else Fin 0).
    { intros i Hi. unfold n, hll_calc. cbn [fst snd h_sl]. rewrite at1_upd_range by exact Hi. rewrite I1, I2. change (2 - 1)%nat with 1%nat.
      destruct ((1 <=? i)%nat && (i <=? S - 3)%nat) eqn:B.
      - apply andb_true_iff in B. destruct B as (B1 & B2). apply Nat.leb_le in B1, B2.
        destruct (Hr i Hi) as (_ & _ & _ & _ & _ & R1 & _). destruct (Hr (i + 1)%nat ltac:(lia)) as (_ & _ & _ & _ & _ & R2 & _).
        unfold eigen_min. cbn [cent set_cent eigen_vals update_flux]. 
        change (at1 (n0 XRn) (nth 0 (eigen_vals (update_flux p S (cent u))) []) i) with (at2 (n0 XRn) (eigen_vals (update_flux p S (cent u))) 0 i).
        change (at1 (n0 XRn) (nth 0 (eigen_vals (update_flux p S (cent u))) []) (i + 1)) with (at2 (n0 XRn) (eigen_vals (update_flux p S (cent u))) 0 (i + 1)).
        replace (eigen_vals (update_flux p S (cent u))) with (eigen_vals (cent u)) by (destruct p; reflexivity).
        rewrite R1, R2. apply lo_h_R.
      - rewrite Hs. cbn [h_sl]. unfold at1, zeros. apply nth_repeat. }
    assert (Sr : forall i, (i < S)%nat -> at1 (n0 XRn) (h_sr n) i = if (1 <=? i)%nat && (i <=? S - 3)%nat then
       Fin (rhi (U 1%nat i / U 0%nat i + cs i) (U 1%nat (i+1)%nat / U 0%nat (i+1)%nat + cs (i+1)%nat)) else Fin 0).
    { intros i Hi. unfold n, hll_calc. cbn [fst snd h_sr]. rewrite at1_upd_range by exact Hi. rewrite I1, I2. change (2 - 1)%nat with 1%nat.
      destruct ((1 <=? i)%nat && (i <=? S - 3)%nat) eqn:B.
      - apply andb_true_iff in B. destruct B as (B1 & B2). apply Nat.leb_le in B1, B2.
        destruct (Hr i Hi) as (_ & _ & _ & _ & _ & _ & R1). destruct (Hr (i + 1)%nat ltac:(lia)) as (_ & _ & _ & _ & _ & _ & R2).
        unfold eigen_max. cbn [cent set_cent].
        change (at1 (n0 XRn) (nth (nE p - 1) (eigen_vals (update_flux p S (cent u))) []) i) with (at2 (n0 XRn) (eigen_vals (update_flux p S (cent u))) (nE p - 1) i).
        change (at1 (n0 XRn) (nth (nE p - 1) (eigen_vals (update_flux p S (cent u))) []) (i + 1)) with (at2 (n0 XRn) (eigen_vals (update_flux p S (cent u))) (nE p - 1) (i + 1)).
        replace (eigen_vals (update_flux p S (cent u))) with (eigen_vals (cent u)) by (destruct p; reflexivity).
        rewrite R1, R2. apply hi_h_R.
      - rewrite Hs. cbn [h_sr]. unfold at1, zeros. apply nth_repeat. }
    assert (In : forall i, (i < S)%nat -> at1 (n0 XRn) (h_inv n) i = if (1 <=? i)%nat && (i <=? S - 3)%nat then
       ndiv XRn (n1 XRn) (nsub XRn (at1 (n0 XRn) (h_sr n) i) (at1 (n0 XRn) (h_sl n) i)) else Fin 0).
    { intros i Hi. unfold n at 1. unfold hll_calc. cbn [fst snd h_inv]. rewrite at1_upd_range by exact Hi. rewrite I1, I2. change (2 - 1)%nat with 1%nat.
      destruct ((1 <=? i)%nat && (i <=? S - 3)%nat) eqn:B.
      - unfold n, hll_calc. cbn [fst snd h_sr h_sl]. rewrite I1, I2. reflexivity.
      - rewrite Hs. cbn [h_inv]. unfold at1, zeros. apply nth_repeat. }
    assert (Ll : forall f v, length (upd_range (n0 XRn) S (m_ixi_in m - 1) (m_ixi_out m) f v) = S) by (intros; apply length_tab).
    unfold hll_validate.
    rewrite (fin_all1 (h_sl n) S); [cbn [ensure bind]|apply Ll|intros i Hi; rewrite Sl by exact Hi; destruct (_ && _); eexists; reflexivity].
    rewrite (fin_all1 (h_sr n) S); [cbn [ensure bind]|apply Ll|intros i Hi; rewrite Sr by exact Hi; destruct (_ && _); eexists; reflexivity].
    rewrite (fin_all1 (h_inv n) S); [cbn [ensure bind]|apply Ll|].
    2:{ intros i Hi. rewrite In, Sl, Sr by exact Hi. destruct ((1 <=? i)%nat && (i <=? S - 3)%nat) eqn:B; [|eexists; reflexivity].
        apply andb_true_iff in B. destruct B as (B1 & B2). apply Nat.leb_le in B1, B2. pose proof (Ord i Hi ltac:(lia)) as O.
        rewrite X_sub, X_n1. rewrite X_div; [eexists; reflexivity|]. lra. }
    rewrite (fin_all2 (h_flux_num n) (nE p) S); [reflexivity|apply FluxProofs.shape_upd_range2|].
    intros j i Hj Hi. destruct (Nat.le_gt_cases 1 i) as [B1|B1]; [destruct (Nat.le_gt_cases i (S - 3)) as [B2|B2]|].
    - rewrite (Num j i Hj ltac:(lia)). eauto.
    - exists 0. unfold n, hll_calc. cbn [fst snd h_flux_num]. rewrite at2_upd_range2 by assumption. rewrite I1, I2.
      replace (i <=? S - 3)%nat with false by (symmetry; apply Nat.leb_gt; exact B2). rewrite andb_false_r, Hs. cbn [h_flux_num]. apply (zero_at XRn); assumption.
    - exists 0. unfold n, hll_calc. cbn [fst snd h_flux_num]. rewrite at2_upd_range2 by assumption. rewrite I1, I2. change (2 - 1)%nat with 1%nat.
      replace (1 <=? i)%nat with false by (symmetry; apply Nat.leb_gt; exact B1). rewrite andb_false_l, Hs. cbn [h_flux_num]. apply (zero_at XRn); assumption. }
  destruct (hll_calc true p S self d u m) as [[[n f] w] o] eqn:E. cbn [fst] in Num, Val.
  exists n, f, w.
  assert (Eo : o = hll_validate n /\ f = calc_dflux_generic (nE p) S d (h_flux_num n) m /\ prim (cent w) = prim (cent u)).
  { unfold hll_calc in E. apply pair_equal_spec in E. destruct E as (E & E2). apply pair_equal_spec in E. destruct E as (E & E3).
    apply pair_equal_spec in E. destruct E as (E & E4). rewrite <- E3, <- E4, <- E2, <- E. split; [reflexivity|]. split; [reflexivity|].
    destruct p; reflexivity. }
  destruct Eo as (E1 & E2 & E3). rewrite Val in E1. split; [cbn [nf_calc Hll]; rewrite E, E1; reflexivity|]. split; [exact E2|]. split; [exact E3|exact Num].
Qed.

(** ** One step of the one-stage mode *)
Lemma rk1_makes : forall (N : numflux_impl XRn) p S (m : mesh XRn) fuel (s : sim XRn N) c h w dt u2,
  rk_bt (s_rk s) = bt_new c -> rc_mode c = RK1 -> rk_accepted (s_rk s) = true -> all_fin2 (rk_low (s_rk s)) = true ->
  st_calc_dt_cfl p S (s_u s) (ts_cfl (s_ts s)) m = Ok dt -> nltb XRn dt (ts_dt_min (s_ts s)) = false ->
  rhs_update true p S (s_rhs s) (stage_state XRn (cons (cent (s_u s))) (rk_utilde (s_rk s)) (s_u s)) m = (h, w, Ok tt) ->
  let ts := cap_dt (ts_set_kind KCfl (ts_set_dt dt (ts_set_iter (ts_iter (s_ts s) + 1)%N (s_ts s)))) in
  let high := sub_scaled (nE p) S (nmul XRn (ts_dt ts) (n1 XRn)) (r_full h) (cons (cent (s_u s))) in
  all_fin2 (prim (cent w)) = true -> all_fin2 high = true ->
  st_update_from_cons p S (r_bw h) (r_be h) m (set_cent (set_cons high (cent (s_u s))) (s_u s)) = Ok u2 ->
  state_validate u2 = Ok tt ->
  exists k, rkf_next true fuel p S m s = (mkSim (ts_set_t (nadd XRn (ts_t ts) (ts_dt ts)) ts) u2 k h, Ok tt).
Proof.
  intros N p S m fuel s c h w dt u2 Hb Hc Ha Hl Hd Hm R ts high Fp Fh E Fv.
  assert (Hasc : bt_asc (rk_bt (s_rk s)) = false) by (rewrite Hb; unfold bt_new; rewrite Hc; reflexivity).
  assert (Ho : bt_order (rk_bt (s_rk s)) = 1%nat) by (rewrite Hb; unfold bt_new; rewrite Hc; reflexivity).
  assert (Hh : bt_high (rk_bt (s_rk s)) = [n1 XRn]) by (rewrite Hb; unfold bt_new; rewrite Hc; reflexivity).
  unfold rkf_next, calc_dt_expl. cbn [ts_cfl ts_set_iter]. rewrite Hd. cbn [ts_dt_min ts_set_dt ts_set_iter]. rewrite Hm.
  match goal with |- context [cap_dt ?x] => change (cap_dt x) with ts end.
  unfold rkf_asc. rewrite Hasc.
  unfold calc_rkf_solution. rewrite Ho. cbn [seq rkf_stages]. cbn [cent state_assign].
  cbn [cons vars_assign set_c_sound set_cons set_prim seq fold_left rk_utilde rk_set_k].
  match goal with |- context [rhs_update true p S (s_rhs s) ?a m] => change a with (stage_state XRn (cons (cent (s_u s))) (rk_utilde (s_rk s)) (s_u s)) end.
  rewrite R. cbn [rk_accepted rk_set_k rk_set_utilde rk_bt rk_k rk_utilde rk_low]. rewrite Ha.
  unfold rkf_validate. cbn [rk_low rk_utilde rk_set_utilde rk_set_k]. rewrite Hl. cbn [ensure bind].
  rewrite Hh. unfold rkf_combine. cbn [seq fold_left repeat upd nth].
  change (at1 (n0 XRn) [n1 XRn] 0) with (n1 XRn).
  match goal with |- context [sub_scaled (nE p) S ?a ?k ?x] => change (sub_scaled (nE p) S a k x) with high end.
  unfold state_validate at 1, vars_validate. cbn [cent set_cent prim cons set_cons]. rewrite Fp, Fh. cbn [ensure bind].
  cbn [s_rk s_u rk_utilde rk_set_utilde rk_set_k cent cons set_cent set_cons]. rewrite E, Fv. eexists. reflexivity.
Qed.

(** ** The box: two cells of width 1 between 3 and 5 and two ghost cells on
    either side; density 2 in the western and 1 in the eastern cell, at rest,
    sound speed 1.  Courant number 1/2 and one step until the end. *)
Definition box_cfg : config XRn :=
  mkCfg false (mkMC (A:=XRn) Cartesian (Fin 3) (Fin 5)) (mkPC (A:=XRn) (Fin (14 / 10)) SI) (walls Isot) (walls Isot)
    (mkNC (A:=XRn) CHll (mkRC (A:=XRn) RK1 false (Fin (1 / 1000)) (Fin (1 / 1000)) (Fin (8 / 100))) 100%N (Fin 0) (Fin (1 / 2))
       (Fin (1 / 1000000)) (Fin 1000) (Fin (1 / 2)))
    1%N [].
Definition box_mesh : mesh XRn := mesh_build (A:=XRn) 6 (mkMC (A:=XRn) Cartesian (Fin 3) (Fin 5)).
Definition box_q (j i : nat) : R := match j with 0%nat => if (i <? 3)%nat then 2 else 1 | _ => 0 end.
Definition box_hll : nf_T (Hll XRn) := mkHll (zeros 6) (zeros 6) (zeros 6) (zeros 6) (zeros2 2 6).
Definition box_rhs : rhs XRn (Hll XRn) := mkRhs (zeros2 2 6) box_hll (wall_list Isot) (wall_list Isot).

Lemma wall_update : forall m (v : vars XRn), exists v', update_vars_from_prim Isot 6 (wall_list Isot) (wall_list Isot) m v = Ok v'.
Proof.
  intros m v. unfold update_vars_from_prim, bc_apply, wall_list, walls, init_bc. cbn [app nE apply_modes Nat.ltb Nat.leb bind]. eauto.
Qed.

(** Between walls the ghost cells hold values of the inner cells. *)
Lemma wall_ghosts : forall m (v : vars XRn) (q : nat -> nat -> R), wsv XRn Isot 6 v ->
  consistent Isot 6 (wall_list Isot) (wall_list Isot) m v ->
  (forall j i, (j < 2)%nat -> (2 <= i <= 3)%nat -> at2 (n0 XRn) (prim v) j i = Fin (q j i)) ->
  forall j i, (j < 2)%nat -> (i < 6)%nat -> at2 (n0 XRn) (prim v) j i =
    Fin (match j with
         | 0%nat => if (i <? 3)%nat then q 0%nat 2%nat else q 0%nat 3%nat
         | _ => match i with 0%nat => -1 * q 1%nat 3%nat | 1%nat => -1 * q 1%nat 2%nat | 2%nat => q 1%nat 2%nat | 3%nat => q 1%nat 3%nat
                | 4%nat => -1 * q 1%nat 3%nat | _ => -1 * q 1%nat 2%nat end end).
Proof.
  intros m v q W C H.
  assert (Fx : forall sd, apply_modes sd (nE Isot) 6 m (wall_list Isot) (prim v) = Ok (prim v)).
  { intros sd. assert (B : bc_apply sd Isot 6 m (wall_list Isot) v = Ok v) by (destruct sd; apply C). unfold bc_apply in B.
    apply bind_Ok in B. destruct B as (q' & B & Bv). rewrite B. f_equal. apply Ok_inj in Bv. apply (f_equal (@prim XRn)) in Bv. exact Bv. }
  assert (G : forall sd k, (k = 1 \/ k = 2)%nat -> 
     at2 (n0 XRn) (prim v) 0 (ghost_cell sd 6 k) = at2 (n0 XRn) (prim v) 0 (inner_cell sd 6 0) /\
     at2 (n0 XRn) (prim v) 1 (ghost_cell sd 6 k) = nmul XRn (Fin (-1) : XR) (at2 (n0 XRn) (prim v) 1 (inner_cell sd 6 (k - 1)))).
  { intros sd k Hk. destruct (walls_side Isot sd 6 m (prim v) (prim v) k ltac:(lia) Hk ltac:(apply W) (Fx sd)) as (G1 & G2 & _). auto. }
  destruct (G West 1%nat (or_introl eq_refl)) as (A1 & A2). destruct (G West 2%nat (or_intror eq_refl)) as (B1 & B2).
  destruct (G East 1%nat (or_introl eq_refl)) as (C1 & C2). destruct (G East 2%nat (or_intror eq_refl)) as (D1 & D2).
  cbn [ghost_cell inner_cell Nat.sub Nat.add] in *.
  intros j i Hj Hi. destruct j as [|[|j]]; [| |lia].
  - do 6 (destruct i as [|i]; [cbn [Nat.ltb Nat.leb]; first [rewrite A1|rewrite B1|rewrite C1|rewrite D1|idtac]; apply (H 0%nat); lia|]). lia.
  - do 6 (destruct i as [|i]; [cbn [Nat.ltb Nat.leb]; first [rewrite A2|rewrite B2|rewrite C2|rewrite D2|idtac]; rewrite (H 1%nat) by lia; reflexivity|]). lia.
Qed.

Lemma box_vars : exists v, update_vars_from_prim Isot 6 (wall_list Isot) (wall_list Isot) box_mesh (rvars Isot 6 (14 / 10) 1 box_q) = Ok v /\
  consistent Isot 6 (wall_list Isot) (wall_list Isot) box_mesh v /\ wsv XRn Isot 6 v /\ gamma v = Fin (14 / 10) /\
  (forall j i, (j < 2)%nat -> (i < 6)%nat -> at2 (n0 XRn) (prim v) j i = Fin (box_q j i)) /\
  (forall i, (i < 6)%nat -> at1 (n0 XRn) (c_sound v) i = Fin 1).
Proof.
  pose proof (rvars_wsv Isot 6 (14 / 10) 1 box_q) as W.
  destruct (wall_update box_mesh (rvars Isot 6 (14 / 10) 1 box_q)) as (v & E). exists v.
  destruct (update_from_prim_view XRn Isot 6 _ _ box_mesh _ v ltac:(lia) W E) as (W' & G & _ & Ci & Pi & _).
  pose proof (prim_consistent XRn Isot 6 _ _ box_mesh _ _ ltac:(lia) W E) as C.
  split; [exact E|]. split; [exact C|]. split; [exact W'|]. split; [exact G|]. split.
  - intros j i Hj Hi. rewrite (wall_ghosts box_mesh v box_q W' C) by (try assumption; intros j' i' Hj' Hi'; rewrite Pi by (unfold interior; lia); cbn [prim rvars]; rewrite at2_mtab by (cbn; lia); reflexivity).
    f_equal. unfold box_q. destruct j as [|[|j]]; [| |lia]; do 6 (destruct i as [|i]; [cbn; lra|]); lia.
  - intros i Hi. rewrite (Ci eq_refl). cbn [c_sound rvars]. unfold at1. rewrite nth_indep with (d' := Fin 1 : nF XRn) by (rewrite repeat_length; exact Hi). apply nth_repeat.
Qed.

Lemma box_step : forall v (u : state XRn) (ts : timestep XRn) fuel, cent u = v -> wss Isot 6 u ->
  consistent Isot 6 (wall_list Isot) (wall_list Isot) box_mesh v -> gamma v = Fin (14 / 10) ->
  (forall j i, (j < 2)%nat -> (i < 6)%nat -> at2 (n0 XRn) (prim v) j i = Fin (box_q j i)) ->
  (forall i, (i < 6)%nat -> at1 (n0 XRn) (c_sound v) i = Fin 1) ->
  ts_t ts = Fin 0 -> ts_t_next ts = Fin (1 / 2) -> ts_cfl ts = Fin (1 / 2) -> ts_dt_min ts = Fin (1 / 1000000) -> ts_dt_max ts = Fin 1000 ->
  (ts_iter ts + 1 < ts_iter_max ts)%N ->
  let s := mkSim ts u (rkf_new Isot 6 box_cfg) box_rhs in
  exists s' e, solver_next true fuel Isot 6 box_mesh s = (s', Ok tt) /\ ts_t (s_ts s') = Fin (1 / 2) /\ ts_dt (s_ts s') = Fin (1 / 2) /\
    ts_t_next (s_ts s') = Fin (1 / 2) /\ ts_t_end (s_ts s') = ts_t_end ts /\ ts_dt_min (s_ts s') = Fin (1 / 1000000) /\ ts_dt_output (s_ts s') = ts_dt_output ts /\
    0 < e < 1 / 2 /\
    at2 (n0 XRn) (cons (cent (s_u s'))) 0 2 = Fin (2 - e) /\ at2 (n0 XRn) (cons (cent (s_u s'))) 0 3 = Fin (1 + e).
Proof.
  intros v u ts fuel Eu Wu C G P Q T0 Tn Tc Tm TM Ti s. subst v.
  set (v := cent u) in *. assert (W : wsv XRn Isot 6 v) by apply Wu.
  destruct (real_cells Isot 6 _ _ box_mesh v (14 / 10) box_q (fun _ => 1) ltac:(lia) W C G ltac:(discriminate) P) as (Hc & v' & Ev & W' & Hr).
  { intros i Hi. split; [unfold box_q; destruct (i <? 3)%nat; lra|apply Q; exact Hi]. }
  (* the step size *)
  assert (Hcfl : st_calc_dt_cfl Isot 6 (s_u s) (ts_cfl (s_ts s)) box_mesh = Ok (Fin (1 / 2) : nF XRn)).
  { pose proof (cfl_mesh Isot 6 Cartesian 3 5 (1 / 2) u _ _ (fun _ => 0) (fun _ => 1) ltac:(lia) ltac:(lra) ltac:(lra) C ltac:(apply W)) as K.
    specialize (K ltac:(intros i Hi; split; [apply (P 1%nat i); lia|apply Q; exact Hi])). fold box_mesh in K. cbn [s_u s_ts s]. rewrite Tc.
    destruct (st_calc_dt_cfl Isot 6 u (Fin (1 / 2) : nF XRn) box_mesh) as [x|e| |]; try contradiction.
    - destruct x as [dt| | |]; try contradiction. destruct K as (_ & _ & i & _ & K3). unfold hx in K3. cbn [INR Nat.sub] in K3.
      rewrite Rabs_right in K3 by lra. do 2 f_equal. lra.
    - destruct e; try contradiction. exfalso. pose proof (K 0%nat ltac:(lia)). lra. }
  (* the right-hand side *)
  set (st := stage_state XRn (cons (cent (s_u s))) (rk_utilde (s_rk s)) (s_u s)).
  assert (Wn : wss Isot 6 (rk_utilde (s_rk s))) by (split; [|split]; apply (wsv_new XRn Isot 6)).
  assert (SV : same_vars Isot 6 (cent st) v).
  { split; [|split; [exact W|]].
    - unfold st, stage_state. cbn [cent set_cent state_assign]. apply wsv_set_cons; [|apply W]. apply wsv_assign; [apply Wn|exact W].
    - unfold st, stage_state. cbn [cent set_cent state_assign set_cons vars_assign set_prim set_c_sound prim cons c_sound gamma s_u s_rk s rkf_new rk_utilde].
      rewrite G. repeat split. }
  pose proof (same_update XRn Isot 6 (wall_list Isot) (wall_list Isot) box_mesh _ _ ltac:(lia) SV) as SU. rewrite Ev in SU.
  destruct (update_vars_from_cons Isot 6 (wall_list Isot) (wall_list Isot) box_mesh (cent st)) as [v1| | |] eqn:E1; try contradiction.
  destruct SU as ((W1 & _ & Sp & Sc & Ss & _) & Se & _).
  assert (Hr1 : forall i, (i < 6)%nat -> 0 < 1 /\ rcell Isot (14 / 10) v1 i (fun j => conserved Isot (14 / 10) (fun k => box_q k i) j) 1).
  { intros i Hi. split; [lra|]. unfold rcell. rewrite Sp, Sc, Ss, Se. apply (Hr i Hi). }
  destruct (hll_valid Isot 6 Cartesian 3 5 (14 / 10) box_hll (zeros2 2 6) (set_cent v1 st) (fun j i => conserved Isot (14 / 10) (fun k => box_q k i) j) (fun _ => 1))
    as (n & f & w & En & Ef & Pw & Hn); [lia|apply W1|reflexivity|exact Hr1|]. fold box_mesh in En, Ef.
  assert (R : rhs_update true Isot 6 (s_rhs s) st box_mesh = (mkRhs f n (wall_list Isot) (wall_list Isot), w, Ok tt)).
  { unfold rhs_update, st_update_from_cons. cbn [s_rhs s box_rhs r_bw r_be r_nf r_full]. rewrite E1. cbn [bind]. rewrite En. reflexivity. }
  (* the fluxes *)
  assert (Lo : rlo (0 - 1) (0 - 1) = -1) by (unfold rlo, Rmin; repeat destruct (Rle_dec _ _); lra).
  assert (Hi' : rhi (0 + 1) (0 + 1) = 1) by (unfold rhi, Rmax; repeat destruct (Rle_dec _ _); lra).
  assert (Fn : forall j i, (j < 2)%nat -> (1 <= i <= 3)%nat -> at2 (n0 XRn) (h_flux_num n) j i =
     Fin (match j with 0%nat => if (i =? 2)%nat then 1 / 2 else 0 | _ => (box_q 0 i + box_q 0 (i + 1)) / 2 end)).
  { intros j i Hj Hi. rewrite (Hn j i Hj Hi).
    assert (Z : forall i, conserved Isot (14 / 10) (fun k => box_q k i) 1 / conserved Isot (14 / 10) (fun k => box_q k i) 0 = 0) by (intros k; cbn; unfold box_q; destruct (k <? 3)%nat; lra).
    rewrite !Z, Lo, Hi'. f_equal. unfold rff, euler_flux. destruct j as [|[|j]]; [| |lia]; cbn [conserved].
    - assert (Hcs : (i = 1 \/ i = 2 \/ i = 3)%nat) by lia. destruct Hcs as [->|[->| ->]]; unfold box_q; cbn; lra.
    - assert (Hcs : (i = 1 \/ i = 2 \/ i = 3)%nat) by lia. destruct Hcs as [->|[->| ->]]; unfold box_q; cbn; lra. }
  set (D := / (powerRZ 2 (-52) + 1)).
  assert (HD : 0 < D < 1).
  { pose proof (eps_pos). unfold D. split; [apply Rinv_0_lt_compat; lra|]. rewrite <- Rinv_1 at 2. apply Rinv_lt_contravar; lra. }
  assert (Full : forall j i, (j < 2)%nat -> (i < 6)%nat -> exists r, at2 (n0 XRn) f j i = Fin r /\
     ((j = 0%nat -> i = 2%nat -> r = D * (1 / 2)) /\ (j = 0%nat -> i = 3%nat -> r = - (D * (1 / 2))))).
  { intros j i Hj Hi. rewrite Ef. unfold calc_dflux_generic. rewrite at2_upd_range2 by assumption.
    change (m_ixi_in box_mesh) with 2%nat. change (m_ixi_out box_mesh) with 3%nat.
    destruct ((2 <=? i)%nat && (i <=? 3)%nat) eqn:B.
    - apply andb_true_iff in B. destruct B as (B1 & B2). apply Nat.leb_le in B1, B2.
      unfold box_mesh. rewrite (mesh_dddv_R 6 3 5 Cartesian ltac:(lia) ltac:(lra) i Hi). fold box_mesh.
      rewrite (Fn j i Hj ltac:(lia)), (Fn j (i - 1)%nat Hj ltac:(lia)), X_sub, X_mul. eexists. split; [reflexivity|].
      assert (Ex : powerRZ 2 (-52) + hx 6 3 5 = powerRZ 2 (-52) + 1) by (unfold hx; cbn [INR Nat.sub]; lra). rewrite Ex. fold D.
      split; intros -> ->; cbn [Nat.eqb Nat.sub]; lra.
    - exists 0. split; [apply (zero_at XRn); assumption|]. split; intros -> ->; discriminate B. }
  (* the new state *)
  set (ts2 := cap_dt (ts_set_kind KCfl (ts_set_dt (Fin (1 / 2) : nF XRn) (ts_set_iter (ts_iter (s_ts s) + 1)%N (s_ts s))))).
  assert (Ets2 : ts2 = ts_set_dt (Fin (1 / 2) : nF XRn) (ts_set_kind KCfl (ts_set_iter (ts_iter ts + 1)%N ts))).
  { unfold ts2, cap_dt. cbn [s_ts s ts_dt ts_dt_max ts_set_dt ts_set_kind ts_set_iter ts_t ts_t_next]. rewrite TM, T0, Tn.
    rewrite X_min. rewrite Rmin_left by lra. rewrite X_add, X_div, X_n1, X_ltb by lra. destruct (Rlt_dec _ _) as [L|L]; [exfalso; lra|]. reflexivity. }
  assert (Dt : ts_dt ts2 = Fin (1 / 2)) by (rewrite Ets2; reflexivity).
  set (high := sub_scaled (nE Isot) 6 (nmul XRn (ts_dt ts2) (n1 XRn)) f (cons (cent (s_u s)))).
  assert (Hh : forall j i, (j < 2)%nat -> (i < 6)%nat -> exists r, at2 (n0 XRn) high j i = Fin r /\
     (j = 0%nat -> i = 2%nat -> r = 2 - D / 4) /\ (j = 0%nat -> i = 3%nat -> r = 1 + D / 4)).
  { intros j i Hj Hi. unfold high, sub_scaled. rewrite at2_mtab by assumption. rewrite Dt. cbn [s_u s]. fold v. rewrite (Hc i j Hi Hj).
    destruct (Full j i Hj Hi) as (r & -> & R1 & R2). rewrite X_n1, !X_mul, X_sub. eexists. split; [reflexivity|].
    split; intros -> ->; [rewrite R1 by reflexivity|rewrite R2 by reflexivity]; cbn; lra. }
  set (vh := set_cons high v). assert (Wh : wsv XRn Isot 6 vh) by (apply wsv_set_cons; [exact W|apply shape_mtab]).
  destruct (wall_update box_mesh (update_prim Isot 6 vh)) as (v2 & E2).
  assert (Wp : wsv XRn Isot 6 (update_prim Isot 6 vh)) by (apply wsv_update_prim; exact Wh).
  change (update_vars_from_cons Isot 6 (wall_list Isot) (wall_list Isot) box_mesh vh = Ok v2) in E2.
  destruct (update_from_cons_view XRn Isot 6 _ _ box_mesh vh v2 ltac:(lia) Wh E2) as (W2 & G2 & _ & _ & P2 & C2).
  pose proof (cons_consistent XRn Isot 6 _ _ box_mesh vh v2 ltac:(lia) Wh E2) as Co2.
  assert (In2 : forall i, (2 <= i <= 3)%nat -> exists r0 r1, at2 (n0 XRn) (prim v2) 0 i = Fin r0 /\ at2 (n0 XRn) (prim v2) 1 i = Fin r1 /\
     (i = 2%nat -> r0 = 2 - D / 4) /\ (i = 3%nat -> r0 = 1 + D / 4)).
  { intros i Hi. destruct (Hh 0%nat i ltac:(lia) ltac:(lia)) as (r0 & E0 & R1 & R2). destruct (Hh 1%nat i ltac:(lia) ltac:(lia)) as (r1 & E3 & _).
    assert (N0 : r0 <> 0) by (assert (Hcs : (i = 2 \/ i = 3)%nat) by lia; destruct Hcs as [Hcs|Hcs]; [rewrite R1 by auto|rewrite R2 by auto]; lra).
    rewrite (P2 0%nat i ltac:(cbn; lia) ltac:(unfold interior; lia)), (P2 1%nat i ltac:(cbn; lia) ltac:(unfold interior; lia)).
    cbn [c2p vh set_cons cons]. rewrite E0, E3. exists r0. eexists. split; [reflexivity|]. split; [apply X_div; exact N0|]. split; intros; [apply R1|apply R2]; auto. }
  destruct (In2 2%nat ltac:(lia)) as (x0 & x1 & X0 & X1 & Xe & _). destruct (In2 3%nat ltac:(lia)) as (y0 & y1 & Y0 & Y1 & _ & Ye).
  specialize (Xe eq_refl). specialize (Ye eq_refl).
  pose proof (wall_ghosts box_mesh v2 (fun j i => match j with 0%nat => if (i =? 2)%nat then x0 else y0 | _ => if (i =? 2)%nat then x1 else y1 end) W2 Co2) as Gh.
  specialize (Gh ltac:(intros j i Hj Hi; assert (Hcs : (i = 2 \/ i = 3)%nat) by lia; destruct Hcs as [->| ->]; destruct j as [|[|j]]; try lia; assumption)).
  assert (Fv : vars_validate v2 = Ok tt).
  { unfold vars_validate. rewrite (fin_all2 (prim v2) 2 6); [|apply W2|intros j i Hj Hi; rewrite Gh by assumption; eauto]. cbn [ensure bind].
    rewrite (fin_all2 (cons v2) 2 6); [reflexivity|apply W2|]. intros j i Hj Hi. rewrite (cst_cons _ _ _ _ _ _ _ Co2 j i Hj Hi).
    destruct j as [|[|j]]; [| |lia]; cbn [cons_of]; rewrite ?(Gh 0%nat i), ?(Gh 1%nat i) by lia; [eauto|]. rewrite X_mul. eauto. }
  destruct (rk1_makes (Hll XRn) Isot 6 box_mesh fuel s (nc_time (cf_numerics box_cfg)) (mkRhs f n (wall_list Isot) (wall_list Isot)) w (Fin (1 / 2) : nF XRn)
     (set_cent v2 (set_cent vh u))) as (k & E).
  - reflexivity.
  - reflexivity.
  - reflexivity.
  - apply (fin_all2 _ 2 6); [apply shape_zeros2|]. intros j i Hj Hi. exists 0. apply (zero_at XRn); assumption.
  - exact Hcfl.
  - cbn [s_ts s]. rewrite Tm, X_ltb. destruct (Rlt_dec _ _); [exfalso; lra|reflexivity].
  - exact R.
  - rewrite Pw. cbn [cent set_cent]. rewrite Sp. apply (fin_all2 _ 2 6); [apply W'|]. intros j i Hj Hi. destruct (Hr i Hi) as (_ & Pr & _). rewrite Pr by exact Hj. eauto.
  - cbn [r_full]. fold ts2. apply (fin_all2 _ 2 6); [apply shape_mtab|]. intros j i Hj Hi. destruct (Hh j i Hj Hi) as (r & Er & _). exists r. exact Er.
  - exact (f_equal (fun r => bind r (fun c => Ok (set_cent c (set_cent vh u)))) E2).
  - exact Fv.
  - fold ts2 in E. rewrite Ets2 in E. eexists. exists (D / 4). split.
    + unfold solver_next. rewrite E. cbn [s_ts ts_iter_max ts_iter ts_set_t ts_set_dt ts_set_kind ts_set_iter].
      destruct (N.leb_spec (ts_iter_max ts) (ts_iter ts + 1)); [lia|]. reflexivity.
    + cbn [s_ts ts_t ts_dt ts_t_next ts_t_end ts_dt_min ts_dt_output ts_set_t ts_set_dt ts_set_kind ts_set_iter s_u cent set_cent]. rewrite T0, Tn, Tm, X_add.
      repeat match goal with |- _ /\ _ => split end; try reflexivity; try lra; try (f_equal; lra).
      * rewrite (cst_cons _ _ _ _ _ _ _ Co2 0%nat 2%nat) by (cbn; lia). cbn [cons_of]. rewrite X0, Xe. reflexivity.
      * rewrite (cst_cons _ _ _ _ _ _ _ Co2 0%nat 3%nat) by (cbn; lia). cbn [cons_of]. rewrite Y0, Ye. reflexivity.
Qed.
