(** A concrete collision in exact arithmetic with the KT scheme: two halves of a
    box moving towards each other.  Nothing here is a model of code. *)

From Coq Require Import Reals ZArith NArith QArith Qreals List Bool Lia Lra String.
From Verif Require Import Base Num XReal Config Mesh State NumFlux Time Writer Runner Spec SpecFlow SpecStep SpecTableau SpecEuler SpecInit SpecWall SpecMirror
  MeshProofs BoundaryProofs PhysicsProofs FluxProofs UpdateProofs FluxReal FluxThms FluxMore StepProofs StepInv StepEq TableauProofs
  TimeProofs TimeMore AscProofs EulerStep RealRun EulerThms LinRun ConsThms WallProofs WallDemo MirrorProofs MirrorNum KtMirror.
Import ListNotations.
Local Open Scope R_scope.

(** ** Validated fluxes: if the fluxes are numbers, so is all that is checked *)
Lemma kt_valid : forall p S (self : kt XRn) d u (m : mesh XRn), (5 <= S)%nat -> std_ix XRn S m ->
  wsv XRn p S (west u) -> wsv XRn p S (east u) ->
  k_a_plus self = zeros S -> k_a_minus self = zeros S -> k_b self = zeros S -> k_flux_num self = zeros2 (nE p) S ->
  (forall j i, (j < nE p)%nat -> (1 <= i <= S - 3)%nat -> exists r, kt_fn XRn p self u m j i = Fin r) ->
  exists n f w, kt_calc true p S self d u m = (n, f, w, Ok tt) /\ cent w = cent u.
Proof.
  intros p S self d u m HS Hm Ww We Z1 Z2 Z3 Z4 H.
  set (n := fst (fst (fst (kt_calc true p S self d u m)))).
  set (w := snd (fst (kt_calc true p S self d u m))).
  assert (Num : forall j i, (j < nE p)%nat -> (1 <= i <= S - 3)%nat -> exists r, at2 (n0 XRn) (k_flux_num n) j i = Fin r).
  { intros j i Hj Hi. unfold n. rewrite (kt_num XRn true p S self d u m Hm Ww We j i Hj) by lia. apply H; assumption. }
  pose proof Hm as (I1 & I2).
  assert (In : forall i, (1 <= i <= S - 3)%nat -> (exists r, at1 (n0 XRn) (k_a_plus n) i = Fin r) /\ (exists r, at1 (n0 XRn) (k_a_minus n) i = Fin r) /\ (exists r, at1 (n0 XRn) (k_b n) i = Fin r)).
  { intros i Hi. destruct (Num 0%nat i ltac:(destruct p; cbn; lia) Hi) as (r & Q).
    unfold n, kt_calc in Q. cbn [fst snd k_flux_num cent west east] in Q. rewrite at2_upd_range2 in Q by (destruct p; cbn; lia). rewrite I1, I2 in Q.
    change (2 - 1)%nat with 1%nat in Q.
    assert (B : ((1 <=? i)%nat && (i <=? S - 3)%nat)%bool = true) by (apply andb_true_intro; split; apply Nat.leb_le; lia). rewrite B in Q.
    assert (F := f_equal (nfin XRn) Q). cbn [nfin XRn xfin] in F.
    apply (l_fmul _ _ _ LX) in F. destruct F as (F1 & F). apply (l_fadd _ _ _ LX) in F. destruct F as (F & _). apply (l_fsub _ _ _ LX) in F. destruct F as (F2 & F3).
    apply (l_fmul _ _ _ LX) in F2, F3. destruct F2 as (F2 & _). destruct F3 as (F3 & _).
    apply fin_ex in F1, F2, F3. unfold n, kt_calc. cbn [fst snd k_a_plus k_a_minus k_b cent west east]. rewrite I1, I2. change (2 - 1)%nat with 1%nat. auto. }
  assert (Out : forall i, (i < S)%nat -> ~ (1 <= i <= S - 3)%nat -> at1 (n0 XRn) (k_a_plus n) i = Fin 0 /\ at1 (n0 XRn) (k_a_minus n) i = Fin 0 /\ at1 (n0 XRn) (k_b n) i = Fin 0 /\
     forall j, (j < nE p)%nat -> at2 (n0 XRn) (k_flux_num n) j i = Fin 0).
  { intros i Hi Ho. assert (B : ((1 <=? i)%nat && (i <=? S - 3)%nat)%bool = false).
    { destruct (Nat.leb_spec 1 i); [|reflexivity]. destruct (Nat.leb_spec i (S - 3)); [|reflexivity]. exfalso. apply Ho. lia. }
    unfold n, kt_calc. cbn [fst snd k_a_plus k_a_minus k_b k_flux_num cent west east]. rewrite I1, I2. change (2 - 1)%nat with 1%nat.
    rewrite !at1_upd_range, B, Z1, Z2, Z3 by exact Hi. unfold at1, zeros. split; [apply nth_repeat|]. split; [apply nth_repeat|]. split; [apply nth_repeat|].
    intros j Hj. rewrite at2_upd_range2, B, Z4 by assumption. apply (zero_at XRn); assumption. }
  assert (Ll : forall f v, List.length (upd_range (n0 XRn) S (m_ixi_in m - 1) (m_ixi_out m) f v) = S) by (intros; apply length_tab).
  assert (Dc : forall i, (1 <= i <= S - 3)%nat \/ ~ (1 <= i <= S - 3)%nat) by (intros; lia).
  assert (V : kt_validate n = Ok tt).
  { unfold kt_validate.
    rewrite (fin_all1 (k_a_plus n) S); [cbn [ensure bind]|apply Ll|intros i Hi; destruct (Dc i) as [D|D]; [apply (In i D)|destruct (Out i Hi D) as (-> & _); eauto]].
    rewrite (fin_all1 (k_a_minus n) S); [cbn [ensure bind]|apply Ll|intros i Hi; destruct (Dc i) as [D|D]; [apply (In i D)|destruct (Out i Hi D) as (_ & -> & _); eauto]].
    rewrite (fin_all1 (k_b n) S); [cbn [ensure bind]|apply Ll|intros i Hi; destruct (Dc i) as [D|D]; [apply (In i D)|destruct (Out i Hi D) as (_ & _ & -> & _); eauto]].
    rewrite (fin_all2 (k_flux_num n) (nE p) S); [reflexivity|apply FluxProofs.shape_upd_range2|].
    intros j i Hj Hi. destruct (Dc i) as [D|D]; [apply Num; assumption|]. destruct (Out i Hi D) as (_ & _ & _ & Q). rewrite Q by exact Hj. eauto. }
  exists n, (snd (fst (fst (kt_calc true p S self d u m)))), w. split; [|reflexivity].
  rewrite <- V. reflexivity.
Qed.

(** ** The collision: two cells of width 1 between 3 and 5, walls, density 1,
    velocity 1/2 in the western and -1/2 in the eastern cell, sound speed 1;
    minmod.  Courant number 1/2, one step until the end at 1/3. *)
Definition hit_cfg : config XRn :=
  mkCfg false (mkMC (A:=XRn) Cartesian (Fin 3) (Fin 5)) (mkPC (A:=XRn) (Fin (14 / 10)) SI) (walls Isot) (walls Isot)
    (mkNC (A:=XRn) (CKt MinMod) (mkRC (A:=XRn) RK1 false (Fin (1 / 1000)) (Fin (1 / 1000)) (Fin (8 / 100))) 100%N (Fin 0) (Fin (1 / 3))
       (Fin (1 / 1000000)) (Fin 1000) (Fin (1 / 2)))
    1%N [].
Definition hit_q (j i : nat) : R := match j with 0%nat => 1 | _ => if Nat.even i then 1 / 2 else - (1 / 2) end.

Lemma hit_kt : exists k, kt_new (A:=XRn) Isot 6 (CKt MinMod) box_mesh = Ok k /\ kt_params 6 1 MinMod 0 k /\
  k_a_plus k = zeros 6 /\ k_a_minus k = zeros 6 /\ k_b k = zeros 6 /\ k_flux_num k = zeros2 2 6.
Proof.
  eexists. split; [reflexivity|]. split; [|repeat split].
  replace 1 with (hx 6 3 5) by (unfold hx; cbn [INR Nat.sub]; lra).
  apply (kt_new_params Isot 6 Cartesian 3 5 MinMod 0); [lia|lra|reflexivity|reflexivity].
Qed.

Lemma hit_vars : exists v, update_vars_from_prim Isot 6 (wall_list Isot) (wall_list Isot) box_mesh (rvars Isot 6 (14 / 10) 1 hit_q) = Ok v /\
  consistent Isot 6 (wall_list Isot) (wall_list Isot) box_mesh v /\ wsv XRn Isot 6 v /\ gamma v = Fin (14 / 10) /\
  (forall j i, (j < 2)%nat -> (i < 6)%nat -> at2 (n0 XRn) (prim v) j i = Fin (hit_q j i)) /\
  (forall i, (i < 6)%nat -> at1 (n0 XRn) (c_sound v) i = Fin 1).
Proof.
  pose proof (rvars_wsv Isot 6 (14 / 10) 1 hit_q) as W.
  destruct (wall_update box_mesh (rvars Isot 6 (14 / 10) 1 hit_q)) as (v & E). exists v.
  destruct (update_from_prim_view XRn Isot 6 _ _ box_mesh _ v ltac:(lia) W E) as (W' & G & _ & Ci & Pi & _).
  pose proof (prim_consistent XRn Isot 6 _ _ box_mesh _ _ ltac:(lia) W E) as C.
  split; [exact E|]. split; [exact C|]. split; [exact W'|]. split; [exact G|]. split.
  - intros j i Hj Hi. rewrite (wall_ghosts box_mesh v hit_q W' C) by (try assumption; intros j' i' Hj' Hi'; rewrite Pi by (unfold interior; lia); cbn [prim rvars]; rewrite at2_mtab by (cbn; lia); reflexivity).
    f_equal. unfold hit_q. destruct j as [|[|j]]; [| |lia]; do 6 (destruct i as [|i]; [cbn; lra|]); lia.
  - intros i Hi. rewrite (Ci eq_refl). cbn [c_sound rvars]. unfold at1. rewrite nth_indep with (d' := Fin 1 : nF XRn) by (rewrite repeat_length; exact Hi). apply nth_repeat.
Qed.

Lemma hit_step : forall v (u : state XRn) (ts : timestep XRn) (k : kt XRn) fuel, cent u = v -> wss Isot 6 u ->
  consistent Isot 6 (wall_list Isot) (wall_list Isot) box_mesh v -> gamma v = Fin (14 / 10) ->
  c_sound (west u) = c_sound v -> c_sound (east u) = c_sound v ->
  (forall j i, (j < 2)%nat -> (i < 6)%nat -> at2 (n0 XRn) (prim v) j i = Fin (hit_q j i)) ->
  (forall i, (i < 6)%nat -> at1 (n0 XRn) (c_sound v) i = Fin 1) ->
  kt_params 6 1 MinMod 0 k -> k_a_plus k = zeros 6 -> k_a_minus k = zeros 6 -> k_b k = zeros 6 -> k_flux_num k = zeros2 2 6 ->
  ts_t ts = Fin 0 -> ts_t_next ts = Fin (1 / 3) -> ts_cfl ts = Fin (1 / 2) -> ts_dt_min ts = Fin (1 / 1000000) -> ts_dt_max ts = Fin 1000 ->
  (ts_iter ts + 1 < ts_iter_max ts)%N ->
  let s := mkSim (N:=Kt XRn) ts u (rkf_new Isot 6 hit_cfg) (mkRhs (N:=Kt XRn) (zeros2 2 6) k (wall_list Isot) (wall_list Isot)) in
  exists s' e, solver_next true fuel Isot 6 box_mesh s = (s', Ok tt) /\ ts_t (s_ts s') = Fin (1 / 3) /\ ts_dt (s_ts s') = Fin (1 / 3) /\
    ts_t_next (s_ts s') = Fin (1 / 3) /\ ts_t_end (s_ts s') = ts_t_end ts /\ ts_dt_min (s_ts s') = Fin (1 / 1000000) /\ ts_dt_output (s_ts s') = ts_dt_output ts /\
    0 < e < 1 / 2 /\
    at2 (n0 XRn) (cons (cent (s_u s'))) 1 2 = Fin (1 / 2 - e) /\ at2 (n0 XRn) (cons (cent (s_u s'))) 1 3 = Fin (- (1 / 2) + e).
Proof.
  intros v u ts k fuel Eu Wu C G Gw Ge P Q KP Z1 Z2 Z3 Z4 T0 Tn Tc Tm TM Ti s. subst v.
  set (v := cent u) in *. assert (W : wsv XRn Isot 6 v) by apply Wu.
  destruct (real_cells Isot 6 _ _ box_mesh v (14 / 10) hit_q (fun _ => 1) ltac:(lia) W C G ltac:(discriminate) P) as (Hc & v' & Ev & W' & Hr).
  { intros i Hi. split; [unfold hit_q; lra|apply Q; exact Hi]. }
  (* the step size *)
  assert (Hcfl : st_calc_dt_cfl Isot 6 (s_u s) (ts_cfl (s_ts s)) box_mesh = Ok (Fin (1 / 3) : nF XRn)).
  { pose proof (cfl_mesh Isot 6 Cartesian 3 5 (1 / 2) u _ _ (hit_q 1) (fun _ => 1) ltac:(lia) ltac:(lra) ltac:(lra) C ltac:(apply W)) as K.
    specialize (K ltac:(intros i Hi; split; [apply (P 1%nat i); lia|apply Q; exact Hi])). fold box_mesh in K. cbn [s_u s_ts s]. rewrite Tc.
    destruct (st_calc_dt_cfl Isot 6 u (Fin (1 / 2) : nF XRn) box_mesh) as [x|e| |]; try contradiction.
    - destruct x as [dt| | |]; try contradiction. 
      destruct K as (_ & K2 & i & Hi & K3). unfold hx in *. cbn [INR Nat.sub] in *.
      pose proof (K2 0%nat ltac:(lia)) as K0. assert (R0 : Rabs (hit_q 1 0 + 1) = 3 / 2) by (unfold hit_q; cbn [Nat.even]; rewrite Rabs_right; lra). rewrite R0 in K0.
      do 2 f_equal. destruct (Nat.even i) eqn:B.
      + assert (R1 : Rabs (hit_q 1 i + 1) = 3 / 2) by (unfold hit_q; rewrite B, Rabs_right; lra). rewrite R1 in K3. lra.
      + assert (R1 : Rabs (hit_q 1 i + 1) = 1 / 2) by (unfold hit_q; rewrite B, Rabs_right; lra). rewrite R1 in K3. lra.
    - destruct e; try contradiction. exfalso. pose proof (K 0%nat ltac:(lia)) as K0. unfold hit_q in K0. cbn in K0. lra. }
  (* the right-hand side *)
  set (st := stage_state XRn (cons (cent (s_u s))) (rk_utilde (s_rk s)) (s_u s)).
  assert (Wn : wss Isot 6 (rk_utilde (s_rk s))) by (split; [|split]; apply (wsv_new XRn Isot 6)).
  assert (SV : same_vars Isot 6 (cent st) v).
  { split; [|split; [exact W|]].
    - unfold st, stage_state. cbn [cent set_cent state_assign]. apply wsv_set_cons; [|apply W]. apply wsv_assign; [apply Wn|exact W].
    - unfold st, stage_state. cbn [cent set_cent state_assign set_cons vars_assign set_prim set_c_sound prim cons c_sound gamma s_u s_rk s rkf_new rk_utilde].
      rewrite G. repeat split. }
  pose proof (same_update XRn Isot 6 (wall_list Isot) (wall_list Isot) box_mesh _ _ ltac:(lia) SV) as SU. rewrite Ev in SU.
  destruct (update_vars_from_cons Isot 6 (wall_list Isot) (wall_list Isot) box_mesh (cent st)) as [v1| | |] eqn:E1; try contradiction.
  destruct SU as ((W1 & _ & Sp & Sc & Ss & _) & Se & _).
  assert (Cc : forall j i, (j < 2)%nat -> (i < 6)%nat -> at2 (n0 XRn) (cons v1) j i = Fin (hit_q j i)).
  { intros j i Hj Hi. rewrite Sc. destruct (Hr i Hi) as (_ & _ & K & _). rewrite K by exact Hj. f_equal.
    destruct j as [|[|j]]; [| |lia]; cbn [conserved]; unfold hit_q; lra. }
  set (t1 := set_cent v1 st).
  assert (Wt : wsv XRn Isot 6 (west t1) /\ wsv XRn Isot 6 (east t1)).
  { unfold t1, st, stage_state. cbn [west east set_cent state_assign]. split; apply wsv_assign; apply Wn || apply Wu. }
  assert (Rec : forall j i, (j < 2)%nat -> (1 <= i <= 4)%nat -> recon XRn k (cons v1) (k_dist_west k) j i = Fin (hit_q j i) /\ recon XRn k (cons v1) (k_dist_east k) j i = Fin (hit_q j i)).
  { intros j i Hj Hi. destruct (recon_R 6 1 MinMod 0 k (cons v1) j i _ _ _ KP ltac:(lra) ltac:(lia) ltac:(lia) (Cc j (i - 1)%nat Hj ltac:(lia)) (Cc j i Hj ltac:(lia)) (Cc j (i + 1)%nat Hj ltac:(lia)) ltac:(discriminate)) as (R1 & R2).
    assert (Z : rslope MinMod (hit_q j i - hit_q j (i - 1)) (hit_q j (i + 1) - hit_q j i) (/ 2 * (hit_q j (i + 1) - hit_q j (i - 1))) 0 = 0).
    { cbn [rslope]. destruct j as [|[|j]]; [| |lia]; assert (Hcs : (i = 1 \/ i = 2 \/ i = 3 \/ i = 4)%nat) by lia; destruct Hcs as [->|[->|[->| ->]]];
        unfold hit_q; cbn [Nat.even Nat.sub Nat.add]; repeat destruct (Rlt_dec _ _); unfold Rmax; repeat destruct (Rle_dec _ _); lra. }
    rewrite Z in R1, R2. rewrite R1, R2. split; f_equal; lra. }
  (* the fluxes *)
  assert (Fn : forall j i, (j < 2)%nat -> (1 <= i <= 3)%nat -> kt_fn XRn Isot k t1 box_mesh j i =
     Fin (match j with 0%nat => 0 | _ => if (i =? 2)%nat then 2 else 1 / 2 end)).
  { intros j i Hj Hi. unfold box_mesh.
    assert (Lo : rlo (hit_q 1 i / hit_q 0 i - 1) (hit_q 1 (i + 1) / hit_q 0 (i + 1) - 1) = - (3 / 2) /\ rhi (hit_q 1 i / hit_q 0 i + 1) (hit_q 1 (i + 1) / hit_q 0 (i + 1) + 1) = 3 / 2).
    { assert (Hcs : (i = 1 \/ i = 2 \/ i = 3)%nat) by lia. destruct Hcs as [->|[->| ->]]; unfold hit_q; cbn [Nat.even Nat.add]; unfold rlo, rhi, Rmin, Rmax; repeat destruct (Rle_dec _ _); lra. }
    destruct Lo as (Lo & Hi').
    rewrite (kt_fn_R Isot 6 Cartesian 3 5 k t1 (14 / 10) j i 1 1 (fun l => hit_q l i) (fun l => hit_q l (i + 1))).
    - cbn [rsound rprim]. rewrite Lo, Hi'. f_equal. unfold rff, euler_flux. destruct j as [|[|j]]; [| |lia];
        (assert (Hcs : (i = 1 \/ i = 2 \/ i = 3)%nat) by lia; destruct Hcs as [->|[->| ->]]; unfold hit_q; cbn [Nat.even Nat.add Nat.eqb]; replace (3 / 2 - - (3 / 2)) with 3 by lra; field).
    - exact Hj.
    - lia.
    - reflexivity.
    - reflexivity.
    - intros l Hl. apply (Rec l i Hl). lia.
    - intros l Hl. apply (Rec l (i + 1)%nat Hl). lia.
    - cbn. lra.
    - cbn. lra.
    - discriminate.
    - intros _. unfold t1, st, stage_state. cbn [west east set_cent state_assign vars_assign set_cons set_prim set_c_sound c_sound s_u s]. rewrite Gw, Ge. split; apply Q; lia.
    - cbn [rsound rprim]. rewrite Lo, Hi'. lra. }
  destruct (kt_valid Isot 6 k (zeros2 2 6) t1 box_mesh ltac:(lia) (std_build XRn 6 _) (proj1 Wt) (proj2 Wt) Z1 Z2 Z3 Z4) as (n & f & w & En & Pw).
  { intros j i Hj Hi. rewrite Fn by (assumption || lia). eauto. }
  assert (R : rhs_update true Isot 6 (s_rhs s) st box_mesh = (mkRhs (N:=Kt XRn) f n (wall_list Isot) (wall_list Isot), w, Ok tt)).
  { unfold rhs_update, st_update_from_cons. cbn [s_rhs s r_bw r_be r_nf r_full nf_calc Kt]. rewrite E1. cbn [bind]. fold t1. rewrite En. reflexivity. }
  set (D := / (powerRZ 2 (-52) + 1)).
  assert (HD : 0 < D < 1).
  { pose proof (eps_pos). unfold D. split; [apply Rinv_0_lt_compat; lra|]. rewrite <- Rinv_1 at 2. apply Rinv_lt_contravar; lra. }
  assert (Full : forall j i, (j < 2)%nat -> (i < 6)%nat -> at2 (n0 XRn) f j i =
     Fin (match j with 0%nat => 0 | _ => if (i =? 2)%nat then D * (3 / 2) else if (i =? 3)%nat then - (D * (3 / 2)) else 0 end)).
  { intros j i Hj Hi.
    pose proof (kt_dflux XRn true Isot 6 k (zeros2 2 6) t1 box_mesh (std_build XRn 6 _) (proj1 Wt) (proj2 Wt) j i Hj Hi) as K. rewrite En in K. cbn [fst snd] in K. rewrite K.
    change (6 - 3)%nat with 3%nat. destruct ((2 <=? i)%nat && (i <=? 3)%nat) eqn:B.
    - apply andb_true_iff in B. destruct B as (B1 & B2). apply Nat.leb_le in B1, B2.
      rewrite (Fn j i Hj ltac:(lia)), (Fn j (i - 1)%nat Hj ltac:(lia)).
      unfold box_mesh. rewrite (mesh_dddv_R 6 3 5 Cartesian ltac:(lia) ltac:(lra) i Hi). rewrite X_sub, X_mul. f_equal.
      assert (Ex : powerRZ 2 (-52) + hx 6 3 5 = powerRZ 2 (-52) + 1) by (unfold hx; cbn [INR Nat.sub]; lra). rewrite Ex. fold D.
      assert (Hcs : (i = 2 \/ i = 3)%nat) by lia. destruct j as [|j]; destruct Hcs as [->| ->]; cbn [Nat.eqb Nat.sub]; lra.
    - rewrite (zero_at XRn) by assumption. rewrite X_n0. f_equal. destruct j as [|j]; [reflexivity|].
      do 6 (destruct i as [|i]; [try discriminate B; reflexivity|]). lia. }
  (* the new state *)
  set (ts2 := cap_dt (ts_set_kind KCfl (ts_set_dt (Fin (1 / 3) : nF XRn) (ts_set_iter (ts_iter (s_ts s) + 1)%N (s_ts s))))).
  assert (Ets2 : ts2 = ts_set_dt (Fin (1 / 3) : nF XRn) (ts_set_kind KCfl (ts_set_iter (ts_iter ts + 1)%N ts))).
  { unfold ts2, cap_dt. cbn [s_ts s ts_dt ts_dt_max ts_set_dt ts_set_kind ts_set_iter ts_t ts_t_next]. rewrite TM, T0, Tn.
    rewrite X_min. rewrite Rmin_left by lra. rewrite X_add, X_div, X_n1, X_ltb by lra. destruct (Rlt_dec _ _) as [L|L]; [exfalso; lra|]. reflexivity. }
  assert (Dt : ts_dt ts2 = Fin (1 / 3)) by (rewrite Ets2; reflexivity).
  set (high := sub_scaled (nE Isot) 6 (nmul XRn (ts_dt ts2) (n1 XRn)) f (cons (cent (s_u s)))).
  assert (Hh : forall j i, (j < 2)%nat -> (i < 6)%nat -> at2 (n0 XRn) high j i =
     Fin (match j with 0%nat => 1 | _ => if (i =? 2)%nat then 1 / 2 - D / 2 else if (i =? 3)%nat then - (1 / 2) + D / 2 else hit_q 1 i end)).
  { intros j i Hj Hi. unfold high, sub_scaled. rewrite at2_mtab by assumption. rewrite Dt. cbn [s_u s]. fold v. rewrite (Hc i j Hi Hj).
    rewrite (Full j i Hj Hi), X_n1, !X_mul, X_sub. f_equal. destruct j as [|[|j]]; [| |lia]; cbn [conserved].
    - unfold hit_q. lra.
    - unfold hit_q. destruct (Nat.eqb_spec i 2) as [->|N2]; [cbn [Nat.even]; lra|]. destruct (Nat.eqb_spec i 3) as [->|N3]; [cbn [Nat.even]; lra|]. lra. }
  set (vh := set_cons high v). assert (Wh : wsv XRn Isot 6 vh) by (apply wsv_set_cons; [exact W|apply shape_mtab]).
  destruct (wall_update box_mesh (update_prim Isot 6 vh)) as (v2 & E2).
  assert (Wp : wsv XRn Isot 6 (update_prim Isot 6 vh)) by (apply wsv_update_prim; exact Wh).
  change (update_vars_from_cons Isot 6 (wall_list Isot) (wall_list Isot) box_mesh vh = Ok v2) in E2.
  destruct (update_from_cons_view XRn Isot 6 _ _ box_mesh vh v2 ltac:(lia) Wh E2) as (W2 & G2 & _ & _ & P2 & C2).
  pose proof (cons_consistent XRn Isot 6 _ _ box_mesh vh v2 ltac:(lia) Wh E2) as Co2.
  assert (In2 : forall j i, (j < 2)%nat -> (2 <= i <= 3)%nat -> at2 (n0 XRn) (prim v2) j i =
     Fin (match j with 0%nat => 1 | _ => if (i =? 2)%nat then 1 / 2 - D / 2 else - (1 / 2) + D / 2 end)).
  { intros j i Hj Hi. rewrite (P2 j i Hj ltac:(unfold interior; lia)).
    assert (Hcs : (i = 2 \/ i = 3)%nat) by lia. destruct j as [|[|j]]; [| |lia]; cbn [c2p vh set_cons cons]; rewrite ?(Hh 0%nat i), ?(Hh 1%nat i) by lia; [reflexivity|].
    unfold isot_cons_to_prim; cbn [snd fst]. rewrite X_div by lra. f_equal. destruct Hcs as [->| ->]; cbn [Nat.eqb]; lra. }
  pose proof (wall_ghosts box_mesh v2 _ W2 Co2 In2) as Gh.
  assert (Fv : vars_validate v2 = Ok tt).
  { unfold vars_validate. rewrite (fin_all2 (prim v2) 2 6); [|apply W2|intros j i Hj Hi; rewrite Gh by assumption; eauto]. cbn [ensure bind].
    rewrite (fin_all2 (cons v2) 2 6); [reflexivity|apply W2|]. intros j i Hj Hi. rewrite (cst_cons _ _ _ _ _ _ _ Co2 j i Hj Hi).
    destruct j as [|[|j]]; [| |lia]; cbn [cons_of]; rewrite ?(Gh 0%nat i), ?(Gh 1%nat i) by lia; [eauto|]. rewrite X_mul. eauto. }
  destruct (rk1_makes (Kt XRn) Isot 6 box_mesh fuel s (nc_time (cf_numerics hit_cfg)) (mkRhs (N:=Kt XRn) f n (wall_list Isot) (wall_list Isot)) w (Fin (1 / 3) : nF XRn)
     (set_cent v2 (set_cent vh u))) as (k' & E).
  - reflexivity.
  - reflexivity.
  - reflexivity.
  - apply (fin_all2 _ 2 6); [apply shape_zeros2|]. intros j i Hj Hi. exists 0. apply (zero_at XRn); assumption.
  - exact Hcfl.
  - cbn [s_ts s]. rewrite Tm, X_ltb. destruct (Rlt_dec _ _); [exfalso; lra|reflexivity].
  - exact R.
  - rewrite Pw. cbn [t1 cent set_cent]. rewrite Sp. apply (fin_all2 _ 2 6); [apply W'|]. intros j i Hj Hi. destruct (Hr i Hi) as (_ & Pr & _). rewrite Pr by exact Hj. eauto.
  - cbn [r_full]. fold ts2. apply (fin_all2 _ 2 6); [apply shape_mtab|]. intros j i Hj Hi. rewrite Hh by assumption. eauto.
  - exact (f_equal (fun r => bind r (fun c => Ok (set_cent c (set_cent vh u)))) E2).
  - exact Fv.
  - fold ts2 in E. rewrite Ets2 in E. eexists. exists (D / 2). split.
    + unfold solver_next. rewrite E. cbn [s_ts ts_iter_max ts_iter ts_set_t ts_set_dt ts_set_kind ts_set_iter].
      destruct (N.leb_spec (ts_iter_max ts) (ts_iter ts + 1)); [lia|]. reflexivity.
    + cbn [s_ts ts_t ts_dt ts_t_next ts_t_end ts_dt_min ts_dt_output ts_set_t ts_set_dt ts_set_kind ts_set_iter s_u cent set_cent]. rewrite T0, Tn, Tm, X_add.
      repeat match goal with |- _ /\ _ => split end; try reflexivity; try lra; try (f_equal; lra).
      * rewrite (cst_cons _ _ _ _ _ _ _ Co2 1%nat 2%nat) by (cbn; lia). cbn [cons_of]. rewrite !In2 by lia. rewrite X_mul. cbn [Nat.eqb]. f_equal. lra.
      * rewrite (cst_cons _ _ _ _ _ _ _ Co2 1%nat 3%nat) by (cbn; lia). cbn [cons_of]. rewrite !In2 by lia. rewrite X_mul. cbn [Nat.eqb]. f_equal. lra.
Qed.
