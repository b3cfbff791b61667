(** C22 for KT: positive densities with the second order scheme. *)

From Coq Require Import Reals ZArith NArith QArith Qreals List Bool Lia Lra.
From Verif Require Import Base Num XReal Config Mesh State NumFlux Time Spec SpecFlow SpecStep SpecTableau SpecEuler
  MeshProofs BoundaryProofs PhysicsProofs FluxProofs UpdateProofs FluxReal FluxThms FluxMore StepProofs StepInv StepEq TableauProofs
  TimeProofs TimeMore AscProofs EulerStep RealRun EulerThms LinRun ConsThms P_Flux P_Conserve Demo.
Import ListNotations.
Local Open Scope R_scope.

Lemma div_fin : forall (x : XR) r v, r <> 0 -> ndiv XRn (x : nF XRn) (Fin r : nF XRn) = (Fin v : nF XRn) -> x = Fin (r * v).
Proof.
  intros x r v Hr H. cbn [ndiv XRn] in H. destruct x as [x| | |]; cbn [xdiv] in H.
  - destruct (Req_EM_T r 0); [contradiction|]. injection H as <-. f_equal. field. exact Hr.
  - destruct (Rlt_dec r 0); discriminate H.
  - destruct (Rlt_dec r 0); discriminate H.
  - discriminate H.
Qed.

(** What the update of a cell needs to know about the mass fluxes. *)
Lemma update_positive : forall rho D h ep dt B X, 0 < rho -> 0 < h -> 0 < ep -> 0 < B <= 1 -> D = / (ep + h) -> dt * X <= rho * h -> 0 < rho - dt * B * (D * X).
Proof.
  intros rho D h ep dt B X H0 Hh He HB ED Hup.
  assert (HD : 0 < D) by (rewrite ED; apply Rinv_0_lt_compat; lra).
  assert (HD1 : D * h < 1).
  { rewrite ED. apply Rmult_lt_reg_l with (ep + h); [lra|]. rewrite <- Rmult_assoc, Rinv_r, Rmult_1_l, Rmult_1_r by lra. lra. }
  replace (dt * B * (D * X)) with (B * D * (dt * X)) by ring.
  assert (B * D * (dt * X) <= B * D * (rho * h)) by (apply Rmult_le_compat_l; [apply Rmult_le_pos; lra|exact Hup]).
  assert (B * (D * h) < 1) by nra.
  nra.
Qed.

(** [rho]: the densities of all cells after the boundary conditions have been
    applied; [vw], [cw], [ve], [ce]: velocities and sound speeds of the
    reconstructed gas at the west and east faces of the cells.  With a limiter
    that creates no new extrema every density stays positive if the step moves
    the waves of the faces by at most half a cell. *)
Theorem C22_density_positive_kt : forall p S (c : config XRn) md a b l th (s s' : sim XRn (Kt XRn)) vld h w validation fuel dt g U F rho vw ve cw ce i,
  let m := mesh_build (A:=XRn) S (cf_mesh c) in
  let dx := (b - a) / INR (S - 4) in
  (5 <= S)%nat -> cf_mesh c = mkMC (A:=XRn) md (Fin a) (Fin b) -> a < b ->
  nc_numflux (cf_numerics c) = CKt l -> limiter_theta l = Fin th -> tvd_limiter l th ->
  reached p S c m (fun _ => True) s ->
  rhs_update vld p S (s_rhs s) (s_u s) m = (h, w, Ok tt) ->
  (forall j i, (j < nE p)%nat -> (1 <= i <= S - 3)%nat -> at2 (n0 XRn) (k_flux_num (r_nf h)) j i = Fin (F j i)) ->
  pc_gamma (cf_physics c) = Fin g -> (p = Adiab -> g <> 1) ->
  (forall j i, (j < nE p)%nat -> (2 <= i <= S - 3)%nat -> at2 (n0 XRn) (cons (cent (s_u s))) j i = Fin (U j i)) ->
  (forall i, (i < S)%nat -> at2 (n0 XRn) (cons (cent w)) 0 i = Fin (rho i) /\ 0 < rho i) ->
  (forall i, (1 <= i <= S - 2)%nat ->
     at2 (n0 XRn) (prim (west w)) 1 i = Fin (vw i) /\ at1 (n0 XRn) (c_sound (west w)) i = Fin (cw i) /\ 0 < cw i /\
     at2 (n0 XRn) (prim (east w)) 1 i = Fin (ve i) /\ at1 (n0 XRn) (c_sound (east w)) i = Fin (ce i) /\ 0 < ce i) ->
  solver_next validation fuel p S m s = (s', Ok tt) -> ts_dt (s_ts s') = Fin dt -> 0 <= dt ->
  (forall i, (1 <= i <= S - 2)%nat ->
     dt * Rabs (vw i - cw i) <= dx / 2 /\ dt * Rabs (vw i + cw i) <= dx / 2 /\
     dt * Rabs (ve i - ce i) <= dx / 2 /\ dt * Rabs (ve i + ce i) <= dx / 2) ->
  (2 <= i <= S - 3)%nat ->
  exists r, at2 (n0 XRn) (cons (cent (s_u s'))) 0 i = Fin r /\ 0 < r.
Proof.
  intros p S c md a b l th s s' vld h w val fuel dt g U F rho vw ve cw ce i m dx HS Hc Hab Hnf Hth Htvd Hr0 ER HF Hg Hg1 HU HR HV E Hd Pd Cfl Hi.
  destruct (reached_kt _ _ _ _ _ Hr0) as (k0 & Hk & Hr). rewrite Hnf in Hk. cbn [nf_new Kt] in Hk.
  pose proof (kt_memoryless XRn p S m k0 HS (std_build XRn S _)) as Hm.
  destruct (reached_ok XRn (Kt XRn) p S m _ HS Hm c s Hr) as (Hok & Hb & _ & G & _). rewrite Hg in G.
  assert (Wss : wss p S (s_u s)) by apply Hok.
  assert (Kl : kt_like XRn (r_nf (s_rhs s)) k0) by apply Hok.
  assert (N2 : (0 < nE p)%nat /\ (1 < nE p)%nat) by (destruct p; cbn; lia).
  unfold m in *. rewrite Hc in *. set (m0 := mesh_build (A:=XRn) S (mkMC (A:=XRn) md (Fin a) (Fin b))) in *.
  pose proof (kt_slopes p S md a b HS Hab s vld h w F Wss ER HF) as Hf. fold m0 in Hf.
  pose proof (reached_rhs (Kt XRn) p S m0 _ c s _ HS Hm Hr Hf) as Hv.
  pose proof (euler_cells (Kt XRn) p S m0 _ val fuel _ s s' _ dt g i (fun j => U j i) HS Hm Hok Hb Hv E Hd G Hg1 Hi (fun j Hj => HU j i Hj Hi)) as K.
  cbv beta in K. rewrite inner_true in K by exact Hi. destruct K as (K & _). eexists. split; [exact K|].
  destruct (rhs_update_Ok _ _ _ _ _ _ _ _ _ _ _ ER) as [(u1 & nf & full & E1 & E2 & Eh)|[(_ & _ & _ & X)|[(e & _ & _ & _ & X)|(_ & _ & _ & X)]]]; try discriminate X.
  subst h. cbn [r_nf] in HF. cbn [nf_calc Kt] in E2.
  destruct (st_update_Ok _ _ _ _ _ _ _ _ E1) as (v1 & Hv1 & Eu1).
  destruct Wss as (Wc & Ww & We).
  (* density of the cell *)
  assert (Hc0 : U 0%nat i = rho i).
  { destruct (update_from_cons_view XRn p S _ _ m0 (cent (s_u s)) v1 HS Wc Hv1) as (_ & _ & _ & _ & P' & C').
    destruct (kt_faces XRn _ _ _ _ _ _ _ _ _ _ _ 0 i E2 (proj1 N2) ltac:(lia) ltac:(lia)) as (_ & _ & Ec).
    destruct (HR i ltac:(lia)) as (R0 & _). rewrite Ec, Eu1 in R0. cbn [cent set_cent] in R0.
    destruct (C' i ltac:(lia)) as (C0 & _). rewrite C0 in R0 by lia. rewrite p2c_0, P', c2p_0 in R0 by (unfold interior; lia). rewrite HU in R0 by (auto; lia). injection R0 as R0. exact R0. }
  rewrite Hc0.
  (* faces *)
  assert (Fc : forall l0, (1 <= l0 <= S - 2)%nat -> exists rw re, at2 (n0 XRn) (cons (west w)) 0 l0 = Fin rw /\ at2 (n0 XRn) (cons (east w)) 0 l0 = Fin re /\
     0 < rw /\ 0 < re /\ rw + re = 2 * rho l0).
  { intros k Hk2. destruct (kt_faces XRn _ _ _ _ _ _ _ _ _ _ _ 0 k E2 (proj1 N2) ltac:(lia) ltac:(lia)) as (_ & _ & Ec).
    destruct (HR (k - 1)%nat ltac:(lia)) as (R1 & P1). destruct (HR k ltac:(lia)) as (R2 & P2). destruct (HR (k + 1)%nat ltac:(lia)) as (R3 & P3). rewrite Ec in R1, R2, R3.
    destruct (C23_no_new_extrema vld p S md a b l th k0 _ _ u1 nf full w (Ok tt) 0 k _ _ _ HS Hab Hth Htvd Hk Kl E2 (proj1 N2) ltac:(lia) ltac:(lia) R1 R2 R3) as (rw & re & X1 & X2 & X3 & X4 & _).
    destruct (C25_average_preserved vld p S md a b l th k0 _ _ u1 nf full w (Ok tt) 0 k _ _ _ HS Hab Hth Hk Kl E2 (proj1 N2) ltac:(lia) ltac:(lia) R1 R2 R3) as (rw' & re' & Y1 & Y2 & Y3).
    { intros ->. contradiction. }
    rewrite X1 in Y1. rewrite X2 in Y2. injection Y1 as <-. injection Y2 as <-.
    exists rw, re. split; [exact X1|]. split; [exact X2|].
    assert (0 < Rmin (rho (k - 1)%nat) (rho k)) by (apply Rmin_glb_lt; assumption). assert (0 < Rmin (rho k) (rho (k + 1)%nat)) by (apply Rmin_glb_lt; assumption).
    repeat split; try lra. }
  pose proof (kt_state XRn vld p S (r_nf (s_rhs s)) (r_full (s_rhs s)) u1 m0) as Su. rewrite E2 in Su. cbn [fst snd] in Su. cbv zeta in Su.
  set (u2 := kt_reconstruct (r_nf (s_rhs s)) (nE p) S u1) in Su.
  assert (Hw2 : wsv XRn p S (west u2)) by (apply wsv_set_cons; [rewrite Eu1; exact Ww|apply shape_upd_range2]).
  assert (He2 : wsv XRn p S (east u2)) by (apply wsv_set_cons; [rewrite Eu1; exact We|apply shape_upd_range2]).
  assert (Fv : forall (v : vars XRn) k r vv cc, wsv XRn p S v -> (k < S)%nat -> at2 (n0 XRn) (cons (kt_face p S v)) 0 k = Fin r -> 0 < r ->
     at2 (n0 XRn) (prim (kt_face p S v)) 1 k = Fin vv -> at1 (n0 XRn) (c_sound (kt_face p S v)) k = Fin cc ->
     at2 (n0 XRn) (eigen_vals (kt_face p S v)) 0 k = Fin (vv - cc) /\ at2 (n0 XRn) (eigen_vals (kt_face p S v)) (nE p - 1) k = Fin (vv + cc) /\
     at2 (n0 XRn) (flux (kt_face p S v)) 0 k = Fin (r * vv)).
  { intros v k r vv cc Hv0 Hk0 Hr1 Hr2 Hp1 Hcs. rewrite kt_face_prim in Hp1 by (auto; lia). rewrite kt_face_sound in Hcs by auto. rewrite kt_face_cons in Hr1.
    destruct (kt_face_at XRn p S v k Hv0 Hk0) as (K0 & K1 & K2). rewrite Hp1, Hcs in K0, K1. rewrite X_sub in K0. rewrite X_add in K1.
    split; [exact K0|]. split; [exact K1|]. rewrite K2 by lia.
    rewrite c2p_1, Hr1 in Hp1. apply div_fin in Hp1; [|lra].
    destruct p; cbn [pflux]; rewrite Hp1; reflexivity. }
  assert (Wv : west w = kt_face p S (west u2) /\ east w = kt_face p S (east u2)) by (rewrite Su; split; reflexivity). destruct Wv as (Wv & Ev).
  (* the mass flux through a face *)
  assert (Mf : forall k rl rr, (1 <= k <= S - 3)%nat -> at2 (n0 XRn) (cons (east w)) 0 k = Fin rl -> at2 (n0 XRn) (cons (west w)) 0 (k + 1) = Fin rr -> 0 < rl -> 0 < rr ->
     F 0%nat k <= rl * rhi (ve k + ce k) (vw (k + 1)%nat + cw (k + 1)%nat) /\ rr * rlo (ve k - ce k) (vw (k + 1)%nat - cw (k + 1)%nat) <= F 0%nat k).
  { intros k rl rr Hk0 Hl Hrr Pl Pr. destruct (HV k ltac:(lia)) as (_ & _ & _ & V1 & V2 & V3). destruct (HV (k + 1)%nat ltac:(lia)) as (V4 & V5 & V6 & _).
    pose proof Hl as Hl'. pose proof Hrr as Hrr'. rewrite Ev in V1, V2, Hl. rewrite Wv in V4, V5, Hrr.
    destruct (Fv _ k _ _ _ He2 ltac:(lia) Hl Pl V1 V2) as (A1 & A2 & A3). destruct (Fv _ (k + 1)%nat _ _ _ Hw2 ltac:(lia) Hrr Pr V4 V5) as (B1 & B2 & B3).
    rewrite <- Ev in A1, A2, A3. rewrite <- Wv in B1, B2, B3.
    pose proof (HF 0%nat k (proj1 N2) ltac:(lia)) as Q.
    rewrite (kt_num_u XRn _ _ _ _ _ _ _ _ _ _ _ 0 k (std_build XRn S _) E2 (proj1 N2) ltac:(lia) ltac:(lia)) in Q.
    rewrite A1, A2, A3, B1, B2, B3, Hl', Hrr' in Q. unfold m0 in Q. rewrite mesh_area_east_R in Q by (try lia; exact Hab). rewrite lo_k_R, hi_k_R in Q.
    pose proof (rlo_le (ve k - ce k) (vw (k + 1)%nat - cw (k + 1)%nat)). pose proof (rhi_ge (ve k + ce k) (vw (k + 1)%nat + cw (k + 1)%nat)).
    rewrite face_flux_R in Q by (destruct H as (? & ? & ?); destruct H0 as (? & ? & ?); lra). injection Q as <-. split; [apply rff_mass_le|apply rff_mass_ge]; lra. }
  destruct (Fc (i - 1)%nat ltac:(lia)) as (w0 & e0 & F1 & F2 & F3 & F4 & F5). destruct (Fc i ltac:(lia)) as (w1 & e1 & G1 & G2 & G3 & G4 & G5). destruct (Fc (i + 1)%nat ltac:(lia)) as (w2 & e2 & H1 & H2 & H3 & H4 & H5).
  destruct (Mf i e1 w2 ltac:(lia) G2 H1 G4 H3) as (B1 & _).
  pose proof (Mf (i - 1)%nat e0 w1 ltac:(lia)) as M2. replace (i - 1 + 1)%nat with i in M2 by lia. destruct (M2 F2 G1 F4 G3) as (_ & B2). clear M2.
  assert (Hh : 0 < hx S a b) by (apply hx_pos; [lia|exact Hab]).
  assert (Ch : dt * rhi (ve i + ce i) (vw (i + 1)%nat + cw (i + 1)%nat) <= hx S a b / 2).
  { destruct (Cfl i ltac:(lia)) as (_ & _ & _ & C1). destruct (Cfl (i + 1)%nat ltac:(lia)) as (_ & C2 & _). fold (hx S a b) in C1, C2. unfold rhi.
    pose proof (Rle_abs (ve i + ce i)). pose proof (Rle_abs (vw (i + 1)%nat + cw (i + 1)%nat)). unfold dx in C1, C2. unfold hx in *.
    unfold Rmax. repeat destruct (Rle_dec _ _); nra. }
  assert (Cl : - (hx S a b / 2) <= dt * rlo (ve (i - 1)%nat - ce (i - 1)%nat) (vw i - cw i)).
  { destruct (Cfl i ltac:(lia)) as (C1 & _). destruct (Cfl (i - 1)%nat ltac:(lia)) as (_ & _ & C2 & _). unfold dx in C1, C2. unfold hx in *.
    pose proof (Rle_abs (- (vw i - cw i))) as A1. pose proof (Rle_abs (- (ve (i - 1)%nat - ce (i - 1)%nat))) as A2. rewrite Rabs_Ropp in A1, A2.
    unfold rlo, Rmin. repeat destruct (Rle_dec _ _); nra. }
  apply (update_positive (rho i) _ (hx S a b) (powerRZ 2 (-52))); try assumption.
  - apply HR. lia.
  - apply eps_pos.
  - destruct (rc_mode _); cbn; lra.
  - reflexivity.
  - assert (dt * F 0%nat i <= dt * (e1 * rhi (ve i + ce i) (vw (i + 1)%nat + cw (i + 1)%nat))) by (apply Rmult_le_compat_l; assumption).
    assert (dt * (w1 * rlo (ve (i - 1)%nat - ce (i - 1)%nat) (vw i - cw i)) <= dt * F 0%nat (i - 1)%nat) by (apply Rmult_le_compat_l; assumption).
    nra.
Qed.
Print Assumptions C22_density_positive_kt.

(** A density jump in a moving isothermal gas meets the hypotheses, for every
    mode. *)
Example C22_kt_nonvacuous : forall md, let c := rcfg (CKt MinMod) md false (1 / 2) in
  exists (s s' : sim XRn (Kt XRn)) h w dt U F rho, reached Isot 6 c (rmesh 6) (fun _ => True) s /\
    rhs_update false Isot 6 (s_rhs s) (s_u s) (rmesh 6) = (h, w, Ok tt) /\
    (forall j i, (j < 2)%nat -> (1 <= i <= 3)%nat -> at2 (n0 XRn) (k_flux_num (r_nf h : kt XRn)) j i = Fin (F j i)) /\
    (forall j i, (j < 2)%nat -> (2 <= i <= 3)%nat -> at2 (n0 XRn) (cons (cent (s_u s))) j i = Fin (U j i)) /\
    (forall i, (i < 6)%nat -> at2 (n0 XRn) (cons (cent w)) 0 i = Fin (rho i) /\ 0 < rho i) /\
    (forall i, (1 <= i <= 4)%nat ->
       at2 (n0 XRn) (prim (west w)) 1 i = Fin 1 /\ at1 (n0 XRn) (c_sound (west w)) i = Fin 1 /\
       at2 (n0 XRn) (prim (east w)) 1 i = Fin 1 /\ at1 (n0 XRn) (c_sound (east w)) i = Fin 1) /\
    solver_next false 1 Isot 6 (rmesh 6) s = (s', Ok tt) /\ ts_dt (s_ts s') = Fin dt /\ 0 < dt /\
    dt * Rabs (1 - 1) <= (2 - 1) / INR (6 - 4) / 2 /\ dt * Rabs (1 + 1) <= (2 - 1) / INR (6 - 4) / 2 /\ rho 2%nat = 1 /\ rho 3%nat = 1 / 2.
Proof.
  intros md c. destruct (C20_kt_nonvacuous md) as (s & s' & h & w & dt & U & F & Hr & ER & HF & E & Hd & Ed & HU & U1 & U2 & HR & HV).
  exists s, s', h, w, dt, U, F, (jump 1 (1 / 2) 1 0%nat). split; [exact Hr|]. split; [exact ER|]. split; [exact HF|]. split; [exact HU|]. split.
  { intros i Hi. split; [apply HR; exact Hi|]. apply jump_ok; try lra. exact Hi. }
  split; [exact HV|]. split; [exact E|]. split; [exact Hd|]. rewrite Ed. replace (INR (6 - 4)) with 2 by (cbn; ring).
  rewrite !Rabs_pos_eq by lra. cbn [jump Nat.ltb Nat.leb]. repeat split; lra.
Qed.
