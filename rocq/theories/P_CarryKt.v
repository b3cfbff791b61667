(** Density profiles in a uniform flow with KT (C76). *)

From Coq Require Import Reals ZArith NArith QArith Qreals List Bool Lia Lra.
From Verif Require Import Base Num XReal Config Mesh State NumFlux Time Writer Runner Spec SpecFlow SpecStep SpecTableau SpecEuler SpecInit SpecWall SpecHealthy SpecCarry
  MeshProofs BoundaryProofs PhysicsProofs FluxProofs UpdateProofs FluxReal FluxThms FluxMore StepProofs StepInv StepEq TableauProofs
  TimeProofs TimeMore AscProofs EulerStep RealRun EulerThms LinRun ConsThms PosProofs HealthProofs CarryProofs WallProofs P_Init P_Wall P_Conserve KtHealth P_Healthy KtCarry P_Carry.
Import ListNotations.
Local Open Scope R_scope.

(** One step of any length: velocity and pressure stay what they are, as long
    as no density becomes zero. *)
Theorem C76_kt_velocity_pressure : forall S (c : config XRn) md a b l th g x q (s s' : sim XRn (Kt XRn)) validation fuel dt,
  let m := mesh_build (A:=XRn) S (cf_mesh c) in
  let bw := init_bc (cf_bc_west c) 3 in let be := init_bc (cf_bc_east c) 3 in
  (6 <= S)%nat -> cf_mesh c = mkMC (A:=XRn) md (Fin a) (Fin b) -> a < b ->
  nc_numflux (cf_numerics c) = CKt l -> limiter_theta l = Fin th -> tvd_limiter l th ->
  pc_gamma (cf_physics c) = Fin g -> 1 < g -> copies_flow bw -> copies_flow be ->
  reached Adiab S c m (fun _ => True) s -> consistent Adiab S bw be m (cent (s_u s)) -> healthy Adiab S (cent (s_u s)) ->
  carried S x q (cent (s_u s)) ->
  solver_next validation fuel Adiab S m s = (s', Ok tt) -> ts_dt (s_ts s') = Fin dt ->
  (forall i, (2 <= i <= S - 3)%nat -> at2 (n0 XRn) (prim (cent (s_u s'))) 0 i <> Fin 0) ->
  carried S x q (cent (s_u s')).
Proof.
  intros S c md a b l th g x q s s' validation fuel dt m bw be HS Hc Hab Hnf Hth Htvd Hg Hg1 Bw Be Hr C H Ca E Hd Nz. unfold m in *. rewrite Hc in *.
  exact (kt_carry_step S md a b c l th g x q HS Hab Hg Hg1 Hnf Hth Htvd s s' validation fuel dt Hr C H Ca Bw Be E Hd Nz).
Qed.
Print Assumptions C76_kt_velocity_pressure.

(** A Courant limited step: no new extrema of the density. *)
Theorem C76_kt_density : forall S (c : config XRn) md a b l th g x q (s s' : sim XRn (Kt XRn)) validation fuel dt,
  let m := mesh_build (A:=XRn) S (cf_mesh c) in
  let dx := (b - a) / INR (S - 4) in
  let bw := init_bc (cf_bc_west c) 3 in let be := init_bc (cf_bc_east c) 3 in
  (6 <= S)%nat -> cf_mesh c = mkMC (A:=XRn) md (Fin a) (Fin b) -> a < b ->
  nc_numflux (cf_numerics c) = CKt l -> limiter_theta l = Fin th -> tvd_limiter l th ->
  pc_gamma (cf_physics c) = Fin g -> 1 < g ->
  reached Adiab S c m (fun _ => True) s -> consistent Adiab S bw be m (cent (s_u s)) -> healthy Adiab S (cent (s_u s)) ->
  carried S x q (cent (s_u s)) ->
  solver_next validation fuel Adiab S m s = (s', Ok tt) -> ts_dt (s_ts s') = Fin dt -> 0 <= dt ->
  courant_limited S dx dt (cent (s_u s)) ->
  no_new_extrema S (cent (s_u s)) (cent (s_u s')).
Proof.
  intros S c md a b l th g x q s s' validation fuel dt m dx bw be HS Hc Hab Hnf Hth Htvd Hg Hg1 Hr C H Ca E Hd Pd Cfl. unfold m in *. rewrite Hc in *.
  exact (kt_carry_density S md a b c l th g x q HS Hab Hg Hg1 Hnf Hth Htvd s s' validation fuel dt Hr C H Ca E Hd Pd Cfl).
Qed.
Print Assumptions C76_kt_density.

(** Any number of Courant limited steps: velocity and pressure stay uniform,
    and if all boundary values are copies the densities keep their bounds. *)
Theorem C76_kt_stays_carried : forall S (c : config XRn) md a b l th g x q lo hi (s s' : sim XRn (Kt XRn)),
  let m := mesh_build (A:=XRn) S (cf_mesh c) in
  let dx := (b - a) / INR (S - 4) in
  let bw := init_bc (cf_bc_west c) 3 in let be := init_bc (cf_bc_east c) 3 in
  (6 <= S)%nat -> cf_mesh c = mkMC (A:=XRn) md (Fin a) (Fin b) -> a < b ->
  nc_numflux (cf_numerics c) = CKt l -> limiter_theta l = Fin th -> tvd_limiter l th ->
  pc_gamma (cf_physics c) = Fin g -> 1 < g -> copies_flow bw -> copies_flow be ->
  reached Adiab S c m (fun _ => True) s -> consistent Adiab S bw be m (cent (s_u s)) -> healthy Adiab S (cent (s_u s)) ->
  carried S x q (cent (s_u s)) -> courant_steps Adiab S m dx s s' ->
  carried S x q (cent (s_u s')) /\
  (cf_bc_west c = BNoGradients -> cf_bc_east c = BNoGradients -> density_within S lo hi (cent (s_u s)) -> density_within S lo hi (cent (s_u s'))).
Proof.
  intros S c md a b l th g x q lo hi s s' m dx bw be HS Hc Hab Hnf Hth Htvd Hg Hg1 Bw Be Hr C H Ca St.
  assert (HS5 : (5 <= S)%nat) by lia.
  unfold m in *. rewrite Hc in *. clear m. set (m := mesh_build (A:=XRn) S (mkMC (A:=XRn) md (Fin a) (Fin b))) in *.
  assert (K : reached Adiab S c m (fun _ => True) s' /\ healthy Adiab S (cent (s_u s')) /\ consistent Adiab S bw be m (cent (s_u s')) /\ carried S x q (cent (s_u s')) /\
    (cf_bc_west c = BNoGradients -> cf_bc_east c = BNoGradients -> density_within S lo hi (cent (s_u s)) -> density_within S lo hi (cent (s_u s')))).
  { induction St as [s|s s1 s2 val fuel dt St IH E Hd Pd Cfl|s s1 ts St IH].
    - auto 6.
    - destruct (IH Hr C H Ca) as (R1 & H1 & C1 & Ca1 & D1).
      destruct (kt_carry_healthy S md a b c l th g x q HS Hab Hg Hg1 Hnf Hth Htvd s1 s2 val fuel dt R1 C1 H1 Ca1 Bw Be E Hd Pd Cfl) as (H2 & C2 & Ca2).
      assert (R2 : reached Adiab S c m (fun _ => True) s2).
      { destruct R1 as (u0 & s0 & P0 & N0 & G0 & Ev). exists u0, s0. repeat match goal with |- _ /\ _ => split end; auto. eapply ev_step; eauto. }
      split; [exact R2|]. split; [exact H2|]. split; [exact C2|]. split.
      + exact Ca2.
      + intros Nw Ne D0. specialize (D1 Nw Ne D0).
        pose proof (kt_carry_density S md a b c l th g x q HS Hab Hg Hg1 Hnf Hth Htvd s1 s2 val fuel dt R1 C1 H1 Ca1 E Hd Pd Cfl) as X.
        assert (In1 : forall i, interior S i -> exists r, at2 (n0 XRn) (prim (cent (s_u s2))) 0 i = Fin r /\ lo <= r <= hi).
        { intros i Hi. pose proof Hi as Hi'. unfold interior in Hi'.
          destruct (D1 (i - 1)%nat ltac:(lia)) as (r0 & E0 & B0). destruct (D1 i ltac:(lia)) as (r1 & E1 & B1). destruct (D1 (i + 1)%nat ltac:(lia)) as (r2 & E2 & B2).
          destruct (X i r0 r1 r2 Hi E0 E1 E2) as (r & Er & L & U). exists r. split; [exact Er|]. split.
          - eapply Rle_trans; [|exact L]. repeat apply Rmin_glb; lra.
          - eapply Rle_trans; [exact U|]. repeat apply Rmax_lub; lra. }
        intros i Hi. destruct (cell_cases S i HS Hi) as [Hin|(sd & k & Hk & ->)]; [apply In1; exact Hin|].
        assert (I0 : interior S (inner_cell sd S 0)) by (destruct sd; unfold interior, inner_cell; lia).
        assert (Sh : shape 3 S (prim (cent (s_u s2)))).
        { destruct (reached_kt _ _ _ _ _ R2) as (k0 & _ & R3). pose proof (kt_memoryless XRn Adiab S m k0 HS5 (std_build XRn S (mkMC (A:=XRn) md (Fin a) (Fin b)))) as Hm.
          destruct (reached_ok XRn (Kt XRn) Adiab S m _ HS5 Hm c s2 R3) as (Hok & _). apply Hok. }
        assert (Cp : forall md0, In (0%nat, md0) (init_bc BNoGradients 3) -> md0 = NoGradients).
        { intros md0 Y. apply in_map_iff in Y. destruct Y as (z & Y & _). injection Y as _ <-. reflexivity. }
        unfold bw, be in C2. rewrite Nw, Ne in C2.
        destruct sd; [rewrite (copied_ghost West S m (init_bc BNoGradients 3))|rewrite (copied_ghost East S m (init_bc BNoGradients 3))]; auto; try apply C2; cbn; auto.
    - destruct (IH Hr C H Ca) as (R1 & H1 & C1 & Ca1 & D1). split; [|auto 6].
      destruct R1 as (u0 & s0 & P0 & N0 & G0 & Ev). exists u0, s0. repeat match goal with |- _ /\ _ => split end; auto. apply ev_time. exact Ev. }
  destruct K as (_ & _ & _ & K1 & K2). auto.
Qed.
Print Assumptions C76_kt_stays_carried.

(** From init_corries, for any initial condition function. *)
Theorem C76_kt_simulation : forall meta banner isched init S md a b l th c w w' k x q lo hi s',
  let dx := (b - a) / INR (S - 4) in
  (6 <= S)%nat -> cf_mesh c = mkMC (A:=XRn) md (Fin a) (Fin b) -> fills_state Adiab S init ->
  nc_numflux (cf_numerics c) = CKt l -> limiter_theta l = Fin th -> tvd_limiter l th ->
  cf_bc_west c = BNoGradients -> cf_bc_east c = BNoGradients ->
  init_corries (A:=XRn) (N:=Kt XRn) true meta banner isched init Adiab S c w = (w', Ok k) ->
  healthy Adiab S (cent (s_u (c_sim k))) -> carried S x q (cent (s_u (c_sim k))) -> density_within S lo hi (cent (s_u (c_sim k))) ->
  courant_steps Adiab S (c_mesh k) dx (c_sim k) s' ->
  carried S x q (cent (s_u s')) /\ density_within S lo hi (cent (s_u s')).
Proof.
  intros meta banner isched init S md a b l th c w w' k x q lo hi s' dx HS Hm Hi Hnf Hth Htvd Nw Ne H Hh Ca Dw St.
  destruct (init_box meta banner isched init Adiab S md a b c w w' k ltac:(lia) Hm Hi H) as (Hab & (g & Hg & Hg1) & Em & Hr).
  destruct (init_start meta banner isched init Adiab S c w w' k HS Hi H) as (C & _).
  rewrite Em in Hr, C, St. rewrite <- Hm in Hr, C, St.
  assert (Cp : copies_flow (init_bc BNoGradients 3)).
  { split; [intros j Hj; cbn; lia|]. intros j md0 Y. apply in_map_iff in Y. destruct Y as (z & Y & _). injection Y as _ <-. auto. }
  destruct (C76_kt_stays_carried S c md a b l th g x q lo hi (c_sim k) s' HS Hm Hab Hnf Hth Htvd Hg ltac:(lra) ltac:(rewrite Nw; exact Cp) ltac:(rewrite Ne; exact Cp) Hr C Hh Ca St) as (K1 & K2).
  split; [exact K1|apply K2; assumption].
Qed.
Print Assumptions C76_kt_simulation.

(** The density jump of P_Carry, with any limiter of the theorem. *)
Example C76_kt_nonvacuous : forall l th md, limiter_theta l = Fin th -> tvd_limiter l th -> let c := rcfg (CKt l) md false (1 / 2) in
  exists (s s' : sim XRn (Kt XRn)), reached Adiab 6 c (rmesh 6) (fun _ => True) s /\
    consistent Adiab 6 (init_bc (cf_bc_west c) 3) (init_bc (cf_bc_east c) 3) (rmesh 6) (cent (s_u s)) /\
    healthy Adiab 6 (cent (s_u s)) /\ copies_flow (init_bc (cf_bc_west c) 3) /\
    carried 6 1 (5 / 7) (cent (s_u s)) /\ density_within 6 (/ 4) 1 (cent (s_u s)) /\
    at2 (n0 XRn) (prim (cent (s_u s))) 0 2 = Fin 1 /\ at2 (n0 XRn) (prim (cent (s_u s))) 0 3 = Fin (/ 4) /\
    solver_next false 1 Adiab 6 (rmesh 6) s = (s', Ok tt) /\ ts_dt (s_ts s') = Fin (1 / 12) /\
    courant_limited 6 ((2 - 1) / INR (6 - 4)) (1 / 12) (cent (s_u s)) /\
    courant_steps Adiab 6 (rmesh 6) ((2 - 1) / INR (6 - 4)) s s'.
Proof.
  intros l th md _ _ c.
  destruct (kt_new (A:=XRn) Adiab 6 (CKt l) (rmesh 6)) as [k0|e| |] eqn:Ek; [|discriminate Ek..].
  exact (dense_flow (Kt XRn) (CKt l) md k0 (kt_total XRn Adiab 6 (rmesh 6)) Ek).
Qed.
