(** Density profiles in a uniform flow (C76). *)

From Coq Require Import Reals ZArith NArith QArith Qreals List Bool Lia Lra.
From Verif Require Import Base Num XReal Config Mesh State NumFlux Time Writer Runner Spec SpecFlow SpecStep SpecTableau SpecEuler SpecInit SpecWall SpecHealthy SpecCarry
  MeshProofs BoundaryProofs PhysicsProofs FluxProofs UpdateProofs FluxReal FluxThms FluxMore StepProofs StepInv StepEq TableauProofs
  TimeProofs TimeMore AscProofs EulerStep RealRun EulerThms LinRun ConsThms PosProofs HealthProofs CarryProofs WallProofs P_Init P_Wall P_Conserve P_Healthy.
Import ListNotations.
Local Open Scope R_scope.

(** One step of any length: velocity and pressure stay what they are, as long
    as no density becomes zero. *)
Theorem C76_velocity_pressure : forall S (c : config XRn) md a b g x q (s s' : sim XRn (Hll XRn)) validation fuel dt,
  let m := mesh_build (A:=XRn) S (cf_mesh c) in
  let bw := init_bc (cf_bc_west c) 3 in let be := init_bc (cf_bc_east c) 3 in
  (6 <= S)%nat -> cf_mesh c = mkMC (A:=XRn) md (Fin a) (Fin b) -> a < b ->
  pc_gamma (cf_physics c) = Fin g -> 1 < g -> copies_flow bw -> copies_flow be ->
  reached Adiab S c m (fun _ => True) s -> consistent Adiab S bw be m (cent (s_u s)) -> healthy Adiab S (cent (s_u s)) ->
  carried S x q (cent (s_u s)) ->
  solver_next validation fuel Adiab S m s = (s', Ok tt) -> ts_dt (s_ts s') = Fin dt ->
  (forall i, (2 <= i <= S - 3)%nat -> at2 (n0 XRn) (prim (cent (s_u s'))) 0 i <> Fin 0) ->
  carried S x q (cent (s_u s')).
Proof.
  intros S c md a b g x q s s' validation fuel dt m bw be HS Hc Hab Hg Hg1 Bw Be Hr C H Ca E Hd Nz. unfold m in *. rewrite Hc in *.
  exact (carry_step S md a b c g x q HS Hab Hg Hg1 s s' validation fuel dt Hr C H Ca Bw Be E Hd Nz).
Qed.
Print Assumptions C76_velocity_pressure.

(** A Courant limited step: no new extrema of the density. *)
Theorem C76_density : forall S (c : config XRn) md a b g x q (s s' : sim XRn (Hll XRn)) validation fuel dt,
  let m := mesh_build (A:=XRn) S (cf_mesh c) in
  let dx := (b - a) / INR (S - 4) in
  let bw := init_bc (cf_bc_west c) 3 in let be := init_bc (cf_bc_east c) 3 in
  (6 <= S)%nat -> cf_mesh c = mkMC (A:=XRn) md (Fin a) (Fin b) -> a < b ->
  pc_gamma (cf_physics c) = Fin g -> 1 < g ->
  reached Adiab S c m (fun _ => True) s -> consistent Adiab S bw be m (cent (s_u s)) -> healthy Adiab S (cent (s_u s)) ->
  carried S x q (cent (s_u s)) ->
  solver_next validation fuel Adiab S m s = (s', Ok tt) -> ts_dt (s_ts s') = Fin dt -> 0 <= dt ->
  courant_limited S dx dt (cent (s_u s)) ->
  no_new_extrema S (cent (s_u s)) (cent (s_u s')).
Proof.
  intros S c md a b g x q s s' validation fuel dt m dx bw be HS Hc Hab Hg Hg1 Hr C H Ca E Hd Pd Cfl. unfold m in *. rewrite Hc in *.
  exact (carry_density S md a b c g x q HS Hab Hg Hg1 s s' validation fuel dt Hr C H Ca E Hd Pd Cfl).
Qed.
Print Assumptions C76_density.

(** Any number of Courant limited steps: velocity and pressure stay uniform,
    and if all boundary values are copies the densities keep their bounds. *)
Theorem C76_stays_carried : forall S (c : config XRn) md a b g x q lo hi (s s' : sim XRn (Hll XRn)),
  let m := mesh_build (A:=XRn) S (cf_mesh c) in
  let dx := (b - a) / INR (S - 4) in
  let bw := init_bc (cf_bc_west c) 3 in let be := init_bc (cf_bc_east c) 3 in
  (6 <= S)%nat -> cf_mesh c = mkMC (A:=XRn) md (Fin a) (Fin b) -> a < b ->
  pc_gamma (cf_physics c) = Fin g -> 1 < g -> copies_flow bw -> copies_flow be ->
  reached Adiab S c m (fun _ => True) s -> consistent Adiab S bw be m (cent (s_u s)) -> healthy Adiab S (cent (s_u s)) ->
  carried S x q (cent (s_u s)) -> courant_steps Adiab S m dx s s' ->
  carried S x q (cent (s_u s')) /\
  (cf_bc_west c = BNoGradients -> cf_bc_east c = BNoGradients -> density_within S lo hi (cent (s_u s)) -> density_within S lo hi (cent (s_u s'))).
Proof.
  intros S c md a b g x q lo hi s s' m dx bw be HS Hc Hab Hg Hg1 Bw Be Hr C H Ca St.
  assert (HS5 : (5 <= S)%nat) by lia.
  unfold m in *. rewrite Hc in *. clear m. set (m := mesh_build (A:=XRn) S (mkMC (A:=XRn) md (Fin a) (Fin b))) in *.
  assert (K : reached Adiab S c m (fun _ => True) s' /\ healthy Adiab S (cent (s_u s')) /\ consistent Adiab S bw be m (cent (s_u s')) /\ carried S x q (cent (s_u s')) /\
    (cf_bc_west c = BNoGradients -> cf_bc_east c = BNoGradients -> density_within S lo hi (cent (s_u s)) -> density_within S lo hi (cent (s_u s')))).
  { induction St as [s|s s1 s2 val fuel dt St IH E Hd Pd Cfl|s s1 ts St IH].
    - auto 6.
    - destruct (IH Hr C H Ca) as (R1 & H1 & C1 & Ca1 & D1).
      destruct (healthy_step Adiab S md a b c s1 s2 val fuel dt g HS Hab R1 (copies_gentle _ Bw) (copies_gentle _ Be) C1 H1 Hg (fun _ => Hg1) E Hd Pd Cfl) as (H2 & C2).
      assert (R2 : reached Adiab S c m (fun _ => True) s2).
      { destruct R1 as (u0 & s0 & P0 & N0 & G0 & Ev). exists u0, s0. repeat match goal with |- _ /\ _ => split end; auto. eapply ev_step; eauto. }
      split; [exact R2|]. split; [exact H2|]. split; [exact C2|]. split.
      + apply (carry_step S md a b c g x q HS Hab Hg Hg1 s1 s2 val fuel dt R1 C1 H1 Ca1 Bw Be E Hd).
        intros i Hi Z. destruct H2 as (H2 & _). destruct (H2 i ltac:(unfold interior in Hi; lia)) as ((r & Er & Pr) & _). rewrite Er in Z. injection Z as Z. lra.
      + intros Nw Ne D0. specialize (D1 Nw Ne D0).
        pose proof (carry_density S md a b c g x q HS Hab Hg Hg1 s1 s2 val fuel dt R1 C1 H1 Ca1 E Hd Pd Cfl) as X.
        assert (In1 : forall i, interior S i -> exists r, at2 (n0 XRn) (prim (cent (s_u s2))) 0 i = Fin r /\ lo <= r <= hi).
        { intros i Hi. pose proof Hi as Hi'. unfold interior in Hi'.
          destruct (D1 (i - 1)%nat ltac:(lia)) as (r0 & E0 & B0). destruct (D1 i ltac:(lia)) as (r1 & E1 & B1). destruct (D1 (i + 1)%nat ltac:(lia)) as (r2 & E2 & B2).
          destruct (X i r0 r1 r2 Hi E0 E1 E2) as (r & Er & L & U). exists r. split; [exact Er|]. split.
          - eapply Rle_trans; [|exact L]. repeat apply Rmin_glb; lra.
          - eapply Rle_trans; [exact U|]. repeat apply Rmax_lub; lra. }
        intros i Hi. destruct (cell_cases S i HS Hi) as [Hin|(sd & k & Hk & ->)]; [apply In1; exact Hin|].
        assert (I0 : interior S (inner_cell sd S 0)) by (destruct sd; unfold interior, inner_cell; lia).
        assert (Sh : shape 3 S (prim (cent (s_u s2)))).
        { pose proof (hll_memoryless XRn Adiab S m HS5 (std_build XRn S (mkMC (A:=XRn) md (Fin a) (Fin b)))) as Hm.
          destruct (reached_ok XRn (Hll XRn) Adiab S m _ HS5 Hm c s2 R2) as (Hok & _). apply Hok. }
        assert (Cp : forall md0, In (0%nat, md0) (init_bc BNoGradients 3) -> md0 = NoGradients).
        { intros md0 Y. apply in_map_iff in Y. destruct Y as (z & Y & _). injection Y as _ <-. reflexivity. }
        unfold bw, be in C2. rewrite Nw, Ne in C2.
        destruct sd; [rewrite (copied_ghost West S m (init_bc BNoGradients 3))|rewrite (copied_ghost East S m (init_bc BNoGradients 3))]; auto; try apply C2; cbn; auto.
    - destruct (IH Hr C H Ca) as (R1 & H1 & C1 & Ca1 & D1). split; [|auto 6].
      destruct R1 as (u0 & s0 & P0 & N0 & G0 & Ev). exists u0, s0. repeat match goal with |- _ /\ _ => split end; auto. apply ev_time. exact Ev. }
  destruct K as (_ & _ & _ & K1 & K2). auto.
Qed.
Print Assumptions C76_stays_carried.

(** From init_corries, for any initial condition function. *)
Theorem C76_simulation : forall meta banner isched init S md a b c w w' k x q lo hi s',
  let dx := (b - a) / INR (S - 4) in
  (6 <= S)%nat -> cf_mesh c = mkMC (A:=XRn) md (Fin a) (Fin b) -> fills_state Adiab S init ->
  cf_bc_west c = BNoGradients -> cf_bc_east c = BNoGradients ->
  init_corries (A:=XRn) (N:=Hll XRn) true meta banner isched init Adiab S c w = (w', Ok k) ->
  healthy Adiab S (cent (s_u (c_sim k))) -> carried S x q (cent (s_u (c_sim k))) -> density_within S lo hi (cent (s_u (c_sim k))) ->
  courant_steps Adiab S (c_mesh k) dx (c_sim k) s' ->
  carried S x q (cent (s_u s')) /\ density_within S lo hi (cent (s_u s')).
Proof.
  intros meta banner isched init S md a b c w w' k x q lo hi s' dx HS Hm Hi Nw Ne H Hh Ca Dw St.
  destruct (init_box meta banner isched init Adiab S md a b c w w' k ltac:(lia) Hm Hi H) as (Hab & (g & Hg & Hg1) & Em & Hr).
  pose proof (init_healthy meta banner isched init Adiab S md a b c w w' k HS Hm Hi H) as C.
  rewrite Em in Hr, C, St. rewrite <- Hm in Hr, C, St.
  assert (Cp : copies_flow (init_bc BNoGradients 3)).
  { split; [intros j Hj; cbn; lia|]. intros j md0 Y. apply in_map_iff in Y. destruct Y as (z & Y & _). injection Y as _ <-. auto. }
  destruct (C76_stays_carried S c md a b g x q lo hi (c_sim k) s' HS Hm Hab Hg ltac:(lra) ltac:(rewrite Nw; exact Cp) ltac:(rewrite Ne; exact Cp) Hr C Hh Ca St) as (K1 & K2).
  split; [exact K1|apply K2; assumption].
Qed.
Print Assumptions C76_simulation.

(** A density jump from 1 to 1/4 in a flow of velocity 1 and pressure 5/7, so
    that the sound speeds are 1 and 2: a step of the library's choice is Courant
    limited. *)
Definition dense (j i : nat) : R :=
  match j with 0%nat => if (i <? 3)%nat then 1 else / 4 | 1%nat => 1 | _ => 5 / 7 end.

Lemma dense_flow : forall (N : numflux_impl XRn) nfc md nf,
  (forall self d u, exists a b c, nf_calc N false Adiab 6 self d u (rmesh 6) = (a, b, c, Ok tt)) -> nf_new N Adiab 6 nfc (rmesh 6) = Ok nf ->
  let c := rcfg nfc md false (1 / 2) in
  exists (s s' : sim XRn N), reached Adiab 6 c (rmesh 6) (fun _ => True) s /\
    consistent Adiab 6 (init_bc (cf_bc_west c) 3) (init_bc (cf_bc_east c) 3) (rmesh 6) (cent (s_u s)) /\
    healthy Adiab 6 (cent (s_u s)) /\ copies_flow (init_bc (cf_bc_west c) 3) /\
    carried 6 1 (5 / 7) (cent (s_u s)) /\ density_within 6 (/ 4) 1 (cent (s_u s)) /\
    at2 (n0 XRn) (prim (cent (s_u s))) 0 2 = Fin 1 /\ at2 (n0 XRn) (prim (cent (s_u s))) 0 3 = Fin (/ 4) /\
    solver_next false 1 Adiab 6 (rmesh 6) s = (s', Ok tt) /\ ts_dt (s_ts s') = Fin (1 / 12) /\
    courant_limited 6 ((2 - 1) / INR (6 - 4)) (1 / 12) (cent (s_u s)) /\
    courant_steps Adiab 6 (rmesh 6) ((2 - 1) / INR (6 - 4)) s s'.
Proof.
  intros N nfc md nf Tot Hnew c.
  destruct (rdemo Adiab 6 (14 / 10) 1 dense (rmesh 6) ltac:(lia)) as (v & _ & Cv & Wv & Gv & Pv & _).
  set (s := rsim (N:=N) Adiab 6 c nf v 10).
  set (cs := fun i => if (clamp 6 i <? 3)%nat then 1 else 2).
  assert (Qs : forall i, (i < 6)%nat -> at1 (n0 XRn) (c_sound v) i = Fin (cs i)).
  { intros i Hi. rewrite (cst_sound _ _ _ _ _ _ _ Cv i eq_refl Hi), Gv, !Pv by (cbn; lia). cbn [dense]. unfold cs.
    destruct (clamp 6 i <? 3)%nat; rewrite X_mul, X_div, X_sqrt by lra; f_equal.
    - replace (14 / 10 * (5 / 7) / 1) with (1 * 1) by field. apply sqrt_square. lra.
    - replace (14 / 10 * (5 / 7) / / 4) with (2 * 2) by field. apply sqrt_square. lra. }
  assert (Hh : hx 6 1 2 = 1 / 2) by (unfold hx; replace (INR (6 - 4)) with 2 by (cbn; ring); lra).
  pose proof (cfl_mesh Adiab 6 Cartesian 1 2 (1 / 2) (one_state v) _ _ (fun i => dense 1 (clamp 6 i)) cs ltac:(lia) ltac:(lra) ltac:(lra) Cv) as K.
  specialize (K ltac:(apply Wv) ltac:(intros i Hi; split; [apply (Pv 1%nat i); [cbn; lia|exact Hi]|apply Qs; exact Hi])).
  change (mesh_build (A:=XRn) 6 (mkMC (A:=XRn) Cartesian (Fin 1) (Fin 2))) with (rmesh 6) in K. cbn [dense] in K. rewrite Hh in K.
  assert (Cs : forall i, cs i = 1 \/ cs i = 2) by (intros i; unfold cs; destruct (clamp 6 i <? 3)%nat; auto).
  assert (D : st_calc_dt_cfl Adiab 6 (one_state v) (Fin (1 / 2) : nF XRn) (rmesh 6) = Ok (Fin (1 / 12) : nF XRn)).
  { destruct (st_calc_dt_cfl Adiab 6 (one_state v) (Fin (1 / 2) : nF XRn) (rmesh 6)) as [[d| | |]|e| |]; try contradiction.
    - destruct K as (K1 & K2 & (i & Hi & K3)). pose proof (K2 5%nat ltac:(lia)) as K5. change (cs 5%nat) with 2 in K5.
      rewrite Rabs_pos_eq in K5 by lra. destruct (Cs i) as [Ci|Ci]; rewrite Ci, Rabs_pos_eq in K3 by lra; [exfalso; lra|]. do 2 f_equal. lra.
    - exfalso. destruct e; try contradiction. specialize (K 0%nat ltac:(lia)). destruct (Cs 0%nat); lra. }
  destruct (fun x y => total_next XRn N Adiab 6 (rmesh 6) Tot 1%nat s (Fin (1 / 12) : nF XRn) eq_refl eq_refl x D y) as (s' & E).
  { destruct md; reflexivity. }
  { change (ts_dt_min (s_ts s)) with (Fin (1 / 1000000) : nF XRn). rewrite X_ltb. destruct (Rlt_dec _ _) as [L|L]; [exfalso; lra|reflexivity]. }
  assert (Sn : solver_next false 1 Adiab 6 (rmesh 6) s = (s', Ok tt)).
  { unfold solver_next. rewrite E. destruct (rkf_next_cases _ _ _ _ _ _ _ _ _ _ E) as (_ & _ & T & I & _).
    assert (M : ts_iter_max (s_ts s') = 100%N) by (destruct T as (T1 & T2); rewrite T1; reflexivity). rewrite M, I. reflexivity. }
  assert (Hd : ts_dt (s_ts s') = Fin (1 / 12)).
  { rewrite (plain_dt N Adiab 6 (rmesh 6) false 1 s s' (1 / 12) 0 10 1000 ltac:(destruct md; reflexivity) D eq_refl eq_refl eq_refl ltac:(lra) E).
    rewrite (Rmin_left (1 / 12) 1000) by lra. rewrite (Rmin_left (1 / 12) (10 - 0)) by lra. exact eq_refl. }
  assert (Cl : courant_limited 6 ((2 - 1) / INR (6 - 4)) (1 / 12) v).
  { intros i x cx Hi Ex Ec. rewrite (Pv 1%nat i) in Ex by (cbn; lia). rewrite Qs in Ec by exact Hi. injection Ex as <-. injection Ec as <-. cbn [dense].
    replace (INR (6 - 4)) with 2 by (cbn; ring). destruct (Cs i) as [-> | ->].
    - rewrite !Rabs_pos_eq by lra. lra.
    - rewrite (Rabs_left (1 - 2)) by lra. rewrite Rabs_pos_eq by lra. lra. }
  exists s, s'. split; [apply (rsim_reached N Adiab 6 nfc md false (1 / 2) nf v 10 Hnew Wv Gv)|]. split; [exact Cv|]. split.
  { split.
    - intros i Hi. split; [|split; [|split]].
      + exists (dense 0 (clamp 6 i)). split; [apply Pv; [cbn; lia|exact Hi]|]. cbn [dense]. destruct (_ <? _)%nat; lra.
      + exists 1. apply (Pv 1%nat i); [cbn; lia|exact Hi].
      + intros _. exists (5 / 7). split; [apply (Pv 2%nat i); [cbn; lia|exact Hi]|lra].
      + exists (cs i). split; [apply Qs; exact Hi|]. destruct (Cs i); lra.
    - intros j i Hj Hi. change (cent (s_u s)) with v. rewrite (cst_cons _ _ _ _ _ _ _ Cv j i Hj Hi), Gv.
      exists (conserved Adiab (14 / 10) (fun l => dense l (clamp 6 i)) j).
      apply (p2c_R Adiab (14 / 10) (fun l => dense l (clamp 6 i)) (fun l => at2 (n0 XRn) (prim v) l i)); [intros _; lra|exact Hj|].
      intros l Hl. apply Pv; assumption. }
  split; [split; [intros j Hj; cbn; lia|intros j md0 Y; apply in_map_iff in Y; destruct Y as (z & Y & _); injection Y as _ <-; auto]|].
  split; [intros i Hi; split; [apply (Pv 1%nat i)|apply (Pv 2%nat i)]; cbn; lia|].
  split; [intros i Hi; exists (dense 0 (clamp 6 i)); split; [apply Pv; [cbn; lia|exact Hi]|cbn [dense]; destruct (_ <? _)%nat; lra]|].
  split; [apply (Pv 0%nat 2%nat); cbn; lia|]. split; [apply (Pv 0%nat 3%nat); cbn; lia|].
  split; [exact Sn|]. split; [exact Hd|]. split; [exact Cl|].
  eapply cst_step; [apply cst_none|exact Sn|exact Hd|lra|exact Cl].
Qed.

Example C76_nonvacuous : forall md, let c := rcfg CHll md false (1 / 2) in
  exists (s s' : sim XRn (Hll XRn)), reached Adiab 6 c (rmesh 6) (fun _ => True) s /\
    consistent Adiab 6 (init_bc (cf_bc_west c) 3) (init_bc (cf_bc_east c) 3) (rmesh 6) (cent (s_u s)) /\
    healthy Adiab 6 (cent (s_u s)) /\ copies_flow (init_bc (cf_bc_west c) 3) /\
    carried 6 1 (5 / 7) (cent (s_u s)) /\ density_within 6 (/ 4) 1 (cent (s_u s)) /\
    at2 (n0 XRn) (prim (cent (s_u s))) 0 2 = Fin 1 /\ at2 (n0 XRn) (prim (cent (s_u s))) 0 3 = Fin (/ 4) /\
    solver_next false 1 Adiab 6 (rmesh 6) s = (s', Ok tt) /\ ts_dt (s_ts s') = Fin (1 / 12) /\
    courant_limited 6 ((2 - 1) / INR (6 - 4)) (1 / 12) (cent (s_u s)) /\
    courant_steps Adiab 6 (rmesh 6) ((2 - 1) / INR (6 - 4)) s s'.
Proof. intros md c. apply (dense_flow (Hll XRn) CHll md _ (hll_total XRn Adiab 6 (rmesh 6)) eq_refl). Qed.
