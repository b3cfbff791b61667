(** C72: with HLL a gas with positive densities and pressures stays one, in
    every step in which no wave crosses more than half a cell. *)

From Coq Require Import Reals ZArith NArith QArith Qreals List Bool Lia Lra.
From Verif Require Import Base Num XReal Config Mesh State NumFlux Time Writer Runner Spec SpecFlow SpecStep SpecTableau SpecEuler SpecInit SpecWall SpecHealthy
  MeshProofs BoundaryProofs PhysicsProofs FluxProofs UpdateProofs FluxReal FluxThms FluxMore StepProofs StepInv StepEq TableauProofs
  TimeProofs TimeMore AscProofs EulerStep RealRun EulerThms LinRun ConsThms PosProofs HealthProofs WallProofs P_Init P_Wall P_Conserve.
Import ListNotations.
Local Open Scope R_scope.

(** From any healthy and consistent state of a solver. *)
Theorem C72_stays_healthy : forall p S (c : config XRn) md a b g (s s' : sim XRn (Hll XRn)),
  let m := mesh_build (A:=XRn) S (cf_mesh c) in
  let dx := (b - a) / INR (S - 4) in
  let bw := init_bc (cf_bc_west c) (nE p) in let be := init_bc (cf_bc_east c) (nE p) in
  (6 <= S)%nat -> cf_mesh c = mkMC (A:=XRn) md (Fin a) (Fin b) -> a < b ->
  pc_gamma (cf_physics c) = Fin g -> (p = Adiab -> 1 < g) ->
  gentle_bc (nE p) bw -> gentle_bc (nE p) be ->
  reached p S c m (fun _ => True) s ->
  consistent p S bw be m (cent (s_u s)) -> healthy p S (cent (s_u s)) ->
  courant_steps p S m dx s s' ->
  healthy p S (cent (s_u s')) /\ consistent p S bw be m (cent (s_u s')) /\ vars_validate (cent (s_u s')) = Ok tt.
Proof.
  intros p S c md a b g s s' m dx bw be HS Hc Hab Hg Hg1 Gw Ge Hr C H St.
  assert (HS5 : (5 <= S)%nat) by lia.
  unfold m in *. rewrite Hc in *. clear m. set (m := mesh_build (A:=XRn) S (mkMC (A:=XRn) md (Fin a) (Fin b))) in *.
  assert (K : reached p S c m (fun _ => True) s' /\ healthy p S (cent (s_u s')) /\ consistent p S bw be m (cent (s_u s'))).
  { induction St as [s|s s1 s2 val fuel dt St IH E Hd Pd Cfl|s s1 ts St IH].
    - auto.
    - destruct (IH Hr C H) as (R1 & H1 & C1). split.
      + destruct R1 as (u0 & s0 & P0 & N0 & G0 & Ev). exists u0, s0. repeat match goal with |- _ /\ _ => split end; auto. eapply ev_step; eauto.
      + exact (healthy_step p S md a b c s1 s2 val fuel dt g HS Hab R1 Gw Ge C1 H1 Hg Hg1 E Hd Pd Cfl).
    - destruct (IH Hr C H) as (R1 & H1 & C1). split; [|split; [exact H1|exact C1]].
      destruct R1 as (u0 & s0 & P0 & N0 & G0 & Ev). exists u0, s0. repeat match goal with |- _ /\ _ => split end; auto. apply ev_time. exact Ev. }
  destruct K as (R' & H' & C'). split; [exact H'|]. split; [exact C'|].
  pose proof (hll_memoryless XRn p S m HS5 (std_build XRn S _)) as Hm.
  destruct (reached_ok XRn (Hll XRn) p S m _ HS5 Hm c s' R') as (Hok & _).
  apply (healthy_valid p S); [apply Hok|exact H'].
Qed.
Print Assumptions C72_stays_healthy.

(** The step size the library chooses: it knows the waves to the right (v + c)
    only, so the waves to the left must not be faster than [r] times the
    fastest of those, and the Courant number at most 1/(2r).  For a gas in which
    no velocity is negative [r] is 1. *)
Theorem C72_library_step : forall p S (c : config XRn) md a b g (s s' : sim XRn (Hll XRn)) validation fuel r k t tn M (x cs : nat -> R),
  let m := mesh_build (A:=XRn) S (cf_mesh c) in
  let bw := init_bc (cf_bc_west c) (nE p) in let be := init_bc (cf_bc_east c) (nE p) in
  (6 <= S)%nat -> cf_mesh c = mkMC (A:=XRn) md (Fin a) (Fin b) -> a < b ->
  pc_gamma (cf_physics c) = Fin g -> (p = Adiab -> 1 < g) ->
  gentle_bc (nE p) bw -> gentle_bc (nE p) be ->
  reached p S c m (fun _ => True) s ->
  consistent p S bw be m (cent (s_u s)) -> healthy p S (cent (s_u s)) ->
  (forall i, (i < S)%nat -> at2 (n0 XRn) (prim (cent (s_u s))) 1 i = Fin (x i) /\ at1 (n0 XRn) (c_sound (cent (s_u s))) i = Fin (cs i)) ->
  1 <= r -> (forall i, (i < S)%nat -> exists l, (l < S)%nat /\ Rabs (x i - cs i) <= r * Rabs (x l + cs l)) ->
  rc_asc (nc_time (cf_numerics c)) = false -> ts_cfl (s_ts s) = Fin k -> 0 < k <= 1 / (2 * r) ->
  ts_t (s_ts s) = Fin t -> ts_t_next (s_ts s) = Fin tn -> ts_dt_max (s_ts s) = Fin M -> 0 < tn -> t <= tn -> 0 <= M ->
  solver_next validation fuel p S m s = (s', Ok tt) ->
  healthy p S (cent (s_u s')) /\ consistent p S bw be m (cent (s_u s')).
Proof.
  intros p S c md a b g s s' val fuel r k t tn M x cs m bw be HS Hc Hab Hg Hg1 Gw Ge Hr C H V Hr1 HV Ha Hk Hk1 Ht Htn HM Ptn Ltn PM E.
  assert (HS5 : (5 <= S)%nat) by lia.
  unfold m in *. rewrite Hc in *. clear m. set (m := mesh_build (A:=XRn) S (mkMC (A:=XRn) md (Fin a) (Fin b))) in *.
  pose proof (hll_memoryless XRn p S m HS5 (std_build XRn S (mkMC (A:=XRn) md (Fin a) (Fin b)))) as Hm.
  destruct (reached_ok XRn (Hll XRn) p S m _ HS5 Hm c s Hr) as (Hok & Hb & _).
  pose proof (cfl_mesh p S md a b k (s_u s) _ _ x cs HS5 Hab ltac:(lra) C ltac:(apply Hok) V) as K. cbv zeta in K. fold m in K.
  pose proof (next_of_solver _ _ _ _ _ _ _ _ _ E) as E'.
  destruct (st_calc_dt_cfl p S (s_u s) (Fin k : nF XRn) m) as [[d| | |]|e| |] eqn:Ed; try contradiction.
  2:{ exfalso. destruct e; try contradiction. destruct (HV 0%nat ltac:(lia)) as (l & Hl & L). rewrite (K l Hl), Rabs_R0, Rmult_0_r in L.
      pose proof (K 0%nat ltac:(lia)) as K0. pose proof (Rabs_pos (x 0%nat - cs 0%nat)) as A0.
      assert (A1 : x 0%nat - cs 0%nat = 0) by (destruct (Req_dec (x 0%nat - cs 0%nat) 0) as [A1|A1]; [exact A1|pose proof (Rabs_pos_lt _ A1); lra]).
      destruct H as (H & _). destruct (H 0%nat ltac:(lia)) as (_ & _ & _ & (c0 & Ec & Pc)). destruct (V 0%nat ltac:(lia)) as (_ & V2). rewrite V2 in Ec. injection Ec as Ec. lra. }
  destruct K as (Pd & K & _).
  assert (Hd : ts_dt (s_ts s') = Fin (Rmin (Rmin d M) (tn - t))).
  { apply (plain_dt (Hll XRn) p S m val fuel s s' d t tn M); auto.
    - rewrite Hb. unfold bt_new. destruct (rc_mode _); cbn [bt_asc]; try reflexivity; exact Ha.
    - rewrite Hk. exact Ed. }
  set (dt := Rmin (Rmin d M) (tn - t)) in *.
  assert (D0 : 0 <= dt) by (unfold dt; repeat apply Rmin_glb; lra).
  assert (D1 : dt <= d) by (unfold dt; eapply Rle_trans; [apply Rmin_l|apply Rmin_l]).
  apply (healthy_step p S md a b c s s' val fuel dt g HS Hab Hr Gw Ge C H Hg Hg1 E Hd D0).
  pose proof (hx_pos S a b HS5 Hab) as Hh.
  assert (Kr : k * r <= 1 / 2).
  { apply Rle_trans with (1 / (2 * r) * r); [apply Rmult_le_compat_r; lra|]. right. field. lra. }
  assert (T : forall i, (i < S)%nat -> dt * (r * Rabs (x i + cs i)) <= hx S a b / 2).
  { intros i Hi. specialize (K i Hi). pose proof (Rabs_pos (x i + cs i)).
    apply Rle_trans with (r * (d * Rabs (x i + cs i))).
    - replace (dt * (r * Rabs (x i + cs i))) with (r * (dt * Rabs (x i + cs i))) by ring. apply Rmult_le_compat_l; [lra|]. apply Rmult_le_compat_r; assumption.
    - apply Rle_trans with (r * (k * hx S a b)); [apply Rmult_le_compat_l; lra|]. replace (r * (k * hx S a b)) with (k * r * hx S a b) by ring.
      apply Rle_trans with (1 / 2 * hx S a b); [apply Rmult_le_compat_r; lra|lra]. }
  intros i y cy Hi Ey Ec. destruct (V i Hi) as (V1 & V2). rewrite V1 in Ey. rewrite V2 in Ec. injection Ey as <-. injection Ec as <-. split.
  - destruct (HV i Hi) as (l & Hl & L). apply Rle_trans with (dt * (r * Rabs (x l + cs l))); [apply Rmult_le_compat_l; assumption|apply T; exact Hl].
  - specialize (T i Hi). pose proof (Rabs_pos (x i + cs i)). apply Rle_trans with (dt * (r * Rabs (x i + cs i))); [|exact T].
    apply Rmult_le_compat_l; [exact D0|]. replace (Rabs (x i + cs i)) with (1 * Rabs (x i + cs i)) at 1 by ring. apply Rmult_le_compat_r; assumption.
Qed.
Print Assumptions C72_library_step.

(** After init_corries, for any initial condition function. *)
Lemma init_healthy : forall meta banner sched init p S md a b c w w' k, (6 <= S)%nat ->
  cf_mesh c = mkMC (A:=XRn) md (Fin a) (Fin b) -> fills_state p S init ->
  init_corries (A:=XRn) (N:=Hll XRn) true meta banner sched init p S c w = (w', Ok k) ->
  consistent p S (init_bc (cf_bc_west c) (nE p)) (init_bc (cf_bc_east c) (nE p)) (c_mesh k) (cent (s_u (c_sim k))).
Proof.
  intros meta banner sched init p S md a b c w w' k HS Hm Hi H.
  destruct (init_box meta banner sched init p S md a b c w w' k ltac:(lia) Hm Hi H) as (_ & _ & Em & Hr).
  assert (B : r_bw (s_rhs (c_sim k)) = init_bc (cf_bc_west c) (nE p) /\ r_be (s_rhs (c_sim k)) = init_bc (cf_bc_east c) (nE p)).
  { rewrite Em in Hr. assert (HS5 : (5 <= S)%nat) by lia. pose proof (hll_memoryless XRn p S _ HS5 (std_build XRn S (mkMC (A:=XRn) md (Fin a) (Fin b)))) as Hme.
    destruct (reached_ok XRn (Hll XRn) p S _ _ HS5 Hme c _ Hr) as (_ & _ & _ & _ & Bw & Be). auto. }
  destruct B as (Bw & Be). rewrite <- Bw, <- Be. clear Bw Be Hr Em. unfold init_corries in H.
  destruct (cf_validate c); try discriminate. destruct (mesh_new true S (cf_mesh c)) as [m|e| |]; try discriminate.
  destruct (solver_new (Hll XRn) p S c m (state_new p S (cf_physics c))) as [s|e| |] eqn:Es; try discriminate.
  destruct (writer_new meta S c m w) as [w1 r1]. destruct r1 as [wr|e| |]; try discriminate.
  destruct (writer_metadata (wr_meta wr) sched (wr_outputs wr) _) as [w2 r2]. destruct r2 as [[]|e| |]; try discriminate.
  destruct (init s m) as [s1 r3] eqn:Ei. injection H as <- H. apply bind_Ok in H. destruct H as ([] & -> & H).
  apply bind_Ok in H. destruct H as (u & Hu & H). injection H as <-. cbn [c_sim s_rhs s_u c_mesh].
  assert (Ws : wss p S (s_u s)).
  { unfold solver_new in Es. apply bind_Ok in Es. destruct Es as (rh & _ & Es). injection Es as <-. cbn. split; [|split]; apply wsv_new. }
  destruct (Hi _ _ _ Ei) as (_ & _ & W & _). specialize (W Ws). destruct W as (W1 & _).
  unfold st_update_from_prim in Hu. apply bind_Ok in Hu. destruct Hu as (v & Hv & Hu). injection Hu as <-.
  cbn [cent init_west_east set_cent].
  eapply prim_consistent; [exact HS|exact W1|exact Hv].
Qed.

Theorem C72_simulation : forall meta banner isched init p S md a b c w w' k s',
  let dx := (b - a) / INR (S - 4) in
  (6 <= S)%nat -> cf_mesh c = mkMC (A:=XRn) md (Fin a) (Fin b) -> fills_state p S init ->
  gentle_bc (nE p) (init_bc (cf_bc_west c) (nE p)) -> gentle_bc (nE p) (init_bc (cf_bc_east c) (nE p)) ->
  init_corries (A:=XRn) (N:=Hll XRn) true meta banner isched init p S c w = (w', Ok k) ->
  healthy p S (cent (s_u (c_sim k))) ->
  courant_steps p S (c_mesh k) dx (c_sim k) s' ->
  healthy p S (cent (s_u s')) /\ vars_validate (cent (s_u s')) = Ok tt.
Proof.
  intros meta banner isched init p S md a b c w w' k s' dx HS Hm Hi Gw Ge H Hh St.
  destruct (init_box meta banner isched init p S md a b c w w' k ltac:(lia) Hm Hi H) as (Hab & (g & Hg & Hg1) & Em & Hr).
  pose proof (init_healthy meta banner isched init p S md a b c w w' k HS Hm Hi H) as C.
  rewrite Em in Hr, C, St. rewrite <- Hm in Hr, C, St.
  destruct (C72_stays_healthy p S c md a b g (c_sim k) s' HS Hm Hab Hg ltac:(intros _; lra) Gw Ge Hr C Hh St) as (H1 & _ & H2). auto.
Qed.
Print Assumptions C72_simulation.

(** The boundary conditions of the shipped examples, and reflecting walls, are
    gentle. *)
Lemma copying_gentle : forall E, gentle_bc E (init_bc BNoGradients E).
Proof.
  intros E. cbn [init_bc]. split.
  - intros j Hj. rewrite map_map. cbn [fst]. rewrite map_id. apply in_seq. lia.
  - intros j md H. apply in_map_iff in H. destruct H as (x & X & _). injection X as _ <-. auto.
Qed.

Example C72_walls_gentle : gentle_bc 2 (init_bc (BCustom [(0%nat, NoGradients); (1%nat, Reflecting)]) 2) /\
  gentle_bc 3 (init_bc (BCustom [(0%nat, NearZero); (1%nat, OutflowNoGradients); (2%nat, NoGradients)]) 3).
Proof.
  split; (split; [intros j Hj; cbn; lia|]); cbn; intros j md H; repeat destruct H as [H|H]; try contradiction H; injection H as <- <-; auto.
Qed.

(** The two shipped problems start healthy and so stay healthy, on any number
    of cells. *)
Corollary C72_noh : forall meta banner isched p S md a b c w w' k s',
  let dx := (b - a) / INR (S - 4) in
  (6 <= S)%nat -> cf_mesh c = mkMC (A:=XRn) md (Fin a) (Fin b) -> cf_bc_west c = BNoGradients -> cf_bc_east c = BNoGradients ->
  init_corries (A:=XRn) (N:=Hll XRn) true meta banner isched (on_state (init_noh p S)) p S c w = (w', Ok k) ->
  courant_steps p S (c_mesh k) dx (c_sim k) s' ->
  healthy p S (cent (s_u s')) /\ vars_validate (cent (s_u s')) = Ok tt.
Proof.
  intros meta banner isched p S md a b c w w' k s' dx HS Hm Bw Be H St.
  destruct (C60_shipped (Hll XRn) p S) as (Fi & _).
  destruct (init_box meta banner isched _ p S md a b c w w' k ltac:(lia) Hm Fi H) as (Hab & (g & Hg & Hg1) & Em & Hr).
  destruct (C53_noh XRn (Hll XRn) true meta banner isched p S c w w' k HS (C53_breakpoint S) Bw Be H) as (P & Q & G & C & _). cbv zeta in *. rewrite Hg in G.
  apply (C72_simulation meta banner isched _ p S md a b c w w' k s' HS Hm Fi); rewrite ?Bw, ?Be; auto using copying_gentle.
  assert (N2 : (0 < nE p)%nat /\ (1 < nE p)%nat) by (destruct p; cbn; lia).
  assert (P1 : forall i, (i < S)%nat -> exists r, at2 (n0 XRn) (prim (cent (s_u (c_sim k)))) 1 i = Fin r).
  { intros i Hi. rewrite P by (auto; lia). cbn [noh_prim]. destruct (i <? _)%nat; eexists; reflexivity. }
  assert (Q5 : 0 < Q2R (1 # 100000)) by (unfold Q2R; cbn; lra).
  split.
  - intros i Hi. split; [|split; [|split]].
    + rewrite P by (auto; lia). exists 1. split; [reflexivity|lra].
    + apply P1. exact Hi.
    + intros ->. rewrite P by (cbn; lia). exists (Q2R (1 # 100000)). split; [reflexivity|exact Q5].
    + destruct p.
      * rewrite (Q eq_refl i Hi). exists 1. split; [reflexivity|lra].
      * rewrite (cst_sound _ _ _ _ _ _ _ C i eq_refl Hi), G, !P by (cbn; lia). cbn [noh_prim]. rewrite X_Q, X_n1, X_mul, X_div by lra.
        assert (0 < g * Q2R (1 # 100000) / 1) by (apply Rdiv_lt_0_compat; [apply Rmult_lt_0_compat; lra|lra]).
        rewrite X_sqrt by lra. eexists. split; [reflexivity|]. apply sqrt_lt_R0. assumption.
  - intros j i Hj Hi. rewrite (cst_cons _ _ _ _ _ _ _ C j i Hj Hi), G.
    set (q' := fun l => fpart (at2 (n0 XRn) (prim (cent (s_u (c_sim k)))) l i)).
    exists (conserved p g q' j). rewrite <- (p2c_R p g q' (fun l => at2 (n0 XRn) (prim (cent (s_u (c_sim k)))) l i)); auto.
    + destruct p; destruct j as [|[|[|j]]]; cbn [nE] in Hj; try lia; try reflexivity.
    + intros _. lra.
    + intros l Hl. unfold q'. destruct l as [|[|l]].
      * rewrite P by (auto; lia). reflexivity.
      * destruct (P1 i Hi) as (r & Er). exact (fpart_Fin _ _ Er).
      * rewrite P by assumption. reflexivity.
Qed.
Print Assumptions C72_noh.

Corollary C72_sod : forall meta banner isched S md a b c w w' k s',
  let dx := (b - a) / INR (S - 4) in
  (6 <= S)%nat -> cf_mesh c = mkMC (A:=XRn) md (Fin a) (Fin b) -> cf_bc_west c = BNoGradients -> cf_bc_east c = BNoGradients ->
  init_corries (A:=XRn) (N:=Hll XRn) true meta banner isched (on_state (init_sod Adiab S)) Adiab S c w = (w', Ok k) ->
  courant_steps Adiab S (c_mesh k) dx (c_sim k) s' ->
  healthy Adiab S (cent (s_u s')) /\ vars_validate (cent (s_u s')) = Ok tt.
Proof.
  intros meta banner isched S md a b c w w' k s' dx HS Hm Bw Be H St.
  destruct (C60_shipped (Hll XRn) Adiab S) as (_ & Fi).
  destruct (init_box meta banner isched _ Adiab S md a b c w w' k ltac:(lia) Hm Fi H) as (Hab & (g & Hg & Hg1) & Em & Hr).
  destruct (C53_sod XRn (Hll XRn) true meta banner isched S c w w' k HS (C53_breakpoint S) Bw Be H) as (P & G & C & _). cbv zeta in *. rewrite Hg in G.
  apply (C72_simulation meta banner isched _ Adiab S md a b c w w' k s' HS Hm Fi); rewrite ?Bw, ?Be; auto using copying_gentle.
  assert (Q5 : 0 < Q2R (125 # 1000) /\ 0 < Q2R (1 # 10)) by (unfold Q2R; cbn; lra).
  assert (P' : forall j i, (j < 3)%nat -> (i < S)%nat -> exists r, at2 (n0 XRn) (prim (cent (s_u (c_sim k)))) j i = Fin r /\ (j <> 1%nat -> 0 < r)).
  { intros j i Hj Hi. rewrite P by assumption. destruct j as [|[|[|j]]]; [| | |lia]; cbn [sod_prim]; try destruct (i <? _)%nat;
    (eexists; split; [reflexivity|]); intros J; try contradiction; lra. }
  split.
  - intros i Hi. destruct (P' 0%nat i ltac:(lia) Hi) as (r0 & E0 & P0). destruct (P' 1%nat i ltac:(lia) Hi) as (r1 & E1 & _). destruct (P' 2%nat i ltac:(lia) Hi) as (r2 & E2 & P2).
    specialize (P0 ltac:(lia)). specialize (P2 ltac:(lia)). split; [eauto|]. split; [eauto|]. split; [eauto|].
    rewrite (cst_sound _ _ _ _ _ _ _ C i eq_refl Hi), G, E0, E2, X_mul, X_div by lra.
    assert (0 < g * r2 / r0) by (apply Rdiv_lt_0_compat; [apply Rmult_lt_0_compat; lra|lra]).
    rewrite X_sqrt by lra. eexists. split; [reflexivity|]. apply sqrt_lt_R0. assumption.
  - intros j i Hj Hi. rewrite (cst_cons _ _ _ _ _ _ _ C j i Hj Hi), G.
    set (q' := fun l => fpart (at2 (n0 XRn) (prim (cent (s_u (c_sim k)))) l i)).
    exists (conserved Adiab g q' j). rewrite <- (p2c_R Adiab g q' (fun l => at2 (n0 XRn) (prim (cent (s_u (c_sim k)))) l i)); auto.
    + intros _. lra.
    + intros l Hl. destruct (P' l i Hl Hi) as (r & El & _). exact (fpart_Fin _ _ El).
Qed.
Print Assumptions C72_sod.

(** A density jump in a moving isothermal gas, every mode: a healthy start and
    a step of positive length that is Courant limited and of the library's
    choice. *)
Example C72_nonvacuous : forall md, let c := rcfg CHll md false (1 / 2) in
  exists (s s' : sim XRn (Hll XRn)), reached Isot 6 c (rmesh 6) (fun _ => True) s /\
    consistent Isot 6 (init_bc (cf_bc_west c) 2) (init_bc (cf_bc_east c) 2) (rmesh 6) (cent (s_u s)) /\
    healthy Isot 6 (cent (s_u s)) /\ gentle_bc 2 (init_bc (cf_bc_west c) 2) /\
    (forall i, (i < 6)%nat -> at2 (n0 XRn) (prim (cent (s_u s))) 1 i = Fin 1 /\ at1 (n0 XRn) (c_sound (cent (s_u s))) i = Fin 1) /\
    Rabs (1 - 1) <= 1 * Rabs (1 + 1) /\
    solver_next false 1 Isot 6 (rmesh 6) s = (s', Ok tt) /\ ts_dt (s_ts s') = Fin (1 / 8) /\
    courant_steps Isot 6 (rmesh 6) ((2 - 1) / INR (6 - 4)) s s'.
Proof.
  intros md c.
  destruct (jump_flow (Hll XRn) CHll md (1 / 2) (mkHll (A:=XRn) (zeros 6) (zeros 6) (zeros 6) (zeros 6) (zeros2 2 6)) 1 (1 / 10) 1 1 10 1 (hll_total XRn Isot 6 (rmesh 6)) eq_refl) as
    (s & s' & Hr & _ & _ & _ & C & P & Q & T1 & T2 & T3 & T4 & E & Hd); try lra.
  { rewrite Rabs_pos_eq by lra. lra. }
  assert (Hdt : ts_dt (s_ts s') = Fin (1 / 8)).
  { rewrite Hd. f_equal. rewrite Rabs_pos_eq by lra. rewrite (Rmin_left _ 1000) by lra. rewrite Rmin_left by lra. lra. }
  exists s, s'. split; [exact Hr|]. split; [exact C|]. split.
  { split.
    - intros i Hi. split; [|split; [|split]].
      + exists (jump 1 (1 / 10) 1 0 i). split; [apply P; [lia|exact Hi]|apply jump_ok; try lra; exact Hi].
      + exists 1. apply (P 1%nat i); [lia|exact Hi].
      + discriminate.
      + exists 1. split; [apply Q; exact Hi|lra].
    - intros j i Hj Hi. rewrite (cst_cons _ _ _ _ _ _ _ C j i Hj Hi).
      destruct j as [|[|j]]; [| |cbn in Hj; lia]; cbn [cons_of]; rewrite !P by (try exact Hi; lia); eexists; reflexivity. }
  split; [apply copying_gentle|]. split; [intros i Hi; split; [apply (P 1%nat i); [lia|exact Hi]|apply Q; exact Hi]|].
  split; [rewrite !Rabs_pos_eq by lra; lra|]. split; [exact E|]. split; [exact Hdt|].
  eapply cst_step; [apply cst_none|exact E|exact Hdt|lra|]. intros i x cx Hi Ex Ec. rewrite (P 1%nat i) in Ex by (try exact Hi; lia). rewrite Q in Ec by exact Hi.
    injection Ex as <-. injection Ec as <-. cbn [jump]. replace (INR (6 - 4)) with 2 by (cbn; ring). rewrite !Rabs_pos_eq by lra. lra.
Qed.
