(** C73: with KT an isothermal gas with positive densities stays one in
    short steps; a gas with an energy equation need not. *)

From Coq Require Import Reals ZArith NArith QArith Qreals List Bool Lia Lra String.
From Verif Require Import Base Num XReal B64 Config Mesh State NumFlux Time Writer Runner Spec SpecFlow SpecStep SpecTableau SpecEuler SpecInit SpecWall SpecHealthy SpecKtHealthy
  MeshProofs BoundaryProofs PhysicsProofs FluxProofs UpdateProofs FluxReal FluxThms FluxMore StepProofs StepInv StepEq TableauProofs
  TimeProofs TimeMore AscProofs EulerStep RealRun EulerThms LinRun ConsThms PosProofs HealthProofs WallProofs KtHealth P_Init P_Wall P_Conserve P_Healthy.
Import ListNotations.
Local Open Scope R_scope.

(** From any healthy and consistent state of a solver, for the limiters that
    create no new extrema. *)
Theorem C73_stays_healthy : forall S (c : config XRn) md a b l th g (s s' : sim XRn (Kt XRn)),
  let m := mesh_build (A:=XRn) S (cf_mesh c) in
  let dx := (b - a) / INR (S - 4) in
  let bw := init_bc (cf_bc_west c) 2 in let be := init_bc (cf_bc_east c) 2 in
  (6 <= S)%nat -> cf_mesh c = mkMC (A:=XRn) md (Fin a) (Fin b) -> a < b ->
  nc_numflux (cf_numerics c) = CKt l -> limiter_theta l = Fin th -> tvd_limiter l th ->
  pc_gamma (cf_physics c) = Fin g -> gentle_bc 2 bw -> gentle_bc 2 be ->
  reached Isot S c m (fun _ => True) s ->
  same_sound (s_u s) -> consistent Isot S bw be m (cent (s_u s)) -> healthy Isot S (cent (s_u s)) ->
  mixed_steps Isot S m dx s s' ->
  healthy Isot S (cent (s_u s')) /\ consistent Isot S bw be m (cent (s_u s')) /\ vars_validate (cent (s_u s')) = Ok tt.
Proof.
  intros S c md a b l th g s s' m dx bw be HS Hc Hab Hnf Hth Htvd Hg Gw Ge Hr Sd C H St.
  assert (HS5 : (5 <= S)%nat) by lia.
  unfold m in *. rewrite Hc in Hr, C, St |- *. clear m. set (m := mesh_build (A:=XRn) S (mkMC (A:=XRn) md (Fin a) (Fin b))) in *.
  assert (K : reached Isot S c m (fun _ => True) s' /\ healthy Isot S (cent (s_u s')) /\ same_sound (s_u s') /\ consistent Isot S bw be m (cent (s_u s'))).
  { induction St as [s|s s1 s2 val fuel dt St IH E Hd Pd Cfl|s s1 ts St IH].
    - auto.
    - destruct (IH Hr Sd C H) as (R1 & H1 & S1 & C1). split.
      + destruct R1 as (u0 & s0 & P0 & N0 & G0 & Ev). exists u0, s0. repeat match goal with |- _ /\ _ => split end; auto. eapply ev_step; eauto.
      + exact (kt_healthy_step S md a b c l th s1 s2 val fuel dt g HS Hc Hab Hnf Hth Htvd R1 Gw Ge S1 C1 H1 Hg E Hd Pd Cfl).
    - destruct (IH Hr Sd C H) as (R1 & H1 & S1 & C1). split; [|split; [exact H1|split; [exact S1|exact C1]]].
      destruct R1 as (u0 & s0 & P0 & N0 & G0 & Ev). exists u0, s0. repeat match goal with |- _ /\ _ => split end; auto. apply ev_time. exact Ev. }
  destruct K as (R' & H' & _ & C'). split; [exact H'|]. split; [exact C'|].
  destruct (reached_kt _ _ _ _ _ R') as (k0 & _ & R2).
  pose proof (kt_memoryless XRn Isot S m k0 HS5 (std_build XRn S _)) as Hm.
  destruct (reached_ok XRn (Kt XRn) Isot S m _ HS5 Hm c s' R2) as (Hok & _).
  apply (healthy_valid Isot S); [apply Hok|exact H'].
Qed.
Print Assumptions C73_stays_healthy.

(** After init_corries, for any initial condition function. *)
Theorem C73_simulation : forall meta banner isched init S md a b l th c w w' k s',
  let dx := (b - a) / INR (S - 4) in
  (6 <= S)%nat -> cf_mesh c = mkMC (A:=XRn) md (Fin a) (Fin b) -> fills_state Isot S init ->
  nc_numflux (cf_numerics c) = CKt l -> limiter_theta l = Fin th -> tvd_limiter l th ->
  gentle_bc 2 (init_bc (cf_bc_west c) 2) -> gentle_bc 2 (init_bc (cf_bc_east c) 2) ->
  init_corries (A:=XRn) (N:=Kt XRn) true meta banner isched init Isot S c w = (w', Ok k) ->
  healthy Isot S (cent (s_u (c_sim k))) ->
  mixed_steps Isot S (c_mesh k) dx (c_sim k) s' ->
  healthy Isot S (cent (s_u s')) /\ vars_validate (cent (s_u s')) = Ok tt.
Proof.
  intros meta banner isched init S md a b l th c w w' k s' dx HS Hm Hi Hnf Hth Htvd Gw Ge H Hh St.
  destruct (init_box meta banner isched init Isot S md a b c w w' k ltac:(lia) Hm Hi H) as (Hab & (g & Hg & Hg1) & Em & Hr).
  destruct (init_start meta banner isched init Isot S c w w' k HS Hi H) as (C & Sd).
  rewrite Em in Hr, C, St. rewrite <- Hm in Hr, C, St.
  destruct (C73_stays_healthy S c md a b l th g (c_sim k) s' HS Hm Hab Hnf Hth Htvd Hg Gw Ge Hr Sd C Hh St) as (H1 & _ & H2). auto.
Qed.
Print Assumptions C73_simulation.

(** The shipped collision problem of the isothermal system. *)
Corollary C73_noh : forall meta banner isched S md a b l th c w w' k s',
  let dx := (b - a) / INR (S - 4) in
  (6 <= S)%nat -> cf_mesh c = mkMC (A:=XRn) md (Fin a) (Fin b) ->
  nc_numflux (cf_numerics c) = CKt l -> limiter_theta l = Fin th -> tvd_limiter l th ->
  cf_bc_west c = BNoGradients -> cf_bc_east c = BNoGradients ->
  init_corries (A:=XRn) (N:=Kt XRn) true meta banner isched (on_state (init_noh Isot S)) Isot S c w = (w', Ok k) ->
  mixed_steps Isot S (c_mesh k) dx (c_sim k) s' ->
  healthy Isot S (cent (s_u s')) /\ vars_validate (cent (s_u s')) = Ok tt.
Proof.
  intros meta banner isched S md a b l th c w w' k s' dx HS Hm Hnf Hth Htvd Bw Be H St.
  destruct (C60_shipped (Kt XRn) Isot S) as (Fi & _).
  destruct (C53_noh XRn (Kt XRn) true meta banner isched Isot S c w w' k HS (C53_breakpoint S) Bw Be H) as (P & Q & _ & C & _). cbv zeta in *.
  apply (C73_simulation meta banner isched _ S md a b l th c w w' k s' HS Hm Fi); rewrite ?Bw, ?Be; auto using copying_gentle.
  assert (P1 : forall j i, (j < 2)%nat -> (i < S)%nat -> exists r, at2 (n0 XRn) (prim (cent (s_u (c_sim k)))) j i = Fin r).
  { intros j i Hj Hi. rewrite P by assumption. destruct j as [|[|j]]; [| |lia]; cbn [noh_prim]; try destruct (i <? _)%nat; eexists; reflexivity. }
  split.
  - intros i Hi. split; [|split; [|split]].
    + rewrite P by (cbn; lia). exists 1. split; [reflexivity|lra].
    + apply P1; [lia|exact Hi].
    + discriminate.
    + rewrite (Q eq_refl i Hi). exists 1. split; [reflexivity|lra].
  - intros j i Hj Hi. rewrite (cst_cons _ _ _ _ _ _ _ C j i Hj Hi).
    destruct (P1 0%nat i ltac:(lia) Hi) as (r0 & E0). destruct (P1 1%nat i ltac:(lia) Hi) as (r1 & E1).
    destruct j as [|[|j]]; [| |cbn in Hj; lia]; cbn [cons_of]; rewrite ?E0, ?E1; eexists; reflexivity.
Qed.
Print Assumptions C73_noh.

(** A density jump in a moving isothermal gas, every mode: a healthy start, a
    step of positive length and of the library's choice that is limited. *)
Example C73_nonvacuous : forall md, let c := rcfg (CKt MinMod) md false (1 / 4) in
  exists (s s' : sim XRn (Kt XRn)), reached Isot 6 c (rmesh 6) (fun _ => True) s /\ same_sound (s_u s) /\
    consistent Isot 6 (init_bc (cf_bc_west c) 2) (init_bc (cf_bc_east c) 2) (rmesh 6) (cent (s_u s)) /\
    healthy Isot 6 (cent (s_u s)) /\ gentle_bc 2 (init_bc (cf_bc_west c) 2) /\
    at2 (n0 XRn) (prim (cent (s_u s))) 0 2 = Fin 1 /\ at2 (n0 XRn) (prim (cent (s_u s))) 0 3 = Fin (1 / 2) /\
    solver_next false 1 Isot 6 (rmesh 6) s = (s', Ok tt) /\ ts_dt (s_ts s') = Fin (1 / 16) /\
    mixed_steps Isot 6 (rmesh 6) ((2 - 1) / INR (6 - 4)) s s'.
Proof.
  intros md c.
  destruct (kt_new (A:=XRn) Isot 6 (CKt MinMod) (rmesh 6)) as [k0|e| |] eqn:Ek; [|discriminate Ek..].
  destruct (jump_flow (Kt XRn) (CKt MinMod) md (1 / 4) k0 1 (1 / 2) 1 1 10 1 (kt_total XRn Isot 6 (rmesh 6)) Ek) as
    (s & s' & Hr & _ & Sw & Se & C & P & Q & _ & _ & _ & _ & E & Hd); try lra.
  { rewrite Rabs_pos_eq by lra. lra. }
  assert (Hdt : ts_dt (s_ts s') = Fin (1 / 16)).
  { rewrite Hd. f_equal. rewrite Rabs_pos_eq by lra. rewrite (Rmin_left _ 1000) by lra. rewrite Rmin_left by lra. lra. }
  assert (J : forall i, jump 1 (1 / 2) 1 0 i = 1 \/ jump 1 (1 / 2) 1 0 i = 1 / 2) by (intros i; unfold jump; destruct (i <? 3)%nat; auto).
  assert (Cn : forall i, (i < 6)%nat -> at2 (n0 XRn) (cons (cent (s_u s))) 0 i = Fin (jump 1 (1 / 2) 1 0 i) /\ at2 (n0 XRn) (cons (cent (s_u s))) 1 i = Fin (jump 1 (1 / 2) 1 0 i)).
  { intros i Hi. rewrite !(cst_cons _ _ _ _ _ _ _ C _ i) by (cbn; lia). cbn [cons_of]. rewrite !P by (try exact Hi; lia). split; [reflexivity|].
    cbn. f_equal. unfold jump. destruct (i <? 3)%nat; lra. }
  exists s, s'. split; [exact Hr|]. split; [unfold same_sound; rewrite <- Sw, <- Se; auto|]. split; [exact C|]. split.
  { split.
    - intros i Hi. split; [|split; [|split]].
      + eexists. split; [apply P; [lia|exact Hi]|]. destruct (J i) as [-> | ->]; lra.
      + eexists. apply (P 1%nat i); [lia|exact Hi].
      + discriminate.
      + exists 1. split; [apply Q; exact Hi|lra].
    - intros j i Hj Hi. destruct (Cn i Hi) as (C1 & C2). destruct j as [|[|j]]; [eauto|eauto|cbn in Hj; lia]. }
  split; [apply copying_gentle|]. split; [rewrite P by lia; reflexivity|]. split; [rewrite P by lia; reflexivity|]. split; [exact E|]. split; [exact Hdt|].
  eapply mst_step; [apply mst_none|exact E|exact Hdt|lra|].
  intros i k l x mo rh Hi Hk Hl _ _ Ec Em Er. destruct (Cn k Hk) as (_ & C2). destruct (Cn l Hl) as (C1 & _).
  rewrite Q in Ec by exact Hi. rewrite C2 in Em. rewrite C1 in Er.
  injection Ec as <-. apply (f_equal fpart) in Em, Er. cbn [fpart] in Em, Er. subst mo rh. replace (INR (6 - 4)) with 2 by (cbn; ring).
  destruct (J k) as [-> | ->]; destruct (J l) as [-> | ->]; rewrite Rabs_pos_eq by lra; lra.
Qed.

(** ** With an energy equation *)
(** Four cells; density 1 everywhere.  In two cells the gas is at rest, the
    third moves with velocity 10, the fourth with 20; pressures 24, 24, 1/10,
    1.  Minmod keeps the slope of the momentum and drops that of the energy, so
    that the energy at a face is smaller than the kinetic energy.  The Courant
    number is 1/1000. *)
Section Tear.
Variables bln bexp : b64 -> b64.
Let A := B64n bln bexp.

Definition tear_cfg (f : numflux_config A) : config A :=
  mkCfg false (mkMC (A:=A) Cartesian (nZ A 1) (nZ A 2)) (mkPC (A:=A) (nQ A (14 # 10)) SI) BNoGradients BNoGradients
    (mkNC (A:=A) f (mkRC (A:=A) RK1 false (nQ A (1 # 100)) (nQ A (1 # 1000)) (nQ A (8 # 100))) 100%N (n0 A) (nZ A 1)
       (nQ A (1 # 1000000)) (nZ A 1000) (nQ A (1 # 1000)))
    1%N [].

Definition tear_q (j i : nat) : nF A :=
  match j with
  | 0%nat => n1 A
  | 1%nat => nZ A (nth i [0; 0; 0; 0; 10; 20; 20; 20]%Z 0%Z)
  | _ => nQ A (nth i [24; 24; 24; 24; 1 # 10; 1; 1; 1]%Q 0%Q)
  end.

Definition tear_init (N : numflux_impl A) (s : sim A N) (m : mesh A) : sim A N * res unit :=
  (mkSim (s_ts s) (set_cent (set_prim (mtab 3 8 tear_q) (cent (s_u s))) (s_u s)) (s_rk s) (s_rhs s), Ok tt).

End Tear.

(** All variables of all cells are numbers; densities, pressures and sound
    speeds are positive. *)
Definition good_gas (A : Num) (S : nat) (v : vars A) : bool :=
  all_fin2 (prim v) && all_fin2 (cons v) && forallb (fun i => nltb A (n0 A) (at2 (n0 A) (prim v) 0 i) && nltb A (n0 A) (at2 (n0 A) (prim v) 2 i) && nltb A (n0 A) (at1 (n0 A) (c_sound v) i)) (seq 0 S).

Definition first_step {A : Num} {N : numflux_impl A} (p : phys) (S : nat) (init : sim A N -> mesh A -> sim A N * res unit) (c : config A) (w : world) : option (vars A * vars A * res unit) :=
  match init_corries (N:=N) true (fun _ => EmptyString) EmptyString [] init p S c w with
  | (_, Ok k) => let r := solver_next true 1 p S (c_mesh k) (c_sim k) in Some (cent (s_u (c_sim k)), cent (s_u (fst r)), snd r)
  | _ => None
  end.

Lemma first_step_ok : forall (A : Num) (N : numflux_impl A) p S init c w (chk : vars A -> vars A -> res unit -> bool),
  match first_step (N:=N) p S init c w with Some (v, v', o) => chk v v' o | None => false end = true ->
  exists w' k s' o, init_corries (N:=N) true (fun _ => EmptyString) EmptyString [] init p S c w = (w', Ok k) /\
    solver_next true 1 p S (c_mesh k) (c_sim k) = (s', o) /\ chk (cent (s_u (c_sim k))) (cent (s_u s')) o = true.
Proof.
  intros A N p S init c w chk H. unfold first_step in H.
  destruct (init_corries (N:=N) true (fun _ => EmptyString) EmptyString [] init p S c w) as [w' [k|x| |]]; [|discriminate H..].
  destruct (solver_next true 1 p S (c_mesh k) (c_sim k)) as [s' o] eqn:E. exists w', k, s', o. rewrite E. auto.
Qed.

(** A healthy adiabatic gas whose first step fails with KT, and succeeds and
    leaves a healthy gas with HLL. *)
Theorem C73_adiabatic_b64_refuted : forall bln bexp w, let A := B64n bln bexp in
  (exists w' k s',
    init_corries (N:=Kt A) true (fun _ => EmptyString) EmptyString [] (tear_init bln bexp (Kt A)) Adiab 8 (tear_cfg bln bexp (CKt MinMod)) w = (w', Ok k) /\
    good_gas A 8 (cent (s_u (c_sim k))) = true /\
    solver_next true 1 Adiab 8 (c_mesh k) (c_sim k) = (s', Err ENonFinite)) /\
  (exists w' k s',
    init_corries (N:=Hll A) true (fun _ => EmptyString) EmptyString [] (tear_init bln bexp (Hll A)) Adiab 8 (tear_cfg bln bexp CHll) w = (w', Ok k) /\
    good_gas A 8 (cent (s_u (c_sim k))) = true /\
    solver_next true 1 Adiab 8 (c_mesh k) (c_sim k) = (s', Ok tt) /\ good_gas A 8 (cent (s_u s')) = true).
Proof.
  intros bln bexp w A. split.
  - destruct (first_step_ok A (Kt A) Adiab 8 (tear_init bln bexp (Kt A)) (tear_cfg bln bexp (CKt MinMod)) w
      (fun v v' o => good_gas A 8 v && match o with Err ENonFinite => true | _ => false end)%bool ltac:(vm_compute; reflexivity)) as (w' & k & s' & o & H1 & H2 & H3).
    apply andb_true_iff in H3. destruct H3 as (H3 & H4). exists w', k, s'. split; [exact H1|]. split; [exact H3|]. rewrite H2.
    destruct o as [x|e| |]; try discriminate H4. destruct e; try discriminate H4. reflexivity.
  - destruct (first_step_ok A (Hll A) Adiab 8 (tear_init bln bexp (Hll A)) (tear_cfg bln bexp CHll) w
      (fun v v' o => good_gas A 8 v && good_gas A 8 v' && match o with Ok tt => true | _ => false end)%bool ltac:(vm_compute; reflexivity)) as (w' & k & s' & o & H1 & H2 & H3).
    apply andb_true_iff in H3. destruct H3 as (H3 & H4). apply andb_true_iff in H3. destruct H3 as (H3 & H5). exists w', k, s'. split; [exact H1|]. split; [exact H3|]. rewrite H2.
    destruct o as [[]|e| |]; try discriminate H4. auto.
Qed.
Print Assumptions C73_adiabatic_b64_refuted.
