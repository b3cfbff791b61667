(** C14 for whole simulations: each side has its own configured boundary
    condition. *)

From Coq Require Import Reals ZArith NArith QArith List Bool Lia Lra String.
From Verif Require Import Base Num XReal B64 Config Mesh State NumFlux Time Writer Runner Spec SpecFlow SpecStep SpecWall
  MeshProofs BoundaryProofs PhysicsProofs FluxProofs UpdateProofs FluxThms StepProofs StepInv StepEq P_Boundary P_Step P_Run P_KtHealthy.
Import ListNotations.
Local Open Scope nat_scope.

(** The boundary condition configured for a side. *)
Definition side_bc {A} (s : side) (c : config A) : bmode := match s with West => cf_bc_west c | East => cf_bc_east c end.

Lemma init_sides : forall A (N : numflux_impl A) validation meta banner sched init p S c w w' k,
  fills_state p S init ->
  init_corries (A:=A) (N:=N) validation meta banner sched init p S c w = (w', Ok k) ->
  mesh_new validation S (cf_mesh c) = Ok (c_mesh k) /\
  r_bw (s_rhs (c_sim k)) = init_bc (cf_bc_west c) (nE p) /\ r_be (s_rhs (c_sim k)) = init_bc (cf_bc_east c) (nE p) /\
  (6 <= S -> wsv A p S (cent (s_u (c_sim k))) /\ consistent p S (init_bc (cf_bc_west c) (nE p)) (init_bc (cf_bc_east c) (nE p)) (c_mesh k) (cent (s_u (c_sim k)))).
Proof.
  intros A N validation meta banner sched init p S c w w' k Hi H.
  pose proof (C12_consistent_after_init A N validation meta banner sched init p S c w w' k) as C.
  pose proof H as H0. unfold init_corries in H.
  destruct (cf_validate c); try discriminate. destruct (mesh_new validation S (cf_mesh c)) as [m|e| |]; try discriminate.
  destruct (solver_new N p S c m (state_new p S (cf_physics c))) as [s|e| |] eqn:Es; try discriminate.
  destruct (writer_new meta S c m w) as [w1 r1]. destruct r1 as [wr|e| |]; try discriminate.
  destruct (writer_metadata (wr_meta wr) sched (wr_outputs wr) _) as [w2 r2]. destruct r2 as [[]|e| |]; try discriminate.
  destruct (init s m) as [s1 r3] eqn:Ei. injection H as <- H. apply bind_Ok in H. destruct H as ([] & -> & H).
  apply bind_Ok in H. destruct H as (u & Hu & H). injection H as <-. cbn [c_sim s_rhs s_u c_mesh] in C |- *.
  assert (Ws : wss p S (s_u s) /\ r_bw (s_rhs s) = init_bc (cf_bc_west c) (nE p) /\ r_be (s_rhs s) = init_bc (cf_bc_east c) (nE p)).
  { unfold solver_new in Es. apply bind_Ok in Es. destruct Es as (rh & Er & Es). injection Es as <-. cbn [s_u s_rhs].
    unfold rhs_new in Er. apply bind_Ok in Er. destruct Er as (nf & _ & Er). injection Er as <-. split; [|split; reflexivity]. split; [|split]; apply wsv_new. }
  destruct Ws as (Ws & Bw & Be). destruct (Hi _ _ _ Ei) as (_ & Rh & W & _). specialize (W Ws). destruct W as (W1 & _).
  rewrite Rh in *. split; [reflexivity|]. split; [exact Bw|]. split; [exact Be|]. intros HS.
  unfold st_update_from_prim in Hu. apply bind_Ok in Hu. destruct Hu as (v & Hv & Hu). injection Hu as <-. cbn [cent init_west_east set_cent] in *.
  rewrite Bw, Be in Hv. split.
  - assert (HS5 : 5 <= S) by lia. exact (proj1 (update_from_prim_view A _ _ _ _ _ _ _ HS5 W1 Hv)).
  - eapply prim_consistent; [exact HS|exact W1|exact Hv].
Qed.

(** The states of a simulation between its steps. *)
Definition between_steps {A} {N : numflux_impl A} (p : phys) (S : nat) (m : mesh A) (s0 s' : sim A N) : Prop :=
  s' = s0 \/ exists validation fuel s, evolves p S m s0 s /\ solver_next validation fuel p S m s = (s', Ok tt).

(** Applying the boundary condition of either side once more changes nothing;
    every arithmetic. *)
Theorem C14_configured_sides : forall A (N : numflux_impl A) validation meta banner sched init p S c w w' k s' sd,
  6 <= S -> fills_state p S init ->
  init_corries (A:=A) (N:=N) validation meta banner sched init p S c w = (w', Ok k) ->
  between_steps p S (c_mesh k) (c_sim k) s' ->
  bc_apply sd p S (c_mesh k) (init_bc (side_bc sd c) (nE p)) (cent (s_u s')) = Ok (cent (s_u s')).
Proof.
  intros A N validation meta banner sched init p S c w w' k s' sd HS Hi H Hb.
  destruct (init_sides _ _ _ _ _ _ _ _ _ _ _ _ _ Hi H) as (_ & Bw & Be & C). destruct (C HS) as (W & C0).
  assert (C' : consistent p S (init_bc (cf_bc_west c) (nE p)) (init_bc (cf_bc_east c) (nE p)) (c_mesh k) (cent (s_u s'))).
  { destruct Hb as [E | (vl & fuel & s & He & Hn)]; [rewrite E; exact C0|]. rewrite <- Bw, <- Be. exact (C12_consistent_after_step A N vl fuel p S _ _ _ _ HS W He Hn). }
  destruct sd; [exact (cst_west _ _ _ _ _ _ _ C')|exact (cst_east _ _ _ _ _ _ _ C')].
Qed.
Print Assumptions C14_configured_sides.

(** So between steps the ghost cells of each side have the values of the modes
    configured for this side. *)
Theorem C14_simulation : forall (N : numflux_impl XRn) validation meta banner sched init p S c w w' k s' md0 a b sd j md l1 l2 g a0 a1 x0 xk,
  6 <= S -> fills_state p S init -> cf_mesh c = mkMC (A:=XRn) md0 (Fin a) (Fin b) ->
  init_corries (A:=XRn) (N:=N) validation meta banner sched init p S c w = (w', Ok k) ->
  between_steps p S (c_mesh k) (c_sim k) s' ->
  init_bc (side_bc sd c) (nE p) = l1 ++ (j, md) :: l2 -> ~ In j (map fst l2) -> g = 1 \/ g = 2 ->
  let q := at2 (n0 XRn) (prim (cent (s_u s'))) in
  let xi := at1 (n0 XRn) (m_xi_cent (c_mesh k)) in
  q j (inner_cell sd S 0) = Fin a0 -> q j (inner_cell sd S 1) = Fin a1 ->
  xi (inner_cell sd S 0) = Fin x0 -> xi (ghost_cell sd S g) = Fin xk ->
  (md = ExtrapolateDensityKepler \/ md = ExtrapolateEtaVelocityKepler -> forall i, i < S -> exists x, xi i = Fin x /\ (0 < x)%R) ->
  q j (ghost_cell sd S g) = Fin (ghost_value sd md g a0 a1 x0 xk).
Proof.
  intros N validation meta banner sched init p S c w w' k s' md0 a b sd j md l1 l2 g a0 a1 x0 xk HS Hi Hm H Hb Hl Hn Hg q xi Q0 Q1 X0 Xk Hk.
  pose proof (C14_configured_sides XRn N validation meta banner sched init p S c w w' k s' sd HS Hi H Hb) as B.
  destruct (init_sides _ _ _ _ _ _ _ _ _ _ _ _ _ Hi H) as (Em & _ & _ & C). destruct (C HS) as (W & _). rewrite Hm in Em.
  assert (W' : wsv XRn p S (cent (s_u s'))).
  { destruct Hb as [-> | (vl & fuel & s & He & Hn')]; [exact W|].
    apply (evolves_shape XRn N p S (c_mesh k) (c_sim k) s' ltac:(lia)); [|exact W]. eapply ev_step; eauto. }
  exact (C14_ghost_values S md0 a b validation (c_mesh k) sd p _ _ _ j md l1 l2 g a0 a1 x0 xk HS Em ltac:(apply W') B Hl Hn Hg Q0 Q1 X0 Xk Hk).
Qed.
Print Assumptions C14_simulation.

(** A wall in the west, an open boundary in the east: after the first step of
    a gas that moves to the east the velocity changes sign in the west only. *)
Definition sides_cfg (A : Num) : config A :=
  mkCfg false (mkMC (A:=A) Cartesian (nZ A 3) (nZ A 4)) (mkPC (A:=A) (nQ A (14 # 10)) SI) (BCustom [(0, NoGradients); (1, Reflecting); (2, NoGradients)]) BNoGradients
    (mkNC (A:=A) CHll (mkRC (A:=A) RK1 false (nQ A (1 # 100)) (nQ A (1 # 1000)) (nQ A (8 # 100))) 100%N (n0 A) (nZ A 1)
       (nQ A (1 # 1000000)) (nZ A 1000) (nQ A (1 # 10)))
    1%N [].

Definition sides_init (A : Num) (N : numflux_impl A) (s : sim A N) (m : mesh A) : sim A N * res unit :=
  (mkSim (s_ts s) (set_cent (set_prim (mtab 3 8 (fun j _ => nQ A (nth j [1; 1 # 10; 1]%Q 0%Q))) (cent (s_u s))) (s_u s)) (s_rk s) (s_rhs s), Ok tt).

Example C14_simulation_nonvacuous : forall bln bexp w, let A := B64n bln bexp in
  fills_state Adiab 8 (sides_init A (Hll A)) /\
  exists w' k s', init_corries (N:=Hll A) true (fun _ => EmptyString) EmptyString [] (sides_init A (Hll A)) Adiab 8 (sides_cfg A) w = (w', Ok k) /\
    between_steps Adiab 8 (c_mesh k) (c_sim k) s' /\
    nltb A (at2 (n0 A) (prim (cent (s_u s'))) 1 (ghost_cell West 8 1)) (n0 A) = true /\
    nltb A (n0 A) (at2 (n0 A) (prim (cent (s_u s'))) 1 (ghost_cell East 8 1)) = true.
Proof.
  intros bln bexp w A. split.
  { intros s m s' H. injection H as <-. cbn [s_rk s_rhs s_u]. split; [reflexivity|]. split; [reflexivity|]. split.
    - intros (Hc & Hw & He). split; [|split; [exact Hw|exact He]]. cbn [cent set_cent]. destruct Hc as (H1 & H2). split; [apply shape_mtab|exact H2].
    - repeat split; reflexivity. }
  destruct (first_step_ok A (Hll A) Adiab 8 (sides_init A (Hll A)) (sides_cfg A) w
    (fun v v' o => nltb A (at2 (n0 A) (prim v') 1 (ghost_cell West 8 1)) (n0 A) && nltb A (n0 A) (at2 (n0 A) (prim v') 1 (ghost_cell East 8 1)) &&
       match o with Ok tt => true | _ => false end)%bool ltac:(vm_compute; reflexivity)) as (w' & k & s' & o & H1 & H2 & H3).
  apply andb_true_iff in H3. destruct H3 as (H3 & H5). apply andb_true_iff in H3. destruct H3 as (H3 & H4).
  exists w', k, s'. split; [exact H1|]. split; [|split; [exact H3|exact H4]].
  right. exists true, 1, (c_sim k). split; [apply ev_refl|]. rewrite H2. destruct o as [[]|e| |]; try discriminate H5. reflexivity.
Qed.
