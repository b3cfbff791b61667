(** Whole simulations do not panic (C56). *)

From Coq Require Import ZArith NArith QArith List Bool Lia String.
From Verif Require Import Base Num XReal B64 Config Mesh State NumFlux Time Writer Runner Spec SpecFlow SpecStep SpecRun SpecWriter SpecInit SpecPanic
  ConfigProofs FluxProofs StepInv RunProofs WriterRun PanicProofs Demo P_Run P_Init.
Import ListNotations.
Local Open Scope nat_scope.

(** ** C56 No panics *)

(** Initialisation never panics if the mesh has at least four cells and the
    boundary conditions name existing equations, whatever the rest of the
    configuration, the arithmetic, the file system and the schedule are. *)
Theorem C56_init_never_panics : forall A (N : numflux_impl A) validation meta banner sched init p S c w,
  never_panics N -> 4 <= S -> equations_exist p (cf_bc_west c) -> equations_exist p (cf_bc_east c) -> tame p S init ->
  snd (init_corries (A:=A) (N:=N) validation meta banner sched init p S c w) <> Panic.
Proof.
  intros A N validation meta banner sched init p S c w Hn HS W E T.
  destruct (init_corries validation meta banner sched init p S c w) as [w' r] eqn:H. exact (proj1 (init_nopanic _ _ _ _ _ _ _ _ _ _ _ _ _ Hn HS W E T H)).
Qed.
Print Assumptions C56_init_never_panics.

(** A run that starts from its result never panics if the outputs have data
    names that exist, however long it runs and whatever fails on the way. *)
Theorem C56_run_never_panics : forall A (N : numflux_impl A) validation meta banner sched init p S c w w' k
    fmt validation' sched' afuel fuel w'',
  never_panics N -> 5 <= S -> equations_exist p (cf_bc_west c) -> equations_exist p (cf_bc_east c) -> tame p S init ->
  data_exists p (cf_writer c) ->
  init_corries (A:=A) (N:=N) validation meta banner sched init p S c w = (w', Ok k) ->
  snd (run_loop fmt validation' sched' afuel fuel p S (c_mesh k) (c_sim k) (c_writer k) w'') <> Panic.
Proof.
  intros A N validation meta banner sched init p S c w w' k fmt validation' sched' afuel fuel w'' Hn HS W E T D H. assert (HS4 : 4 <= S) by lia.
  destruct (init_nopanic _ _ _ _ _ _ _ _ _ _ _ _ _ Hn HS4 W E T H) as (_ & K). destruct (K k eq_refl) as ((v & mc & M) & Rw & Re & O).
  destruct (mesh_dims A _ _ _ _ M) as (_ & Dm).
  destruct (run_loop fmt validation' sched' afuel fuel p S (c_mesh k) (c_sim k) (c_writer k) w'') as [e r] eqn:R. cbn [snd].
  refine (run_nopanic A N Hn validation' p S (c_mesh k) fmt sched' afuel fuel _ _ _ _ _ HS Dm (init_sized _ _ _ _ _ _ _ _ _ _ _ _ _ HS T H) Rw Re _ R).
  rewrite O. intros o Ho. apply in_map_iff in Ho. destruct Ho as (oc & <- & Ho). destruct (D oc Ho) as (D1 & D2). apply build_wf; assumption.
Qed.
Print Assumptions C56_run_never_panics.

(** The schemes of the library never panic, the shipped initial conditions are
    tame. *)
Theorem C56_library : forall A, never_panics (Hll A) /\ never_panics (Kt A) /\
  forall (N : numflux_impl A) p S, tame (N:=N) p S (on_state (init_noh p S)) /\ tame (N:=N) p S (on_state (init_sod p S)).
Proof.
  intros A. split; [apply hll_nopanic|]. split; [apply kt_nopanic|]. intros N p S.
  assert (U : forall E j (x : list (nF A)) q, shape E S q -> List.length x = S -> shape E S (upd j x q)) by (intros; apply shape_upd_row; assumption).
  split; intros s m s' r H; unfold on_state in H.
  - destruct (init_noh p S (s_u s)) as [u r1] eqn:I. injection H as <- <-. cbn [s_rhs s_u]. unfold init_noh in I. apply pair_equal_spec in I. destruct I as (<- & <-).
    split; [discriminate|]. split; [reflexivity|]. split; [reflexivity|]. intros (H1 & H2 & H3 & H4 & H5). cbn [cent set_cent].
    destruct p; (split; [|split; [exact H2|split; [exact H3|split; [exact H4|]]]]); cbn [prim set_prim c_sound set_c_sound]; rewrite ?repeat_length; try assumption; try reflexivity;
      repeat apply U; rewrite ?repeat_length, ?length_tab; try reflexivity; exact H1.
  - destruct (init_sod p S (s_u s)) as [u r1] eqn:I. injection H as <- <-. cbn [s_rhs s_u]. unfold init_sod in I. destruct p; apply pair_equal_spec in I; destruct I as (<- & <-).
    + split; [discriminate|]. split; [reflexivity|]. split; [reflexivity|]. auto.
    + split; [discriminate|]. split; [reflexivity|]. split; [reflexivity|]. intros (H1 & H2 & H3 & H4 & H5). cbn [cent set_cent].
      split; [|split; [exact H2|split; [exact H3|split; [exact H4|exact H5]]]]. cbn [prim set_prim].
      repeat apply U; rewrite ?length_tab; try reflexivity. apply PhysicsProofs.shape_zeros2.
Qed.
Print Assumptions C56_library.

(** Without adaptive step control such a run returns: Ok or an error, after at
    most iter_max steps. *)
Theorem C56_run_returns : forall A (N : numflux_impl A) validation meta banner sched init p S c w w' k
    fmt validation' sched' afuel fuel w'',
  never_panics N -> returns N -> 5 <= S -> equations_exist p (cf_bc_west c) -> equations_exist p (cf_bc_east c) -> tame p S init ->
  (forall s m s' r, init s m = (s', r) -> s_ts s' = s_ts s /\ s_rk s' = s_rk s) ->
  data_exists p (cf_writer c) -> rc_asc (nc_time (cf_numerics c)) = false ->
  init_corries (A:=A) (N:=N) validation meta banner sched init p S c w = (w', Ok k) ->
  N.to_nat (nc_iter_max (cf_numerics c)) < fuel ->
  let r := snd (run_loop fmt validation' sched' afuel fuel p S (c_mesh k) (c_sim k) (c_writer k) w'') in
  r = Ok tt \/ exists e, r = Err e.
Proof.
  intros A N validation meta banner sched init p S c w w' k fmt validation' sched' afuel fuel w'' Hn Hr HS W E T Ti D Asc H F.
  pose proof (C56_run_never_panics _ _ _ _ _ _ _ _ _ _ _ _ _ fmt validation' sched' afuel fuel w'' Hn HS W E T D H) as P.
  destruct (init_at_start _ _ _ _ _ _ _ _ _ _ _ _ _ H Ti) as (Ts & Rk).
  assert (Im : (0 < nc_iter_max (cf_numerics c))%N).
  { unfold init_corries in H. destruct (cf_validate c) as [[]|e| |] eqn:V; try discriminate. clear H. unfold cf_validate in V.
    apply bind_Ok in V. destruct V as ([] & _ & V). apply bind_Ok in V. destruct V as ([] & _ & V). apply bind_Ok in V. destruct V as ([] & V & _).
    unfold nc_validate in V. apply bind_Ok in V. destruct V as ([] & _ & V). apply bind_Ok in V. destruct V as ([] & V & _).
    unfold ensure in V. destruct (N.ltb_spec 0 (nc_iter_max (cf_numerics c))); [assumption|discriminate]. }
  destruct (run_loop fmt validation' sched' afuel fuel p S (c_mesh k) (c_sim k) (c_writer k) w'') as [e r] eqn:R. cbn [snd] in *.
  assert (Nf : r <> Fuel).
  { refine (proj1 (C39_run_stops A N fmt validation' sched' afuel p S (c_mesh k) (c_sim k) (c_writer k) w'' fuel e r Hr _ _ _ R)).
    - rewrite Rk. cbn [rkf_new rk_bt]. unfold bt_new. rewrite Asc. destruct (rc_mode (nc_time (cf_numerics c))); reflexivity.
    - rewrite Ts. cbn [ts_new ts_iter ts_iter_max]. exact Im.
    - rewrite Ts. cbn [ts_new ts_iter ts_iter_max]. rewrite N.sub_0_r. exact F. }
  destruct r as [[]|er| |]; [left; reflexivity|right; eauto|congruence..].
Qed.
Print Assumptions C56_run_returns.

(** C56 example: the default configuration of the Riemann tests, on both
    physics systems and with both schemes, meets all the hypotheses. *)
Example C56_example : forall A n p t_end folder file, let c := default_riemann_test A n (nE p) t_end folder file in
  equations_exist p (cf_bc_west c) /\ equations_exist p (cf_bc_east c) /\ data_exists p (cf_writer c) /\
  rc_asc (nc_time (cf_numerics c)) = false /\
  forall (N : numflux_impl A) S (s : sim A N) m s' r, on_state (init_noh p S) s m = (s', r) -> s_ts s' = s_ts s /\ s_rk s' = s_rk s.
Proof.
  intros A n p t_end folder file c. split; [exact I|]. split; [exact I|]. split; [|split; [reflexivity|]].
  - intros oc [<-|[<-|[]]].
    + split; [discriminate|]. intros x Hx. cbn in Hx. repeat (destruct Hx as [<-|Hx]; [exact I|]). destruct Hx.
    + split; [discriminate|]. intros x Hx. cbn [default_file default_file_with_names oc_names] in Hx. apply in_app_or in Hx. destruct Hx as [Hx|Hx].
      * cbn in Hx. destruct Hx as [<-|[<-|[]]]; exact I.
      * apply in_map_iff in Hx. destruct Hx as (j & <- & Hj). apply in_seq in Hj. cbn. lia.
  - intros N S s m s' r H. unfold on_state in H. destruct (init_noh p S (s_u s)). injection H as <- <-. auto.
Qed.

(** ... and it is accepted and runs: a Sod test with four computational cells *)
Example C56_example_init : forall bln bexp, let A := B64n bln bexp in exists w k,
  init_corries (A:=A) (N:=Hll A) true (fun _ => EmptyString) EmptyString [0; 1] (on_state (init_sod Adiab 8)) Adiab 8
    (default_riemann_test A THll 3 (b_ofZ 1) "out" "sod") no_world = (w, Ok k).
Proof.
  intros bln bexp A.
  destruct (init_corries (A:=A) (N:=Hll A) true (fun _ => EmptyString) EmptyString [0; 1] (on_state (init_sod Adiab 8)) Adiab 8 (default_riemann_test A THll 3 (b_ofZ 1) "out" "sod") no_world) as [w k] eqn:E.
  assert (H : b_ok (do _ <- snd (init_corries (A:=A) (N:=Hll A) true (fun _ => EmptyString) EmptyString [0; 1] (on_state (init_sod Adiab 8)) Adiab 8 (default_riemann_test A THll 3 (b_ofZ 1) "out" "sod") no_world); Ok tt) = true) by (vm_compute; reflexivity).
  rewrite E in H. destruct k as [k|e| |]; try discriminate H. exists w, k. reflexivity.
Qed.

(** A validated configuration is not enough: with a boundary condition for an
    equation that does not exist initialisation panics, on every mesh. *)
Theorem C56_boundary_panic_refuted : forall bln bexp, let A := B64n bln bexp in exists c : config A,
  cf_validate c = Ok tt /\ data_exists Adiab (cf_writer c) /\
  forall S, 4 <= S -> snd (init_corries (A:=A) (N:=Hll A) false (fun _ => EmptyString) EmptyString [] (on_state (init_sod Adiab S)) Adiab S c no_world) = Panic.
Proof.
  intros bln bexp A. set (d := default_riemann_test A THll 3 (b_ofZ 1) "out"%string "sod"%string).
  set (c := mkCfg (A:=A) false (cf_mesh d) (cf_physics d) (BCustom [(0, NoGradients); (3, Reflecting)]) BNoGradients (cf_numerics d) 1%N []).
  exists c. assert (V : cf_validate c = Ok tt) by (vm_compute; reflexivity).
  split; [exact V|]. split; [intros x []|].
  intros S HS. unfold init_corries. rewrite V. unfold mesh_new. replace (S <? 4) with false by (symmetry; apply Nat.ltb_ge; lia). reflexivity.
Qed.
Print Assumptions C56_boundary_panic_refuted.
