(** C68: the position of the domain does not matter. *)

From Coq Require Import Reals List ZArith NArith QArith Bool String Lia Lra.
From Verif Require Import Base Num XReal B64 Config Mesh State NumFlux Time Writer Runner SpecRun SpecWall MeshProofs WallProofs WallDemo P_Run P_Writer P_Silent P_Mesh P_Wall.
Import ListNotations.
Local Open Scope string_scope.

(** No mode of this side looks at the coordinates. *)
Definition no_kepler (l : list (nat * cbmode)) : Prop :=
  forall x, In x l -> snd x <> ExtrapolateDensityKepler /\ snd x <> ExtrapolateEtaVelocityKepler.

Section Shift.
Context {A : Num} {N : numflux_impl A}.
Variables m m' : mesh A.

(** All the step sees of a mesh. *)
Definition same_geometry : Prop :=
  m_is_logarithmic m' = m_is_logarithmic m /\ m_cell_width_inv m' = m_cell_width_inv m /\
  forall v p S nf full u, nf_calc N v p S nf full u m' = nf_calc N v p S nf full u m.
Hypothesis G : same_geometry.

Lemma shift_modes : forall s E S l q, no_kepler l -> apply_modes s E S m' l q = apply_modes s E S m l q.
Proof.
  destruct G as (G1 & _ & _). induction l as [|[j md] l IH]; intros q K; [reflexivity|]. cbn [apply_modes].
  assert (H : apply_mode s S m' md j q = apply_mode s S m md j q).
  { destruct (K (j, md) (or_introl eq_refl)) as (K1 & K2). cbn [snd] in *.
    destruct s, md; try congruence; unfold apply_mode, outflow_extrapolate_west, outflow_extrapolate_east, extrapolate_west, extrapolate_east; rewrite ?G1; reflexivity. }
  rewrite H. destruct (j <? E)%nat; [|reflexivity]. apply IH. intros x Hx. apply K. right. exact Hx.
Qed.

Lemma shift_from_prim : forall p S bw be u, no_kepler bw -> no_kepler be -> st_update_from_prim p S bw be m' u = st_update_from_prim p S bw be m u.
Proof.
  intros p S bw be u Kw Ke. unfold st_update_from_prim, update_vars_from_prim, bc_apply. rewrite (shift_modes West _ _ _ _ Kw).
  destruct (apply_modes West _ _ _ _ _); cbn [bind]; try reflexivity. rewrite (shift_modes East _ _ _ _ Ke). reflexivity.
Qed.

Lemma shift_from_cons : forall p S bw be u, no_kepler bw -> no_kepler be -> st_update_from_cons p S bw be m' u = st_update_from_cons p S bw be m u.
Proof.
  intros p S bw be u Kw Ke. pose proof (shift_from_prim p S bw be (set_cent (update_prim p S (cent u)) u) Kw Ke) as H. exact H.
Qed.

Definition calm (r : rhs A N) : Prop := no_kepler (r_bw r) /\ no_kepler (r_be r).

Lemma shift_rhs : forall v p S r u, calm r -> rhs_update v p S r u m' = rhs_update v p S r u m /\ calm (fst (fst (rhs_update v p S r u m))).
Proof.
  intros v p S r u (Kw & Ke). unfold rhs_update. rewrite (shift_from_cons _ _ _ _ _ Kw Ke). destruct G as (_ & _ & G3).
  destruct (st_update_from_cons p S (r_bw r) (r_be r) m u); try (split; [reflexivity|split; assumption]).
  rewrite G3. destruct (nf_calc N v p S (r_nf r) (r_full r) a m) as [[[nf full] u2] o]. split; [reflexivity|split; assumption].
Qed.

Lemma shift_stages : forall v p S dt u qs rk (rh : rhs A N), calm rh ->
  rkf_stages v p S m' dt u qs rk rh = rkf_stages v p S m dt u qs rk rh /\ calm (snd (fst (rkf_stages v p S m dt u qs rk rh))).
Proof.
  intros v p S dt u. induction qs as [|q t IH]; intros rk rh K; cbn [rkf_stages]; [auto|].
  set (ut := set_cent _ _). destruct (shift_rhs v p S rh ut K) as (E & K'). rewrite E.
  destruct (rhs_update v p S rh ut m) as [[rh1 u1] o]. cbn [fst] in K'. destruct o as [[]|e| |]; [apply IH; exact K'|auto..].
Qed.

Lemma shift_calc : forall v p S dt u rk (rh : rhs A N), calm rh ->
  calc_rkf_solution v p S dt u rk rh m' = calc_rkf_solution v p S dt u rk rh m /\ calm (snd (fst (calc_rkf_solution v p S dt u rk rh m))).
Proof.
  intros v p S dt u rk rh K. unfold calc_rkf_solution. set (rk0 := rk_set_k _ rk). destruct (shift_stages v p S dt u (seq 0 (bt_order (rk_bt rk))) rk0 rh K) as (E & K'). rewrite E.
  destruct (rkf_stages v p S m dt u (seq 0 (bt_order (rk_bt rk))) rk0 rh) as [[rk1 rh1] o]. cbn [fst snd] in K'. split; [reflexivity|].
  destruct o as [[]|e| |]; try exact K'. match goal with |- context [if ?c then (?x, ?y) else ?z] => destruct (if c then (x, y) else z) as [rk2 dto] end.
  destruct (if v then rkf_validate rk2 else Ok tt); exact K'.
Qed.

Lemma shift_asc : forall v p S u fuel t rk (rh : rhs A N), calm rh ->
  asc_loop v fuel p S t u rk rh m' = asc_loop v fuel p S t u rk rh m /\ calm (snd (fst (asc_loop v fuel p S t u rk rh m))).
Proof.
  intros v p S u. induction fuel as [|fuel IH]; intros t rk rh K; cbn [asc_loop]; destruct (rk_accepted rk); try (split; [reflexivity|exact K]).
  destruct (shift_calc v p S (ts_dt t) u rk rh K) as (E & K'). rewrite E. destruct (calc_rkf_solution v p S (ts_dt t) u rk rh m) as [[rk1 rh1] o]. cbn [fst snd] in K'.
  destruct o as [dt|e| |]; [|split; [reflexivity|exact K']..]. destruct (nltb A _ _); apply IH; exact K'.
Qed.

Lemma shift_next : forall v fuel p S (s : sim A N), calm (s_rhs s) ->
  solver_next v fuel p S m' s = solver_next v fuel p S m s /\ calm (s_rhs (fst (solver_next v fuel p S m s))).
Proof.
  intros v fuel p S s K.
  assert (H : rkf_next v fuel p S m' s = rkf_next v fuel p S m s /\ calm (s_rhs (fst (rkf_next v fuel p S m s)))).
  { unfold rkf_next.
    assert (D : forall t, calc_dt_expl p S t (s_u s) m' = calc_dt_expl p S t (s_u s) m).
    { intros t. unfold calc_dt_expl, st_calc_dt_cfl, calc_dt_cfl. destruct G as (_ & -> & _). reflexivity. }
    rewrite D. destruct (calc_dt_expl p S _ (s_u s) m) as [t1 r1]. destruct r1 as [[]|e| |]; [|split; [reflexivity|exact K]..].
    set (t2 := cap_dt t1).
    assert (H : rkf_asc v fuel p S t2 (s_u s) (s_rk s) (s_rhs s) m' = rkf_asc v fuel p S t2 (s_u s) (s_rk s) (s_rhs s) m /\ calm (snd (fst (rkf_asc v fuel p S t2 (s_u s) (s_rk s) (s_rhs s) m)))).
    { unfold rkf_asc. destruct (bt_asc _); [apply shift_asc; exact K|split; [reflexivity|exact K]]. }
    destruct H as (-> & K1). destruct (rkf_asc v fuel p S t2 (s_u s) (s_rk s) (s_rhs s) m) as [[[t3 rk] rh] o]. cbn [fst snd] in K1.
    destruct o as [[]|e| |]; [|split; [reflexivity|exact K1]..]. destruct (shift_calc v p S (ts_dt t3) (s_u s) rk rh K1) as (-> & K2).
    destruct (calc_rkf_solution v p S (ts_dt t3) (s_u s) rk rh m) as [[rk1 rh1] o]. cbn [fst snd] in K2. destruct o as [x|e| |]; [|split; [reflexivity|exact K2]..].
    destruct K2 as (Kw & Ke). rewrite (shift_from_cons _ _ _ _ _ Kw Ke). split; [reflexivity|].
    destruct (st_update_from_cons p S (r_bw rh1) (r_be rh1) m _) as [u2|e| |]; try (split; assumption). destruct (if v then state_validate u2 else Ok tt); split; assumption. }
  destruct H as (E & K'). unfold solver_next. rewrite E. split; [reflexivity|]. destruct (rkf_next v fuel p S m s) as [s1 o]. cbn [fst] in K'.
  destruct o as [[]|e| |]; try exact K'. destruct (_ <=? _)%N; exact K'.
Qed.

(** Two runs without outputs. *)
Lemma shift_silent : forall v fmt fmt0 sched sched0 afuel p S me b me0 b0 fuel (s : sim A N) c c0 w w0 e r e0 r0, calm (s_rhs s) ->
  run_loop fmt v sched afuel fuel p S m s (mkWriter [] c me b) w = (e, r) ->
  run_loop fmt0 v sched0 afuel fuel p S m' s (mkWriter [] c0 me0 b0) w0 = (e0, r0) ->
  r0 = r /\ e_sim e0 = e_sim e /\ e_trace e0 = e_trace e.
Proof.
  intros v fmt fmt0 sched sched0 afuel p S me b me0 b0. induction fuel as [|fuel IH]; intros s c c0 w w0 e r e0 r0 K H H0; cbn [run_loop] in H, H0.
  { injection H as <- <-. injection H0 as <- <-. auto. }
  assert (O : exists s1 tr c1 c2, run_output fmt sched m s (mkWriter [] c me b) w = (s1, mkWriter [] c1 me b, w, tr, Ok tt) /\
    run_output fmt0 sched0 m' s (mkWriter [] c0 me0 b0) w0 = (s1, mkWriter [] c2 me0 b0, w0, tr, Ok tt) /\ calm (s_rhs s1)).
  { unfold run_output. destruct (nleb A _ _); [|exists s, [], c, c0; auto]. set (s' := sim_set_ts _ s).
    destruct (silent_output fmt sched m s' c me b w) as (c1 & ->). destruct (silent_output fmt0 sched0 m' s' c0 me0 b0 w0) as (c2 & ->). do 4 eexists. split; [reflexivity|]. split; [reflexivity|exact K]. }
  destruct O as (s1 & tr & c1 & c2 & O1 & O2 & K1). rewrite O1 in H. rewrite O2 in H0. clear O1 O2.
  destruct (nleb A _ _); [injection H as <- <-; injection H0 as <- <-; auto|].
  destruct (shift_next v afuel p S s1 K1) as (E & K2). rewrite E in H0. destruct (solver_next v afuel p S m s1) as [s2 o]. cbn [fst] in K2.
  destruct o as [[]|er| |].
  - destruct (run_loop fmt _ _ _ _ _ _ _ _ _ w) as [e1 r1] eqn:E1. destruct (run_loop fmt0 _ _ _ _ _ _ _ _ _ w0) as [e2 r2] eqn:E2.
    injection H as <- <-. injection H0 as <- <-. cbn [e_sim e_trace]. destruct (IH _ _ _ _ _ _ _ _ _ K2 E1 E2) as (-> & -> & ->). auto.
  - set (s' := sim_set_ts _ s2) in *. destruct (silent_output fmt sched m s' c1 me b w) as (c3 & D3). destruct (silent_output fmt0 sched0 m' s' c2 me0 b0 w0) as (c4 & D4).
    rewrite D3 in H. rewrite D4 in H0. injection H as <- <-. injection H0 as <- <-. auto.
  - injection H as <- <-. injection H0 as <- <-. auto.
  - injection H as <- <-. injection H0 as <- <-. auto.
Qed.
End Shift.

(** The configuration with its domain moved by [d]. *)
Definition shift_cfg (d : R) (c : config XRn) : config XRn :=
  let g := cf_mesh c in
  mkCfg (cf_banner c) (mkMC (A:=XRn) (mc_mode g) (nadd XRn (mc_xi_in g) (Fin d)) (nadd XRn (mc_xi_out g) (Fin d))) (cf_physics c) (cf_bc_west c) (cf_bc_east c)
    (cf_numerics c) (cf_output_max c) (cf_writer c).

Lemma tab_map : forall X Y n (f : nat -> X) (h : X -> Y), map h (tab n f) = tab n (fun i => h (f i)).
Proof. intros X Y n f h. unfold tab. rewrite map_map. reflexivity. Qed.

Lemma tab_zip : forall A n (f g : nat -> nF A) h, zipw A h (tab n f) (tab n g) = tab n (fun i => h (f i) (g i)).
Proof.
  intros A n f g h. unfold zipw, tab. induction (seq 0 n) as [|i l IH]; [reflexivity|]. cbn [map combine fst snd]. rewrite IH. reflexivity.
Qed.

(** Differences of coordinates do not change. *)
Lemma shift_diff : forall (x d : R) (y u v : nF XRn), nsub XRn (nadd XRn (nadd XRn (Fin (x + d)) y) u) (nadd XRn (nadd XRn (Fin (x + d)) y) v) = nsub XRn (nadd XRn (nadd XRn (Fin x) y) u) (nadd XRn (nadd XRn (Fin x) y) v).
Proof. intros x d [y| | |] [u| | |] [v| | |]; cbn; try reflexivity; f_equal; lra. Qed.
Lemma shift_diff_w : forall (x d : R) (y u : nF XRn), nsub XRn (nadd XRn (nadd XRn (Fin (x + d)) y) u) (nadd XRn (Fin (x + d)) y) = nsub XRn (nadd XRn (nadd XRn (Fin x) y) u) (nadd XRn (Fin x) y).
Proof. intros x d [y| | |] [u| | |]; cbn; try reflexivity; f_equal; lra. Qed.
Lemma shift_diff_c : forall (x d : R) (y u : nF XRn), nsub XRn (nadd XRn (Fin (x + d)) y) (nadd XRn (nadd XRn (Fin (x + d)) y) u) = nsub XRn (nadd XRn (Fin x) y) (nadd XRn (nadd XRn (Fin x) y) u).
Proof. intros x d [y| | |] [u| | |]; cbn; try reflexivity; f_equal; lra. Qed.

Section Mesh.
Variables (g : mesh_config XRn) (a b d : R) (S : nat).
Hypotheses (Ga : mc_xi_in g = Fin a) (Gb : mc_xi_out g = Fin b).
Let g' := mkMC (A:=XRn) (mc_mode g) (nadd XRn (mc_xi_in g) (Fin d)) (nadd XRn (mc_xi_out g) (Fin d)).
Let m := mesh_build S g.
Let m' := mesh_build S g'.

Lemma shift_dxi : m_dxi m' = m_dxi m.
Proof.
  unfold m', m, mesh_build, g'. cbn [m_dxi mc_xi_in mc_xi_out]. rewrite Ga, Gb.
  assert (E : nsub XRn (nadd XRn (Fin b) (Fin d)) (nadd XRn (Fin a) (Fin d)) = nsub XRn (Fin b) (Fin a)) by (cbn; f_equal; lra). rewrite E. reflexivity.
Qed.

Lemma west_tab : m_xi_west m = tab S (fun i => nadd XRn (Fin a) (nmul XRn (m_dxi m) (nZ XRn (Z.of_nat i - Z.of_nat 2)))) /\
  m_xi_west m' = tab S (fun i => nadd XRn (Fin (a + d)) (nmul XRn (m_dxi m) (nZ XRn (Z.of_nat i - Z.of_nat 2)))).
Proof.
  split; [|rewrite <- shift_dxi]; unfold m', m, mesh_build, g'; cbn [m_dxi m_xi_west mc_xi_in mc_xi_out]; rewrite Ga, Gb; reflexivity.
Qed.
Lemma cent_of_west : forall c, m_xi_cent (mesh_build S c) = map (fun x => nadd XRn x (nmul XRn (nQ XRn (1 # 2)) (m_dxi (mesh_build S c)))) (m_xi_west (mesh_build S c)).
Proof. reflexivity. Qed.
Lemma east_of_west : forall c, m_xi_east (mesh_build S c) = map (fun x => nadd XRn x (m_dxi (mesh_build S c))) (m_xi_west (mesh_build S c)).
Proof. reflexivity. Qed.

Lemma shift_width : m_cell_width_inv m' = m_cell_width_inv m.
Proof.
  assert (H : forall c, m_cell_width_inv (mesh_build S c) = map (nrecip XRn) (zipw XRn (nsub XRn) (m_xi_east (mesh_build S c)) (m_xi_west (mesh_build S c)))) by reflexivity.
  unfold m', m. rewrite !H, !east_of_west. fold m m'. rewrite shift_dxi. destruct west_tab as (-> & ->). rewrite !tab_map, !tab_zip, !tab_map. apply tab_ext. intros i _. rewrite shift_diff_w. reflexivity.
Qed.

Lemma shift_dist_west : tab S (fun i => nsub XRn (at1 (n0 XRn) (m_xi_west m') i) (at1 (n0 XRn) (m_xi_cent m') i)) = tab S (fun i => nsub XRn (at1 (n0 XRn) (m_xi_west m) i) (at1 (n0 XRn) (m_xi_cent m) i)).
Proof.
  apply tab_ext. intros i Hi. unfold m', m. rewrite !cent_of_west. fold m m'. rewrite shift_dxi. destruct west_tab as (-> & ->). rewrite !tab_map, !at1_tab by exact Hi. apply shift_diff_c.
Qed.
Lemma shift_dist_east : tab S (fun i => nsub XRn (at1 (n0 XRn) (m_xi_east m') i) (at1 (n0 XRn) (m_xi_cent m') i)) = tab S (fun i => nsub XRn (at1 (n0 XRn) (m_xi_east m) i) (at1 (n0 XRn) (m_xi_cent m) i)).
Proof.
  apply tab_ext. intros i Hi. unfold m', m. rewrite !cent_of_west, !east_of_west. fold m m'. rewrite shift_dxi. destruct west_tab as (-> & ->). rewrite !tab_map, !at1_tab by exact Hi. apply shift_diff.
Qed.

Lemma shift_area : m_d_area_east m' = m_d_area_east m /\ m_deta_dphi_d_volume m' = m_deta_dphi_d_volume m.
Proof.
  pose (ones := fun c => map (fun _ : nF XRn => n1 XRn) (m_xi_east (mesh_build S c))).
  pose (onesc := fun c => map (fun _ : nF XRn => n1 XRn) (m_xi_cent (mesh_build S c))).
  assert (O : ones g' = ones g /\ onesc g' = onesc g).
  { unfold ones, onesc. rewrite !cent_of_west, !east_of_west. fold m m'. destruct west_tab as (-> & ->). rewrite !tab_map. auto. }
  assert (H1 : forall c, m_d_area_east (mesh_build S c) = zipw XRn (nmul XRn) (ones c) (ones c)) by reflexivity.
  assert (H2 : forall c, m_deta_dphi_d_volume (mesh_build S c) = map (fun v => ndiv XRn (nmul XRn (n1 XRn) (n1 XRn)) (nadd XRn (nEPS XRn) v))
     (map (fun x => nmul XRn (nmul XRn (nmul XRn x (m_dxi (mesh_build S c))) (n1 XRn)) (n1 XRn)) (zipw XRn (nmul XRn) (zipw XRn (nmul XRn) (onesc c) (onesc c)) (onesc c)))) by reflexivity.
  unfold m', m. rewrite !H1, !H2. destruct O as (-> & ->). fold m m'. rewrite shift_dxi. auto.
Qed.

Lemma shift_hll : same_geometry (N:=Hll XRn) m m'.
Proof.
  split; [reflexivity|]. split; [exact shift_width|]. intros v p n nf full u. cbn [Hll nf_calc]. unfold hll_calc, calc_dflux_generic. destruct shift_area as (_ & ->). reflexivity.
Qed.
Lemma shift_kt : same_geometry (N:=Kt XRn) m m'.
Proof.
  split; [reflexivity|]. split; [exact shift_width|]. intros v p n nf full u. cbn [Kt nf_calc]. unfold kt_calc, calc_dflux_generic. destruct shift_area as (-> & ->). reflexivity.
Qed.
Lemma shift_kt_new : forall p c, kt_new p S c m' = kt_new p S c m.
Proof. intros p [|l]; [reflexivity|]. unfold kt_new. rewrite shift_dxi, shift_dist_west, shift_dist_east. reflexivity. Qed.
End Mesh.

Lemma xdivf : forall x y : R, y <> 0%R -> ndiv XRn (Fin x) (Fin y) = Fin (x / y).
Proof. intros x y H. cbn. destruct (Req_EM_T y 0); [contradiction|reflexivity]. Qed.

(** Two programs with the domain at two positions, started from the same
    values in the cells. *)
Section Programs.
Context {N : numflux_impl XRn}.
Variables (c : config XRn) (a b d : R) (S : nat) (p : phys).
Hypotheses (Ga : mc_xi_in (cf_mesh c) = Fin a) (Gb : mc_xi_out (cf_mesh c) = Fin b).
Notation m := (mesh_build S (cf_mesh c)).
Notation m' := (mesh_build S (cf_mesh (shift_cfg d c))).
Hypotheses (HG : same_geometry (N:=N) m m') (HN : nf_new N p S (nc_numflux (cf_numerics c)) m' = nf_new N p S (nc_numflux (cf_numerics c)) m).
Variables (v : bool) (meta meta' : config XRn -> string) (banner banner' : string) (sched sched' : list nat).
Variables init init' : sim XRn N -> mesh XRn -> sim XRn N * res unit.
Variables (w w1 w' w1' : world) (k k' : components XRn N).
Hypotheses (I : init_corries (N:=N) v meta banner sched init p S c w = (w1, Ok k))
  (I' : init_corries (N:=N) v meta' banner' sched' init' p S (shift_cfg d c) w' = (w1', Ok k'))
  (HI : forall s, init' s (c_mesh k') = init s (c_mesh k)) (K : calm (s_rhs (c_sim k))).

Lemma ok_inj : forall X (x y : X), Ok x = Ok y -> x = y.
Proof. intros X x y H. congruence. Qed.

Lemma position_start : c_mesh k = m /\ c_mesh k' = m' /\ c_sim k' = c_sim k.
Proof.
  clear Ga Gb. revert I I' HI K HG HN. unfold init_corries, mesh_new. change (cf_physics (shift_cfg d c)) with (cf_physics c).
  destruct (cf_validate c) as [[]|e| |]; try discriminate. destruct (cf_validate (shift_cfg d c)) as [[]|e| |]; try discriminate.
  destruct (S <? 4)%nat; try discriminate. generalize m m'. intros x x'. cbn [bind].
  destruct (if v then mesh_validate x else Ok tt) as [[]|e| |]; try discriminate. destruct (if v then mesh_validate x' else Ok tt) as [[]|e| |]; try discriminate. cbn [bind].
  unfold solver_new, rhs_new. change (cf_numerics (shift_cfg d c)) with (cf_numerics c).
  intros J J' HJ KJ GJ NJ. rewrite NJ in J'. destruct (nf_new N p S (nc_numflux (cf_numerics c)) x) as [nf|e| |]; try discriminate. cbn [bind] in J, J'.
  change (rkf_new p S (shift_cfg d c)) with (rkf_new p S c) in J'.
  change (cf_output_max (shift_cfg d c)) with (cf_output_max c) in J'. change (cf_bc_west (shift_cfg d c)) with (cf_bc_west c) in J'. change (cf_bc_east (shift_cfg d c)) with (cf_bc_east c) in J'.
  set (s0 := mkSim _ _ _ _) in J, J'.
  destruct (writer_new meta S c x w) as [w2 r2]. destruct r2 as [wr|e| |]; try discriminate.
  destruct (writer_metadata (wr_meta wr) sched (wr_outputs wr) _) as [w3 r3]. destruct r3 as [[]|e| |]; try discriminate.
  destruct (writer_new meta' S (shift_cfg d c) x' w') as [w2' r2']. destruct r2' as [wr'|e| |]; try discriminate.
  destruct (writer_metadata (wr_meta wr') sched' (wr_outputs wr') _) as [w3' r3']. destruct r3' as [[]|e| |]; try discriminate.
  destruct (init s0 x) as [s1 r4] eqn:E. destruct (init' s0 x') as [s1' r4'] eqn:E'. destruct r4 as [[]|e| |]; try discriminate. destruct r4' as [[]|e| |]; try discriminate. cbn [bind] in J, J'.
  destruct (st_update_from_prim p S (r_bw (s_rhs s1)) (r_be (s_rhs s1)) x (s_u s1)) as [u|e| |] eqn:U; try discriminate. cbn [bind] in J.
  destruct (st_update_from_prim p S (r_bw (s_rhs s1')) (r_be (s_rhs s1')) x' (s_u s1')) as [u'|e| |] eqn:U'; try discriminate. cbn [bind] in J'.
  apply pair_equal_spec in J. destruct J as (_ & J). apply ok_inj in J. apply pair_equal_spec in J'. destruct J' as (_ & J'). apply ok_inj in J'. subst k k'. cbn [c_mesh c_sim s_rhs] in *.
  split; [reflexivity|]. split; [reflexivity|]. rewrite HJ, E in E'. injection E' as <-.
  destruct KJ as (Kw & Ke). rewrite (shift_from_prim x x' GJ _ _ _ _ _ Kw Ke), U in U'. apply ok_inj in U'. subst u'. reflexivity.
Qed.

Lemma position_run : forall fmt fmt' sc sc' afuel fuel e r e' r',
  run_loop fmt v sc afuel fuel p S (c_mesh k) (c_sim k) (c_writer k) w1 = (e, r) ->
  run_loop fmt' v sc' afuel fuel p S (c_mesh k') (c_sim k') (c_writer k') w1' = (e', r') ->
  (r' = r /\ e_sim e' = e_sim e /\ e_trace e' = e_trace e) \/ output_failed fmt sc (c_mesh k) e r \/ output_failed fmt' sc' (c_mesh k') e' r'.
Proof.
  intros fmt fmt' sc sc' afuel fuel e r e' r' R R'. destruct position_start as (Em & Em' & Es). rewrite Es in R'.
  destruct (run_loop fmt v sc afuel fuel p S (c_mesh k) (c_sim k) (mkWriter [] 0%N "" false) w1) as [e0 r0] eqn:Q.
  destruct (run_loop fmt' v sc' afuel fuel p S (c_mesh k') (c_sim k) (mkWriter [] 0%N "" false) w1') as [e0' r0'] eqn:Q'.
  destruct (run_silent _ _ _ _ _ _ _ _ _ _ _ _ _ _ _ _ _ _ _ _ _ R Q) as (_ & [(A1 & A2 & A3)|(F & _)]); [|auto].
  destruct (run_silent _ _ _ _ _ _ _ _ _ _ _ _ _ _ _ _ _ _ _ _ _ R' Q') as (_ & [(B1 & B2 & B3)|(F & _)]); [|auto].
  rewrite Em in Q. rewrite Em' in Q'. destruct (shift_silent _ _ HG _ _ _ _ _ _ _ _ _ _ _ _ _ _ _ _ _ _ _ _ _ _ K Q Q') as (C1 & C2 & C3). left.
  rewrite A1, A2, A3, B1, B2, B3. auto.
Qed.

Lemma position_coordinates : forall i, (i < S)%nat -> (4 < S)%nat ->
  at1 (n0 XRn) (m_xi_cent (c_mesh k')) i = nadd XRn (at1 (n0 XRn) (m_xi_cent (c_mesh k)) i) (Fin d).
Proof.
  intros i Hi Hs. destruct position_start as (-> & -> & _). rewrite !cent_of_west. cbn [shift_cfg cf_mesh]. rewrite (shift_dxi _ a b d S Ga Gb). destruct (west_tab _ a b d S Ga Gb) as (E & E'). rewrite E, E'.
  rewrite !tab_map, !at1_tab by exact Hi.
  assert (D : m_dxi m = Fin ((b - a) / IZR (Z.of_nat (S - 4)))).
  { unfold mesh_build. cbn [m_dxi]. rewrite Ga, Gb. replace (S - 2 * 2)%nat with (S - 4)%nat by lia.
    change (ndiv XRn (Fin (b - a)) (Fin (IZR (Z.of_nat (S - 4)))) = Fin ((b - a) / IZR (Z.of_nat (S - 4)))). apply xdivf. intros Z. apply (eq_IZR _ 0) in Z. lia. }
  rewrite D. cbn. f_equal. lra.
Qed.
End Programs.

(** Without outputs the initialisation at the other position succeeds if its
    mesh is accepted. *)
Lemma position_succeeds : forall (N : numflux_impl XRn) (c : config XRn) a b d S p v meta banner sched init init' w w1 w' k m',
  mc_xi_in (cf_mesh c) = Fin a -> mc_xi_out (cf_mesh c) = Fin b -> cf_writer c = [] -> cf_banner c = false ->
  same_geometry (N:=N) (mesh_build S (cf_mesh c)) (mesh_build S (cf_mesh (shift_cfg d c))) ->
  nf_new N p S (nc_numflux (cf_numerics c)) (mesh_build S (cf_mesh (shift_cfg d c))) = nf_new N p S (nc_numflux (cf_numerics c)) (mesh_build S (cf_mesh c)) ->
  init_corries (N:=N) v meta banner sched init p S c w = (w1, Ok k) -> calm (s_rhs (c_sim k)) ->
  mesh_new v S (cf_mesh (shift_cfg d c)) = Ok m' -> (forall s, init' s m' = init s (c_mesh k)) ->
  exists k', init_corries (N:=N) v meta banner sched init' p S (shift_cfg d c) w' = (w', Ok k') /\ c_mesh k' = m'.
Proof.
  intros N c a b d S p v meta banner sched init init' w w1 w' k m' Ga Gb Wr Bn HG HN I K M HI.
  assert (V : cf_validate c = Ok tt -> cf_validate (shift_cfg d c) = Ok tt).
  { unfold cf_validate, mc_validate, shift_cfg. cbn [cf_mesh cf_physics cf_numerics cf_writer mc_xi_in mc_xi_out]. rewrite Ga, Gb.
    assert (L : nltb XRn (nadd XRn (Fin a) (Fin d)) (nadd XRn (Fin b) (Fin d)) = nltb XRn (Fin a) (Fin b)).
    { cbn. destruct (Rlt_dec (a + d) (b + d)), (Rlt_dec a b); try reflexivity; lra. }
    rewrite L. auto. }
  revert I M HI K HG HN. unfold init_corries, mesh_new. change (cf_physics (shift_cfg d c)) with (cf_physics c).
  destruct (cf_validate c) as [[]|e| |]; try discriminate. rewrite (V eq_refl). clear V.
  destruct (S <? 4)%nat; try discriminate. generalize (mesh_build S (cf_mesh c)) (mesh_build S (cf_mesh (shift_cfg d c))). intros x x'. cbn [bind].
  destruct (if v then mesh_validate x else Ok tt) as [[]|e| |]; try discriminate. destruct (if v then mesh_validate x' else Ok tt) as [[]|e| |]; try discriminate. cbn [bind].
  intros J Q HJ KJ GJ NJ. apply ok_inj in Q. subst m'. revert J. unfold solver_new, rhs_new. change (cf_numerics (shift_cfg d c)) with (cf_numerics c).
  rewrite NJ. destruct (nf_new N p S (nc_numflux (cf_numerics c)) x) as [nf|e| |]; try discriminate. cbn [bind].
  change (rkf_new p S (shift_cfg d c)) with (rkf_new p S c).
  change (cf_output_max (shift_cfg d c)) with (cf_output_max c). change (cf_bc_west (shift_cfg d c)) with (cf_bc_west c). change (cf_bc_east (shift_cfg d c)) with (cf_bc_east c).
  set (s0 := mkSim _ _ _ _). unfold writer_new. change (cf_writer (shift_cfg d c)) with (cf_writer c). change (cf_banner (shift_cfg d c)) with (cf_banner c). rewrite Wr, Bn. cbn [outputs_new bind wr_banner wr_outputs wr_meta].
  assert (M : forall me l w0, writer_metadata (A:=XRn) me l [] w0 = (w0, Ok tt)).
  { intros me. induction l as [|i l IH]; intros w0; [reflexivity|]. cbn [writer_metadata]. destruct i; apply IH. }
  rewrite !M. intros J.
  assert (E0 : init' s0 x' = init s0 x).
  { destruct (init s0 x) as [s1 r4] eqn:E. destruct r4 as [[]|e| |]; try discriminate. cbn [bind] in J.
    destruct (st_update_from_prim p S (r_bw (s_rhs s1)) (r_be (s_rhs s1)) x (s_u s1)) as [u|e| |]; try discriminate. cbn [bind] in J.
    apply pair_equal_spec in J. destruct J as (_ & J). apply ok_inj in J. subst k. cbn [c_mesh] in HJ. rewrite HJ. exact E. }
  rewrite E0. destruct (init s0 x) as [s1 r4] eqn:E. destruct r4 as [[]|e| |]; try discriminate. cbn [bind] in *.
  destruct (st_update_from_prim p S (r_bw (s_rhs s1)) (r_be (s_rhs s1)) x (s_u s1)) as [u|e| |] eqn:U; try discriminate. cbn [bind] in J.
  apply pair_equal_spec in J. destruct J as (_ & J). apply ok_inj in J. subst k. cbn [c_sim s_rhs] in KJ. destruct KJ as (Kw & Ke).
  rewrite (shift_from_prim x x' GJ _ _ _ _ _ Kw Ke), U. eexists. split; [reflexivity|]. reflexivity.
Qed.

(** C68: for every program in exact arithmetic and every shift of its domain.
    If both initialisations succeed, the initial conditions put the same values
    in the cells and no boundary condition is one of the two Kepler modes, then
    the coordinates of the cells differ by the shift, and both go through the
    same states to the same end, unless an output fails. *)
Theorem C68_position_hll : forall (c : config XRn) a b d S p v meta meta' banner banner' sched sched' init init' w w1 w' w1' k k',
  mc_xi_in (cf_mesh c) = Fin a -> mc_xi_out (cf_mesh c) = Fin b -> (4 < S)%nat ->
  init_corries (N:=Hll XRn) v meta banner sched init p S c w = (w1, Ok k) ->
  init_corries (N:=Hll XRn) v meta' banner' sched' init' p S (shift_cfg d c) w' = (w1', Ok k') ->
  (forall s, init' s (c_mesh k') = init s (c_mesh k)) ->
  no_kepler (r_bw (s_rhs (c_sim k))) -> no_kepler (r_be (s_rhs (c_sim k))) ->
  (forall i, (i < S)%nat -> at1 (n0 XRn) (m_xi_cent (c_mesh k')) i = nadd XRn (at1 (n0 XRn) (m_xi_cent (c_mesh k)) i) (Fin d)) /\
  c_sim k' = c_sim k /\
  forall fmt fmt' sc sc' afuel fuel e r e' r',
  run_loop fmt v sc afuel fuel p S (c_mesh k) (c_sim k) (c_writer k) w1 = (e, r) ->
  run_loop fmt' v sc' afuel fuel p S (c_mesh k') (c_sim k') (c_writer k') w1' = (e', r') ->
  (r' = r /\ e_sim e' = e_sim e /\ e_trace e' = e_trace e) \/ output_failed fmt sc (c_mesh k) e r \/ output_failed fmt' sc' (c_mesh k') e' r'.
Proof.
  intros c a b d S p v meta meta' banner banner' sched sched' init init' w w1 w' w1' k k' Ga Gb HS I I' HI Kw Ke.
  pose proof (shift_hll (cf_mesh c) a b d S Ga Gb) as HG.
  assert (HN : nf_new (Hll XRn) p S (nc_numflux (cf_numerics c)) (mesh_build S (cf_mesh (shift_cfg d c))) = nf_new (Hll XRn) p S (nc_numflux (cf_numerics c)) (mesh_build S (cf_mesh c))) by reflexivity.
  split; [|split].
  - intros i Hi. exact (position_coordinates c a b d S p Ga Gb HG HN _ _ _ _ _ _ _ _ _ _ _ _ _ _ _ I I' HI (conj Kw Ke) i Hi HS).
  - apply (position_start c d S p HG HN _ _ _ _ _ _ _ _ _ _ _ _ _ _ _ I I' HI (conj Kw Ke)).
  - exact (position_run c d S p HG HN _ _ _ _ _ _ _ _ _ _ _ _ _ _ _ I I' HI (conj Kw Ke)).
Qed.
Print Assumptions C68_position_hll.

Theorem C68_position_kt : forall (c : config XRn) a b d S p v meta meta' banner banner' sched sched' init init' w w1 w' w1' k k',
  mc_xi_in (cf_mesh c) = Fin a -> mc_xi_out (cf_mesh c) = Fin b -> (4 < S)%nat ->
  init_corries (N:=Kt XRn) v meta banner sched init p S c w = (w1, Ok k) ->
  init_corries (N:=Kt XRn) v meta' banner' sched' init' p S (shift_cfg d c) w' = (w1', Ok k') ->
  (forall s, init' s (c_mesh k') = init s (c_mesh k)) ->
  no_kepler (r_bw (s_rhs (c_sim k))) -> no_kepler (r_be (s_rhs (c_sim k))) ->
  (forall i, (i < S)%nat -> at1 (n0 XRn) (m_xi_cent (c_mesh k')) i = nadd XRn (at1 (n0 XRn) (m_xi_cent (c_mesh k)) i) (Fin d)) /\
  c_sim k' = c_sim k /\
  forall fmt fmt' sc sc' afuel fuel e r e' r',
  run_loop fmt v sc afuel fuel p S (c_mesh k) (c_sim k) (c_writer k) w1 = (e, r) ->
  run_loop fmt' v sc' afuel fuel p S (c_mesh k') (c_sim k') (c_writer k') w1' = (e', r') ->
  (r' = r /\ e_sim e' = e_sim e /\ e_trace e' = e_trace e) \/ output_failed fmt sc (c_mesh k) e r \/ output_failed fmt' sc' (c_mesh k') e' r'.
Proof.
  intros c a b d S p v meta meta' banner banner' sched sched' init init' w w1 w' w1' k k' Ga Gb HS I I' HI Kw Ke.
  pose proof (shift_kt (cf_mesh c) a b d S Ga Gb) as HG.
  pose proof (shift_kt_new (cf_mesh c) a b d S Ga Gb p (nc_numflux (cf_numerics c))) as HN.
  split; [|split].
  - intros i Hi. exact (position_coordinates c a b d S p Ga Gb HG HN _ _ _ _ _ _ _ _ _ _ _ _ _ _ _ I I' HI (conj Kw Ke) i Hi HS).
  - apply (position_start c d S p HG HN _ _ _ _ _ _ _ _ _ _ _ _ _ _ _ I I' HI (conj Kw Ke)).
  - exact (position_run c d S p HG HN _ _ _ _ _ _ _ _ _ _ _ _ _ _ _ I I' HI (conj Kw Ke)).
Qed.
Print Assumptions C68_position_kt.

(** The closed box between 3 and 5, and between 7 and 9. *)
Example C68_example : forall fmt w, exists k k' e e',
  mc_xi_in (cf_mesh box_cfg) = Fin 3 /\ mc_xi_out (cf_mesh box_cfg) = Fin 5 /\ mc_xi_in (cf_mesh (shift_cfg 4 box_cfg)) = Fin (3 + 4) /\
  init_corries (N:=Hll XRn) true (fun _ => "") "" [] box_init Isot 6 box_cfg w = (w, Ok k) /\
  init_corries (N:=Hll XRn) true (fun _ => "") "" [] box_init Isot 6 (shift_cfg 4 box_cfg) w = (w, Ok k') /\
  (forall s, box_init s (c_mesh k') = box_init s (c_mesh k)) /\
  no_kepler (r_bw (s_rhs (c_sim k))) /\ no_kepler (r_be (s_rhs (c_sim k))) /\
  run_loop fmt true (fun _ => []) 0 2 Isot 6 (c_mesh k) (c_sim k) (c_writer k) w = (e, Ok tt) /\
  run_loop fmt true (fun _ => []) 0 2 Isot 6 (c_mesh k') (c_sim k') (c_writer k') w = (e', Ok tt) /\ List.length (e_trace e') = 2%nat.
Proof.
  intros fmt w. destruct (C60_example fmt w) as (k & e & e1 & H1 & _ & _ & _ & _ & H2 & H3 & _).
  assert (St : r_bw (s_rhs (c_sim k)) = wall_list Isot /\ r_be (s_rhs (c_sim k)) = wall_list Isot).
  { revert H1. unfold init_corries. destruct (cf_validate box_cfg) as [[]|x| |]; try discriminate. destruct (mesh_new true 6 (cf_mesh box_cfg)) as [m|x| |]; try discriminate.
    unfold solver_new, rhs_new. cbn [box_cfg cf_numerics nc_numflux Hll nf_new hll_new bind]. unfold writer_new. cbn [cf_writer outputs_new bind wr_banner wr_outputs wr_meta writer_metadata].
    unfold box_init at 1. cbn [s_rhs s_u]. destruct (st_update_from_prim _ _ _ _ _ _) as [u|x| |]; try discriminate. cbn [bind]. intros H1. apply pair_equal_spec in H1. destruct H1 as (_ & H1). apply ok_inj in H1. subst k. split; reflexivity. }
  destruct St as (Sw & Se).
  assert (Kl : no_kepler (wall_list Isot)) by (intros x Hx; destruct Hx as [<-|[<-|[]]]; cbn [snd]; split; discriminate).
  assert (K : calm (s_rhs (c_sim k))) by (split; [rewrite Sw|rewrite Se]; exact Kl).
  pose proof (shift_hll (cf_mesh box_cfg) 3 5 4 6 eq_refl eq_refl) as HG.
  destruct (proj2 (C06_accepted_exactly 6 Cartesian (3 + 4) (5 + 4) ltac:(lia) ltac:(lra))) as (m' & Hm).
  { intros i Hi. cbn [Nat.sub INR]. pose proof (pos_INR i). lra. }
  destruct (position_succeeds (Hll XRn) box_cfg 3 5 4 6 Isot true (fun _ => "") "" [] box_init box_init w w w k m' eq_refl eq_refl eq_refl eq_refl HG eq_refl H1 K Hm (fun _ => eq_refl)) as (k' & I' & _).
  destruct (run_loop fmt true (fun _ => []) 0 2 Isot 6 (c_mesh k') (c_sim k') (c_writer k') w) as [e' r'] eqn:E'.
  exists k, k', e, e'. split; [reflexivity|]. split; [reflexivity|]. split; [reflexivity|]. split; [exact H1|]. split; [exact I'|]. split; [reflexivity|]. split; [exact (proj1 K)|]. split; [exact (proj2 K)|]. split; [exact H2|].
  assert (Wn : exists c1 me b, c_writer k' = mkWriter [] c1 me b).
  { clear - I'. revert I'. unfold init_corries. destruct (cf_validate _) as [[]|x| |]; try discriminate. destruct (mesh_new true 6 _) as [m|x| |]; try discriminate.
    unfold solver_new, rhs_new. cbn [shift_cfg box_cfg cf_numerics nc_numflux Hll nf_new hll_new bind]. unfold writer_new. cbn [cf_writer outputs_new bind wr_banner wr_outputs wr_meta writer_metadata].
    unfold box_init at 1. cbn [s_rhs s_u]. destruct (st_update_from_prim _ _ _ _ _ _) as [u|x| |]; try discriminate. cbn [bind]. intros H1. apply pair_equal_spec in H1. destruct H1 as (_ & H1). apply ok_inj in H1. subst k'. do 3 eexists. reflexivity. }
  destruct Wn as (c1 & me & b & Wn).
  assert (Wn0 : exists c1 me b, c_writer k = mkWriter [] c1 me b).
  { clear - H1. revert H1. unfold init_corries. destruct (cf_validate _) as [[]|x| |]; try discriminate. destruct (mesh_new true 6 _) as [m|x| |]; try discriminate.
    unfold solver_new, rhs_new. cbn [shift_cfg box_cfg cf_numerics nc_numflux Hll nf_new hll_new bind]. unfold writer_new. cbn [cf_writer outputs_new bind wr_banner wr_outputs wr_meta writer_metadata].
    unfold box_init at 1. cbn [s_rhs s_u]. destruct (st_update_from_prim _ _ _ _ _ _) as [u|x| |]; try discriminate. cbn [bind]. intros H1. apply pair_equal_spec in H1. destruct H1 as (_ & H1). apply ok_inj in H1. subst k. do 3 eexists. reflexivity. }
  destruct Wn0 as (c2 & me2 & b2 & Wn2).
  destruct (position_start box_cfg 4 6 Isot HG eq_refl _ _ _ _ _ _ _ _ _ _ _ _ _ _ _ H1 I' (fun _ => eq_refl) K) as (Em & Em' & Es).
  rewrite Wn, Es, Em' in E'. rewrite Wn2, Em in H2. destruct (shift_silent _ _ HG _ _ _ _ _ _ _ _ _ _ _ _ _ _ _ _ _ _ _ _ _ _ K H2 E') as (-> & _ & T).
  split; [|rewrite T; exact H3]. rewrite Wn, Es, Em'. exact E'.
Qed.

(** With a Kepler boundary condition the position matters, and so it does in
    binary64: the widths of the cells are differences of rounded coordinates.
    Runs in binary64 on a domain of length 1 at [x], with this boundary
    condition in the west. *)
Section Position.
Variables bln bexp : b64 -> b64.
Notation B := (B64n bln bexp).
Definition pos_cfg (bc : bmode) (x : Z) : config B :=
  let c := brun_cfg bln bexp 100 1 (1 # 1000000) (4 # 10) in
  mkCfg false (mkMC (A:=B) Cartesian (nZ B x) (nZ B (x + 1))) (cf_physics c) bc (cf_bc_east c) (cf_numerics c) (cf_output_max c) [].
Definition pos_init (s : sim B (Hll B)) : sim B (Hll B) * res unit :=
  let v := set_c_sound (repeat (nQ B (1 # 2)) 7) (set_prim [tab 7 (fun i => nQ B (if (i <? 3)%nat then 1 else 1 # 8)); repeat (n0 B) 7] (cent (s_u s))) in
  (mkSim (s_ts s) (set_cent v (s_u s)) (s_rk s) (s_rhs s), Ok tt).
(** density of cell [i] at the end of a successful run *)
Definition pos_run (bc : bmode) (i : nat) (x : Z) : option (nF B) :=
  match init_corries (N:=Hll B) true (fun _ => "") "" [] (fun s _ => pos_init s) Isot 7 (pos_cfg bc x) no_world with
  | (w, Ok k) => match run_loop (fun _ _ => "") true (fun _ => []) 0 101 Isot 7 (c_mesh k) (c_sim k) (c_writer k) w with
                 | (e, Ok _) => Some (at2 (n0 B) (prim (cent (s_u (e_sim e)))) 0 i)
                 | _ => None
                 end
  | _ => None
  end.
End Position.

Theorem C68_kepler_refuted : forall bln bexp, let B := B64n bln bexp in
  exists a b, pos_run bln bexp (BCustom [(0%nat, ExtrapolateDensityKepler); (1%nat, NoGradients)]) 2 2 = Some a /\
  pos_run bln bexp (BCustom [(0%nat, ExtrapolateDensityKepler); (1%nat, NoGradients)]) 2 10 = Some b /\ nltb B (nadd B b (nQ B (1 # 100))) a = true.
Proof.
  intros bln bexp B.
  assert (X : match pos_run bln bexp (BCustom [(0%nat, ExtrapolateDensityKepler); (1%nat, NoGradients)]) 2 2, pos_run bln bexp (BCustom [(0%nat, ExtrapolateDensityKepler); (1%nat, NoGradients)]) 2 10 with
    | Some a, Some b => nltb B (nadd B b (nQ B (1 # 100))) a | _, _ => false end = true) by (vm_compute; reflexivity).
  destruct (pos_run _ _ _ _ 2) as [a|]; [|discriminate]. destruct (pos_run _ _ _ _ 10) as [b|]; [|discriminate]. exists a, b. auto.
Qed.
Print Assumptions C68_kepler_refuted.

Theorem C68_rounding_refuted : forall bln bexp, let B := B64n bln bexp in exists a b,
  pos_run bln bexp BNoGradients 3 2 = Some a /\ pos_run bln bexp BNoGradients 3 1000 = Some b /\ (nltb B a b = true \/ nltb B b a = true).
Proof.
  intros bln bexp B.
  assert (X : match pos_run bln bexp BNoGradients 3 2, pos_run bln bexp BNoGradients 3 1000 with
    | Some a, Some b => nltb B a b || nltb B b a | _, _ => false end = true) by (vm_compute; reflexivity).
  destruct (pos_run _ _ _ _ 2) as [a|]; [|discriminate]. destruct (pos_run _ _ _ _ 1000) as [b|]; [|discriminate]. exists a, b. split; [reflexivity|]. split; [reflexivity|].
  apply orb_true_iff. exact X.
Qed.
Print Assumptions C68_rounding_refuted.
