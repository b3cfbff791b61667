(** C71 for the KT scheme, in exact arithmetic: whatever the limiter, validated
    runs of symmetric problems stay symmetric. *)

From Coq Require Import Reals ZArith NArith QArith Qreals List Bool Lia Lra String.
From Flocq Require Import Core BinarySingleNaN.
From Verif Require Import Base Num XReal B64 Config Mesh State NumFlux Time Writer Runner Spec SpecFlow SpecStep SpecEuler SpecInit SpecWall SpecMirror
  MeshProofs BoundaryProofs PhysicsProofs FluxProofs UpdateProofs FluxReal FluxThms FluxMore StepProofs StepInv StepEq EulerThms ConsThms MirrorProofs MirrorNum KtMirror TimeMore WallProofs WallDemo KtDemo MeshAccept P_Init P_Wall P_Mirror.
Import ListNotations.
Local Open Scope nat_scope.

Lemma kt_symm_next : forall p S (c : config XRn) md a b lim th fuel (s s' : sim XRn (Kt XRn)), 6 <= S -> cf_bc_west c = cf_bc_east c -> (a < b)%R ->
  cf_mesh c = mkMC (A:=XRn) md (Fin a) (Fin b) -> nc_numflux (cf_numerics c) = CKt lim -> limiter_theta lim = Fin th ->
  even_handed (m_is_logarithmic (mesh_build S (cf_mesh c))) (nE p) (init_bc (cf_bc_west c) (nE p)) ->
  reached p S c (mesh_build S (cf_mesh c)) (fun _ => True) s ->
  (p = Isot -> forall i, i < S -> at1 (n0 XRn) (c_sound (east (s_u s))) i = at1 (n0 XRn) (c_sound (west (s_u s))) (S - 1 - i)) ->
  mirror_symmetric (A:=XRn) eq p S (cent (s_u s)) ->
  solver_next true fuel p S (mesh_build S (cf_mesh c)) s = (s', Ok tt) -> mirror_symmetric (A:=XRn) eq p S (cent (s_u s')).
Proof.
  intros p S c md a b lim th fuel s s' HS Hbc Hab Hm Hl Ht Heven R Fs (_ & C & Q) E.
  apply solver_next_rkf in E. destruct E as (o & E & [(<- & _)|(X & _)]); [|discriminate X].
  assert (HS5 : 5 <= S) by lia.
  destruct (reached_kt _ _ _ _ _ R) as (k0 & Hk0 & R').
  set (m := mesh_build S (cf_mesh c)) in *.
  pose proof (kt_memoryless XRn p S m k0 HS5 (std_build XRn S (cf_mesh c))) as Hmem.
  destruct (reached_ok XRn (Kt XRn) p S m _ HS5 Hmem c s R') as (Ok0 & _ & _ & _ & Bw & Be). rewrite <- Hbc in Be.
  assert (HP : forall x, kt_like XRn x k0 -> kt_params S (hx S a b) lim th x).
  { intros x Hx. rewrite Hl in Hk0. unfold m in Hk0. rewrite Hm in Hk0. exact (kt_like_params p S md a b lim th k0 x HS5 Hab Ht Hk0 Hx). }
  assert (Harea : forall i, i < S -> at1 (n0 XRn) (m_d_area_east m) i = n1 XRn).
  { intros i Hi. unfold m. rewrite Hm. rewrite (mesh_area_east_R S a b md) by (assumption || lia). reflexivity. }
  assert (X0 : kt_extra p S (s_u s) (rk_utilde (s_rk s))).
  { split; [|exact Fs]. destruct R as (u0 & s0 & (_ & _ & G2 & G3) & N0 & _ & Ev). destruct Ok0 as (_ & (_ & GW & GE) & _). rewrite GW, GE.
    apply evolves_faces in Ev. destruct Ev as (-> & ->). unfold solver_new in N0. apply bind_Ok in N0. destruct N0 as (rh & _ & N0). injection N0 as <-. cbn [s_u]. congruence. }
  refine (next_mirror XRn eq _ xr_laws p S (cf_mesh c) _ HS Heven (Kt XRn) _ Hmem true (or_introl eq_refl) (kt_extra p S) _ _ fuel s s' Ok0 Bw Be _ _ X0 E).
  - intros u t t' (_ & GW & GE) (Y1 & Y2). split; [congruence|exact Y2].
  - intros c1 u k h h' w U Sc Cc Hs X SS Bw' Be' H.
    exact (kt_stage_mirror p S (cf_mesh c) _ HS Heven (hx S a b) th lim k0 c1 u k h h' w HP Harea U Sc Cc Hs X SS Bw' Be' H).
  - apply (rows_inner XRn eq p S HS). exact C.
  - intros _. exact Q.
Qed.

Theorem C71_symmetric_kt : forall meta banner isched init p S (c : config XRn) md a b lim th w w' k, 6 <= S ->
  cf_mesh c = mkMC (A:=XRn) md (Fin a) (Fin b) -> nc_numflux (cf_numerics c) = CKt lim -> limiter_theta lim = Fin th ->
  cf_bc_west c = cf_bc_east c -> even_handed (m_is_logarithmic (mesh_build S (cf_mesh c))) (nE p) (init_bc (cf_bc_west c) (nE p)) ->
  fills_state p S init -> symmetric_start (A:=XRn) (N:=Kt XRn) eq (fun _ => True) p S init ->
  init_corries (A:=XRn) (N:=Kt XRn) true meta banner isched init p S c w = (w', Ok k) ->
  mirror_symmetric (A:=XRn) eq p S (cent (s_u (c_sim k))) /\
  (forall fuel n s, next_n true fuel p S (c_mesh k) n (c_sim k) = (s, Ok tt) -> mirror_symmetric (A:=XRn) eq p S (cent (s_u s))) /\
  forall fmt sched afuel fuel w2 e o,
  run_loop fmt true sched afuel fuel p S (c_mesh k) (c_sim k) (c_writer k) w2 = (e, o) ->
  (forall ts v, In (ts, v) (e_trace e) -> ts_kind ts <> KErrorDump -> mirror_symmetric (A:=XRn) eq p S v) /\
  (o = Ok tt -> mirror_symmetric (A:=XRn) eq p S (cent (s_u (e_sim e))) /\ forall ts v, In (ts, v) (e_trace e) -> mirror_symmetric (A:=XRn) eq p S v).
Proof.
  intros meta banner isched init p S c md a b lim th w w' k HS Hm Hl Ht Hbc He Hf Hsy H.
  assert (Hab : (a < b)%R).
  { clear - H Hm. unfold init_corries in H. destruct (cf_validate c) as [[]|e| |] eqn:Ec; try discriminate. clear H.
    unfold cf_validate in Ec. apply bind_Ok in Ec. destruct Ec as ([] & E1 & _). rewrite Hm in E1. unfold mc_validate, ensure in E1. cbn [mc_xi_in mc_xi_out] in E1.
    destruct (nltb XRn (Fin a : XR) (Fin b)) eqn:L; [|discriminate]. cbn in L. destruct (Rlt_dec a b); [assumption|discriminate]. }
  set (ev := fun we ea : vars XRn => p = Isot -> forall i, i < S -> at1 (n0 XRn) (c_sound ea) i = at1 (n0 XRn) (c_sound we) (S - 1 - i)).
  assert (Ev0 : forall v we ea : vars XRn, mirror_symmetric (A:=XRn) eq p S v -> ev (vars_assign we v) (vars_assign ea v)).
  { intros v we ea (_ & _ & Q) _ i Hi. cbn [vars_assign c_sound set_c_sound]. apply Q. exact Hi. }
  assert (Hst : forall fuel (s s' : sim XRn (Kt XRn)), reached p S c (mesh_build S (cf_mesh c)) (fun _ => True) s -> ev (west (s_u s)) (east (s_u s)) -> mirror_symmetric (A:=XRn) eq p S (cent (s_u s)) ->
    solver_next true fuel p S (mesh_build S (cf_mesh c)) s = (s', Ok tt) -> mirror_symmetric (A:=XRn) eq p S (cent (s_u s')))
    by (intros fuel s s' R F T E; exact (kt_symm_next p S c md a b lim th fuel s s' HS Hbc Hab Hm Hl Ht He R F T E)).
  destruct (symm_init XRn eq (fun _ => True) xr_laws p S c HS Hbc He (Kt XRn) ev Ev0 true meta banner isched init w w' k Hf Hsy H) as (Em & R & Fs & T).
  rewrite Em. split; [exact T|]. split.
  - intros fuel n s E. exact (symm_steps XRn eq p S c true (Kt XRn) ev Hst fuel n _ s R Fs T E).
  - intros fmt sched afuel fuel w2 e o E. exact (symm_run XRn eq p S c true (Kt XRn) ev Hst fmt sched afuel fuel _ _ _ e o R Fs T E).
Qed.
Print Assumptions C71_symmetric_kt.

(** ** The collision in a box *)
Local Open Scope R_scope.
Definition hit_init (s : sim XRn (Kt XRn)) (m : mesh XRn) : sim XRn (Kt XRn) * res unit :=
  (mkSim (s_ts s) (set_cent (set_c_sound (repeat (Fin 1 : nF XRn) 6) (set_prim (mtab 2 6 (fun j i => Fin (hit_q j i) : nF XRn)) (cent (s_u s)))) (s_u s)) (s_rk s) (s_rhs s), Ok tt).

Lemma hit_fills : fills_state Isot 6 hit_init.
Proof.
  intros s m s' H. unfold hit_init in H. apply pair_equal_spec in H. destruct H as (<- & _). cbn [s_rk s_rhs s_u].
  split; [reflexivity|]. split; [reflexivity|]. split; [|repeat split]. intros ((W1 & W2 & W3 & W4 & W5) & Wo). split; [|exact Wo].
  cbn [set_cent cent]. unfold wsv. cbn [set_prim set_c_sound prim cons eigen_vals flux c_sound].
  split; [apply shape_mtab|]. repeat match goal with |- _ /\ _ => split end; auto; apply repeat_length.
Qed.
Lemma hit_symmetric : symmetric_start (A:=XRn) (N:=Kt XRn) eq (fun _ => True) Isot 6 hit_init.
Proof.
  intros s m s' _ H. unfold hit_init in H. apply pair_equal_spec in H. destruct H as (<- & _). cbn [s_u cent set_cent prim c_sound set_prim set_c_sound].
  split; [|split; [|intros; exact Logic.I]].
  - intros j i Hj Hi. rewrite !at2_mtab by (cbn [nE] in *; lia). cbn [nE] in Hj. assert (Hcs : (i = 2 \/ i = 3)%nat) by lia.
    destruct j as [|[|j]]; [| |lia]; destruct Hcs as [->| ->]; cbn -[Rdiv]; f_equal; lra.
  - intros _ i Hi. unfold at1. rewrite !(nth_indep _ (n0 XRn) (Fin 1 : nF XRn)) by (rewrite repeat_length; lia). rewrite !nth_repeat. reflexivity.
Qed.

Example C71_kt_example : forall fmt w, exists k e e1,
  init_corries (A:=XRn) (N:=Kt XRn) true (fun _ => EmptyString) EmptyString [] hit_init Isot 6 hit_cfg w = (w, Ok k) /\
  cf_bc_west hit_cfg = cf_bc_east hit_cfg /\
  even_handed (m_is_logarithmic (mesh_build 6 (cf_mesh hit_cfg))) (nE Isot) (init_bc (cf_bc_west hit_cfg) (nE Isot)) /\
  fills_state Isot 6 hit_init /\ symmetric_start (A:=XRn) (N:=Kt XRn) eq (fun _ => True) Isot 6 hit_init /\
  run_loop fmt true (fun _ => []) 0 2 Isot 6 (c_mesh k) (c_sim k) (c_writer k) w = (e, Ok tt) /\
  List.length (e_trace e) = 2%nat /\
  at2 (n0 XRn) (cons (cent (s_u (c_sim k)))) 1 2 = Fin (1 / 2) /\ at2 (n0 XRn) (cons (cent (s_u (e_sim e)))) 1 2 = Fin (1 / 2 - e1) /\ 0 < e1 < 1 / 2 /\
  mirror_symmetric (A:=XRn) eq Isot 6 (cent (s_u (e_sim e))).
Proof.
  intros fmt w.
  assert (Vc : cf_validate hit_cfg = Ok tt).
  { assert (L : forall x y : R, x < y -> nltb XRn (Fin x : nF XRn) (Fin y : nF XRn) = true) by (intros; rewrite X_ltb; destruct (Rlt_dec _ _); [reflexivity|contradiction]).
    assert (L0 : forall y : R, 0 < y -> check_pos (A:=XRn) (Fin y) = Ok tt) by (intros y Hy; unfold check_pos, ensure; rewrite X_n0, L by exact Hy; reflexivity).
    unfold cf_validate, mc_validate, pc_validate, nc_validate, rc_validate, nfc_validate. cbn [cf_mesh cf_physics cf_numerics cf_writer hit_cfg mc_xi_in mc_xi_out pc_gamma
      nc_numflux nc_iter_max nc_t0 nc_t_end nc_dt_min nc_dt_max nc_dt_cfl nc_time rc_atol rc_rtol rc_friction oc_validate_all].
    rewrite X_n1, X_Z, X_n0, !L by lra. rewrite !L0 by lra. rewrite X_leb. destruct (Rle_dec 0 0); [|lra]. reflexivity. }
  assert (Vm : mesh_new true 6 (cf_mesh hit_cfg) = Ok box_mesh).
  { apply (accept_if 6 Cartesian 3 5); [lia|lra|]. intros i _. unfold hx. cbn [INR Nat.sub]. pose proof (pos_INR i).
    repeat match goal with |- _ /\ _ => split end; lra. }
  destruct hit_vars as (v & Ev & C & W & G & P & Q). destruct hit_kt as (kt0 & Ek & KP & Z1 & Z2 & Z3 & Z4).
  set (u0 := state_new (A:=XRn) Isot 6 (cf_physics hit_cfg)).
  set (u1 := set_cent (rvars Isot 6 (14 / 10) 1 hit_q) u0).
  set (u := init_west_east (set_cent v u1)).
  set (ts0 := ts_new (A:=XRn) (cf_numerics hit_cfg) (cf_output_max hit_cfg)).
  set (s := mkSim (N:=Kt XRn) ts0 u (rkf_new Isot 6 hit_cfg) (mkRhs (N:=Kt XRn) (zeros2 2 6) kt0 (wall_list Isot) (wall_list Isot))).
  set (wr := mkWriter (A:=XRn) [] 0 EmptyString false).
  assert (Ei : init_corries (A:=XRn) (N:=Kt XRn) true (fun _ => EmptyString) EmptyString [] hit_init Isot 6 hit_cfg w = (w, Ok (mkComp s box_mesh wr))).
  { unfold init_corries. rewrite Vc, Vm. unfold solver_new, rhs_new. cbn [nf_new Kt cf_numerics hit_cfg nc_numflux bind]. rewrite Ek.
    cbn [writer_new outputs_new cf_writer hit_cfg bind wr_banner cf_banner wr_meta wr_outputs writer_metadata].
    unfold hit_init at 1. cbn [s_ts s_u s_rk s_rhs bind r_bw r_be]. unfold st_update_from_prim. cbn [cent set_cent].
    match goal with |- context [update_vars_from_prim Isot 6 ?a ?b box_mesh ?x] => change (update_vars_from_prim Isot 6 a b box_mesh x) with (update_vars_from_prim Isot 6 (wall_list Isot) (wall_list Isot) box_mesh (rvars Isot 6 (14 / 10) 1 hit_q)) end.
    rewrite Ev. reflexivity. }
  assert (Wu : wss Isot 6 u).
  { split; [exact W|]. split; apply wsv_assign; try exact W; apply (wsv_new XRn Isot 6). }
  set (s1 := sim_set_ts (ts_set_next (nadd XRn (ts_t_next ts0) (ts_dt_output ts0)) ts0) s).
  assert (O : ts_dt_output ts0 = Fin (1 / 3)).
  { cbn [ts0 ts_new ts_dt_output cf_numerics hit_cfg nc_t_end nc_t0 cf_output_max]. rewrite X_sub, X_Z. cbn [Z.of_N]. rewrite X_div by lra. f_equal. lra. }
  assert (R1 : run_output fmt (fun _ => []) box_mesh s wr w = (s1, mkWriter (A:=XRn) [] 1 EmptyString false, w, [(s_ts s1, cent u)], Ok tt)).
  { unfold run_output. cbn [s_ts s ts0 ts_new ts_t_next ts_dt_min ts_t cf_numerics hit_cfg nc_t0 nc_dt_min]. rewrite X_sub, X_leb.
    destruct (Rle_dec _ _) as [_|L]; [|exfalso; lra]. reflexivity. }
  destruct (hit_step v u (s_ts s1) kt0 0 eq_refl Wu C G eq_refl eq_refl P Q KP Z1 Z2 Z3 Z4) as (s2 & e1 & N2 & T1 & T2 & T3 & T4 & T5 & T6 & He & D1 & D2); try reflexivity.
  { cbn [s1 s_ts sim_set_ts ts_t_next ts_set_next]. rewrite O. cbn [ts0 ts_new ts_t_next cf_numerics hit_cfg nc_t0]. rewrite X_add. f_equal. lra. }
  change (mkSim (s_ts s1) u (rkf_new Isot 6 hit_cfg) _) with s1 in N2.
  set (s3 := sim_set_ts (ts_set_next (nadd XRn (ts_t_next (s_ts s2)) (ts_dt_output (s_ts s2))) (s_ts s2)) s2).
  assert (R2 : run_output fmt (fun _ => []) box_mesh s2 (mkWriter (A:=XRn) [] 1 EmptyString false) w = (s3, mkWriter (A:=XRn) [] 2 EmptyString false, w, [(s_ts s3, cent (s_u s2))], Ok tt)).
  { unfold run_output. rewrite T3, T5, T1, X_sub, X_leb. destruct (Rle_dec _ _) as [_|L]; [|exfalso; lra]. unfold s3. rewrite T3. reflexivity. }
  set (e := mkEnd s3 (mkWriter (A:=XRn) [] 2 EmptyString false) w [(s_ts s1, cent u); (s_ts s3, cent (s_u s2))]).
  assert (Er : run_loop fmt true (fun _ => []) 0 2 Isot 6 box_mesh s wr w = (e, Ok tt)).
  { cbn [run_loop]. rewrite R1.
    change (ts_t_end (s_ts s1)) with (Fin (1 / 3) : nF XRn). change (ts_t (s_ts s1)) with (Fin 0 : nF XRn). change (ts_dt_min (s_ts s1)) with (Fin (1 / 1000000) : nF XRn).
    rewrite X_Q, X_mul, X_add, X_leb. replace (Q2R (1 # 100)) with (1 / 100) by (unfold Q2R; cbn; lra). destruct (Rle_dec _ _) as [L|_]; [exfalso; lra|].
    rewrite N2, R2. change (ts_t_end (s_ts s3)) with (ts_t_end (s_ts s2)). change (ts_t (s_ts s3)) with (ts_t (s_ts s2)). change (ts_dt_min (s_ts s3)) with (ts_dt_min (s_ts s2)).
    rewrite T4, T1, T5. change (ts_t_end (s_ts s1)) with (Fin (1 / 3) : nF XRn). rewrite X_mul, X_add, X_leb.
    destruct (Rle_dec _ _) as [_|L]; [reflexivity|exfalso; lra]. }
  assert (Eh : even_handed (m_is_logarithmic (mesh_build 6 (cf_mesh hit_cfg))) (nE Isot) (init_bc (cf_bc_west hit_cfg) (nE Isot))).
  { split; [intros [|[|j]] Hj; cbn in *; auto; lia|]. intros j md [X|[X|[]]]; injection X as <- <-; auto. }
  destruct (C71_symmetric_kt _ _ _ hit_init Isot 6 hit_cfg Cartesian 3 5 MinMod 0 w w _ ltac:(lia) eq_refl eq_refl eq_refl eq_refl Eh hit_fills hit_symmetric Ei) as (_ & _ & K).
  destruct (K fmt (fun _ => []) 0%nat 2%nat w e (Ok tt) Er) as (_ & K2). destruct (K2 eq_refl) as (K3 & _).
  exists (mkComp s box_mesh wr), e, e1. split; [exact Ei|]. split; [reflexivity|]. split; [exact Eh|]. split; [exact hit_fills|]. split; [exact hit_symmetric|].
  split; [exact Er|]. split; [reflexivity|]. split; [|split; [exact D1|split; [exact He|exact K3]]].
  cbn [c_sim s s_u u init_west_east set_cent cent]. rewrite (cst_cons _ _ _ _ _ _ _ C 1%nat 2%nat) by (cbn; lia). cbn [cons_of]. rewrite !P by lia. rewrite X_mul. f_equal. unfold hit_q. cbn [Nat.even]. lra.
Qed.

(** ** Doubles: the distances from the cell centre to its two faces round
    differently, so KT runs of symmetric problems do not stay symmetric bit for
    bit.  Eight cells between 1000 and 1000.7, walls, density 1, 2, 4, 7, 7, 4, 2, 1 at
    rest, minmod. *)
Local Close Scope R_scope.
Definition ends {A : Num} {N : numflux_impl A} (p : phys) (S : nat) (init : sim A N -> mesh A -> sim A N * res unit) (c : config A) (fuel : nat)
    (fmt : nat -> nF A -> string) (w : world) : option (vars A) :=
  match init_corries (N:=N) true (fun _ => EmptyString) EmptyString [] init p S c w with
  | (_, Ok k) =>
      match run_loop fmt true (fun _ => []) 0 fuel p S (c_mesh k) (c_sim k) (c_writer k) w with
      | (e, Ok _) => Some (cent (s_u (e_sim e)))
      | _ => None
      end
  | _ => None
  end.

Lemma ends_ok : forall (A : Num) (N : numflux_impl A) p S init c fuel fmt w (chk : vars A -> bool),
  match ends (N:=N) p S init c fuel fmt w with Some v => chk v | None => false end = true ->
  exists w' k e, init_corries (N:=N) true (fun _ => EmptyString) EmptyString [] init p S c w = (w', Ok k) /\
    run_loop fmt true (fun _ => []) 0 fuel p S (c_mesh k) (c_sim k) (c_writer k) w = (e, Ok tt) /\ chk (cent (s_u (e_sim e))) = true.
Proof.
  intros A N p S init c fuel fmt w chk H. unfold ends in H.
  destruct (init_corries (N:=N) true (fun _ => EmptyString) EmptyString [] init p S c w) as [w' [k|x| |]]; [|discriminate H..].
  destruct (run_loop fmt true (fun _ => []) 0 fuel p S (c_mesh k) (c_sim k) (c_writer k) w) as [e [[]|x| |]] eqn:E; [|discriminate H..].
  exists w', k, e. auto.
Qed.

Section Tilt.
Variables bln bexp : b64 -> b64.
Let A := B64n bln bexp.

Definition tilt_cfg : config A :=
  mkCfg false (mkMC (A:=A) Cartesian (nZ A 1000) (nQ A (10007 # 10))) (mkPC (A:=A) (nQ A (14 # 10)) SI) (walls Isot) (walls Isot)
    (mkNC (A:=A) (CKt MinMod) (mkRC (A:=A) RK1 false (nQ A (1 # 100)) (nQ A (1 # 1000)) (nQ A (8 # 100))) 100%N (n0 A) (nQ A (1 # 50))
       (nQ A (1 # 1000000)) (nZ A 1000) (nQ A (4 # 10)))
    1%N [].

Definition tilt_q (j i : nat) : nF A :=
  match j with
  | 0%nat => nZ A (nth i [1; 1; 1; 2; 4; 7; 7; 4; 2; 1; 1; 1]%Z 0%Z)
  | _ => n0 A
  end.

Definition tilt_init (s : sim A (Kt A)) (m : mesh A) : sim A (Kt A) * res unit :=
  (mkSim (s_ts s) (set_cent (set_c_sound (repeat (n1 A) 12) (set_prim (mtab 2 12 tilt_q) (cent (s_u s)))) (s_u s)) (s_rk s) (s_rhs s), Ok tt).

End Tilt.

Lemma tilt_symmetric : forall bln bexp, symmetric_start (A:=B64n bln bexp) (N:=Kt (B64n bln bexp)) same_number nonzero Isot 12 (tilt_init bln bexp).
Proof.
  intros bln bexp s m s' _ H. unfold tilt_init in H. apply pair_equal_spec in H. destruct H as (<- & _). cbn [s_u cent set_cent prim c_sound set_prim set_c_sound].
  split; [|split].
  - intros j i Hj Hi. rewrite !at2_mtab by (cbn [nE] in *; lia). cbn [nE] in Hj.
    assert (Hcs : i = 2 \/ i = 3 \/ i = 4 \/ i = 5 \/ i = 6 \/ i = 7 \/ i = 8 \/ i = 9) by lia.
    destruct j as [|[|j]]; [| |lia]; [left; repeat destruct Hcs as [->|Hcs]; try rewrite Hcs; cbn [tilt_q flip nth Nat.sub Nat.eqb]; reflexivity|].
    right. cbn [tilt_q flip Nat.eqb]. repeat split.
  - intros _ i Hi. unfold at1. rewrite !(nth_indep _ (n0 (B64n bln bexp)) (n1 (B64n bln bexp))) by (rewrite repeat_length; lia). rewrite !nth_repeat. left. reflexivity.
  - intros i Hi. rewrite at2_mtab by lia.
    assert (Hcs : i = 2 \/ i = 3 \/ i = 4 \/ i = 5 \/ i = 6 \/ i = 7 \/ i = 8 \/ i = 9) by lia.
    repeat destruct Hcs as [->|Hcs]; try rewrite Hcs; vm_compute; exact Logic.I.
Qed.

Theorem C71_kt_b64_refuted : forall bln bexp fmt w, let A := B64n bln bexp in
  exists w' k e, cf_bc_west (tilt_cfg bln bexp) = cf_bc_east (tilt_cfg bln bexp) /\
    even_handed (m_is_logarithmic (mesh_build 12 (cf_mesh (tilt_cfg bln bexp)))) (nE Isot) (init_bc (cf_bc_west (tilt_cfg bln bexp)) (nE Isot)) /\
    fills_state (N:=Kt A) Isot 12 (tilt_init bln bexp) /\ symmetric_start (A:=A) (N:=Kt A) same_number nonzero Isot 12 (tilt_init bln bexp) /\
    init_corries (N:=Kt A) true (fun _ => EmptyString) EmptyString [] (tilt_init bln bexp) Isot 12 (tilt_cfg bln bexp) w = (w', Ok k) /\
    run_loop fmt true (fun _ => []) 0 4 Isot 12 (c_mesh k) (c_sim k) (c_writer k) w = (e, Ok tt) /\
    nltb A (at2 (n0 A) (prim (cent (s_u (e_sim e)))) 0 2) (at2 (n0 A) (prim (cent (s_u (e_sim e)))) 0 9) = true /\
    ~ mirror_symmetric (A:=A) same_number Isot 12 (cent (s_u (e_sim e))).
Proof.
  intros bln bexp fmt w A.
  destruct (ends_ok A (Kt A) Isot 12 (tilt_init bln bexp) (tilt_cfg bln bexp) 4 fmt w (fun v => nfin A (at2 (n0 A) (prim v) 0 2) && nfin A (at2 (n0 A) (prim v) 0 9) && nltb A (at2 (n0 A) (prim v) 0 2) (at2 (n0 A) (prim v) 0 9)) ltac:(vm_compute; reflexivity)) as (w' & k & e & H1 & H2 & H3).
  apply andb_true_iff in H3. destruct H3 as (H3 & H5). apply andb_true_iff in H3. destruct H3 as (H3 & H4).
  exists w', k, e. split; [reflexivity|]. split.
  { clear. split; [intros [|[|j]] Hj; cbn in *; auto; lia|]. intros j md [X|[X|[]]]; injection X as <- <-; auto. }
  split.
  { intros s m s' H. unfold tilt_init in H. apply pair_equal_spec in H. destruct H as (<- & _). cbn [s_rk s_rhs s_u].
    split; [reflexivity|]. split; [reflexivity|]. split; [|repeat split]. intros ((W1 & W2 & W3 & W4 & W5) & Wo). split; [|exact Wo].
    cbn [set_cent cent]. unfold wsv. cbn [set_prim set_c_sound prim cons eigen_vals flux c_sound].
    split; [apply shape_mtab|]. repeat match goal with |- _ /\ _ => split end; auto; apply repeat_length. }
  split; [apply tilt_symmetric|]. split; [exact H1|]. split; [exact H2|]. split; [exact H5|].
  intros (Y & _). specialize (Y 0 2 ltac:(cbn; lia) ltac:(lia)). cbn [flip Nat.eqb Nat.sub] in Y.
  cbn [nltb nfin B64n A] in H3, H4, H5. rewrite (Bltb_correct 53 1024 _ _ H3 H4) in H5.
  assert (E : B2R (at2 (n0 A) (prim (cent (s_u (e_sim e)))) 0 2 : b64) = B2R (at2 (n0 A) (prim (cent (s_u (e_sim e)))) 0 9 : b64)).
  { destruct Y as [Y|(_ & _ & Y)]; [f_equal; exact Y|exact Y]. }
  fold A in H5. rewrite E, Rlt_bool_false in H5 by apply Rle_refl. discriminate H5.
Qed.
Print Assumptions C71_kt_b64_refuted.
