(** Property C60: closed boxes.  Walls are what a user configures with mirrored
    velocity and continued density (and pressure) on both sides. *)

From Coq Require Import Reals ZArith NArith QArith Qreals List Bool Lia Lra String.
From Flocq Require Import Core BinarySingleNaN.
From Verif Require Import Base Num XReal B64 Config Mesh State NumFlux Time Writer Runner Spec SpecFlow SpecStep SpecEuler SpecInit SpecWall P_Init
  MeshProofs MeshAccept BoundaryProofs PhysicsProofs FluxProofs UpdateProofs StepProofs StepInv StepEq TimeMore EulerThms ConsThms WallProofs WallDemo.
Import ListNotations.
Local Open Scope R_scope.

(** A program with walls on both sides, HLL and validation: from the initial
    state on, the total mass (and with adiabatic physics the total energy) of
    the computational cells is the same, exactly, in every output, and at the
    end of a successful run.  The state dumped after an error is the only one
    that may differ. *)
Theorem C60_closed_box : forall meta banner isched init p S md a b c w w' k, (5 <= S)%nat ->
  cf_mesh c = mkMC (A:=XRn) md (Fin a) (Fin b) -> closed_box p c -> fills_state p S init ->
  init_corries (A:=XRn) (N:=Hll XRn) true meta banner isched init p S c w = (w', Ok k) ->
  level_sound p S (cent (s_u (c_sim k))) ->
  forall fmt sched afuel fuel w2 e o j t, kept p j ->
  run_loop fmt true sched afuel fuel p S (c_mesh k) (c_sim k) (c_writer k) w2 = (e, o) ->
  total p S (cent (s_u (c_sim k))) j t ->
  (forall ts v, In (ts, v) (e_trace e) -> ts_kind ts <> KErrorDump -> total p S v j t) /\
  (o = Ok tt -> total p S (cent (s_u (e_sim e))) j t /\ forall ts v, In (ts, v) (e_trace e) -> total p S v j t).
Proof.
  intros meta banner isched init p S md a b c w w' k HS Hm Hbox Hi H L fmt sched afuel fuel w2 e o j t Hj E T.
  destruct (init_box meta banner isched init p S md a b c w w' k HS Hm Hi H) as (Hab & (g & Hg & Hg1) & Em & Hr). rewrite Em in E, Hr.
  apply (box_run p S md a b g c HS Hab Hbox Hg ltac:(intros _; lra) fmt sched afuel fuel (c_sim k) (c_writer k) w2 e o j t); auto.
  split; assumption.
Qed.
Print Assumptions C60_closed_box.

(** The same step by step, for any number of successful calls of
    next_solution. *)
Theorem C60_steps : forall meta banner isched init p S md a b c w w' k, (5 <= S)%nat ->
  cf_mesh c = mkMC (A:=XRn) md (Fin a) (Fin b) -> closed_box p c -> fills_state p S init ->
  init_corries (A:=XRn) (N:=Hll XRn) true meta banner isched init p S c w = (w', Ok k) ->
  level_sound p S (cent (s_u (c_sim k))) ->
  forall fuel n s j t, kept p j -> next_n true fuel p S (c_mesh k) n (c_sim k) = (s, Ok tt) ->
  total p S (cent (s_u (c_sim k))) j t -> total p S (cent (s_u s)) j t.
Proof.
  intros meta banner isched init p S md a b c w w' k HS Hm Hbox Hi H L fuel n s j t Hj E T.
  destruct (init_box meta banner isched init p S md a b c w w' k HS Hm Hi H) as (Hab & (g & Hg & Hg1) & Em & Hr). rewrite Em in E, Hr.
  apply (box_steps p S md a b g c HS Hab Hbox Hg ltac:(intros _; lra) fuel n (c_sim k) s j t); auto.
  split; assumption.
Qed.
Print Assumptions C60_steps.

(** The shipped initial conditions fill the state and are level. *)
Example C60_shipped : forall (N : numflux_impl XRn) p S, fills_state (N:=N) p S (on_state (init_noh p S)) /\ fills_state (N:=N) p S (on_state (init_sod p S)).
Proof.
  intros N p S. split; intros s m s' H; unfold on_state in H.
  - destruct (init_noh p S (s_u s)) as [u r] eqn:E. apply pair_equal_spec in H. destruct H as (<- & ->).
    cbn [s_rk s_rhs s_u]. split; [reflexivity|]. split; [reflexivity|]. unfold init_noh in E. apply pair_equal_spec in E. destruct E as (<- & _).
    split; [|destruct p; repeat split]. intros ((W1 & W2 & W3 & W4 & W5) & Wo).
    destruct p; (split; [|exact Wo]); cbn [set_cent cent]; unfold wsv; cbn [set_prim set_c_sound prim cons eigen_vals flux c_sound];
      (split; [|repeat match goal with |- _ /\ _ => split end; auto; apply repeat_length]); repeat (apply P_Init.shape_row; [|first [apply repeat_length|apply length_tab]]); exact W1.
  - destruct (init_sod p S (s_u s)) as [u r] eqn:E. apply pair_equal_spec in H. destruct H as (<- & ->).
    cbn [s_rk s_rhs s_u]. split; [reflexivity|]. split; [reflexivity|]. unfold init_sod in E.
    destruct p; apply pair_equal_spec in E; destruct E as (<- & E); [discriminate|].
    split; [|repeat split]. intros ((W1 & W2 & W3 & W4 & W5) & Wo). split; [|exact Wo]. cbn [set_cent cent]. unfold wsv. cbn [set_prim prim cons eigen_vals flux c_sound].
    split; [|repeat match goal with |- _ /\ _ => split end; auto]. repeat (apply P_Init.shape_row; [|first [apply repeat_length|apply length_tab]]). apply PhysicsProofs.shape_zeros2.
Qed.

(** Non-vacuity: a program in exact arithmetic, initialised and run to its end
    (one step and two outputs): a density jump at rest between walls.  The
    contents of the two cells change, the total 3 does not. *)
Definition box_init (s : sim XRn (Hll XRn)) (m : mesh XRn) : sim XRn (Hll XRn) * res unit :=
  (mkSim (s_ts s) (set_cent (set_c_sound (repeat (Fin 1 : nF XRn) 6) (set_prim (mtab 2 6 (fun j i => Fin (box_q j i) : nF XRn)) (cent (s_u s)))) (s_u s)) (s_rk s) (s_rhs s), Ok tt).

Lemma box_fills : fills_state Isot 6 box_init.
Proof.
  intros s m s' H. unfold box_init in H. apply pair_equal_spec in H. destruct H as (<- & _). cbn [s_rk s_rhs s_u].
  split; [reflexivity|]. split; [reflexivity|]. split; [|repeat split]. intros ((W1 & W2 & W3 & W4 & W5) & Wo). split; [|exact Wo].
  cbn [set_cent cent]. unfold wsv. cbn [set_prim set_c_sound prim cons eigen_vals flux c_sound].
  split; [apply shape_mtab|]. repeat match goal with |- _ /\ _ => split end; auto; apply repeat_length.
Qed.

Example C60_example : forall fmt w, exists k e e1,
  init_corries (A:=XRn) (N:=Hll XRn) true (fun _ => EmptyString) EmptyString [] box_init Isot 6 box_cfg w = (w, Ok k) /\
  closed_box Isot box_cfg /\ fills_state Isot 6 box_init /\ level_sound Isot 6 (cent (s_u (c_sim k))) /\
  total Isot 6 (cent (s_u (c_sim k))) 0 3 /\
  run_loop fmt true (fun _ => []) 0 2 Isot 6 (c_mesh k) (c_sim k) (c_writer k) w = (e, Ok tt) /\
  List.length (e_trace e) = 2%nat /\ total Isot 6 (cent (s_u (e_sim e))) 0 3 /\
  at2 (n0 XRn) (cons (cent (s_u (c_sim k)))) 0 2 = Fin 2 /\ at2 (n0 XRn) (cons (cent (s_u (e_sim e)))) 0 2 = Fin (2 - e1) /\ 0 < e1 < 1 / 2.
Proof.
  intros fmt w.
  assert (Vc : cf_validate box_cfg = Ok tt).
  { assert (L : forall x y : R, x < y -> nltb XRn (Fin x : nF XRn) (Fin y : nF XRn) = true) by (intros; rewrite X_ltb; destruct (Rlt_dec _ _); [reflexivity|contradiction]).
    assert (L0 : forall y : R, 0 < y -> check_pos (A:=XRn) (Fin y) = Ok tt) by (intros y Hy; unfold check_pos, ensure; rewrite X_n0, L by exact Hy; reflexivity).
    unfold cf_validate, mc_validate, pc_validate, nc_validate, rc_validate, nfc_validate. cbn [cf_mesh cf_physics cf_numerics cf_writer box_cfg mc_xi_in mc_xi_out pc_gamma
      nc_numflux nc_iter_max nc_t0 nc_t_end nc_dt_min nc_dt_max nc_dt_cfl nc_time rc_atol rc_rtol rc_friction oc_validate_all].
    rewrite X_n1, X_Z, X_n0, !L by lra. rewrite !L0 by lra. rewrite X_leb. destruct (Rle_dec 0 0); [|lra]. reflexivity. }
  assert (Vm : mesh_new true 6 (cf_mesh box_cfg) = Ok box_mesh).
  { apply (accept_if 6 Cartesian 3 5); [lia|lra|]. intros i _. unfold hx. cbn [INR Nat.sub]. pose proof (pos_INR i).
    repeat match goal with |- _ /\ _ => split end; lra. }
  destruct box_vars as (v & Ev & C & W & G & P & Q).
  set (u0 := state_new (A:=XRn) Isot 6 (cf_physics box_cfg)).
  set (u1 := set_cent (rvars Isot 6 (14 / 10) 1 box_q) u0).
  set (u := init_west_east (set_cent v u1)).
  set (ts0 := ts_new (A:=XRn) (cf_numerics box_cfg) (cf_output_max box_cfg)).
  set (s := mkSim (N:=Hll XRn) ts0 u (rkf_new Isot 6 box_cfg) box_rhs).
  set (wr := mkWriter (A:=XRn) [] 0 EmptyString false).
  assert (Ei : init_corries (A:=XRn) (N:=Hll XRn) true (fun _ => EmptyString) EmptyString [] box_init Isot 6 box_cfg w = (w, Ok (mkComp s box_mesh wr))).
  { unfold init_corries. rewrite Vc, Vm. unfold solver_new, rhs_new. cbn [nf_new Hll hll_new cf_numerics box_cfg nc_numflux bind].
    cbn [writer_new outputs_new cf_writer box_cfg bind wr_banner cf_banner wr_meta wr_outputs writer_metadata].
    unfold box_init at 1. cbn [s_ts s_u s_rk s_rhs bind r_bw r_be]. unfold st_update_from_prim. cbn [cent set_cent].
    match goal with |- context [update_vars_from_prim Isot 6 ?a ?b box_mesh ?x] => change (update_vars_from_prim Isot 6 a b box_mesh x) with (update_vars_from_prim Isot 6 (wall_list Isot) (wall_list Isot) box_mesh (rvars Isot 6 (14 / 10) 1 box_q)) end.
    rewrite Ev. reflexivity. }
  assert (Wu : wss Isot 6 u).
  { split; [exact W|]. split; apply wsv_assign; try exact W; apply (wsv_new XRn Isot 6). }
  set (s1 := sim_set_ts (ts_set_next (nadd XRn (ts_t_next ts0) (ts_dt_output ts0)) ts0) s).
  assert (O : ts_dt_output ts0 = Fin (1 / 2)).
  { cbn [ts0 ts_new ts_dt_output cf_numerics box_cfg nc_t_end nc_t0 cf_output_max]. rewrite X_sub, X_Z. cbn [Z.of_N]. rewrite X_div by lra. f_equal. lra. }
  assert (R1 : run_output fmt (fun _ => []) box_mesh s wr w = (s1, mkWriter (A:=XRn) [] 1 EmptyString false, w, [(s_ts s1, cent u)], Ok tt)).
  { unfold run_output. cbn [s_ts s ts0 ts_new ts_t_next ts_dt_min ts_t cf_numerics box_cfg nc_t0 nc_dt_min]. rewrite X_sub, X_leb.
    destruct (Rle_dec _ _) as [_|L]; [|exfalso; lra]. reflexivity. }
  destruct (box_step v u (s_ts s1) 0 eq_refl Wu C G P Q) as (s2 & e1 & N2 & T1 & T2 & T3 & T4 & T5 & T6 & He & D1 & D2); try reflexivity.
  { cbn [s1 s_ts sim_set_ts ts_t_next ts_set_next]. rewrite O. cbn [ts0 ts_new ts_t_next cf_numerics box_cfg nc_t0]. rewrite X_add. f_equal. lra. }
  change (mkSim (s_ts s1) u (rkf_new Isot 6 box_cfg) box_rhs) with s1 in N2.
  set (s3 := sim_set_ts (ts_set_next (nadd XRn (ts_t_next (s_ts s2)) (ts_dt_output (s_ts s2))) (s_ts s2)) s2).
  assert (R2 : run_output fmt (fun _ => []) box_mesh s2 (mkWriter (A:=XRn) [] 1 EmptyString false) w = (s3, mkWriter (A:=XRn) [] 2 EmptyString false, w, [(s_ts s3, cent (s_u s2))], Ok tt)).
  { unfold run_output. rewrite T3, T5, T1, X_sub, X_leb. destruct (Rle_dec _ _) as [_|L]; [|exfalso; lra]. unfold s3. rewrite T3. reflexivity. }
  set (e := mkEnd s3 (mkWriter (A:=XRn) [] 2 EmptyString false) w [(s_ts s1, cent u); (s_ts s3, cent (s_u s2))]).
  assert (Er : run_loop fmt true (fun _ => []) 0 2 Isot 6 box_mesh s wr w = (e, Ok tt)).
  { cbn [run_loop]. rewrite R1.
    change (ts_t_end (s_ts s1)) with (Fin (1 / 2) : nF XRn). change (ts_t (s_ts s1)) with (Fin 0 : nF XRn). change (ts_dt_min (s_ts s1)) with (Fin (1 / 1000000) : nF XRn).
    rewrite X_Q, X_mul, X_add, X_leb. replace (Q2R (1 # 100)) with (1 / 100) by (unfold Q2R; cbn; lra). destruct (Rle_dec _ _) as [L|_]; [exfalso; lra|].
    rewrite N2, R2. change (ts_t_end (s_ts s3)) with (ts_t_end (s_ts s2)). change (ts_t (s_ts s3)) with (ts_t (s_ts s2)). change (ts_dt_min (s_ts s3)) with (ts_dt_min (s_ts s2)).
    rewrite T4, T1, T5. change (ts_t_end (s_ts s1)) with (Fin (1 / 2) : nF XRn). rewrite X_mul, X_add, X_leb.
    destruct (Rle_dec _ _) as [_|L]; [reflexivity|exfalso; lra]. }
  assert (Ls : level_sound Isot 6 (cent u)) by (intros _; cbn [cent u init_west_east set_cent Nat.sub]; rewrite !Q by lia; auto).
  assert (T0 : total Isot 6 (cent u) 0 3).
  { exists (fun j i => conserved Isot (14 / 10) (fun k => box_q k i) j).
    destruct (real_cells Isot 6 _ _ box_mesh v (14 / 10) box_q (fun _ => 1) ltac:(lia) W C G ltac:(discriminate) P) as (Hc & _).
    { intros i Hi. split; [unfold box_q; destruct (i <? 3)%nat; lra|apply Q; exact Hi]. }
    split; [intros j i Hj Hi; apply (Hc i j); [lia|exact Hj]|]. unfold inner_sum. cbn. unfold box_q. cbn. lra. }
  destruct (C60_closed_box _ _ _ box_init Isot 6 Cartesian 3 5 box_cfg w w _ ltac:(lia) eq_refl (conj eq_refl eq_refl) box_fills Ei Ls fmt (fun _ => []) 0%nat 2%nat w e (Ok tt) 0%nat 3 (or_introl eq_refl) Er T0) as (_ & K).
  destruct (K eq_refl) as (K1 & _).
  exists (mkComp s box_mesh wr), e, e1. split; [exact Ei|]. split; [split; reflexivity|]. split; [exact box_fills|]. split; [exact Ls|]. split; [exact T0|].
  split; [exact Er|]. split; [reflexivity|]. split; [exact K1|]. split; [|split; [exact D1|exact He]].
  cbn [c_sim s s_u u init_west_east set_cent cent]. rewrite (cst_cons _ _ _ _ _ _ _ C 0%nat 2%nat) by (cbn; lia). cbn [cons_of]. apply (P 0%nat 2%nat); lia.
Qed.

(** With the KT flux the same box leaks.  Walls in four cells between 1 and 2,
    isothermal gas with density 1, 4, 4, 4 and velocity 1/10, 1/5, 0, 0; minmod
    limiter, Euler steps, t from 0 to 1/20.  The density in the ghost cells is
    the continued, not the mirrored one, and so are the momenta the
    reconstruction at the wall uses. *)
Section Leak.
Variables bln bexp : b64 -> b64.
Let A := B64n bln bexp.

Definition leak_cfg (nf : numflux_config A) : config A :=
  mkCfg false (mkMC (A:=A) Cartesian (n1 A) (nZ A 2)) (mkPC (A:=A) (nQ A (14 # 10)) SI) (walls Isot) (walls Isot)
    (mkNC (A:=A) nf (mkRC (A:=A) RK1 false (nQ A (1 # 100)) (nQ A (1 # 1000)) (nQ A (8 # 100))) 100%N (n0 A) (nQ A (1 # 20))
       (nQ A (1 # 1000000)) (nZ A 1000) (nQ A (4 # 10)))
    1%N [].

Definition leak_q (j i : nat) : nF A :=
  match j with
  | 0%nat => if (i <? 3)%nat then nZ A 1 else nZ A 4
  | _ => if (i <? 3)%nat then nQ A (1 # 10) else if (i <? 4)%nat then nQ A (1 # 5) else n0 A
  end.

Definition leak_init {N : numflux_impl A} (s : sim A N) (m : mesh A) : sim A N * res unit :=
  (mkSim (s_ts s) (set_cent (set_c_sound (repeat (n1 A) 8) (set_prim (mtab 2 8 leak_q) (cent (s_u s)))) (s_u s)) (s_rk s) (s_rhs s), Ok tt).

(** The mass of the four computational cells, added up in binary64. *)
Definition mass4 (v : vars A) : nF A :=
  fold_left (fun a i => nadd A a (at2 (n0 A) (cons v) 0 i)) [2; 3; 4; 5]%nat (n0 A).

(** Whether the program runs to its end, and the mass before and after. *)
Definition leak_run (N : numflux_impl A) (nf : numflux_config A) (fmt : nat -> nF A -> string) (w : world) : option (nF A * nF A) :=
  match init_corries (N:=N) true (fun _ => EmptyString) EmptyString [] leak_init Isot 8 (leak_cfg nf) w with
  | (_, Ok k) =>
      match run_loop fmt true (fun _ => []) 0 3 Isot 8 (c_mesh k) (c_sim k) (c_writer k) w with
      | (e, Ok _) => Some (mass4 (cent (s_u (c_sim k))), mass4 (cent (s_u (e_sim e))))
      | _ => None
      end
  | _ => None
  end.
End Leak.

Lemma leak_run_ok : forall bln bexp (N : numflux_impl (B64n bln bexp)) nf fmt w (chk : nF (B64n bln bexp) -> nF (B64n bln bexp) -> bool),
  match leak_run bln bexp N nf fmt w with Some (a, b) => chk a b | None => false end = true ->
  exists w' k e, init_corries (N:=N) true (fun _ => EmptyString) EmptyString [] (leak_init bln bexp) Isot 8 (leak_cfg bln bexp nf) w = (w', Ok k) /\
    run_loop fmt true (fun _ => []) 0 3 Isot 8 (c_mesh k) (c_sim k) (c_writer k) w = (e, Ok tt) /\
    chk (mass4 bln bexp (cent (s_u (c_sim k)))) (mass4 bln bexp (cent (s_u (e_sim e)))) = true.
Proof.
  intros bln bexp N nf fmt w chk H. unfold leak_run in H.
  destruct (init_corries (N:=N) true (fun _ => EmptyString) EmptyString [] (leak_init bln bexp) Isot 8 (leak_cfg bln bexp nf) w) as [w' [k|x| |]]; try discriminate H.
  destruct (run_loop fmt true (fun _ => []) 0 3 Isot 8 (c_mesh k) (c_sim k) (c_writer k) w) as [e [[]|x| |]] eqn:E; try discriminate H.
  exists w', k, e. auto.
Qed.

Theorem C60_kt_refuted : forall bln bexp fmt w, let A := B64n bln bexp in
  exists w' k e, closed_box Isot (leak_cfg bln bexp (CKt MinMod)) /\ fills_state (N:=Kt A) Isot 8 (leak_init bln bexp) /\
    init_corries (N:=Kt A) true (fun _ => EmptyString) EmptyString [] (leak_init bln bexp) Isot 8 (leak_cfg bln bexp (CKt MinMod)) w = (w', Ok k) /\
    run_loop fmt true (fun _ => []) 0 3 Isot 8 (c_mesh k) (c_sim k) (c_writer k) w = (e, Ok tt) /\
    nltb A (mass4 bln bexp (cent (s_u (e_sim e)))) (nsub A (mass4 bln bexp (cent (s_u (c_sim k)))) (nQ A (4 # 1000))) = true.
Proof.
  intros bln bexp fmt w A.
  destruct (leak_run_ok bln bexp (Kt A) (CKt MinMod) fmt w (fun a b => nltb A b (nsub A a (nQ A (4 # 1000)))) ltac:(vm_compute; reflexivity)) as (w' & k & e & H1 & H2 & H3).
  exists w', k, e. split; [split; reflexivity|]. split; [|auto].
  intros s m s' H. unfold leak_init in H. apply pair_equal_spec in H. destruct H as (<- & _). cbn [s_rk s_rhs s_u].
  split; [reflexivity|]. split; [reflexivity|]. split; [|repeat split]. intros ((W1 & W2 & W3 & W4 & W5) & Wo). split; [|exact Wo].
  cbn [set_cent cent]. unfold wsv. cbn [set_prim set_c_sound prim cons eigen_vals flux c_sound].
  split; [apply shape_mtab|]. repeat match goal with |- _ /\ _ => split end; auto; apply repeat_length.
Qed.
Print Assumptions C60_kt_refuted.

(** The same box with HLL, also in binary64: here not even rounding changes the
    sum. *)
Example C60_hll_b64 : forall bln bexp fmt w, let A := B64n bln bexp in
  match leak_run bln bexp (Hll A) CHll fmt w with Some (a, b) => nleb A a b && nleb A b a | None => false end = true.
Proof. intros. vm_compute. reflexivity. Qed.
