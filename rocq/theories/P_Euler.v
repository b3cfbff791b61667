(** What a completed step computes: C31, C34. *)

From Coq Require Import Reals ZArith NArith QArith Qreals Qabs List Bool Lia Lra.
From Verif Require Import Base Num XReal Config Mesh State NumFlux Time Spec SpecFlow SpecStep SpecTableau SpecEuler
  StepProofs StepInv StepEq FluxProofs TableauProofs TimeMore EulerStep RealRun EulerThms LinRun P_Time.
Import ListNotations.
Local Open Scope R_scope.

(** C31: a completed step is [U - dt * (sum of the weights) * f(u)], whatever
    the mode, with or without automated step control, for every flux scheme
    without memory.  The density obeys this always; the other variables unless
    the new density vanishes, which a validated step excludes. *)
Theorem C31_forward_euler : forall (N : numflux_impl XRn) p S m good (c : config XRn) (s s' : sim XRn N) validation fuel f dt g i U,
  (5 <= S)%nat -> memoryless N p S m good -> reached p S c m good s -> slopes p S m s f ->
  pc_gamma (cf_physics c) = Fin g -> (p = Adiab -> g <> 1) ->
  solver_next validation fuel p S m s = (s', Ok tt) -> ts_dt (s_ts s') = Fin dt ->
  (2 <= i <= S - 3)%nat -> (forall j, (j < nE p)%nat -> at2 (n0 XRn) (cons (cent (s_u s))) j i = Fin (U j)) ->
  let V := fun j => U j - dt * weight_sum (rc_mode (nc_time (cf_numerics c))) * f j i in
  at2 (n0 XRn) (cons (cent (s_u s'))) 0 i = Fin (V 0%nat) /\
  (validation = true -> V 0%nat <> 0) /\
  (V 0%nat <> 0 -> forall j, (j < nE p)%nat -> at2 (n0 XRn) (cons (cent (s_u s'))) j i = Fin (V j)).
Proof.
  intros N p S m good c s s' val fuel f dt g i U HS Hm Hr Hf Hg Hg1 E Hd Hi HU.
  destruct (reached_ok XRn N p S m good HS Hm c s Hr) as (Hok & Hb & _ & G & _). rewrite Hg in G.
  pose proof (reached_rhs N p S m good c s f HS Hm Hr Hf) as Hv.
  pose proof (euler_cells N p S m good val fuel _ s s' _ dt g i U HS Hm Hok Hb Hv E Hd G Hg1 Hi HU) as K.
  cbv beta in K. rewrite inner_true in K by exact Hi. exact K.
Qed.
Print Assumptions C31_forward_euler.

(** The schemes of the library. *)
Corollary C31_forward_euler_hll : forall p S (c : config XRn) (s s' : sim XRn (Hll XRn)) validation fuel f dt g i U,
  let m := mesh_build (A:=XRn) S (cf_mesh c) in
  (5 <= S)%nat -> reached p S c m (fun _ => True) s -> slopes p S m s f ->
  pc_gamma (cf_physics c) = Fin g -> (p = Adiab -> g <> 1) ->
  solver_next validation fuel p S m s = (s', Ok tt) -> ts_dt (s_ts s') = Fin dt ->
  (2 <= i <= S - 3)%nat -> (forall j, (j < nE p)%nat -> at2 (n0 XRn) (cons (cent (s_u s))) j i = Fin (U j)) ->
  let V := fun j => U j - dt * weight_sum (rc_mode (nc_time (cf_numerics c))) * f j i in
  V 0%nat <> 0 -> forall j, (j < nE p)%nat -> at2 (n0 XRn) (cons (cent (s_u s'))) j i = Fin (V j).
Proof.
  intros p S c s s' val fuel f dt g i U m HS Hr Hf Hg Hg1 E Hd Hi HU V.
  apply (C31_forward_euler (Hll XRn) p S m (fun _ => True) c s s' val fuel f dt g i U HS (hll_memoryless XRn p S m HS (std_build XRn S (cf_mesh c))) Hr Hf Hg Hg1 E Hd Hi HU).
Qed.
Print Assumptions C31_forward_euler_hll.

Corollary C31_forward_euler_kt : forall p S (c : config XRn) k0 (s s' : sim XRn (Kt XRn)) validation fuel f dt g i U,
  let m := mesh_build (A:=XRn) S (cf_mesh c) in
  (5 <= S)%nat -> nf_new (Kt XRn) p S (nc_numflux (cf_numerics c)) m = Ok k0 ->
  reached p S c m (fun k : nf_T (Kt XRn) => kt_like XRn k k0) s -> slopes p S m s f ->
  pc_gamma (cf_physics c) = Fin g -> (p = Adiab -> g <> 1) ->
  solver_next validation fuel p S m s = (s', Ok tt) -> ts_dt (s_ts s') = Fin dt ->
  (2 <= i <= S - 3)%nat -> (forall j, (j < nE p)%nat -> at2 (n0 XRn) (cons (cent (s_u s))) j i = Fin (U j)) ->
  let V := fun j => U j - dt * weight_sum (rc_mode (nc_time (cf_numerics c))) * f j i in
  V 0%nat <> 0 -> forall j, (j < nE p)%nat -> at2 (n0 XRn) (cons (cent (s_u s'))) j i = Fin (V j).
Proof.
  intros p S c k0 s s' val fuel f dt g i U m HS Hk Hr Hf Hg Hg1 E Hd Hi HU V.
  apply (C31_forward_euler (Kt XRn) p S m _ c s s' val fuel f dt g i U HS (kt_memoryless XRn p S m k0 HS (std_build XRn S (cf_mesh c))) Hr Hf Hg Hg1 E Hd Hi HU).
Qed.
Print Assumptions C31_forward_euler_kt.

(** The documentation promises the configured Runge-Kutta method.  For
    du/dt = -u with u = 1 the result is not that of the stored method, for
    every mode with more than one stage. *)
Theorem C31_runge_kutta_refuted : forall md, md <> RK1 ->
  let c := rcfg CHll md false (1 / 2) in
  exists (s s' : sim XRn Lin) dt n a b bl cn,
    reached Isot 6 c (rmesh 6) (fun _ => True) s /\
    slopes Isot 6 (rmesh 6) s (fun j i => match j with 0%nat => 1 | _ => 0 end) /\
    solver_next false 1 Isot 6 (rmesh 6) s = (s', Ok tt) /\ ts_dt (s_ts s') = Fin dt /\
    stores (bt_new (nc_time (cf_numerics c))) n a b bl cn /\
    forall i, (2 <= i <= 3)%nat -> at2 (n0 XRn) (cons (cent (s_u s))) 0 i = Fin 1 /\
      at2 (n0 XRn) (cons (cent (s_u s'))) 0 i <> Fin (rk_step (fun x => x) n a b dt 1).
Proof.
  intros md Hmd c.
  destruct (lin_start md 1) as (v & W & G & C & Hx & s' & E). destruct (Hx false) as (D & Hv & Hok).
  set (s := rsim (N:=Lin) Isot 6 (rcfg CHll md false (1 / 2)) tt v 10) in *.
  assert (Hr : reached Isot 6 c (rmesh 6) (fun _ => True) s) by (apply lin_reached; auto).
  assert (Hf : slopes Isot 6 (rmesh 6) s (fun j i => match j with 0%nat => 1 | _ => 0 end)).
  { destruct Hv as (vv & h & w & H1 & H2). exists vv, h, w. split; [exact H1|]. intros j i Hj Hi. rewrite H2 by lia. rewrite inner_true by lia. reflexivity. }
  assert (Hd : ts_dt (s_ts s') = Fin (1 / 4)) by (apply (lin_dt md false 1 v s'); auto).
  exists s, s', (1 / 4), (bt_order (qtab md)), (bt_a (qtab md)), (bt_high (qtab md)), (bt_low (qtab md)), (bt_c (qtab md)).
  split; [exact Hr|]. split; [exact Hf|]. split; [exact E|]. split; [exact Hd|].
  split. { destruct (tab_real (nc_time (cf_numerics c))) as (T1 & T2 & T3 & T4 & T5). split; [exact T1|]. auto. }
  intros i Hi. split; [apply C; lia|].
  destruct (C31_forward_euler Lin Isot 6 (rmesh 6) _ c s s' false 1 _ (1 / 4) (14 / 10) i (fun j => match j with 0%nat => 1 | _ => 0 end) ltac:(lia)
    (lin_memoryless Isot 6 (rmesh 6) ltac:(lia)) Hr Hf eq_refl ltac:(discriminate) E Hd ltac:(lia)) as (K & _).
  { intros j Hj. cbn [nE] in Hj. destruct (C i ltac:(lia)) as (C0 & C1). destruct j as [|[|j]]; [exact C0|exact C1|lia]. }
  rewrite K. change (rc_mode (nc_time (cf_numerics c))) with md. intro Hq. injection Hq as Hq. revert Hq.
  assert (Hl : 1 - 1 / 4 * weight_sum md * 1 = Q2R (match md with SSPRK5 => 3000005 # 4000000 | _ => 3 # 4 end)).
  { destruct md; unfold weight_sum, Q2R; cbn; lra. }
  rewrite Hl. replace (1 / 4) with (Q2R (1 # 4)) by (unfold Q2R; cbn; lra). replace 1 with (Q2R 1) at 1 by (unfold Q2R; cbn; lra).
  rewrite step_R. intro Hq. apply eqR_Qeq in Hq. revert Hq. destruct md; try congruence; intro Hq; vm_compute in Hq; discriminate.
Qed.
Print Assumptions C31_runge_kutta_refuted.

Lemma Q2R_abs : forall q, Q2R (Qabs q) = Rabs (Q2R q).
Proof.
  intros q. apply Qabs_case; intros H; apply Qle_Rle in H; rewrite RMicromega.Q2R_0 in H.
  - symmetry. apply Rabs_pos_eq. exact H.
  - rewrite Q2R_opp. symmetry. apply Rabs_left1. exact H.
Qed.

(** C34: with the embedded methods the error estimate is zero in every step,
    whatever the tolerances: the first try is accepted, and the step actually
    taken is four times the CFL step (up to the limits). *)
Theorem C34_step_control_inert : forall (N : numflux_impl XRn) p S m good (c : config XRn) (s s' : sim XRn N) validation fuel f U d t tn M,
  (5 <= S)%nat -> memoryless N p S m good ->
  rc_asc (nc_time (cf_numerics c)) = true -> embedded (rc_mode (nc_time (cf_numerics c))) = true ->
  ordinary_run p S c m good s -> ordinary p S m s f U d t tn M ->
  solver_next validation fuel p S m s = (s', Ok tt) ->
  ts_dt (s_ts s') = Fin (Rmin (Rmin (4 * d) M) (tn - t)) /\
  rk_n_asc (s_rk s') = 1%nat /\ rk_err_new (s_rk s') = Fin 0.
Proof.
  intros N p S m good c s s' val fuel f U d t tn M HS Hm Ha Hemb Hr Ho E.
  pose proof (ordinary_err N p S c m good s HS Hm Ha Hemb Hr) as He.
  destruct (ordinary_step N p S c m good val fuel s s' f U d t tn M HS Hm (ordinary_reached _ _ _ _ _ _ _ Hr) He Ha Hemb Ho E) as (H1 & H2 & H3 & _). auto.
Qed.
Print Assumptions C34_step_control_inert.

(** The documentation promises an error below the tolerance.  For du/dt = -u
    with u = 1, rtol = 1/1000, atol = 1/1000 a step is accepted although the
    solution and embedded solution of the stored method differ by more than
    the tolerance at the step size used. *)
Theorem C34_error_control_refuted : forall md, embedded md = true ->
  let c := rcfg CHll md true (1 / 2) in
  exists (s s' : sim XRn Lin) dt n a b bl cn f U d t tn M,
    ordinary_run Isot 6 c (rmesh 6) (fun _ => True) s /\ ordinary Isot 6 (rmesh 6) s f U d t tn M /\
    (forall i, (2 <= i <= 3)%nat -> f 0%nat i = 1 /\ U 0%nat i = 1) /\
    solver_next false 2 Isot 6 (rmesh 6) s = (s', Ok tt) /\ ts_dt (s_ts s') = Fin dt /\
    stores (bt_new (nc_time (cf_numerics c))) n a b bl cn /\
    rc_rtol (nc_time (cf_numerics c)) = Fin (1 / 1000) /\ rc_atol (nc_time (cf_numerics c)) = Fin (1 / 1000) /\
    let high := rk_step (fun x => x) n a b dt 1 in let low := rk_step (fun x => x) n a bl dt 1 in
    Rabs (high - low) > 1 / 1000 * (Rabs high + 1 / 1000).
Proof.
  intros md Hemb c.
  destruct (lin_start md 1) as (v & W & G & C & Hx & _). destruct (Hx true) as (D & Hv & Hok). clear Hx.
  set (s := rsim (N:=Lin) Isot 6 (rcfg CHll md true (1 / 2)) tt v 10) in *.
  set (f := fun j (i : nat) => match j with 0%nat => 1 | _ => 0 end : R).
  assert (Hf : slopes Isot 6 (rmesh 6) s f).
  { destruct Hv as (vv & h & w & H1 & H2). exists vv, h, w. split; [exact H1|]. intros j i Hj Hi. rewrite H2 by lia. rewrite inner_true by lia. reflexivity. }
  assert (HU : forall j i, (j < nE Isot)%nat -> (2 <= i <= 6 - 3)%nat -> at2 (n0 XRn) (cons (cent (s_u s))) j i = Fin (f j i)).
  { intros j i Hj Hi. cbn [nE] in Hj. destruct (C i ltac:(lia)) as (C0 & C1). destruct j as [|[|j]]; [exact C0|exact C1|lia]. }
  assert (Ho : ordinary Isot 6 (rmesh 6) s f f (1 / 4) 0 10 1000).
  { split; [exact Hf|]. split; [exact HU|]. split; [exact D|]. split; [reflexivity|]. split; [reflexivity|]. split; [reflexivity|]. lra. }
  assert (Hor : ordinary_run Isot 6 c (rmesh 6) (fun _ => True) s).
  { eapply (or_time Isot 6 c (rmesh 6) (fun _ => True) (mkSim _ _ _ _)). eapply (or_new _ _ _ _ _ (one_state v)).
    - split; [split; [exact W|split; exact W]|]. cbn. auto.
    - reflexivity.
    - exact I. }
  assert (Hs : exists s', solver_next false 2 Isot 6 (rmesh 6) s = (s', Ok tt)).
  { destruct (total_asc Lin Isot 6 (rmesh 6) (fun _ => True) 1 (nc_time (cf_numerics c)) s _ f (1 / 4) 0 10 1000 ltac:(lia) (lin_total Isot 6 (rmesh 6))
      (lin_memoryless Isot 6 (rmesh 6) ltac:(lia)) Hok eq_refl eq_refl eq_refl eq_refl Hemb Hv HU X_n0 D) as (s' & E); auto; try lra.
    - change (ts_dt_min (s_ts s)) with (Fin (1 / 1000000) : nF XRn). rewrite X_ltb. destruct (Rlt_dec _ _); [lra|reflexivity].
    - exists s'. unfold solver_next. rewrite E. destruct (rkf_next_cases _ _ _ _ _ _ _ _ _ _ E) as (_ & _ & T & Hi & _).
      assert (M : ts_iter_max (s_ts s') = 100%N) by (destruct T as (T1 & T2); rewrite T1; reflexivity).
      rewrite M, Hi. reflexivity. }
  destruct Hs as (s' & E).
  destruct (C34_step_control_inert Lin Isot 6 (rmesh 6) _ c s s' false 2 f f (1 / 4) 0 10 1000 ltac:(lia) (lin_memoryless Isot 6 (rmesh 6) ltac:(lia)) eq_refl Hemb Hor Ho E) as (Hd & _).
  replace (Rmin (Rmin (4 * (1 / 4)) 1000) (10 - 0)) with 1 in Hd.
  2:{ rewrite (Rmin_left (4 * (1 / 4)) 1000) by lra. rewrite Rmin_left; lra. }
  exists s, s', 1, (bt_order (qtab md)), (bt_a (qtab md)), (bt_high (qtab md)), (bt_low (qtab md)), (bt_c (qtab md)), f, f, (1 / 4), 0, 10, 1000.
  split; [exact Hor|]. split; [exact Ho|]. split; [intros; split; reflexivity|]. split; [exact E|]. split; [exact Hd|].
  split. { destruct (tab_real (nc_time (cf_numerics c))) as (T1 & T2 & T3 & T4 & T5). split; [exact T1|]. auto. }
  split; [reflexivity|]. split; [reflexivity|]. cbv zeta.
  assert (St : forall b, rk_step (fun x => x) (bt_order (qtab md)) (bt_a (qtab md)) b 1 1 = Q2R (qstep (bt_order (qtab md)) (bt_a (qtab md)) b 1 1)).
  { intros b. rewrite <- step_R. f_equal; unfold Q2R; cbn; lra. }
  rewrite !St. clear - Hemb.
  assert (T : forall x y : Q, ((1 # 1000) * (Qabs x + (1 # 1000)) < Qabs (x - y))%Q -> Rabs (Q2R x - Q2R y) > 1 / 1000 * (Rabs (Q2R x) + 1 / 1000)).
  { intros x y H. apply Qlt_Rlt in H. rewrite Q2R_mult, Q2R_plus, !Q2R_abs, Q2R_minus in H.
replace (Q2R (1 # 1000)) with (1 / 1000) in H by (unfold Q2R; cbn; lra). exact H. }
  apply T. clear T. destruct md; try discriminate; vm_compute; reflexivity.
Qed.
Print Assumptions C34_error_control_refuted.
