(** How many steps a run needs (C75). *)

From Coq Require Import Reals ZArith NArith QArith Qreals List Bool Lia Lra String.
From Flocq Require Import IEEE754.BinarySingleNaN.
From Verif Require Import Base Num XReal B64 Config Mesh State NumFlux Time Writer Runner Spec SpecFlow SpecStep SpecRun
  ConfigProofs StepProofs TimeProofs RunProofs RunTimes RealRun Demo P_Time P_Run P_Times64.
Import ListNotations.
Local Open Scope R_scope.

(** After n steps: a of them were at least [d] long, the other b ended on an
    output time, each on another one. *)
Lemma after_count : forall (N : numflux_impl XRn) fmt validation sched afuel p S m (c : config XRn) (s0 : sim XRn N) wr0 w0 t0 t1 dmin M D d,
  cf_validate c = Ok tt -> times c t0 t1 dmin M D -> at_start p S c s0 -> bt_asc (rk_bt (s_rk s0)) = false ->
  0 < d <= dmin -> xle (Fin d) (nc_dt_max (cf_numerics c)) ->
  forall n s wr w tr, after fmt validation sched afuel p S m s0 wr0 w0 n s wr w tr ->
  exists t a b, inv N c t0 t1 dmin D s (List.length tr) t /\ n = (a + b)%nat /\ INR a * d <= t - t0 /\
    ((b < List.length tr)%nat \/ (b <= List.length tr)%nat /\ t = t0 + INR (List.length tr) * D).
Proof.
  intros N fmt validation sched afuel p S m c s0 wr0 w0 t0 t1 dmin M D d V T Hs Ha Hd Hx.
  pose proof (times_pos c t0 t1 dmin M D V T) as HD. apply cf_validate_R in V.
  pose proof (t0_pos c t0 t1 dmin D M V T) as T0. pose proof (dmin_pos c t0 t1 dmin D M V T) as Dm. pose proof (dmax_pos c V) as DM.
  (* one step *)
  assert (St : forall k s s' t, inv N c t0 t1 dmin D s (Datatypes.S k) t -> bt_asc (rk_bt (s_rk s)) = false ->
     solver_next validation afuel p S m s = (s', Ok tt) ->
     exists dt, inv N c t0 t1 dmin D s' (Datatypes.S k) (t + dt) /\ 0 <= dt /\ (d <= dt \/ t + dt = t0 + INR (Datatypes.S k) * D)).
  { intros k s s' t I As E.
    destruct (inv_step N c t0 t1 dmin D M V T HD _ _ _ _ _ _ _ _ _ _ I E) as (t' & I' & L).
    destruct I as [I1 I2 I3 I4 I5 I6 I7 I8].
    assert (Hn : 0 < t0 + INR (Datatypes.S k) * D) by (rewrite S_INR; pose proof (pos_INR k); nra).
    destruct (C29_step_size N validation afuel p S m s s' t (t0 + INR (Datatypes.S k) * D) dmin As I1 I2) as (dt & K1 & K2 & K3 & K4 & K5 & K6); auto; try lra.
    { rewrite I5. exact DM. }
    assert (Q : t' = t + dt) by (pose proof (iv_t _ _ _ _ _ _ _ _ _ I') as Q; rewrite K2 in Q; injection Q as Q; lra). subst t'.
    exists dt. split; [exact I'|]. split; [exact K3|].
    destruct (Rle_lt_dec d dt) as [?|Lt]; [left; assumption|right].
    destruct K6 as [K6|K6]; [lra|exact K6|]. rewrite I5 in K6. rewrite K6 in Hx. cbn [xle] in Hx. lra. }
  intros n s wr w tr H. induction H as [|n s wr w tr wr1 w1 s2 H (t & a & b & I & En & La & Lb) Du O F X|n s wr w tr s2 H (t & a & b & I & En & La & Lb) Du F X].
  - exists t0, 0%nat, 0%nat. cbn [List.length INR]. split; [eapply inv_start; eauto|]. split; [reflexivity|]. split; [lra|]. right. split; [lia|ring].
  - assert (As : bt_asc (rk_bt (s_rk s)) = false).
    { destruct (calls_iter _ _ _ _ _ _ _ _ _ _ (after_calls _ _ _ _ _ _ _ _ _ _ _ _ _ _ _ _ _ H)) as (_ & _ & Q). congruence. }
    destruct (St _ _ _ _ (inv_moved N c t0 t1 dmin D HD _ _ _ I) As X) as (dt & I' & Hp & Hc).
    rewrite app_length, Nat.add_1_r. cbn [List.length]. exists (t + dt).
    destruct Hc as [Hc|Hc].
    + exists (Datatypes.S a), b. split; [exact I'|]. split; [lia|]. split; [rewrite S_INR; lra|]. left. lia.
    + exists a, (Datatypes.S b). split; [exact I'|]. split; [lia|]. split; [lra|]. right. split; [lia|exact Hc].
  - assert (As : bt_asc (rk_bt (s_rk s)) = false).
    { destruct (calls_iter _ _ _ _ _ _ _ _ _ _ (after_calls _ _ _ _ _ _ _ _ _ _ _ _ _ _ _ _ _ H)) as (_ & _ & Q). congruence. }
    destruct Lb as [Lb|(_ & Lb)].
    2: { exfalso. assert (Q : due s = true); [|congruence]. apply (due_R N c t0 t1 dmin D _ _ _ I). lra. }
    destruct (List.length tr) as [|k] eqn:Ek; [lia|].
    destruct (St _ _ _ _ I As X) as (dt & I' & Hp & Hc). exists (t + dt).
    destruct Hc as [Hc|Hc].
    + exists (Datatypes.S a), b. split; [exact I'|]. split; [lia|]. split; [rewrite S_INR; lra|]. left. lia.
    + exists a, (Datatypes.S b). split; [exact I'|]. split; [lia|]. split; [lra|]. right. split; [lia|exact Hc].
Qed.

Lemma after_bound : forall (N : numflux_impl XRn) fmt validation sched afuel p S m (c : config XRn) (s0 : sim XRn N) wr0 w0 t0 t1 dmin M D d,
  cf_validate c = Ok tt -> times c t0 t1 dmin M D -> at_start p S c s0 -> bt_asc (rk_bt (s_rk s0)) = false ->
  0 < d <= dmin -> xle (Fin d) (nc_dt_max (cf_numerics c)) ->
  forall n s wr w tr, after fmt validation sched afuel p S m s0 wr0 w0 n s wr w tr ->
  INR n <= (IZR (Z.of_N M) + 1 + dmin / D) * (D / d + 1).
Proof.
  intros N fmt validation sched afuel p S m c s0 wr0 w0 t0 t1 dmin M D d V T Hs Ha Hd Hx n s wr w tr H.
  destruct (after_count N fmt validation sched afuel p S m c s0 wr0 w0 t0 t1 dmin M D d V T Hs Ha Hd Hx n s wr w tr H) as (t & a & b & I & En & La & Lb).
  pose proof (times_pos c t0 t1 dmin M D V T) as HD. apply cf_validate_R in V.
  destruct (after_inv N c t0 t1 dmin D M V T HD fmt validation sched afuel p S m s0 wr0 w0 Hs n s wr w tr H) as (k & t' & I' & G & _ & P).
  pose proof (good_length _ _ _ _ _ _ G) as Ek. rewrite Ek in *. destruct (iv_le _ _ _ _ _ _ _ _ _ I) as (L1 & L2).
  assert (Hb : INR b <= INR k) by (apply le_INR; lia).
  set (K := IZR (Z.of_N M) + 1 + dmin / D).
  assert (MP : 1 <= IZR (Z.of_N M)) by (destruct T as (_ & _ & _ & _ & HM & _); apply IZR_le; lia).
  assert (DD : 0 < dmin / D) by (apply Rdiv_lt_0_compat; lra).
  assert (TE : D * IZR (Z.of_N M) = t1 - t0) by apply T.
  assert (Hk : INR k <= K).
  { destruct P as [(_ & ->)|(tp & G2 & T1 & T2 & Hk)]; [unfold K; cbn [INR]; lra|].
    destruct G2 as [|tr2 k2 t2 x t3 G2 Ex Kx B L]; [lia|]. rewrite S_INR. unfold K.
    apply Rmult_le_reg_r with D; [exact HD|]. replace ((IZR (Z.of_N M) + 1 + dmin / D) * D) with (D * IZR (Z.of_N M) + D + dmin) by (field; lra).
    rewrite TE. lra. }
  assert (Hak : INR a <= INR k * (D / d)).
  { apply Rmult_le_reg_r with d; [lra|]. replace (INR k * (D / d) * d) with (INR k * D) by (field; lra). lra. }
  assert (Dd : 0 < D / d) by (apply Rdiv_lt_0_compat; lra).
  rewrite En, plus_INR. assert (INR k * (D / d) <= K * (D / d)) by (apply Rmult_le_compat_r; lra). lra.
Qed.

(** C75: without step control and whatever [iter_max], the number of steps of
    a run is bounded by its configuration: with [d] a number not above the
    smallest and the largest step allowed, a run with M output intervals of
    length D makes at most (M + 1 + dmin / D) (D / d + 1) steps and perhaps one
    that fails.  If it may make more than that, it returns or panics. *)
Theorem C75_steps_bounded : forall (N : numflux_impl XRn) fmt validation sched afuel fuel p S m (c : config XRn) (s : sim XRn N) wr w e r t0 t1 dmin M D d,
  cf_validate c = Ok tt -> times c t0 t1 dmin M D -> rc_asc (nc_time (cf_numerics c)) = false -> at_start p S c s ->
  0 < d <= dmin -> xle (Fin d) (nc_dt_max (cf_numerics c)) ->
  run_loop fmt validation sched afuel fuel p S m s wr w = (e, r) ->
  let most := (IZR (Z.of_N M) + 1 + dmin / D) * (D / d + 1) in
  IZR (Z.of_N (ts_iter (s_ts (e_sim e)))) <= most + 1 /\
  (r = Ok tt -> IZR (Z.of_N (ts_iter (s_ts (e_sim e)))) <= most) /\
  (returns N -> most < INR fuel -> r <> Fuel).
Proof.
  intros N fmt validation sched afuel fuel p S m c s wr w e r t0 t1 dmin M D d V T Hc Hs Hd Hx E most.
  assert (Ha : bt_asc (rk_bt (s_rk s)) = false).
  { destruct Hs as (_ & ->). unfold rkf_new. cbn [rk_bt]. unfold bt_new. destruct (rc_mode (nc_time (cf_numerics c))); cbn [bt_asc]; auto. }
  assert (I0 : ts_iter (s_ts s) = 0%N) by (destruct Hs as (-> & _); reflexivity).
  pose proof (after_bound N fmt validation sched afuel p S m c s wr w t0 t1 dmin M D d V T Hs Ha Hd Hx) as B. fold most in B.
  assert (Br : forall n s1 wr1 w1 tr1, ready fmt validation sched afuel p S m s wr w n s1 wr1 w1 tr1 -> INR n <= most).
  { intros n s1 wr1 w1 tr1 [s2 wr2 w2 tr2 wr3 w3 H _ _|s2 wr2 w2 tr2 H _]; eapply B; exact H. }
  assert (It : forall n s1, calls validation afuel p S m n s s1 -> IZR (Z.of_N (ts_iter (s_ts s1))) = INR n /\ bt_asc (rk_bt (s_rk s1)) = false).
  { intros n s1 C. destruct (calls_iter _ _ _ _ _ _ _ _ _ _ C) as (J1 & _ & J3). rewrite J1, I0, INR_IZR_INZ. split; [f_equal; lia|congruence]. }
  apply loop_ends in E.
  destruct E as [s1 wr1 w1 tr1 H|n s1 wr1 w1 tr1 wr2 w2 r Hn H Du O NO|n s1 wr1 w1 tr1 Hn H F|n s1 wr1 w1 tr1 s2 er s3 wr2 w2 r Hn H F X -> O|n s1 wr1 w1 tr1 s2 r Hn H F X R]; cbn [e_sim].
  - destruct (It _ _ (after_calls _ _ _ _ _ _ _ _ _ _ _ _ _ _ _ _ _ H)) as (-> & _). pose proof (B _ _ _ _ _ H). repeat split; try discriminate; lra.
  - cbn [moved_on s_ts ts_set_next ts_iter]. destruct (It _ _ (after_calls _ _ _ _ _ _ _ _ _ _ _ _ _ _ _ _ _ H)) as (-> & _). pose proof (B _ _ _ _ _ H).
    split; [lra|]. split; [contradiction|]. intros _ _. eapply outputs_nofuel; exact O.
  - destruct (It _ _ (ready_calls _ _ _ _ _ _ _ _ _ _ _ _ _ _ _ _ _ H)) as (-> & _). pose proof (Br _ _ _ _ _ H). repeat split; try discriminate; lra.
  - cbn [sim_set_ts s_ts ts_set_kind ts_iter].
    destruct (It _ _ (ca_call _ _ _ _ _ _ _ _ _ _ _ _ (ready_calls _ _ _ _ _ _ _ _ _ _ _ _ _ _ _ _ _ H) X)) as (-> & _). pose proof (Br _ _ _ _ _ H). rewrite S_INR.
    split; [lra|]. split; [destruct r as [[]|?| |]; discriminate|]. intros _ _. apply outputs_nofuel in O. destruct r as [[]|?| |]; congruence.
  - destruct (It _ _ (ready_calls _ _ _ _ _ _ _ _ _ _ _ _ _ _ _ _ _ H)) as (_ & A1).
    destruct (It _ _ (ca_call _ _ _ _ _ _ _ _ _ _ _ _ (ready_calls _ _ _ _ _ _ _ _ _ _ _ _ _ _ _ _ _ H) X)) as (-> & _). pose proof (Br _ _ _ _ _ H). rewrite S_INR.
    split; [lra|]. split; [intros ->; destruct R; discriminate|]. intros Hr _. exact (next_nofuel _ _ _ _ _ _ _ Hr _ _ _ X A1).
Qed.
Print Assumptions C75_steps_bounded.

(** A run that the theorem is about: one step from 0 to 1, at most 2000002
    are possible. *)
Example C75_nonvacuous : forall fmt, cf_validate one_cfg = Ok tt /\ times one_cfg 0 1 (1 / 1000000) 1 1 /\
  rc_asc (nc_time (cf_numerics one_cfg)) = false /\ xle (Fin (1 / 1000000)) (nc_dt_max (cf_numerics one_cfg)) /\ returns (Hll XRn) /\ exists s e,
  at_start Isot 6 one_cfg s /\ run_loop (N:=Hll XRn) fmt false (fun _ => []) 0 2 Isot 6 (rmesh 6) s no_writer no_world = (e, Ok tt) /\
  ts_iter (s_ts (e_sim e)) = 1%N.
Proof.
  intros fmt. destruct (C40_example fmt) as (T & V & _). split; [exact V|]. split; [exact T|]. split; [reflexivity|].
  split; [cbn; lra|]. split; [apply hll_returns|]. destruct (one_run fmt) as (v & e & K1 & K2 & _ & _ & K5). exists (one_sim v), e. auto.
Qed.

(** Gas at rest between 2^53 and 2^53 + 2, where binary64 numbers are 2 apart;
    steps of 9/10, none below 4/5. *)
Definition late_cfg (bln bexp : b64 -> b64) : config (B64n bln bexp) :=
  let A := B64n bln bexp in
  mkCfg false (mkMC (A:=A) Cartesian (nZ A 2) (nZ A 3)) (mkPC (A:=A) (nQ A (14 # 10)) SI) BNoGradients BNoGradients
    (mkNC (A:=A) CHll (mkRC (A:=A) RK2 false (nQ A (1 # 1000)) (nQ A (1 # 1000)) (nQ A (8 # 100))) 10 (nZ A (2 ^ 53)) (nZ A (2 ^ 53 + 2))
       (nQ A (4 # 5)) (nZ A 1000) (nQ A (9 # 10)))
    1 [].

Lemma xle_antisym : forall x y, xle x y -> xle y x -> x = y.
Proof. intros [x| | |] [y| | |]; cbn [xle]; intros; try contradiction; try reflexivity. f_equal. lra. Qed.

(** In binary64 there is no such bound: the time of this run does not move,
    it makes 10 steps ([iter_max]) where the bound of C75_steps_bounded is less
    than 9, and ends with the iteration limit. *)
Theorem C75_b64_refuted : forall bln bexp, let A := B64n bln bexp in exists w k e,
  let c := late_cfg bln bexp in
  cf_validate c = Ok tt /\ rc_asc (nc_time (cf_numerics c)) = false /\ cf_output_max c = 1%N /\
  nc_t0 (cf_numerics c) = b_ofZ (2 ^ 53) /\ nc_t_end (cf_numerics c) = b_ofZ (2 ^ 53 + 2) /\ nc_dt_min (cf_numerics c) = nQ A (4 # 5) /\
  (1 + 1 + (4 / 5) / 2) * (2 / (4 / 5) + 1) < 9 /\
  init_corries (A:=A) (N:=Hll A) true (fun _ => EmptyString) EmptyString [] (brun_init bln bexp 1 1) Isot 6 c no_world = (w, Ok k) /\
  at_start Isot 6 c (c_sim k) /\
  run_loop (fun _ _ => EmptyString) true (fun _ => []) 0 11 Isot 6 (c_mesh k) (c_sim k) (c_writer k) w = (e, Err EIterMax) /\
  ts_iter (s_ts (e_sim e)) = 10%N /\ b2x (ts_t (s_ts (e_sim e))) = b2x (nc_t0 (cf_numerics c)) /\
  xlt (b2x (nc_dt_min (cf_numerics c))) (b2x (ts_dt (s_ts (e_sim e)))).
Proof.
  intros bln bexp A. set (c := late_cfg bln bexp).
  destruct (judged_run A (Hll A) (brun_init bln bexp 1 1) c 11
    (fun e o => match o with Err EIterMax => true | _ => false end && (ts_iter (s_ts (e_sim e)) =? 10)%N && Bleb (ts_t (s_ts (e_sim e))) (nc_t0 (cf_numerics c)) && Bleb (nc_t0 (cf_numerics c)) (ts_t (s_ts (e_sim e)))
       && Bltb (nc_dt_min (cf_numerics c)) (ts_dt (s_ts (e_sim e)))))
    as (w & k & e & o & V & I & S & E & C).
  { vm_compute. reflexivity. }
  { intros s m s' r Q. apply (f_equal fst) in Q. cbn [fst brun_init] in Q. subst s'. split; reflexivity. }
  apply andb_true_iff in C. destruct C as [C C4]. apply andb_true_iff in C. destruct C as [C C5]. apply andb_true_iff in C. destruct C as [C C3]. apply andb_true_iff in C. destruct C as [C1 C2].
  apply N.eqb_eq in C2. destruct o as [[]|[]| |]; try discriminate C1.
  exists w, k, e. cbv zeta. repeat match goal with |- _ /\ _ => split end; auto; try reflexivity.
  - lra.
  - apply xle_antisym; [exact (proj1 (Bleb_xle _ _) C3)|exact (proj1 (Bleb_xle _ _) C5)].
  - exact (proj1 (Bltb_xlt _ _) C4).
Qed.
Print Assumptions C75_b64_refuted.
