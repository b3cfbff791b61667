(** Properties of whole runs (C39-C43). *)

From Coq Require Import Reals ZArith NArith QArith Qreals List Bool Lia Lra String.
From Flocq Require Import IEEE754.BinarySingleNaN.
From Verif Require Import Base Num XReal B64 Config Mesh State NumFlux Time Writer Runner Spec SpecFlow SpecStep SpecRun
  ConfigProofs StepProofs TimeProofs TimeMore RealRun RunProofs RunTimes Demo.
Import ListNotations.

(** ** A run in exact arithmetic for the examples: uniform isothermal flow, a
    single output interval [0, 1], the CFL step is 5/2 so one step suffices *)
Definition one_cfg : config XRn :=
  mkCfg false (mkMC (A:=XRn) Cartesian (Fin 1) (Fin 2)) (mkPC (A:=XRn) (Fin (14 / 10)) SI) BNoGradients BNoGradients
    (mkNC (A:=XRn) CHll (mkRC (A:=XRn) RK2 false (Fin (1 / 1000)) (Fin (1 / 1000)) (Fin (8 / 100))) 100%N (Fin 0) (Fin 1)
       (Fin (1 / 1000000)) (Fin 1000) (Fin (1 / 2)))
    1%N [].

Definition no_world : world := mkWorld (fun _ => None) (fun _ => false) "" (fun _ => false).
Definition no_writer {A} : writer A := mkWriter [] 0%N "" false.

Definition one_sim (v : vars XRn) : sim XRn (Hll XRn) :=
  mkSim (ts_new (cf_numerics one_cfg) (cf_output_max one_cfg)) (one_state v) (rkf_new Isot 6 one_cfg)
    (mkRhs (zeros2 2 6) (mkHll [] [] [] [] [] : nf_T (Hll XRn)) (init_bc BNoGradients 2) (init_bc BNoGradients 2)).

Lemma one_valid : cf_validate one_cfg = Ok tt.
Proof.
  apply cf_validate_R. split; cbn [one_cfg cf_mesh cf_physics cf_numerics cf_writer mc_xi_in mc_xi_out pc_gamma nc_numflux nc_iter_max nc_t0 nc_t_end nc_dt_min nc_dt_max nc_dt_cfl nc_time rc_rtol rc_atol rc_friction xlt xle];
    try lra; try lia; try discriminate. intros o [].
Qed.

Lemma one_run : forall fmt, exists v e, at_start Isot 6 one_cfg (one_sim v) /\
  run_loop fmt false (fun _ => []) 0 2 Isot 6 (rmesh 6) (one_sim v) no_writer no_world = (e, Ok tt) /\
  List.length (e_trace e) = 2%nat /\ ts_t (s_ts (e_sim e)) = Fin 1 /\ ts_iter (s_ts (e_sim e)) = 1%N.
Proof.
  intros fmt.
  destruct (rsim_step (Hll XRn) 6 CHll RK2 (1 / 2) (mkHll [] [] [] [] []) (1 / 20) (1 / 20) 1 0 ltac:(lia) (hll_total XRn Isot 6 (rmesh 6)) ltac:(lra)) as (v & _ & _ & _ & _ & Ds & _).
  { rewrite Rabs_pos_eq by lra. cbn. lra. } { lra. }
  set (s := one_sim v).
  assert (Ec : (1 / 2 * (1 / INR (6 - 4)) / Rabs (1 / 20 + 1 / 20) = 5 / 2)%R) by (rewrite Rabs_pos_eq by lra; cbn; lra).
  rewrite Ec in Ds. clear Ec.
  assert (TN : ts_t_next (s_ts (moved_on s)) = Fin 1).
  { cbn [moved_on s one_sim s_ts ts_new ts_set_next ts_t_next ts_dt_output]. cbn. destruct (Req_EM_T _ _); [lra|]. f_equal. lra. }
  destruct (total_next XRn (Hll XRn) Isot 6 (rmesh 6) (hll_total XRn Isot 6 (rmesh 6)) 0 (moved_on s) _ eq_refl eq_refl eq_refl Ds) as (s' & E).
  { change (ts_dt_min (s_ts (moved_on s))) with (Fin (1 / 1000000) : nF XRn). rewrite X_ltb. destruct (Rlt_dec _ _); [lra|reflexivity]. }
  destruct (next_dt XRn (Hll XRn) false 0%nat Isot 6%nat (rmesh 6) (moved_on s) s' eq_refl E) as (dt & D1 & _ & D2).
  assert (D1' : dt = Fin (5 / 2)). { assert (Q : Ok dt = Ok (Fin (5 / 2) : nF XRn)) by (etransitivity; [symmetry; exact D1|exact Ds]). injection Q as ->. reflexivity. }
  subst dt.
  destruct (cap_R (ts_set_dt (Fin (5 / 2) : nF XRn) (s_ts (moved_on s))) (5 / 2) 0 1 eq_refl eq_refl TN ltac:(lra) ltac:(lra)) as (d' & C1 & C2 & C3 & _ & _ & C6).
  { cbn. lra. } { left. lra. }
  assert (Hd : d' = 1%R). { destruct C6 as [->|[->|C6]]; try lra. exfalso. change (Fin 1000 = Fin d') in C6. injection C6 as <-. lra. }
  subst d'. rewrite C1 in D2.
  destruct (rkf_next_cases _ _ _ _ _ _ _ _ _ _ E) as (_ & _ & T & It & [(X & _)|(k & _ & [(X & _)|(u & _ & _ & [(? & X & _)|(_ & _ & T')])])]); try congruence; try discriminate.
  rewrite D2 in T'. change (ts_t (s_ts (moved_on s))) with (Fin 0 : nF XRn) in T'. rewrite X_add in T'. replace (0 + 1)%R with 1%R in T' by ring.
  assert (Sn : solver_next false 0 Isot 6 (rmesh 6) (moved_on s) = (s', Ok tt)).
  { unfold solver_next. rewrite E. destruct T as (T1 & T2). rewrite T1, It. reflexivity. }
  destruct T as (T1 & T2 & T3 & T4 & T5 & T6 & T7).
  assert (N' : ts_t_next (s_ts s') = Fin 1) by congruence.
  assert (M' : ts_dt_min (s_ts s') = Fin (1 / 1000000)) by (rewrite T3; reflexivity).
  assert (E' : ts_t_end (s_ts s') = Fin 1) by (rewrite T2; reflexivity).
  assert (Du : due s = true).
  { unfold due. change (ts_t_next (s_ts s)) with (Fin 0 : nF XRn). change (ts_dt_min (s_ts s)) with (Fin (1 / 1000000) : nF XRn). change (ts_t (s_ts s)) with (Fin 0 : nF XRn).
    rewrite X_sub, X_leb. destruct (Rle_dec _ _); [reflexivity|lra]. }
  assert (Fi : finished (moved_on s) = false).
  { unfold finished. change (ts_t_end (s_ts (moved_on s))) with (Fin 1 : nF XRn). change (ts_dt_min (s_ts (moved_on s))) with (Fin (1 / 1000000) : nF XRn). change (ts_t (s_ts (moved_on s))) with (Fin 0 : nF XRn).
    rewrite X_Q, X_mul, X_add, X_leb. destruct (Rle_dec _ _) as [L|]; [|reflexivity]. exfalso. revert L. unfold Q2R. cbn. lra. }
  assert (Du' : due s' = true).
  { unfold due. rewrite N', M', T', X_sub, X_leb. destruct (Rle_dec _ _); [reflexivity|lra]. }
  assert (Fi' : finished (moved_on s') = true).
  { rewrite finished_moved. unfold finished. rewrite E', M', T', X_Q, X_mul, X_add, X_leb. destruct (Rle_dec _ _) as [|L]; [reflexivity|]. exfalso. apply L. unfold Q2R. cbn. lra. }
  eexists v, _. split; [split; reflexivity|]. split.
  - fold s. rewrite loop_S, run_output_due by exact Du. cbn [do_output writer_update no_writer wr_outputs try_each wr_counter writer_write write_sched wr_meta wr_banner].
    rewrite Fi, Sn, loop_S, run_output_due by exact Du'. cbn [do_output writer_update no_writer wr_outputs try_each wr_counter writer_write write_sched wr_meta wr_banner].
    rewrite Fi'. reflexivity.
  - cbn [e_trace e_sim app List.length]. split; [reflexivity|]. split; [exact T'|]. change (ts_iter (s_ts s') = 1%N). rewrite It. reflexivity.
Qed.
Lemma init_at_start : forall A (N : numflux_impl A) validation meta banner sched init p S c w w' k,
  init_corries (N:=N) validation meta banner sched init p S c w = (w', Ok k) ->
  (forall s m s' r, init s m = (s', r) -> s_ts s' = s_ts s /\ s_rk s' = s_rk s) -> at_start p S c (c_sim k).
Proof.
  intros A N validation meta banner sched init p S c w w' k I Hi. unfold init_corries in I.
  destruct (cf_validate c) as [[]|x| |]; try discriminate. destruct (mesh_new validation S (cf_mesh c)) as [m|x| |]; try discriminate.
  unfold solver_new in I. destruct (rhs_new N p S c m) as [nf|x| |]; cbn [bind] in I; try discriminate.
  destruct (writer_new meta S c m w) as [w1 r1]. destruct r1 as [wr|x| |]; try discriminate.
  destruct (writer_metadata _ _ _ _) as [w2 r2]. destruct r2 as [[]|x| |]; try discriminate.
  match type of I with context [init ?a m] => destruct (init a m) as [s1 r3] eqn:E end.
  destruct (Hi _ _ _ _ E) as (H1 & H2). destruct r3 as [[]|x| |]; cbn [bind] in I; try discriminate.
  match type of I with context [st_update_from_prim ?a ?b ?c ?d ?e ?f] => destruct (st_update_from_prim a b c d e f) as [u|x| |] end; cbn [bind] in I; try discriminate.
  injection I as <- <-. split; cbn [c_sim s_ts s_rk]; [rewrite H1|rewrite H2]; reflexivity.
Qed.

Lemma times_pos : forall c t0 t1 dmin M D, cf_validate c = Ok tt -> times c t0 t1 dmin M D -> (0 < D)%R.
Proof.
  intros c t0 t1 dmin M D V (T1 & T2 & _ & _ & HM & TE). apply cf_validate_R in V. pose proof (vc_t_end _ _ _ V) as H. cbv beta in H. rewrite T1, T2 in H. cbn in H.
  assert (0 < IZR (Z.of_N M))%R by (apply IZR_lt; lia). nra.
Qed.

Lemma run_counter : forall A (N : numflux_impl A) fmt validation sched afuel fuel p S m (s : sim A N) wr w e r,
  run_loop fmt validation sched afuel fuel p S m s wr w = (e, r) -> r = Ok tt -> wr_counter (e_writer e) = (wr_counter wr + N.of_nat (List.length (e_trace e)))%N.
Proof.
  intros A N fmt validation sched afuel fuel p S m s wr w e r E R. apply loop_ends in E.
  destruct E as [s1 wr1 w1 tr1 H|n s1 wr1 w1 tr1 wr2 w2 r Hn H Du O NO|n s1 wr1 w1 tr1 Hn H F|n s1 wr1 w1 tr1 s2 er s3 wr2 w2 r Hn H F X -> O|n s1 wr1 w1 tr1 s2 r Hn H F X NR]; try discriminate; try congruence.
  - eapply ready_counter; eauto.
  - destruct r; discriminate.
  - exfalso. destruct NR; congruence.
Qed.

(** ** C39 Runs stop *)

(** Without adaptive step control a run that may still make k steps is decided
    after at most k + 1 rounds of its loop: it returns or panics, and more
    rounds allowed change nothing.  Its iteration counter counts the calls of
    [next_solution] and does not exceed [iter_max]; a run that reached
    [iter_max] did not succeed. *)
Theorem C39_run_stops : forall A (N : numflux_impl A) fmt validation sched afuel p S m (s : sim A N) wr w fuel e r,
  returns N -> bt_asc (rk_bt (s_rk s)) = false -> (ts_iter (s_ts s) < ts_iter_max (s_ts s))%N ->
  (N.to_nat (ts_iter_max (s_ts s) - ts_iter (s_ts s)) < fuel)%nat ->
  run_loop fmt validation sched afuel fuel p S m s wr w = (e, r) ->
  r <> Fuel /\ (forall more, run_loop fmt validation sched afuel (fuel + more) p S m s wr w = (e, r)) /\
  exists n, calls validation afuel p S m n s (e_sim e) /\
    ts_iter (s_ts (e_sim e)) = (ts_iter (s_ts s) + N.of_nat n)%N /\ (ts_iter (s_ts (e_sim e)) <= ts_iter_max (s_ts s))%N /\
    (ts_iter (s_ts (e_sim e)) = ts_iter_max (s_ts s) -> r <> Ok tt).
Proof.
  intros A N fmt validation sched afuel p S m s wr w fuel e r Hr Ha Hi Hf E.
  destruct (run_counts _ _ _ _ _ _ _ _ _ _ _ _ _ _ _ E Hi) as (n & K1 & K2 & K3 & K4 & K5).
  destruct (calls_iter _ _ _ _ _ _ _ _ _ _ K1) as (I1 & I2 & I3).
  assert (F : r <> Fuel).
  { intros F. destruct (K5 F) as [->|(s1 & s2 & C1 & C2)]; [lia|].
    destruct (calls_iter _ _ _ _ _ _ _ _ _ _ C1) as (_ & _ & J3). apply (next_nofuel _ _ _ _ _ _ _ Hr _ _ _ C2); congruence. }
  split; [exact F|]. split; [intros more; apply more_fuel; assumption|].
  exists n. split; [exact K1|]. split; [exact I1|]. split; [exact K2|]. intros Q R. specialize (K4 R). lia.
Qed.
Print Assumptions C39_run_stops.

(** The flux schemes of the library always return. *)
Theorem C39_library_schemes : forall A, returns (Hll A) /\ returns (Kt A).
Proof. intros A. split; [apply hll_returns|apply kt_returns]. Qed.
Print Assumptions C39_library_schemes.

(** With step control too, the number of steps is bounded by [iter_max]; only
    the repetition inside a step can keep a run going. *)
Theorem C39_step_control : forall A (N : numflux_impl A) fmt validation sched afuel p S m (s : sim A N) wr w fuel e r,
  (ts_iter (s_ts s) < ts_iter_max (s_ts s))%N ->
  (N.to_nat (ts_iter_max (s_ts s) - ts_iter (s_ts s)) < fuel)%nat ->
  run_loop fmt validation sched afuel fuel p S m s wr w = (e, r) ->
  (exists n, calls validation afuel p S m n s (e_sim e) /\ ts_iter (s_ts (e_sim e)) = (ts_iter (s_ts s) + N.of_nat n)%N /\
     (ts_iter (s_ts (e_sim e)) <= ts_iter_max (s_ts s))%N /\ (ts_iter (s_ts (e_sim e)) = ts_iter_max (s_ts s) -> r <> Ok tt)) /\
  (r = Fuel -> exists n s1 s2, calls validation afuel p S m n s s1 /\ solver_next validation afuel p S m s1 = (s2, Fuel)).
Proof.
  intros A N fmt validation sched afuel p S m s wr w fuel e r Hi Hf E.
  destruct (run_counts _ _ _ _ _ _ _ _ _ _ _ _ _ _ _ E Hi) as (n & K1 & K2 & K3 & K4 & K5).
  destruct (calls_iter _ _ _ _ _ _ _ _ _ _ K1) as (I1 & I2 & I3). split.
  - exists n. split; [exact K1|]. split; [exact I1|]. split; [exact K2|]. intros Q R. specialize (K4 R). lia.
  - intros F. destruct (K5 F) as [->|(s1 & s2 & C1 & C2)]; [lia|eauto].
Qed.
Print Assumptions C39_step_control.

(** Runs in binary64 for the examples: isothermal flow with a jump of the
    density, started by [init_corries]. *)
Section B64Run.
Variables bln bexp : b64 -> b64.
Notation A := (B64n bln bexp).

(** [M] outputs until t = 1 *)
Definition brun_cfg (itmax M : BinNums.N) (dmin cfl : Q) : config A :=
  mkCfg false (mkMC (A:=A) Cartesian (nZ A 2) (nZ A 3)) (mkPC (A:=A) (nQ A (14 # 10)) SI) BNoGradients BNoGradients
    (mkNC (A:=A) CHll (mkRC (A:=A) RK2 false (nQ A (1 # 1000)) (nQ A (1 # 1000)) (nQ A (8 # 100))) itmax (n0 A) (n1 A)
       (nQ A dmin) (nZ A 1000) (nQ A cfl))
    M [].

(** density [l] on the left and [r] on the right, velocity 0, sound speed
    1/2 *)
Definition brun_init (l r : Q) (s : sim A (Hll A)) (m : mesh A) : sim A (Hll A) * res unit :=
  let v := set_c_sound (repeat (nQ A (1 # 2)) 6) (set_prim [tab 6 (fun i => nQ A (if (i <? 3)%nat then l else r)); repeat (n0 A) 6] (cent (s_u s))) in
  (mkSim (s_ts s) (set_cent v (s_u s)) (s_rk s) (s_rhs s), Ok tt).

(** the run, without output files, judged by [chk] *)
Definition brun (val : bool) (fuel : nat) (c : config A) (l r : Q) (chk : run_end A (Hll A) -> res unit -> bool) : bool :=
  match init_corries (N:=Hll A) val (fun _ => EmptyString) EmptyString [] (brun_init l r) Isot 6 c no_world with
  | (w, Ok k) => let '(e, o) := run_loop (fun _ _ => EmptyString) val (fun _ => []) 0 fuel Isot 6 (c_mesh k) (c_sim k) (c_writer k) w in chk e o
  | _ => false
  end.

Definition b_ok (o : res unit) : bool := match o with Ok _ => true | _ => false end.
Definition b_err (e : err) (o : res unit) : bool := match e, o with EIterMax, Err EIterMax => true | EDtMin, Err EDtMin => true | ENonFinite, Err ENonFinite => true | _, _ => false end.

Lemma brun_ok : forall val fuel c l r chk, brun val fuel c l r chk = true ->
  exists w k e o, cf_validate c = Ok tt /\ init_corries (N:=Hll A) val (fun _ => EmptyString) EmptyString [] (brun_init l r) Isot 6 c no_world = (w, Ok k) /\
    run_loop (fun _ _ => EmptyString) val (fun _ => []) 0 fuel Isot 6 (c_mesh k) (c_sim k) (c_writer k) w = (e, o) /\ chk e o = true.
Proof.
  intros val fuel c l r chk H. unfold brun in H. destruct (init_corries val _ _ _ _ _ _ _ _) as [w k] eqn:I. destruct k as [k|e| |]; try discriminate.
  destruct (run_loop _ val _ 0 fuel Isot 6 (c_mesh k) (c_sim k) (c_writer k) w) as [e o] eqn:E. exists w, k, e, o.
  split; [|auto]. unfold init_corries in I. destruct (cf_validate c) as [[]|x| |]; try discriminate. reflexivity.
Qed.
End B64Run.
Arguments brun {bln bexp}. Arguments brun_ok {bln bexp}.

(** C39 examples: a run of 5 steps that ends, and one that exceeds
    [iter_max]. *)
Example C39_example : forall bln bexp, exists c w k e,
  cf_validate c = Ok tt /\ init_corries (A:=B64n bln bexp) (N:=Hll (B64n bln bexp)) true (fun _ => EmptyString) EmptyString [] (brun_init bln bexp 1 (1 # 8)) Isot 6 c no_world = (w, Ok k) /\
  bt_asc (rk_bt (s_rk (c_sim k))) = false /\ (ts_iter (s_ts (c_sim k)) < ts_iter_max (s_ts (c_sim k)))%N /\
  run_loop (fun _ _ => EmptyString) true (fun _ => []) 0 101 Isot 6 (c_mesh k) (c_sim k) (c_writer k) w = (e, Ok tt) /\
  ts_iter (s_ts (e_sim e)) = 5%N.
Proof.
  intros bln bexp. set (c := brun_cfg bln bexp 100 2 (1 # 1000000) (4 # 10)).
  destruct (brun_ok true 101 c 1 (1 # 8) (fun e o => b_ok o && (ts_iter (s_ts (e_sim e)) =? 5)%N)) as (w & k & e & o & V & I & E & C).
  { vm_compute. reflexivity. }
  apply andb_true_iff in C. destruct C as [C1 C2]. apply N.eqb_eq in C2. destruct o as [[]|x| |]; try discriminate C1.
  exists c, w, k, e. split; [exact V|]. split; [exact I|].
  assert (K : at_start Isot 6 c (c_sim k)) by (apply (init_at_start _ _ _ _ _ _ _ _ _ _ _ _ _ I); intros s m s' r Q; apply (f_equal fst) in Q; cbn [fst brun_init] in Q; subst s'; split; reflexivity).
  destruct K as (K1 & K2). rewrite K1, K2. split; [reflexivity|]. split; [reflexivity|]. auto.
Qed.

Example C39_example_iter_max : forall bln bexp, exists c w k e,
  cf_validate c = Ok tt /\ init_corries (A:=B64n bln bexp) (N:=Hll (B64n bln bexp)) true (fun _ => EmptyString) EmptyString [] (brun_init bln bexp 1 (1 # 8)) Isot 6 c no_world = (w, Ok k) /\
  run_loop (fun _ _ => EmptyString) true (fun _ => []) 0 101 Isot 6 (c_mesh k) (c_sim k) (c_writer k) w = (e, Err EIterMax) /\
  ts_iter (s_ts (e_sim e)) = 4%N.
Proof.
  intros bln bexp. set (c := brun_cfg bln bexp 4 2 (1 # 1000000) (4 # 10)).
  destruct (brun_ok true 101 c 1 (1 # 8) (fun e o => b_err EIterMax o && (4 =? ts_iter (s_ts (e_sim e)))%N)) as (w & k & e & o & V & I & E & C).
  { vm_compute. reflexivity. }
  apply andb_true_iff in C. destruct C as [C1 C2]. apply N.eqb_eq in C2. destruct o as [[]|[]| |]; try discriminate C1.
  exists c, w, k, e. auto.
Qed.

(** ** C40 Output times *)

(** The outputs of any run, successful or not: output number i (from 0) shows a
    time in [t0 + i D - dt_min, t0 + i D], an error dump one not after
    t0 + i D; times do not decrease. *)
Theorem C40_output_times : forall (N : numflux_impl XRn) fmt validation sched afuel fuel p S m (c : config XRn) (s : sim XRn N) wr w e r t0 t1 dmin M D,
  cf_validate c = Ok tt -> times c t0 t1 dmin M D -> at_start p S c s ->
  run_loop fmt validation sched afuel fuel p S m s wr w = (e, r) ->
  (forall i (x : snapshot XRn), nth_error (e_trace e) i = Some x -> exists ti, ts_t (fst x) = Fin ti /\ (ti <= t0 + INR i * D)%R /\
     (ts_kind (fst x) <> KErrorDump -> (t0 + INR i * D - dmin <= ti)%R)) /\
  (forall i j (x y : snapshot XRn) ti tj, (i <= j)%nat -> nth_error (e_trace e) i = Some x -> nth_error (e_trace e) j = Some y ->
     ts_t (fst x) = Fin ti -> ts_t (fst y) = Fin tj -> (ti <= tj)%R).
Proof.
  intros N fmt validation sched afuel fuel p S m c s wr w e r t0 t1 dmin M D V T Hs E.
  pose proof (times_pos c t0 t1 dmin M D V T) as HD. apply cf_validate_R in V.
  pose proof (run_trace_loop N c t0 t1 dmin D M V T HD fmt validation sched afuel p S m s wr w Hs fuel e r E) as G.
  split; [apply run_trace_nth; exact G|].
  eapply run_trace_sorted; exact G.
Qed.
Print Assumptions C40_output_times.

(** A successful run outputs the M + 1 planned times, and at most one more
    when the smallest step is not larger than the output interval. *)
Theorem C40_output_count : forall (N : numflux_impl XRn) fmt validation sched afuel fuel p S m (c : config XRn) (s : sim XRn N) wr w e t0 t1 dmin M D,
  cf_validate c = Ok tt -> times c t0 t1 dmin M D -> at_start p S c s ->
  run_loop fmt validation sched afuel fuel p S m s wr w = (e, Ok tt) -> (dmin <= D)%R ->
  (N.to_nat M + 1 <= List.length (e_trace e) <= N.to_nat M + 2)%nat /\
  wr_counter (e_writer e) = (wr_counter wr + N.of_nat (List.length (e_trace e)))%N.
Proof.
  intros N fmt validation sched afuel fuel p S m c s wr w e t0 t1 dmin M D V T Hs E Hd.
  split.
  - pose proof (times_pos c t0 t1 dmin M D V T) as HD. apply cf_validate_R in V.
    destruct (run_ok_end N c t0 t1 dmin D M V T HD fmt validation sched afuel p S m s wr w Hs fuel e E) as (t & _ & _ & K1 & K2 & _).
    pose proof (dmin_pos c t0 t1 dmin D M V T) as Dp.
    specialize (K1 ltac:(lra)). destruct (K2 Hd) as (K3 & _).
    rewrite INR_IZR_INZ in K1, K3. rewrite <- (plus_IZR _ 3) in K3. apply lt_IZR in K1. apply lt_IZR in K3. lia.
  - apply (run_counter _ _ _ _ _ _ _ _ _ _ _ _ _ _ _ E). reflexivity.
Qed.
Print Assumptions C40_output_count.

(** The hypotheses [at_start] and [cf_validate c = Ok tt] hold for what
    [init_corries] returns, if the initial condition function only sets the
    state. *)
Theorem C40_at_start : forall A (N : numflux_impl A) validation meta banner sched init p S c w w' k,
  (forall s m s' r, init s m = (s', r) -> s_ts s' = s_ts s /\ s_rk s' = s_rk s) ->
  init_corries (N:=N) validation meta banner sched init p S c w = (w', Ok k) -> cf_validate c = Ok tt /\ at_start p S c (c_sim k).
Proof.
  intros A N validation meta banner sched init p S c w w' k Hi I. split; [|eapply init_at_start; [exact I|exact Hi]].
  unfold init_corries in I. destruct (cf_validate c) as [[]|x| |]; try discriminate. reflexivity.
Qed.
Print Assumptions C40_at_start.

Example C40_example : forall fmt, times one_cfg 0 1 (1 / 1000000) 1 1 /\ cf_validate one_cfg = Ok tt /\ exists s e,
  at_start Isot 6 one_cfg s /\ run_loop (N:=Hll XRn) fmt false (fun _ => []) 0 2 Isot 6 (rmesh 6) s no_writer no_world = (e, Ok tt) /\ List.length (e_trace e) = 2%nat.
Proof.
  intros fmt. split; [|split; [apply one_valid|]].
  - repeat match goal with |- times _ _ _ _ _ _ => unfold times | |- _ /\ _ => split end; try reflexivity. cbn. lra.
  - destruct (one_run fmt) as (v & e & K1 & K2 & K3 & _). exists (one_sim v), e. auto.
Qed.

(** One more output than planned happens: with M = 1 a binary64 run writes
    three outputs, at t = 0, 0.8 and 1.6. *)
Theorem C40_planned_count_refuted : forall bln bexp, let A := B64n bln bexp in exists c init w k e,
  cf_validate c = Ok tt /\ cf_output_max c = 1%N /\ init_corries (A:=A) (N:=Hll A) true (fun _ => EmptyString) EmptyString [] init Isot 6 c no_world = (w, Ok k) /\
  run_loop (fun _ _ => EmptyString) true (fun _ => []) 0 101 Isot 6 (c_mesh k) (c_sim k) (c_writer k) w = (e, Ok tt) /\
  List.length (e_trace e) = 3%nat.
Proof.
  intros bln bexp A. set (c := brun_cfg bln bexp 100 1 (5 # 10) (8 # 10)).
  destruct (brun_ok true 101 c 1 1 (fun e o => b_ok o && (3 =? List.length (e_trace e))%nat)) as (w & k & e & o & V & I & E & C).
  { vm_compute. reflexivity. }
  apply andb_true_iff in C. destruct C as [C1 C2]. apply Nat.eqb_eq in C2. destruct o as [[]|x| |]; try discriminate C1.
  exists c, (brun_init bln bexp 1 1), w, k, e. auto 6.
Qed.
Print Assumptions C40_planned_count_refuted.

(** ** C41 The final time *)

Theorem C41_final_time : forall (N : numflux_impl XRn) fmt validation sched afuel fuel p S m (c : config XRn) (s : sim XRn N) wr w e t0 t1 dmin M D,
  cf_validate c = Ok tt -> times c t0 t1 dmin M D -> at_start p S c s ->
  run_loop fmt validation sched afuel fuel p S m s wr w = (e, Ok tt) -> (dmin <= D)%R ->
  exists t, ts_t (s_ts (e_sim e)) = Fin t /\ (t1 - dmin / 100 <= t <= t1 + D)%R.
Proof.
  intros N fmt validation sched afuel fuel p S m c s wr w e t0 t1 dmin M D V T Hs E Hd.
  pose proof (times_pos c t0 t1 dmin M D V T) as HD. apply cf_validate_R in V.
  destruct (run_ok_end N c t0 t1 dmin D M V T HD fmt validation sched afuel p S m s wr w Hs fuel e E) as (t & I & K0 & _ & K2 & _).
  exists t. split; [apply I|]. destruct (K2 Hd) as (_ & K3). lra.
Qed.
Print Assumptions C41_final_time.

Example C41_example : forall fmt, exists s e, at_start Isot 6 one_cfg s /\
  run_loop (N:=Hll XRn) fmt false (fun _ => []) 0 2 Isot 6 (rmesh 6) s no_writer no_world = (e, Ok tt) /\ ts_t (s_ts (e_sim e)) = Fin 1.
Proof. intros fmt. destruct (one_run fmt) as (v & e & K1 & K2 & _ & K4 & _). exists (one_sim v), e. auto. Qed.

(** A successful binary64 run can end beyond the end time, by more than the
    smallest step: here at t > 1.15 for t_end = 1 and dt_min = 0.3. *)
Theorem C41_exact_end_refuted : forall bln bexp, let A := B64n bln bexp in exists c init w k e,
  cf_validate c = Ok tt /\ init_corries (A:=A) (N:=Hll A) true (fun _ => EmptyString) EmptyString [] init Isot 6 c no_world = (w, Ok k) /\
  run_loop (fun _ _ => EmptyString) true (fun _ => []) 0 101 Isot 6 (c_mesh k) (c_sim k) (c_writer k) w = (e, Ok tt) /\
  nltb A (nmul A (nc_t_end (cf_numerics c)) (nQ A (115 # 100))) (ts_t (s_ts (e_sim e))) = true.
Proof.
  intros bln bexp A. set (c := brun_cfg bln bexp 100 1 (3 # 10) (4 # 10)).
  destruct (brun_ok true 101 c 1 1 (fun e o => b_ok o && nltb (B64n bln bexp) (nmul (B64n bln bexp) (nc_t_end (cf_numerics c)) (nQ (B64n bln bexp) (115 # 100))) (ts_t (s_ts (e_sim e))))) as (w & k & e & o & V & I & E & C).
  { vm_compute. reflexivity. }
  apply andb_true_iff in C. destruct C as [C1 C2]. destruct o as [[]|x| |]; try discriminate C1.
  exists c, (brun_init bln bexp 1 1), w, k, e. auto 6.
Qed.
Print Assumptions C41_exact_end_refuted.
(** ** C42 Error dump *)

(** [ready]: after n successful steps, and the output then due, the run holds
    [s], [wr], [w] and has output [tr].  If the next step fails with [er], the
    run outputs the state that step left behind, labelled as an error dump, and
    returns [er], or what went wrong when writing this output. *)
Theorem C42_error_dump : forall A (N : numflux_impl A) fmt validation sched afuel p S m (s0 : sim A N) wr0 w0 n s wr w tr s' er wr' w' ro,
  ready fmt validation sched afuel p S m s0 wr0 w0 n s wr w tr -> finished s = false ->
  solver_next validation afuel p S m s = (s', Err er) ->
  let dump := mkSim (ts_set_kind KErrorDump (s_ts s')) (s_u s') (s_rk s') (s_rhs s') in
  outputs fmt sched m dump wr w wr' w' ro ->
  forall fuel, (n < fuel)%nat ->
  run_loop fmt validation sched afuel fuel p S m s0 wr0 w0 =
    (mkEnd dump wr' w' (tr ++ [(s_ts dump, cent (s_u s'))]), match ro with Ok _ => Err er | _ => ro end).
Proof.
  intros A N fmt validation sched afuel p S m s0 wr0 w0 n s wr w tr s' er wr' w' ro R F E dump O fuel Hf.
  replace fuel with (n + Datatypes.S (fuel - n - 1))%nat by lia.
  rewrite (ready_loop _ _ _ _ _ _ _ _ _ _ _ _ _ _ _ _ _ R), F, E. cbv zeta. apply do_output_outputs in O.
  change (sim_set_ts (ts_set_kind KErrorDump (s_ts s')) s') with dump. rewrite O. reflexivity.
Qed.
Print Assumptions C42_error_dump.

(** Conversely an output is labelled error dump only if it is the last one and
    shows the state a failed step left behind; the run did not succeed. *)
Theorem C42_dump_means_failure : forall A (N : numflux_impl A) fmt validation sched afuel fuel p S m (s0 : sim A N) wr0 w0 e r i (x : snapshot A),
  run_loop fmt validation sched afuel fuel p S m s0 wr0 w0 = (e, r) -> ts_kind (s_ts s0) <> KErrorDump ->
  nth_error (e_trace e) i = Some x -> ts_kind (fst x) = KErrorDump ->
  Datatypes.S i = List.length (e_trace e) /\ r <> Ok tt /\
  exists n s s' er, calls validation afuel p S m n s0 s /\ solver_next validation afuel p S m s = (s', Err er) /\
    fst x = ts_set_kind KErrorDump (s_ts s') /\ snd x = cent (s_u s').
Proof.
  intros A N fmt validation sched afuel fuel p S m s0 wr0 w0 e r i x E K0 Ex Kx. apply loop_ends in E.
  destruct E as [s1 wr1 w1 tr1 H|n s1 wr1 w1 tr1 wr2 w2 r Hn H Du O NO|n s1 wr1 w1 tr1 Hn H F|n s1 wr1 w1 tr1 s2 er s3 wr2 w2 r Hn H F X -> O|n s1 wr1 w1 tr1 s2 r Hn H F X NR]; cbn [e_trace] in *.
  - exfalso. apply nth_error_In in Ex. destruct (after_kinds _ _ _ _ _ _ _ _ _ _ _ _ _ _ _ _ _ H K0) as (_ & K). exact (K _ Ex Kx).
  - exfalso. apply nth_error_In in Ex. destruct (after_kinds _ _ _ _ _ _ _ _ _ _ _ _ _ _ _ _ _ H K0) as (K1 & K).
    apply in_app_or in Ex. destruct Ex as [Ex|[<-|[]]]; [exact (K _ Ex Kx)|exact (K1 Kx)].
  - exfalso. apply nth_error_In in Ex. exact (ready_kinds _ _ _ _ _ _ _ _ _ _ _ _ _ _ _ _ _ H K0 _ Ex Kx).
  - destruct (lt_dec i (List.length tr1)) as [Hi|Hi].
    + exfalso. rewrite nth_error_app1 in Ex by exact Hi. apply nth_error_In in Ex. exact (ready_kinds _ _ _ _ _ _ _ _ _ _ _ _ _ _ _ _ _ H K0 _ Ex Kx).
    + rewrite nth_error_app2 in Ex by lia. destruct (i - List.length tr1)%nat as [|q] eqn:Q; [|destruct q; discriminate]. cbn in Ex. injection Ex as <-.
      split; [rewrite app_length; cbn; lia|]. split; [destruct r; discriminate|].
      exists n, s1, s2, er. split; [eapply ready_calls; eauto|]. auto.
  - exfalso. apply nth_error_In in Ex. exact (ready_kinds _ _ _ _ _ _ _ _ _ _ _ _ _ _ _ _ _ H K0 _ Ex Kx).
Qed.
Print Assumptions C42_dump_means_failure.

(** Every step that fails is followed by a dump: a run that returns an error
    has output the dump last, or failed in the middle of an output. *)
Theorem C42_failure_means_dump : forall A (N : numflux_impl A) fmt validation sched afuel fuel p S m (s0 : sim A N) wr0 w0 e er,
  run_loop fmt validation sched afuel fuel p S m s0 wr0 w0 = (e, Err er) ->
  exists (x : snapshot A) tr, e_trace e = tr ++ [x] /\ ((exists wr w, outputs fmt sched m (e_sim e) wr w (e_writer e) (e_world e) (Err er)) \/
    ts_kind (fst x) = KErrorDump /\ exists wr w, outputs fmt sched m (e_sim e) wr w (e_writer e) (e_world e) (Ok tt)).
Proof.
  intros A N fmt validation sched afuel fuel p S m s0 wr0 w0 e er E. apply loop_ends in E. remember (Err er) as r0 eqn:R0.
  destruct E as [s1 wr1 w1 tr1 H|n s1 wr1 w1 tr1 wr2 w2 r Hn H Du O NO|n s1 wr1 w1 tr1 Hn H F|n s1 wr1 w1 tr1 s2 er2 s3 wr2 w2 r Hn H F X -> O|n s1 wr1 w1 tr1 s2 r Hn H F X NR]; try discriminate; cbn [e_trace e_sim e_writer e_world].
  - subst r. eexists _, _. split; [reflexivity|]. left. eauto.
  - eexists _, _. split; [reflexivity|]. destruct r as [[]|e2| |]; try discriminate; [right|left].
    + split; [reflexivity|]. eauto.
    + injection R0 as ->. eauto.
  - exfalso. destruct NR; congruence.
Qed.
Print Assumptions C42_failure_means_dump.

(** The run above that hits [iter_max] = 4 outputs t = 0 and the dump. *)
Example C42_example : forall bln bexp, exists c w k e x,
  cf_validate c = Ok tt /\ init_corries (A:=B64n bln bexp) (N:=Hll (B64n bln bexp)) true (fun _ => EmptyString) EmptyString [] (brun_init bln bexp 1 (1 # 8)) Isot 6 c no_world = (w, Ok k) /\
  run_loop (fun _ _ => EmptyString) true (fun _ => []) 0 101 Isot 6 (c_mesh k) (c_sim k) (c_writer k) w = (e, Err EIterMax) /\
  nth_error (e_trace e) 1 = Some x /\ ts_kind (fst x) = KErrorDump.
Proof.
  intros bln bexp. set (c := brun_cfg bln bexp 2 2 (1 # 1000000) (4 # 10)).
  destruct (brun_ok true 101 c 1 (1 # 8) (fun e o => b_err EIterMax o && match nth_error (e_trace e) 1 with Some x => match ts_kind (fst x) with KErrorDump => true | _ => false end | None => false end)) as (w & k & e & o & V & I & E & C).
  { vm_compute. reflexivity. }
  apply andb_true_iff in C. destruct C as [C1 C2]. destruct o as [[]|[]| |]; try discriminate C1.
  destruct (nth_error (e_trace e) 1) as [x|] eqn:Ex; [|discriminate C2].
  exists c, w, k, e, x. repeat match goal with |- _ /\ _ => split end; auto. destruct (ts_kind (fst x)); try discriminate C2. reflexivity.
Qed.

(** ** C43 Running a finished simulation again *)

(** No step is made.  There is another output only if one is due. *)
Theorem C43_rerun : forall A (N : numflux_impl A) fmt validation sched afuel fuel p S m (s : sim A N) wr w e,
  run_loop fmt validation sched afuel fuel p S m s wr w = (e, Ok tt) ->
  forall validation' sched' afuel' fuel', (0 < fuel')%nat ->
  (due (e_sim e) = false -> run_loop fmt validation' sched' afuel' fuel' p S m (e_sim e) (e_writer e) (e_world e) = (mkEnd (e_sim e) (e_writer e) (e_world e) [], Ok tt)) /\
  (due (e_sim e) = true -> forall wr' w' ro, outputs fmt sched' m (moved_on (e_sim e)) (e_writer e) (e_world e) wr' w' ro ->
     run_loop fmt validation' sched' afuel' fuel' p S m (e_sim e) (e_writer e) (e_world e) =
       (mkEnd (moved_on (e_sim e)) wr' w' [(s_ts (moved_on (e_sim e)), cent (s_u (e_sim e)))], ro)).
Proof.
  intros A N fmt validation sched afuel fuel p S m s wr w e E val2 sched2 afuel2 fuel2 Hf. apply loop_ends in E. remember (Ok tt) as r0 eqn:R0.
  assert (F : finished (e_sim e) = true).
  { destruct E as [s1 wr1 w1 tr1 H|n s1 wr1 w1 tr1 wr2 w2 r Hn H Du O NO|n s1 wr1 w1 tr1 Hn H F|n s1 wr1 w1 tr1 s2 er2 s3 wr2 w2 r Hn H F X -> O|n s1 wr1 w1 tr1 s2 r Hn H F X NR]; try discriminate; try congruence.
    - exact F.
    - destruct r; discriminate.
    - exfalso. destruct NR; congruence. }
  destruct fuel2 as [|f]; [lia|]. subst r0. split; intros Du.
  - rewrite loop_S, run_output_not, F by exact Du. reflexivity.
  - intros wr' w' ro O. rewrite loop_S, run_output_due by exact Du. apply do_output_outputs in O. rewrite O. rewrite finished_moved, F.
    destruct ro as [[]|x| |]; reflexivity.
Qed.
Print Assumptions C43_rerun.

(** In exact arithmetic, with a smallest step below the output interval, no
    output is due, so that the second run does nothing at all. *)
Theorem C43_rerun_exact : forall (N : numflux_impl XRn) fmt validation sched afuel fuel p S m (c : config XRn) (s : sim XRn N) wr w e t0 t1 dmin M D,
  cf_validate c = Ok tt -> times c t0 t1 dmin M D -> at_start p S c s ->
  run_loop fmt validation sched afuel fuel p S m s wr w = (e, Ok tt) -> (dmin < D)%R ->
  forall validation' sched' afuel' fuel', (0 < fuel')%nat ->
  run_loop fmt validation' sched' afuel' fuel' p S m (e_sim e) (e_writer e) (e_world e) = (mkEnd (e_sim e) (e_writer e) (e_world e) [], Ok tt).
Proof.
  intros N fmt validation sched afuel fuel p S m c s wr w e t0 t1 dmin M D V T Hs E Hd val2 sched2 afuel2 fuel2 Hf.
  apply (C43_rerun _ _ _ _ _ _ _ _ _ _ _ _ _ _ E); [exact Hf|].
  pose proof (times_pos c t0 t1 dmin M D V T) as HD. apply cf_validate_R in V.
  destruct (run_ok_end N c t0 t1 dmin D M V T HD fmt validation sched afuel p S m s wr w Hs fuel e E) as (t & _ & _ & _ & _ & K). auto.
Qed.
Print Assumptions C43_rerun_exact.

Example C43_example : forall fmt, exists s e, at_start Isot 6 one_cfg s /\ cf_validate one_cfg = Ok tt /\
  run_loop (N:=Hll XRn) fmt false (fun _ => []) 0 2 Isot 6 (rmesh 6) s no_writer no_world = (e, Ok tt) /\
  run_loop (N:=Hll XRn) fmt false (fun _ => []) 0 2 Isot 6 (rmesh 6) (e_sim e) (e_writer e) (e_world e) = (mkEnd (e_sim e) (e_writer e) (e_world e) [], Ok tt) /\
  ts_iter (s_ts (e_sim e)) = 1%N.
Proof.
  intros fmt. destruct (one_run fmt) as (v & e & K1 & K2 & _ & K4 & K5). exists (one_sim v), e. split; [exact K1|]. split; [apply one_valid|]. split; [exact K2|]. split; [|exact K5].
  destruct (C40_example fmt) as (T & _). apply (C43_rerun_exact _ _ _ _ _ _ _ _ _ one_cfg (one_sim v) no_writer no_world e 0 1 (1 / 1000000) 1 1 one_valid T K1 K2); [lra|lia].
Qed.
