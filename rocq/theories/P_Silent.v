(** Properties of the simulation as seen beside its output: C66, C67. *)

From Coq Require Import List ZArith NArith QArith Bool String Lia.
From Verif Require Import Base Num XReal B64 Config Mesh State NumFlux Time Writer Runner SpecRun P_Run P_Writer.
Import ListNotations.
Local Open Scope string_scope.

(** The configuration with another banner setting and other outputs. *)
Definition with_outputs {A} (banner : bool) (os : list output_config) (c : config A) : config A :=
  mkCfg banner (cf_mesh c) (cf_physics c) (cf_bc_west c) (cf_bc_east c) (cf_numerics c) (cf_output_max c) os.

(** No output at all. *)
Definition silent {A} (c : config A) : config A := with_outputs false [] c.

(** [l] is the beginning of [l']. *)
Definition begins {X} (l l' : list X) : Prop := exists r, l' = (l ++ r)%list.

(** The run has ended in [e] with the outcome of an output that failed. *)
Definition output_failed {A} {N : numflux_impl A} fmt sched (m : mesh A) (e : run_end A N) (r : res unit) : Prop :=
  exists wr w, do_output fmt sched m (e_sim e) wr w = (e_writer e, e_world e, r) /\ r <> Ok tt.

Section Run.
Context {A : Num} {N : numflux_impl A}.

Lemma silent_output : forall fmt sched (m : mesh A) (s : sim A N) c me b w,
  exists c', do_output fmt sched m s (mkWriter [] c me b) w = (mkWriter [] c' me b, w, Ok tt).
Proof.
  intros fmt sched m s c me b w. unfold do_output, writer_update. cbn [wr_outputs try_each]. unfold writer_write. cbn [wr_outputs wr_counter].
  assert (E : forall l, write_sched (A:=A) fmt c l [] w = ([], w, Ok tt)).
  { induction l as [|i l IH]; [reflexivity|]. cbn [write_sched]. destruct i; exact IH. }
  rewrite E. cbn [wr_meta wr_banner]. eexists. reflexivity.
Qed.

Lemma output_cases : forall fmt sched (m : mesh A) (s : sim A N) wr w s1 wr1 w1 tr r, run_output fmt sched m s wr w = (s1, wr1, w1, tr, r) ->
  forall fmt0 sched0 c me b w0, exists c' r0, run_output fmt0 sched0 m s (mkWriter [] c me b) w0 = (s1, mkWriter [] c' me b, w0, tr, r0) /\ r0 = Ok tt /\
  (r = Ok tt \/ (output_failed fmt sched m (mkEnd s1 wr1 w1 tr) r /\ tr = [(s_ts s1, cent (s_u s1))])).
Proof.
  intros fmt sched m s wr w s1 wr1 w1 tr r E fmt0 sched0 c me b w0. unfold run_output in *.
  destruct (nleb A (nsub A (ts_t_next (s_ts s)) (ts_dt_min (s_ts s))) (ts_t (s_ts s))).
  - set (s' := sim_set_ts _ s) in *. destruct (do_output fmt sched m s' wr w) as [[wr2 w2] r2] eqn:D.
    injection E as <- <- <- <- <-. destruct (silent_output fmt0 sched0 m s' c me b w0) as (c' & Q). rewrite Q. exists c', (Ok tt). split; [reflexivity|]. split; [reflexivity|].
    destruct r2 as [[]|e| |]; [left; reflexivity|right; split; [|reflexivity]; exists wr, w; split; [exact D|discriminate]..].
  - injection E as <- <- <- <- <-. exists c, (Ok tt). auto.
Qed.

Lemma run_silent : forall fmt validation sched afuel p S m fmt0 sched0 me b fuel (s : sim A N) wr w c w0 e r e0 r0,
  run_loop fmt validation sched afuel fuel p S m s wr w = (e, r) ->
  run_loop fmt0 validation sched0 afuel fuel p S m s (mkWriter [] c me b) w0 = (e0, r0) ->
  e_world e0 = w0 /\
  ((r = r0 /\ e_sim e = e_sim e0 /\ e_trace e = e_trace e0) \/
   (output_failed fmt sched m e r /\ begins (e_trace e) (e_trace e0) /\ exists t, e_trace e = (t ++ [(s_ts (e_sim e), cent (s_u (e_sim e)))])%list)).
Proof.
  intros fmt validation sched afuel p S m fmt0 sched0 me b. induction fuel as [|fuel IH]; intros s wr w c w0 e r e0 r0 H H0; cbn [run_loop] in H, H0.
  { injection H as <- <-. injection H0 as <- <-. cbn. auto. }
  destruct (run_output fmt sched m s wr w) as [[[[s1 wr1] w1] tr] r1] eqn:O.
  destruct (output_cases _ _ _ _ _ _ _ _ _ _ _ O fmt0 sched0 c me b w0) as (c' & q & Q & -> & C). rewrite Q in H0.
  set (fin := nleb A _ _) in H0. set (nx := solver_next validation afuel p S m s1) in H, H0.
  assert (B0 : e_world e0 = w0 /\ begins tr (e_trace e0)).
  { destruct fin; [injection H0 as <- <-; split; [reflexivity|exists []; rewrite app_nil_r; reflexivity]|].
    destruct nx as [s2 r2]. destruct r2 as [[]|er| |].
    - destruct (run_loop fmt0 _ _ _ _ _ _ _ s2 _ w0) as [e2 r3] eqn:E2. injection H0 as <- <-. cbn [e_world e_trace]. split; [|exists (e_trace e2); reflexivity].
      destruct (run_loop fmt validation sched afuel fuel p S m s2 wr1 w1) as [e3 r4] eqn:E3. exact (proj1 (IH _ _ _ _ _ _ _ _ _ E3 E2)).
    - destruct (silent_output fmt0 sched0 m (sim_set_ts (ts_set_kind KErrorDump (s_ts s2)) s2) c' me b w0) as (c2 & D). rewrite D in H0. injection H0 as <- <-. cbn [e_world e_trace]. split; [reflexivity|eexists; reflexivity].
    - injection H0 as <- <-. split; [reflexivity|exists []; rewrite app_nil_r; reflexivity].
    - injection H0 as <- <-. split; [reflexivity|exists []; rewrite app_nil_r; reflexivity]. }
  destruct B0 as (W0 & B0). split; [exact W0|]. clear W0.
  destruct C as [-> | (F & ->)].
  2:{ right. destruct r1 as [[]|x| |]; [destruct F as (? & ? & _ & F); congruence|injection H as <- <-; cbn [e_sim e_trace]; (split; [exact F|]; split; [exact B0|exists []; reflexivity])..]. }
  fold fin in H. destruct fin.
  { injection H as <- <-. injection H0 as <- <-. left. auto. }
  destruct nx as [s2 r2]. destruct r2 as [[]|er| |].
  - destruct (run_loop fmt0 _ _ _ _ _ _ _ s2 _ w0) as [e2 r3] eqn:E2. destruct (run_loop fmt validation sched afuel fuel p S m s2 wr1 w1) as [e3 r4] eqn:E3.
    injection H as <- <-. injection H0 as <- <-. cbn [e_sim e_trace]. destruct (IH _ _ _ _ _ _ _ _ _ E3 E2) as (_ & [(-> & -> & ->)|(F & (t & ->) & (t' & T))]); [left; auto|].
    right. split; [exact F|]. split; [exists t; rewrite app_assoc; reflexivity|]. exists (tr ++ t')%list. rewrite T at 1. rewrite app_assoc. reflexivity.
  - destruct (silent_output fmt0 sched0 m (sim_set_ts (ts_set_kind KErrorDump (s_ts s2)) s2) c' me b w0) as (c2 & D). rewrite D in H0. injection H0 as <- <-.
    set (s' := sim_set_ts (ts_set_kind KErrorDump (s_ts s2)) s2) in *.
    destruct (do_output fmt sched m s' wr1 w1) as [[wr3 w3] r3] eqn:D1. injection H as <- <-. cbn [e_sim e_trace].
    destruct r3 as [[]|x| |]; [left; auto|right; (split; [exists wr1, w1; split; [exact D1|discriminate]|]; split; [exists []; rewrite app_nil_r; reflexivity|exists tr; reflexivity])..].
  - injection H as <- <-. injection H0 as <- <-. left. auto.
  - injection H as <- <-. injection H0 as <- <-. left. auto.
Qed.

(** C66, initialisation: whatever is written, the initial state and the mesh are
    those of the program without outputs, which succeeds too. *)
Theorem C66_init : forall validation meta banner sched init p S (c : config A) w w' k,
  init_corries (N:=N) validation meta banner sched init p S c w = (w', Ok k) ->
  forall meta0 banner0 sched0 w0, exists k0,
  init_corries (N:=N) validation meta0 banner0 sched0 init p S (silent c) w0 = (w0, Ok k0) /\
  c_sim k0 = c_sim k /\ c_mesh k0 = c_mesh k /\ wr_outputs (c_writer k0) = [].
Proof.
  intros validation meta banner sched init p S c w w' k H meta0 banner0 sched0 w0. unfold init_corries in *.
  assert (V : cf_validate c = Ok tt -> cf_validate (silent c) = Ok tt).
  { unfold cf_validate. cbn [silent with_outputs cf_mesh cf_physics cf_numerics cf_writer oc_validate_all].
    destruct (mc_validate (cf_mesh c)); try discriminate. cbn [bind]. destruct (pc_validate (cf_physics c)); try discriminate. cbn [bind].
    destruct (nc_validate (cf_numerics c)); try discriminate. reflexivity. }
  destruct (cf_validate c) as [[]|e| |]; try discriminate H. rewrite (V eq_refl). clear V. change (cf_mesh (silent c)) with (cf_mesh c). change (cf_physics (silent c)) with (cf_physics c).
  destruct (mesh_new validation S (cf_mesh c)) as [m|e| |]; try discriminate H.
  change (solver_new N p S (silent c) m (state_new p S (cf_physics c))) with (solver_new N p S c m (state_new p S (cf_physics c))).
  destruct (solver_new N p S c m (state_new p S (cf_physics c))) as [s|e| |]; try discriminate H.
  destruct (writer_new meta S c m w) as [w1 r1]. destruct r1 as [wr|e| |]; try discriminate H.
  destruct (writer_metadata (wr_meta wr) sched (wr_outputs wr) _) as [w2 r2]. destruct r2 as [[]|e| |]; try discriminate H.
  assert (M : forall me l, writer_metadata (A:=A) me l [] w0 = (w0, Ok tt)).
  { intros me. induction l as [|i l IH]; [reflexivity|]. cbn [writer_metadata]. destruct i; exact IH. }
  unfold writer_new. cbn [silent with_outputs cf_writer outputs_new bind wr_banner wr_outputs wr_meta cf_banner]. rewrite M.
  destruct (init s m) as [s1 r3]. destruct r3 as [[]|e| |]; try discriminate H. cbn [bind] in *.
  destruct (st_update_from_prim p S (r_bw (s_rhs s1)) (r_be (s_rhs s1)) m (s_u s1)) as [u|e| |]; try discriminate H. cbn [bind] in *.
  apply pair_equal_spec in H. destruct H as (_ & H). assert (K : forall X (x y : X), Ok x = Ok y -> x = y) by (intros X x y Q; congruence). apply K in H. subst k.
  eexists. split; [reflexivity|]. cbn. auto.
Qed.

(** C66, the run: beside it the run of the program without outputs, for the
    same number of iterations of the main loop.  Either both go through the
    same states, end in the same state with the same outcome, or an output has
    failed, and until then they have gone through the same states. *)
Theorem C66_run : forall fmt validation meta banner sched sched' afuel fuel init p S (c : config A) w w' k e r,
  init_corries (N:=N) validation meta banner sched init p S c w = (w', Ok k) ->
  run_loop fmt validation sched' afuel fuel p S (c_mesh k) (c_sim k) (c_writer k) w' = (e, r) ->
  forall fmt0 meta0 banner0 sched0 sched0' w0 k0 e0 r0,
  init_corries (N:=N) validation meta0 banner0 sched0 init p S (silent c) w0 = (w0, Ok k0) ->
  run_loop fmt0 validation sched0' afuel fuel p S (c_mesh k0) (c_sim k0) (c_writer k0) w0 = (e0, r0) ->
  e_world e0 = w0 /\
  ((r = r0 /\ e_sim e = e_sim e0 /\ e_trace e = e_trace e0) \/
   (output_failed fmt sched' (c_mesh k) e r /\ begins (e_trace e) (e_trace e0) /\
    exists t, e_trace e = (t ++ [(s_ts (e_sim e), cent (s_u (e_sim e)))])%list)).
Proof.
  intros fmt validation meta banner sched sched' afuel fuel init p S c w w' k e r I R fmt0 meta0 banner0 sched0 sched0' w0 k0 e0 r0 I0 R0.
  destruct (C66_init _ _ _ _ _ _ _ _ _ _ _ I meta0 banner0 sched0 w0) as (k1 & I1 & Es & Em & Eo).
  rewrite I0 in I1. apply pair_equal_spec in I1. destruct I1 as (_ & I1). assert (K : forall X (x y : X), Ok x = Ok y -> x = y) by (intros X x y Q; congruence). apply K in I1. subst k1.
  rewrite Es, Em in R0. destruct (c_writer k0) as [os cn me b]. cbn [wr_outputs] in Eo. subst os.
  exact (run_silent _ _ _ _ _ _ _ _ _ _ _ _ _ _ _ _ _ _ _ _ _ R R0).
Qed.

(** So two programs that differ only in what they write go through the same
    states if none of them fails. *)
Theorem C66_outputs_irrelevant : forall fmt1 fmt2 validation meta1 meta2 banner1 banner2 sched1 sched2 sched1' sched2' afuel fuel init p S (c1 c2 : config A) w1 w2 w1' w2' k1 k2 e1 e2,
  silent c1 = silent c2 ->
  init_corries (N:=N) validation meta1 banner1 sched1 init p S c1 w1 = (w1', Ok k1) -> init_corries (N:=N) validation meta2 banner2 sched2 init p S c2 w2 = (w2', Ok k2) ->
  run_loop fmt1 validation sched1' afuel fuel p S (c_mesh k1) (c_sim k1) (c_writer k1) w1' = (e1, Ok tt) ->
  run_loop fmt2 validation sched2' afuel fuel p S (c_mesh k2) (c_sim k2) (c_writer k2) w2' = (e2, Ok tt) ->
  e_trace e1 = e_trace e2 /\ e_sim e1 = e_sim e2.
Proof.
  intros fmt1 fmt2 validation meta1 meta2 banner1 banner2 sched1 sched2 sched1' sched2' afuel fuel init p S c1 c2 w1 w2 w1' w2' k1 k2 e1 e2 E I1 I2 R1 R2.
  destruct (C66_init _ _ _ _ _ _ _ _ _ _ _ I1 meta1 banner1 sched1 w1) as (k0 & I0 & Es & Em & Eo).
  destruct (run_loop fmt1 validation sched1' afuel fuel p S (c_mesh k0) (c_sim k0) (c_writer k0) w1) as [e0 r0] eqn:R0.
  assert (fails : forall fmt sched m (e : run_end A N), output_failed fmt sched m e (Ok tt) -> False) by (intros fmt sched m e (? & ? & _ & F); congruence).
  destruct (C66_run _ _ _ _ _ _ _ _ _ _ _ _ _ _ _ _ _ I1 R1 _ _ _ _ _ _ _ _ _ I0 R0) as (_ & [(_ & A1 & A2)|(F & _)]); [|elim (fails _ _ _ _ F)].
  rewrite E in I0.
  destruct (C66_run _ _ _ _ _ _ _ _ _ _ _ _ _ _ _ _ _ I2 R2 _ _ _ _ _ _ _ _ _ I0 R0) as (_ & [(_ & B1 & B2)|(F & _)]); [|elim (fails _ _ _ _ F)].
  split; congruence.
Qed.
End Run.
Print Assumptions C66_init.
Print Assumptions C66_run.
Print Assumptions C66_outputs_irrelevant.

(** A run with three outputs, one without, and the hypotheses of C66. *)
Example C66_example : forall bln bexp, let A := B64n bln bexp in
  exists w k e k0 e0,
  init_corries (A:=A) (N:=Hll A) true (fun _ => "{}") "" [1; 2; 0]%nat (brun_init bln bexp 1 (1 # 8)) Isot 6 (wrun_cfg bln bexp three_outputs) no_world = (w, Ok k) /\
  run_loop fmt0 true (fun _ => [1; 2; 0]%nat) 0 101 Isot 6 (c_mesh k) (c_sim k) (c_writer k) w = (e, Ok tt) /\
  init_corries (A:=A) (N:=Hll A) true (fun _ => "{}") "" [1; 2; 0]%nat (brun_init bln bexp 1 (1 # 8)) Isot 6 (silent (wrun_cfg bln bexp three_outputs)) no_world = (no_world, Ok k0) /\
  run_loop fmt0 true (fun _ => [1; 2; 0]%nat) 0 101 Isot 6 (c_mesh k0) (c_sim k0) (c_writer k0) no_world = (e0, Ok tt) /\
  List.length (e_trace e) = 3%nat /\ e_trace e = e_trace e0.
Proof.
  intros bln bexp A.
  destruct (wrun_ok bln bexp three_outputs [1; 2; 0]%nat no_world (fun e o => b_ok o && (List.length (e_trace e) =? 3)%nat)) as (w & k & e & o & I & E & C).
  { vm_compute. reflexivity. }
  apply andb_true_iff in C. destruct C as (C & L). apply Nat.eqb_eq in L. destruct o as [[]|x| |]; [|discriminate C|discriminate C|discriminate C].
  destruct (C66_init _ _ _ _ _ _ _ _ _ _ _ I (fun _ => "{}") "" [1; 2; 0]%nat no_world) as (k0 & I0 & Es & Em & Eo).
  destruct (run_loop fmt0 true (fun _ => [1; 2; 0]%nat) 0 101 Isot 6 (c_mesh k0) (c_sim k0) (c_writer k0) no_world) as [e0 r0] eqn:E0.
  destruct (C66_run _ _ _ _ _ _ _ _ _ _ _ _ _ _ _ _ _ I E _ _ _ _ _ _ _ _ _ I0 E0) as (_ & [(R & A1 & A2)|((? & ? & _ & F) & _)]); [|congruence].
  rewrite <- R in E0. exists w, k, e, k0, e0. repeat match goal with |- _ /\ _ => split end; assumption.
Qed.

(** The number of outputs, on the other hand, is not without influence: steps
    are shortened to end at the output times. *)
Definition with_output_max {A} (M : N) (c : config A) : config A :=
  mkCfg (cf_banner c) (cf_mesh c) (cf_physics c) (cf_bc_west c) (cf_bc_east c) (cf_numerics c) M (cf_writer c).

Theorem C66_output_count_refuted : forall bln bexp, let A := B64n bln bexp in
  exists (c : config A) M init w k e w' k' e',
  cf_validate c = Ok tt /\ cf_validate (with_output_max M c) = Ok tt /\
  init_corries (A:=A) (N:=Hll A) true (fun _ => "") "" [] init Isot 6 c no_world = (w, Ok k) /\
  init_corries (A:=A) (N:=Hll A) true (fun _ => "") "" [] init Isot 6 (with_output_max M c) no_world = (w', Ok k') /\
  run_loop (fun _ _ => "") true (fun _ => []) 0 101 Isot 6 (c_mesh k) (c_sim k) (c_writer k) w = (e, Ok tt) /\
  run_loop (fun _ _ => "") true (fun _ => []) 0 101 Isot 6 (c_mesh k') (c_sim k') (c_writer k') w' = (e', Ok tt) /\
  at2 (n0 A) (cons (cent (s_u (e_sim e)))) 0 2 <> at2 (n0 A) (cons (cent (s_u (e_sim e')))) 0 2.
Proof.
  intros bln bexp A. set (c := brun_cfg bln bexp 100 1 (1 # 1000000) (4 # 10)).
  destruct (brun_ok true 101 c 1 (1 # 8) (fun e o => b_ok o && negb (nltb A (at2 (n0 A) (cons (cent (s_u (e_sim e)))) 0 2) (nQ A (688 # 1000))))) as (w & k & e & o & V & I & E & C).
  { vm_compute. reflexivity. }
  destruct (brun_ok true 101 (with_output_max 5 c) 1 (1 # 8) (fun e o => b_ok o && nltb A (at2 (n0 A) (cons (cent (s_u (e_sim e)))) 0 2) (nQ A (688 # 1000)))) as (w' & k' & e' & o' & V' & I' & E' & C').
  { vm_compute. reflexivity. }
  apply andb_true_iff in C. destruct C as (C & D). destruct o as [[]|x| |]; [|discriminate C|discriminate C|discriminate C].
  apply andb_true_iff in C'. destruct C' as (C' & D'). destruct o' as [[]|x| |]; [|discriminate C'|discriminate C'|discriminate C'].
  exists c, 5%N, (brun_init bln bexp 1 (1 # 8)), w, k, e, w', k', e'. repeat match goal with |- _ /\ _ => split end; try assumption.
  assert (G : forall x y t : nF A, negb (nltb A x t) = true -> nltb A y t = true -> x <> y) by (intros x y t X Y ->; rewrite Y in X; discriminate X).
  exact (G _ _ _ D D').
Qed.
Print Assumptions C66_output_count_refuted.

(** ** C67: the limit of the number of iterations *)

(** The simulation with another limit, and how it looks in an output. *)
Definition limit_ts {A} (n : N) (t : timestep A) : timestep A :=
  mkTS (ts_iter t) n (ts_t t) (ts_t_end t) (ts_dt t) (ts_dt_min t) (ts_dt_max t) (ts_cfl t) (ts_kind t) (ts_dt_output t) (ts_t_next t).
Definition limit_sim {A} {N : numflux_impl A} (n : BinNums.N) (s : sim A N) : sim A N := mkSim (limit_ts n (s_ts s)) (s_u s) (s_rk s) (s_rhs s).
Definition limit_snap {A} (n : N) (x : snapshot A) : snapshot A := (limit_ts n (fst x), snd x).
(** The configuration with another limit. *)
Definition with_iter_max {A} (n : N) (c : config A) : config A :=
  let d := cf_numerics c in
  mkCfg (cf_banner c) (cf_mesh c) (cf_physics c) (cf_bc_west c) (cf_bc_east c)
    (mkNC (nc_numflux d) (nc_time d) n (nc_t0 d) (nc_t_end d) (nc_dt_min d) (nc_dt_max d) (nc_dt_cfl d)) (cf_output_max c) (cf_writer c).

Section Limit.
Context {A : Num} {N : numflux_impl A}.

Lemma limit_cap : forall n (t : timestep A), cap_dt (limit_ts n t) = limit_ts n (cap_dt t).
Proof. intros n t. unfold cap_dt. cbn [limit_ts ts_set_dt ts_dt ts_t ts_t_next ts_dt_max]. destruct (nltb A _ _); reflexivity. Qed.

Lemma limit_expl : forall n p S (t : timestep A) u m t' r, calc_dt_expl p S t u m = (t', r) -> calc_dt_expl p S (limit_ts n t) u m = (limit_ts n t', r) /\ ts_iter t' = ts_iter t /\ ts_iter_max t' = ts_iter_max t.
Proof.
  intros n p S t u m t' r H. unfold calc_dt_expl in *. cbn [limit_ts ts_cfl]. destruct (st_calc_dt_cfl p S u (ts_cfl t) m); try (injection H as <- <-; auto).
  cbn [ts_set_dt ts_dt_min limit_ts] in *. destruct (nltb A _ _); injection H as <- <-; auto.
Qed.

Lemma cap_iter : forall (t : timestep A), ts_iter (cap_dt t) = ts_iter t /\ ts_iter_max (cap_dt t) = ts_iter_max t.
Proof. intros t. unfold cap_dt. destruct (nltb A _ _); auto. Qed.

Lemma limit_asc : forall n v p S u m fuel (t : timestep A) rk (rh : rhs A N) t' rk' rh' r, asc_loop v fuel p S t u rk rh m = (t', rk', rh', r) ->
  asc_loop v fuel p S (limit_ts n t) u rk rh m = (limit_ts n t', rk', rh', r) /\ ts_iter t' = ts_iter t /\ ts_iter_max t' = ts_iter_max t.
Proof.
  intros n v p S u m. induction fuel as [|fuel IH]; intros t rk rh t' rk' rh' r H; cbn [asc_loop] in *.
  { destruct (rk_accepted rk); injection H as <- <- <- <-; auto. }
  destruct (rk_accepted rk); [injection H as <- <- <- <-; auto|]. change (ts_dt (limit_ts n t)) with (ts_dt t).
  destruct (calc_rkf_solution v p S (ts_dt t) u rk rh m) as [[rk1 rh1] o]. destruct o as [dt|e| |]; [|injection H as <- <- <- <-; auto..].
  change (ts_set_dt dt (limit_ts n t)) with (limit_ts n (ts_set_dt dt t)). rewrite limit_cap.
  destruct (nltb A (rk_err_new rk1) (n1 A)); destruct (IH _ _ _ _ _ _ _ H) as (E & I1 & I2); (split; [exact E|]).
  - destruct (cap_iter (ts_set_dt dt t)) as (C1 & C2). rewrite I1, I2, C1, C2. auto.
  - rewrite I1, I2. auto.
Qed.

(** A step does not look at the limit. *)
Lemma limit_next : forall n v fuel p S m (s : sim A N) s' r, rkf_next v fuel p S m s = (s', r) ->
  rkf_next v fuel p S m (limit_sim n s) = (limit_sim n s', r) /\ ts_iter (s_ts s') = (ts_iter (s_ts s) + 1)%N /\ ts_iter_max (s_ts s') = ts_iter_max (s_ts s).
Proof.
  intros n v fuel p S m s s' r H. unfold rkf_next in *. cbn [limit_sim s_ts s_u s_rk s_rhs].
  change (ts_iter (limit_ts n (s_ts s))) with (ts_iter (s_ts s)).
  change (ts_set_iter (ts_iter (s_ts s) + 1)%N (limit_ts n (s_ts s))) with (limit_ts n (ts_set_iter (ts_iter (s_ts s) + 1)%N (s_ts s))).
  set (t0 := ts_set_iter _ _) in *. destruct (calc_dt_expl p S t0 (s_u s) m) as [t1 r1] eqn:E1. destruct (limit_expl n _ _ _ _ _ _ _ E1) as (Q1 & I1 & J1). rewrite Q1.
  destruct r1 as [[]|e| |]; [|injection H as <- <-; cbn [s_ts]; rewrite I1, J1; auto..]. rewrite limit_cap.
  destruct (cap_iter t1) as (C1 & C2). set (t2 := cap_dt t1) in *.
  assert (K : forall t3 rk rh r3, rkf_asc v fuel p S t2 (s_u s) (s_rk s) (s_rhs s) m = (t3, rk, rh, r3) ->
    rkf_asc v fuel p S (limit_ts n t2) (s_u s) (s_rk s) (s_rhs s) m = (limit_ts n t3, rk, rh, r3) /\ ts_iter t3 = ts_iter t2 /\ ts_iter_max t3 = ts_iter_max t2).
  { intros t3 rk rh r3 Q. unfold rkf_asc in *. destruct (bt_asc _); [exact (limit_asc n _ _ _ _ _ _ _ _ _ _ _ _ _ Q)|injection Q as <- <- <- <-; auto]. }
  destruct (rkf_asc v fuel p S t2 (s_u s) (s_rk s) (s_rhs s) m) as [[[t3 rk] rh] r3]. destruct (K _ _ _ _ eq_refl) as (Q2 & I2 & J2). rewrite Q2. clear K.
  assert (I : ts_iter t3 = (ts_iter (s_ts s) + 1)%N /\ ts_iter_max t3 = ts_iter_max (s_ts s)) by (rewrite I2, J2, C1, C2, I1, J1; split; reflexivity).
  destruct r3 as [[]|e| |]; [|injection H as <- <-; cbn [s_ts]; auto..]. change (ts_dt (limit_ts n t3)) with (ts_dt t3).
  destruct (calc_rkf_solution v p S (ts_dt t3) (s_u s) rk rh m) as [[rk1 rh1] r4]. destruct r4 as [dt|e| |]; [|injection H as <- <-; cbn [s_ts]; auto..].
  set (u1 := set_cent _ _) in *. destruct (st_update_from_cons p S (r_bw rh1) (r_be rh1) m u1) as [u2|e| |]; [|injection H as <- <-; cbn [s_ts]; auto..].
  destruct (if v then state_validate u2 else Ok tt) as [[]|e| |]; injection H as <- <-; cbn [s_ts]; auto.
Qed.

(** Nor does an output. *)
Lemma limit_output : forall n fmt sched (m : mesh A) (s : sim A N) wr w, do_output fmt sched m (limit_sim n s) wr w = do_output fmt sched m s wr w.
Proof. reflexivity. Qed.

Lemma limit_run_output : forall n fmt sched (m : mesh A) (s : sim A N) wr w s1 wr1 w1 tr r, run_output fmt sched m s wr w = (s1, wr1, w1, tr, r) ->
  run_output fmt sched m (limit_sim n s) wr w = (limit_sim n s1, wr1, w1, map (limit_snap n) tr, r) /\ ts_iter (s_ts s1) = ts_iter (s_ts s) /\ ts_iter_max (s_ts s1) = ts_iter_max (s_ts s).
Proof.
  intros n fmt sched m s wr w s1 wr1 w1 tr r H. unfold run_output in *. cbn [limit_sim s_ts limit_ts ts_t_next ts_dt_min ts_t] in *.
  destruct (nleb A _ _); [|injection H as <- <- <- <- <-; auto].
  set (s' := sim_set_ts _ s) in *.
  change (do_output fmt sched m (sim_set_ts _ _) wr w) with (do_output fmt sched m s' wr w).
  destruct (do_output fmt sched m s' wr w) as [[wr2 w2] r2]. injection H as <- <- <- <- <-. auto.
Qed.

(** C67, the run: beside it the run with a larger limit.  Either both go
    through the same states, write the same and end with the same outcome, or
    the first one has made as many steps as its limit allows, and until then
    both have gone through the same states. *)
Theorem C67_run : forall fmt v sched afuel fuel p S m (s : sim A N) wr w e r n e' r',
  run_loop fmt v sched afuel fuel p S m s wr w = (e, r) ->
  (ts_iter_max (s_ts s) <= n)%N -> run_loop fmt v sched afuel fuel p S m (limit_sim n s) wr w = (e', r') ->
  (r' = r /\ e_world e' = e_world e /\ e_sim e' = limit_sim n (e_sim e) /\ e_trace e' = map (limit_snap n) (e_trace e)) \/
  ((ts_iter_max (s_ts s) <= ts_iter (s_ts (e_sim e)))%N /\
   (r = Err EIterMax \/ output_failed fmt sched m e r) /\
   exists t, e_trace e = (t ++ [(s_ts (e_sim e), cent (s_u (e_sim e)))])%list /\ ts_kind (s_ts (e_sim e)) = KErrorDump /\
     begins (map (limit_snap n) t) (e_trace e')).
Proof.
  intros fmt v sched afuel fuel p S m. induction fuel as [|fuel IH]; intros s wr w e r n e' r' H L H'; cbn [run_loop] in H, H'.
  { injection H as <- <-. injection H' as <- <-. left. auto. }
  destruct (run_output fmt sched m s wr w) as [[[[s1 wr1] w1] tr] r1] eqn:O. destruct (limit_run_output n _ _ _ _ _ _ _ _ _ _ _ O) as (Q & I1 & J1). rewrite Q in H'. clear Q O.
  destruct r1 as [[]|x| |]; [|injection H as <- <-; injection H' as <- <-; left; auto..].
  change (s_ts (limit_sim n s1)) with (limit_ts n (s_ts s1)) in H'. cbn [limit_ts ts_t_end ts_t ts_dt_min] in H'.
  destruct (nleb A _ _); [injection H as <- <-; injection H' as <- <-; left; auto|].
  unfold solver_next in H, H'. destruct (rkf_next v afuel p S m s1) as [s2 r2] eqn:R. destruct (limit_next n _ _ _ _ _ _ _ _ R) as (Q & I2 & J2). rewrite Q in H'. clear Q R.
  assert (same : forall er, 
    (let '(wr3, w3, r3) := do_output fmt sched m (sim_set_ts (ts_set_kind KErrorDump (s_ts s2)) s2) wr1 w1 in
     (mkEnd (sim_set_ts (ts_set_kind KErrorDump (s_ts s2)) s2) wr3 w3 (tr ++ [(s_ts (sim_set_ts (ts_set_kind KErrorDump (s_ts s2)) s2), cent (s_u (sim_set_ts (ts_set_kind KErrorDump (s_ts s2)) s2)))]), match r3 with Ok _ => Err er | r3 => r3 end)) = (e, r) ->
    (let '(wr3, w3, r3) := do_output fmt sched m (sim_set_ts (ts_set_kind KErrorDump (s_ts (limit_sim n s2))) (limit_sim n s2)) wr1 w1 in
     (mkEnd (sim_set_ts (ts_set_kind KErrorDump (s_ts (limit_sim n s2))) (limit_sim n s2)) wr3 w3 (map (limit_snap n) tr ++ [(s_ts (sim_set_ts (ts_set_kind KErrorDump (s_ts (limit_sim n s2))) (limit_sim n s2)), cent (s_u (sim_set_ts (ts_set_kind KErrorDump (s_ts (limit_sim n s2))) (limit_sim n s2))))]), match r3 with Ok _ => Err er | r3 => r3 end)) = (e', r') ->
    r' = r /\ e_world e' = e_world e /\ e_sim e' = limit_sim n (e_sim e) /\ e_trace e' = map (limit_snap n) (e_trace e)).
  { intros er. set (s' := sim_set_ts (ts_set_kind KErrorDump (s_ts s2)) s2).
    change (sim_set_ts (ts_set_kind KErrorDump (s_ts (limit_sim n s2))) (limit_sim n s2)) with (limit_sim n s'). rewrite limit_output.
    destruct (do_output fmt sched m s' wr1 w1) as [[wr3 w3] r3]. intros B1 B2. injection B1 as <- <-. injection B2 as <- <-. cbn [e_world e_sim e_trace]. rewrite map_app. auto. }
  destruct r2 as [[]|er| |]; [|left; exact (same _ H H')|injection H as <- <-; injection H' as <- <-; left; auto..]. 
  destruct (N.leb_spec (ts_iter_max (s_ts s2)) (ts_iter (s_ts s2))) as [G|G].
  - (* the limit *)
    change (ts_iter_max (s_ts (limit_sim n s2))) with n in H'. change (ts_iter (s_ts (limit_sim n s2))) with (ts_iter (s_ts s2)) in H'.
    destruct (N.leb_spec n (ts_iter (s_ts s2))) as [G'|G']; [left; exact (same _ H H')|]. right.
    set (s' := sim_set_ts (ts_set_kind KErrorDump (s_ts s2)) s2) in *. destruct (do_output fmt sched m s' wr1 w1) as [[wr3 w3] r3] eqn:D. injection H as <- <-. cbn [e_sim e_trace].
    split; [change (ts_iter (s_ts s')) with (ts_iter (s_ts s2)); lia|].
    split; [destruct r3 as [[]|x| |]; [left; reflexivity|right; exists wr1, w1; split; [exact D|discriminate]..]|].
    exists tr. split; [reflexivity|]. split; [reflexivity|]. destruct (run_loop fmt _ _ _ _ _ _ _ _ _ _) as [e3 r4]. injection H' as <- <-. exists (e_trace e3). reflexivity.
  - change (ts_iter_max (s_ts (limit_sim n s2))) with n in H'. change (ts_iter (s_ts (limit_sim n s2))) with (ts_iter (s_ts s2)) in H'.
    destruct (N.leb_spec n (ts_iter (s_ts s2))) as [G'|G']; [lia|].
    destruct (run_loop fmt v sched afuel fuel p S m s2 wr1 w1) as [e2 r3] eqn:E2. destruct (run_loop fmt v sched afuel fuel p S m (limit_sim n s2) wr1 w1) as [e3 r4] eqn:E3.
    injection H as <- <-. injection H' as <- <-. cbn [e_sim e_trace e_world]. destruct (IH _ _ _ _ _ _ _ _ E2 ltac:(rewrite J2, J1; exact L) E3) as [(-> & -> & -> & ->)|(K1 & K2 & t & K3 & K4 & (t' & K5))].
    + left. rewrite map_app. auto.
    + right. split; [lia|]. split; [exact K2|]. exists (tr ++ t)%list. rewrite K3 at 1. rewrite app_assoc. split; [reflexivity|]. split; [exact K4|]. exists t'. rewrite map_app, K5, app_assoc. reflexivity.
Qed.

(** So a run that ends well does not change with a larger limit. *)
Theorem C67_larger_limit : forall fmt v sched afuel fuel p S m (s : sim A N) wr w e n,
  run_loop fmt v sched afuel fuel p S m s wr w = (e, Ok tt) -> (ts_iter_max (s_ts s) <= n)%N ->
  exists e', run_loop fmt v sched afuel fuel p S m (limit_sim n s) wr w = (e', Ok tt) /\
  e_world e' = e_world e /\ e_sim e' = limit_sim n (e_sim e) /\ e_trace e' = map (limit_snap n) (e_trace e).
Proof.
  intros fmt v sched afuel fuel p S m s wr w e n H L. destruct (run_loop fmt v sched afuel fuel p S m (limit_sim n s) wr w) as [e' r'] eqn:H'. exists e'.
  destruct (C67_run _ _ _ _ _ _ _ _ _ _ _ _ _ _ _ _ H L H') as [(-> & K)|(_ & [K|(? & ? & _ & K)] & _)]; [auto|discriminate K|congruence].
Qed.

(** The initialisation only stores the limit, if the initial conditions do not
    look at it. *)
Theorem C67_init : forall v meta banner sched init p S (c : config A) w w' k n,
  (forall s m, init (limit_sim n s) m = (limit_sim n (fst (init s m)), snd (init s m))) ->
  cf_validate (with_iter_max n c) = Ok tt ->
  init_corries (N:=N) v meta banner sched init p S c w = (w', Ok k) ->
  exists w2 k2, init_corries (N:=N) v (fun _ => meta c) banner sched init p S (with_iter_max n c) w = (w2, Ok k2) /\
  w2 = w' /\ c_mesh k2 = c_mesh k /\ c_writer k2 = c_writer k /\ c_sim k2 = limit_sim n (c_sim k).
Proof.
  intros v meta banner sched init p S c w w' k n T V H. unfold init_corries in *.
  destruct (cf_validate c) as [[]|e| |]; try discriminate H. rewrite V. clear V. change (cf_mesh (with_iter_max n c)) with (cf_mesh c). change (cf_physics (with_iter_max n c)) with (cf_physics c).
  destruct (mesh_new v S (cf_mesh c)) as [m|e| |]; try discriminate H.
  assert (K : solver_new N p S (with_iter_max n c) m (state_new p S (cf_physics c)) = match solver_new N p S c m (state_new p S (cf_physics c)) with Ok s => Ok (limit_sim n s) | Err e => Err e | Panic => Panic | Fuel => Fuel end).
  { unfold solver_new. change (rhs_new N p S (with_iter_max n c) m) with (rhs_new N p S c m). destruct (rhs_new N p S c m); reflexivity. }
  rewrite K. clear K. destruct (solver_new N p S c m (state_new p S (cf_physics c))) as [s|e| |]; try discriminate H.
  change (writer_new (fun _ => meta c) S (with_iter_max n c) m w) with (writer_new meta S c m w).
  destruct (writer_new meta S c m w) as [w1 r1]. destruct r1 as [wr|e| |]; try discriminate H.
  destruct (writer_metadata (wr_meta wr) sched (wr_outputs wr) _) as [w2 r2]. destruct r2 as [[]|e| |]; try discriminate H.
  rewrite T. destruct (init s m) as [s1 r3]. cbn [fst snd]. destruct r3 as [[]|e| |]; try discriminate H. cbn [bind] in *.
  change (s_rhs (limit_sim n s1)) with (s_rhs s1). change (s_u (limit_sim n s1)) with (s_u s1).
  destruct (st_update_from_prim p S (r_bw (s_rhs s1)) (r_be (s_rhs s1)) m (s_u s1)) as [u|e| |]; try discriminate H. cbn [bind] in *.
  apply pair_equal_spec in H. destruct H as (<- & H). assert (K : forall X (x y : X), Ok x = Ok y -> x = y) by (intros X x y Q; congruence). apply K in H. subst k.
  do 2 eexists. split; [reflexivity|]. cbn. auto.
Qed.
End Limit.
Print Assumptions C67_run.
Print Assumptions C67_larger_limit.
Print Assumptions C67_init.

(** Limits 4, with which the run fails, 100 and 1000, with which it ends, after
    5 steps. *)
Example C67_example : forall bln bexp, let A := B64n bln bexp in exists w k e w1 k1 e1,
  let c := brun_cfg bln bexp 100 2 (1 # 1000000) (4 # 10) in
  cf_validate (with_iter_max 1000 c) = Ok tt /\
  (forall s m, brun_init bln bexp 1 (1 # 8) (limit_sim 1000 s) m = (limit_sim 1000 (fst (brun_init bln bexp 1 (1 # 8) s m)), snd (brun_init bln bexp 1 (1 # 8) s m))) /\
  init_corries (A:=A) (N:=Hll A) true (fun _ => "") "" [] (brun_init bln bexp 1 (1 # 8)) Isot 6 c no_world = (w, Ok k) /\
  run_loop (fun _ _ => "") true (fun _ => []) 0 101 Isot 6 (c_mesh k) (c_sim k) (c_writer k) w = (e, Ok tt) /\
  (ts_iter_max (s_ts (c_sim k)) <= 1000)%N /\
  init_corries (A:=A) (N:=Hll A) true (fun _ => "") "" [] (brun_init bln bexp 1 (1 # 8)) Isot 6 (with_iter_max 4 c) no_world = (w1, Ok k1) /\
  (ts_iter_max (s_ts (c_sim k1)) <= 100)%N /\
  run_loop (fun _ _ => "") true (fun _ => []) 0 101 Isot 6 (c_mesh k1) (c_sim k1) (c_writer k1) w1 = (e1, Err EIterMax).
Proof.
  intros bln bexp A.
  destruct (brun_ok true 101 (brun_cfg bln bexp 100 2 (1 # 1000000) (4 # 10)) 1 (1 # 8) (fun e o => b_ok o)) as (w & k & e & o & V & I & E & C).
  { vm_compute. reflexivity. }
  destruct (brun_ok true 101 (with_iter_max 4 (brun_cfg bln bexp 100 2 (1 # 1000000) (4 # 10))) 1 (1 # 8) (fun e o => b_err EIterMax o)) as (w1 & k1 & e1 & o1 & V1 & I1 & E1 & C1).
  { vm_compute. reflexivity. }
  destruct o as [[]|x| |]; [|discriminate C|discriminate C|discriminate C]. destruct o1 as [[]|[]| |]; try discriminate C1.
  assert (K : forall c w k, init_corries (A:=A) (N:=Hll A) true (fun _ => "") "" [] (brun_init bln bexp 1 (1 # 8)) Isot 6 c no_world = (w, Ok k) -> at_start Isot 6 c (c_sim k))
    by (intros c2 w2 k2 I2; apply (init_at_start _ _ _ _ _ _ _ _ _ _ _ _ _ I2); intros s m s' r Q; apply (f_equal fst) in Q; cbn [fst brun_init] in Q; subst s'; split; reflexivity).
  exists w, k, e, w1, k1, e1. cbv zeta. split; [vm_compute; reflexivity|]. split; [reflexivity|]. split; [exact I|]. split; [exact E|].
  split; [rewrite (proj1 (K _ _ _ I)); vm_compute; discriminate|]. split; [exact I1|]. split; [rewrite (proj1 (K _ _ _ I1)); vm_compute; discriminate|exact E1].
Qed.

(** ** C69: the counters *)

Section Counters.
Context {A : Num} {N : numflux_impl A}.

Lemma output_counts : forall fmt sched (m : mesh A) (s : sim A N) wr w wr' w' r, do_output fmt sched m s wr w = (wr', w', r) -> (wr_counter wr <= wr_counter wr' <= wr_counter wr + 1)%N.
Proof.
  intros fmt sched m s wr w wr' w' r H. unfold do_output in H. destruct (writer_update m (cent (s_u s)) (s_ts s) wr) as [wr1 r1] eqn:U.
  assert (E : wr_counter wr1 = wr_counter wr) by (unfold writer_update in U; destruct (try_each _ _) as [os r2]; injection U as <- <-; reflexivity).
  destruct r1 as [[]|e| |]; [|injection H as <- <- <-; lia..]. unfold writer_write in H. destruct (write_sched fmt _ _ _ w) as [[os w2] r2].
  destruct r2 as [[]|e| |]; injection H as <- <- <-; cbn [wr_counter]; lia.
Qed.

(** In a run that starts below its limit the iteration counter never exceeds
    the limit, in no output and not at the end, and the output counter exceeds
    the number of iterations by at most one. *)
Theorem C69_counters : forall fmt v sched afuel fuel p S m (s : sim A N) wr w e r,
  run_loop fmt v sched afuel fuel p S m s wr w = (e, r) -> (ts_iter (s_ts s) < ts_iter_max (s_ts s))%N ->
  (ts_iter (s_ts s) <= ts_iter (s_ts (e_sim e)) <= ts_iter_max (s_ts s))%N /\
  (wr_counter wr <= wr_counter (e_writer e) <= wr_counter wr + (ts_iter (s_ts (e_sim e)) - ts_iter (s_ts s)) + 1)%N /\
  forall x, In x (e_trace e) -> (ts_iter (fst x) <= ts_iter_max (s_ts s))%N.
Proof.
  intros fmt v sched afuel fuel p S m. induction fuel as [|fuel IH]; intros s wr w e r H L; cbn [run_loop] in H.
  { injection H as <- <-. cbn. split; [lia|]. split; [lia|]. intros x []. }
  destruct (run_output fmt sched m s wr w) as [[[[s1 wr1] w1] tr] r1] eqn:O.
  assert (O' : ts_iter (s_ts s1) = ts_iter (s_ts s) /\ ts_iter_max (s_ts s1) = ts_iter_max (s_ts s) /\ (wr_counter wr <= wr_counter wr1 <= wr_counter wr + 1)%N /\ forall x, In x tr -> ts_iter (fst x) = ts_iter (s_ts s)).
  { unfold run_output in O. destruct (nleb A _ _); [|injection O as <- <- <- <- <-; repeat match goal with |- _ /\ _ => split end; try reflexivity; try lia; intros x []].
    set (s' := sim_set_ts _ s) in *. destruct (do_output fmt sched m s' wr w) as [[wr2 w2] r2] eqn:D. injection O as <- <- <- <- <-. apply output_counts in D.
    repeat match goal with |- _ /\ _ => split end; try reflexivity; try apply D. intros x [<-|[]]. reflexivity. }
  clear O. destruct O' as (I1 & J1 & C1 & T1).
  assert (stop : forall q, (mkEnd s1 wr1 w1 tr, q) = (e, r) -> (ts_iter (s_ts s) <= ts_iter (s_ts (e_sim e)) <= ts_iter_max (s_ts s))%N /\
    (wr_counter wr <= wr_counter (e_writer e) <= wr_counter wr + (ts_iter (s_ts (e_sim e)) - ts_iter (s_ts s)) + 1)%N /\ forall x, In x (e_trace e) -> (ts_iter (fst x) <= ts_iter_max (s_ts s))%N).
  { intros q Q. injection Q as <- _. cbn [e_sim e_writer e_trace]. rewrite I1. split; [lia|]. split; [lia|]. intros x Hx. rewrite (T1 x Hx). lia. }
  destruct r1 as [[]|x| |]; try exact (stop _ H). destruct (nleb A _ _); [exact (stop _ H)|].
  unfold solver_next in H. destruct (rkf_next v afuel p S m s1) as [s2 r2] eqn:R. destruct (limit_next 0 _ _ _ _ _ _ _ _ R) as (_ & I2 & J2).
  assert (dump : forall er, (let '(wr3, w3, r3) := do_output fmt sched m (sim_set_ts (ts_set_kind KErrorDump (s_ts s2)) s2) wr1 w1 in
     (mkEnd (sim_set_ts (ts_set_kind KErrorDump (s_ts s2)) s2) wr3 w3 (tr ++ [(s_ts (sim_set_ts (ts_set_kind KErrorDump (s_ts s2)) s2), cent (s_u (sim_set_ts (ts_set_kind KErrorDump (s_ts s2)) s2)))]), match r3 with Ok _ => Err er | r3 => r3 end)) = (e, r) ->
    (ts_iter (s_ts s) <= ts_iter (s_ts (e_sim e)) <= ts_iter_max (s_ts s))%N /\
    (wr_counter wr <= wr_counter (e_writer e) <= wr_counter wr + (ts_iter (s_ts (e_sim e)) - ts_iter (s_ts s)) + 1)%N /\ forall x, In x (e_trace e) -> (ts_iter (fst x) <= ts_iter_max (s_ts s))%N).
  { intros er. set (s' := sim_set_ts _ s2). assert (Is : ts_iter (s_ts s') = (ts_iter (s_ts s) + 1)%N) by (change (ts_iter (s_ts s')) with (ts_iter (s_ts s2)); rewrite I2, I1; reflexivity).
    destruct (do_output fmt sched m s' wr1 w1) as [[wr3 w3] r3] eqn:D. apply output_counts in D. intros Q. apply pair_equal_spec in Q. destruct Q as (Q & _). subst e. cbn [e_sim e_writer e_trace]. rewrite Is.
    split; [lia|]. split; [lia|]. intros x Hx. apply in_app_iff in Hx. destruct Hx as [Hx|[<-|[]]]; [rewrite (T1 x Hx); lia|cbn [fst]; rewrite Is; lia]. }
  destruct r2 as [[]|er| |]; [|exact (dump _ H)| |].
  - destruct (N.leb_spec (ts_iter_max (s_ts s2)) (ts_iter (s_ts s2))) as [G|G]; [exact (dump _ H)|].
    destruct (run_loop fmt v sched afuel fuel p S m s2 wr1 w1) as [e2 r3] eqn:E2. injection H as <- <-. cbn [e_sim e_writer e_trace].
    destruct (IH _ _ _ _ _ E2 G) as (K1 & K2 & K3). rewrite J2, J1 in *. rewrite I2, I1 in *. split; [lia|]. split; [lia|]. intros x Hx. apply in_app_iff in Hx. destruct Hx as [Hx|Hx]; [rewrite (T1 x Hx); lia|exact (K3 x Hx)].
  - injection H as <- <-. cbn [e_sim e_writer e_trace]. rewrite I2, I1. split; [lia|]. split; [lia|]. intros x Hx. rewrite (T1 x Hx). lia.
  - injection H as <- <-. cbn [e_sim e_writer e_trace]. rewrite I2, I1. split; [lia|]. split; [lia|]. intros x Hx. rewrite (T1 x Hx). lia.
Qed.

(** So no 64 bit counter overflows in a run after an initialisation with a
    limit below 2^64 - 1, whether or not it ends. *)
Theorem C69_no_overflow : forall fmt v meta banner sched sc afuel fuel init p S (c : config A) w w' (k : components A N) e r,
  (forall s m s' o, init s m = (s', o) -> s_ts s' = s_ts s) ->
  (0 < nc_iter_max (cf_numerics c) < 2 ^ 64 - 1)%N ->
  init_corries (N:=N) v meta banner sched init p S c w = (w', Ok k) ->
  run_loop fmt v sc afuel fuel p S (c_mesh k) (c_sim k) (c_writer k) w' = (e, r) ->
  (ts_iter (s_ts (e_sim e)) < 2 ^ 64)%N /\ (wr_counter (e_writer e) < 2 ^ 64)%N /\ forall x, In x (e_trace e) -> (ts_iter (fst x) < 2 ^ 64)%N.
Proof.
  intros fmt v meta banner sched sc afuel fuel init p S c w w' k e r Hi Hc I R.
  assert (K : ts_iter (s_ts (c_sim k)) = 0%N /\ ts_iter_max (s_ts (c_sim k)) = nc_iter_max (cf_numerics c) /\ wr_counter (c_writer k) = 0%N).
  { clear R. unfold init_corries in I. destruct (cf_validate c) as [[]|x| |]; try discriminate I. destruct (mesh_new v S (cf_mesh c)) as [m|x| |]; try discriminate I.
    unfold solver_new in I. destruct (rhs_new N p S c m) as [rh|x| |]; try discriminate I. cbn [bind] in I. set (s0 := mkSim _ _ _ _) in I.
    destruct (writer_new meta S c m w) as [w1 r1] eqn:W. destruct r1 as [wr|x| |]; try discriminate I.
    assert (Wc : wr_counter wr = 0%N). { unfold writer_new in W. destruct (outputs_new S (cf_writer c) m (cf_output_max c) w) as [w2 r2]. destruct r2 as [os|x| |]; cbn [bind] in W; try discriminate W. apply pair_equal_spec in W. destruct W as (_ & W). injection W as <-. reflexivity. }
    destruct (writer_metadata (wr_meta wr) sched (wr_outputs wr) _) as [w2 r2]. destruct r2 as [[]|x| |]; try discriminate I.
    destruct (init s0 m) as [s1 r3] eqn:E. destruct r3 as [[]|x| |]; try discriminate I. cbn [bind] in I.
    destruct (st_update_from_prim p S (r_bw (s_rhs s1)) (r_be (s_rhs s1)) m (s_u s1)) as [u|x| |]; try discriminate I. cbn [bind] in I.
    apply pair_equal_spec in I. destruct I as (_ & I). injection I as <-. cbn [c_sim c_writer s_ts]. rewrite (Hi _ _ _ _ E). split; [reflexivity|]. split; [reflexivity|exact Wc]. }
  destruct K as (K1 & K2 & K3). destruct (C69_counters _ _ _ _ _ _ _ _ _ _ _ _ _ R) as (L1 & L2 & L3); [rewrite K1, K2; lia|].
  rewrite K1, K2, K3 in *. split; [lia|]. split; [lia|]. intros x Hx. specialize (L3 x Hx). lia.
Qed.
End Counters.
Print Assumptions C69_counters.
Print Assumptions C69_no_overflow.

(** A run that uses up its iterations, and one that ends in time. *)
Example C69_example : forall bln bexp, let A := B64n bln bexp in exists w k e w1 k1 e1,
  let c := brun_cfg bln bexp 100 2 (1 # 1000000) (4 # 10) in
  (forall s m s' o, brun_init bln bexp 1 (1 # 8) s m = (s', o) -> s_ts s' = s_ts s) /\
  (0 < nc_iter_max (cf_numerics c) < 2 ^ 64 - 1)%N /\
  init_corries (A:=A) (N:=Hll A) true (fun _ => "") "" [] (brun_init bln bexp 1 (1 # 8)) Isot 6 c no_world = (w, Ok k) /\
  run_loop (fun _ _ => "") true (fun _ => []) 0 101 Isot 6 (c_mesh k) (c_sim k) (c_writer k) w = (e, Ok tt) /\
  (0 < wr_counter (e_writer e))%N /\
  init_corries (A:=A) (N:=Hll A) true (fun _ => "") "" [] (brun_init bln bexp 1 (1 # 8)) Isot 6 (with_iter_max 4 c) no_world = (w1, Ok k1) /\
  run_loop (fun _ _ => "") true (fun _ => []) 0 101 Isot 6 (c_mesh k1) (c_sim k1) (c_writer k1) w1 = (e1, Err EIterMax) /\
  ts_iter (s_ts (e_sim e1)) = 4%N /\ (0 < wr_counter (e_writer e1))%N.
Proof.
  intros bln bexp A.
  destruct (brun_ok true 101 (brun_cfg bln bexp 100 2 (1 # 1000000) (4 # 10)) 1 (1 # 8) (fun e o => b_ok o && (0 <? wr_counter (e_writer e))%N)) as (w & k & e & o & V & I & E & C).
  { vm_compute. reflexivity. }
  destruct (brun_ok true 101 (with_iter_max 4 (brun_cfg bln bexp 100 2 (1 # 1000000) (4 # 10))) 1 (1 # 8) (fun e o => b_err EIterMax o && ((ts_iter (s_ts (e_sim e)) =? 4)%N && (0 <? wr_counter (e_writer e))%N))) as (w1 & k1 & e1 & o1 & V1 & I1 & E1 & C1).
  { vm_compute. reflexivity. }
  apply andb_true_iff in C. destruct C as (C & D). apply andb_true_iff in C1. destruct C1 as (C1 & D1). apply andb_true_iff in D1. destruct D1 as (D1 & D2).
  apply N.ltb_lt in D. apply N.eqb_eq in D1. apply N.ltb_lt in D2.
  destruct o as [[]|x| |]; [|discriminate C|discriminate C|discriminate C]. destruct o1 as [[]|[]| |]; try discriminate C1.
  exists w, k, e, w1, k1, e1. cbv zeta. split; [intros s m s' o Q; apply (f_equal fst) in Q; cbn [fst brun_init] in Q; subst s'; reflexivity|].
  split; [vm_compute; split; reflexivity|]. repeat match goal with |- _ /\ _ => split end; assumption.
Qed.
Print Assumptions C69_example.
