(** Properties of time stepping that hold in every arithmetic: C11, C12, C26,
    C35, C36, C37, C38. *)

From Coq Require Import Reals ZArith NArith QArith List Bool Lia String.
From Flocq Require Import Core BinarySingleNaN.
From Verif Require Import Base Num XReal B64 Config Mesh State NumFlux Time Writer Runner Spec SpecFlow SpecStep
  ConfigProofs MeshProofs BoundaryProofs PhysicsProofs FluxProofs UpdateProofs FluxThms StepProofs StepInv StepEq StepVal Demo.
Import ListNotations.
Local Open Scope nat_scope.

(** C11: the isothermal sound speed never changes, by any number of calls of
    next_solution, whatever they return, or by run_corries. *)
Theorem C11_sound_speed_constant : forall A (N : numflux_impl A) S m (s s' : sim A N),
  evolves Isot S m s s' -> c_sound (cent (s_u s')) = c_sound (cent (s_u s)).
Proof. exact evolves_sound. Qed.
Print Assumptions C11_sound_speed_constant.

Theorem C11_sound_speed_constant_run : forall A (N : numflux_impl A) fmt validation sched afuel fuel S m (s : sim A N) wr w e o,
  run_loop (A:=A) (N:=N) fmt validation sched afuel fuel Isot S m s wr w = (e, o) ->
  c_sound (cent (s_u (e_sim e))) = c_sound (cent (s_u s)).
Proof. intros. eapply evolves_sound. eapply run_evolves. eassumption. Qed.
Print Assumptions C11_sound_speed_constant_run.

(** A shock tube with KT and RK4 takes two successful steps in binary64. *)
Definition shock_iso (bln bexp : b64 -> b64) := tube 4 (vals 1 0 1) (vals (1 # 8) 0 (1 # 10)) bln bexp.
Example C11_example : forall bln bexp, let A := B64n bln bexp in
  demo_check (Kt A) true Isot 8 (demo_cfg (A:=A) (CKt VanLeer) RK4 false 100 (nQ A (4 # 10))) (shock_iso bln bexp) 2
    (fun s => nltb A (n0 A) (ts_t (s_ts s))) = true.
Proof. intros. vm_compute. reflexivity. Qed.

(** C12: consistency after every completed step ... *)
Theorem C12_consistent_after_step : forall A (N : numflux_impl A) validation fuel p S m (s0 s s' : sim A N),
  6 <= S -> wsv A p S (cent (s_u s0)) -> evolves p S m s0 s ->
  solver_next validation fuel p S m s = (s', Ok tt) ->
  consistent p S (r_bw (s_rhs s0)) (r_be (s_rhs s0)) m (cent (s_u s')).
Proof.
  intros A N validation fuel p S m s0 s s' HS Hw He H. pose proof (evolves_shape A N p S m s0 s ltac:(lia) He Hw) as Hw'.
  apply evolves_static in He. destruct He as (B1 & B2 & _).
  apply solver_next_rkf in H. destruct H as (o' & H & [(<- & _)|(X & _)]); [|discriminate].
  pose proof (rkf_next_cases A N _ _ _ _ _ _ _ _ H) as (_ & (B3 & B4) & _).
  pose proof (next_consistent A N _ _ _ _ _ _ _ HS Hw' H) as C. rewrite B3, B4, B1, B2 in C. exact C.
Qed.
Print Assumptions C12_consistent_after_step.

(** ... and after init_corries, whatever the initial condition function writes
    into the arrays. *)
Theorem C12_consistent_after_init : forall A (N : numflux_impl A) validation meta banner sched init p S c w w' k,
  6 <= S ->
  (forall s m s', init s m = (s', Ok tt) -> wsv A p S (cent (s_u s)) -> wsv A p S (cent (s_u s'))) ->
  init_corries (A:=A) (N:=N) validation meta banner sched init p S c w = (w', Ok k) ->
  consistent p S (r_bw (s_rhs (c_sim k))) (r_be (s_rhs (c_sim k))) (c_mesh k) (cent (s_u (c_sim k))).
Proof.
  intros A N validation meta banner sched init p S c w w' k HS Hi H. unfold init_corries in H.
  destruct (cf_validate c); try discriminate. destruct (mesh_new validation S (cf_mesh c)) as [m|e| |]; try discriminate.
  destruct (solver_new N p S c m (state_new p S (cf_physics c))) as [s|e| |] eqn:Es; try discriminate.
  destruct (writer_new meta S c m w) as [w1 r1]. destruct r1 as [wr|e| |]; try discriminate.
  destruct (writer_metadata (wr_meta wr) sched (wr_outputs wr) _) as [w2 r2]. destruct r2 as [[]|e| |]; try discriminate.
  destruct (init s m) as [s1 r3] eqn:Ei. injection H as <- H. apply bind_Ok in H. destruct H as ([] & -> & H).
  apply bind_Ok in H. destruct H as (u & Hu & H). injection H as <-. cbn [c_sim s_rhs s_u c_mesh].
  assert (Ws : wsv A p S (cent (s_u s))).
  { unfold solver_new in Es. apply bind_Ok in Es. destruct Es as (rh & _ & Es). injection Es as <-. cbn. apply wsv_new. }
  pose proof (Hi _ _ _ Ei Ws) as W1. unfold st_update_from_prim in Hu. apply bind_Ok in Hu. destruct Hu as (v & Hv & Hu). injection Hu as <-.
  cbn [cent init_west_east set_cent].
  eapply prim_consistent; [exact HS|exact W1|exact Hv].
Qed.
Print Assumptions C12_consistent_after_init.

Example C12_example : forall bln bexp, let A := B64n bln bexp in
  is_ok (snd (init_corries (A:=A) (N:=Hll A) true (fun _ => ""%string) ""%string []
    (fun s m => let '(u, r) := init_noh Adiab 8 (s_u s) in (mkSim (s_ts s) u (s_rk s) (s_rhs s), r)) Adiab 8
    (demo_cfg (A:=A) CHll RK1 false 100 (nQ A (4 # 10))) (mkWorld (fun _ => None) (fun _ => false) ""%string (fun _ => false)))) = true.
Proof. intros. vm_compute. reflexivity. Qed.

(** C26: with the validation feature a completed step leaves only finite
    values. *)
Theorem C26_validated_step_is_finite : forall A (N : numflux_impl A) fuel p S m (s0 s s' : sim A N) j i,
  5 <= S -> wsv A p S (cent (s_u s0)) -> evolves p S m s0 s ->
  solver_next true fuel p S m s = (s', Ok tt) -> j < nE p -> i < S ->
  nfin A (at2 (n0 A) (prim (cent (s_u s'))) j i) = true /\ nfin A (at2 (n0 A) (cons (cent (s_u s'))) j i) = true.
Proof.
  intros A N fuel p S m s0 s s' j i HS Hw He H Hj Hi. pose proof (evolves_shape A N p S m s0 s ltac:(lia) He Hw) as Hw'.
  apply solver_next_rkf in H. destruct H as (o' & H & [(<- & _)|(X & _)]); [|discriminate].
  pose proof (next_shape A N _ _ _ _ _ _ _ _ HS Hw' H) as W2. apply rkf_next_cases in H.
  destruct H as (_ & _ & _ & _ & [(H & _)|(k & H)]); [contradiction|]. cbn zeta in H.
  destruct H as (_ & [(H & _)|(v & Hv & Eu & [(e & H & _)|(_ & V & _)])]); try discriminate.
  rewrite Eu in W2 |- *. cbn [cent set_cent] in *. exact (validate_finite A p S v W2 (V eq_refl) j i Hj Hi).
Qed.
Print Assumptions C26_validated_step_is_finite.

(** For doubles [nfin] means: neither NaN nor infinite. *)
Example C26_finite_b64 : forall bln bexp (x : b64), nfin (B64n bln bexp) x = true <-> exists r, b2x x = Fin r.
Proof. intros bln bexp [s|[]| |s mm e B]; cbn; split; intros H; try discriminate; try (destruct H as [r H]; discriminate); eauto. Qed.

(** The documentation of the validation feature also promises that densities
    and pressures are checked to be positive: a step on a state with negative
    density and pressure returns Ok and leaves them negative. *)
Theorem C26_positivity_not_checked_refuted : forall bln bexp, let A := B64n bln bexp in
  exists (s s' : sim A (Hll A)), cf_validate (demo_cfg (A:=A) CHll RK1 false 100 (nQ A (4 # 10))) = Ok tt /\
    demo (Hll A) Adiab 8 (demo_cfg (A:=A) CHll RK1 false 100 (nQ A (4 # 10))) (tube 4 (vals (-1) 0 (-1)) (vals (-1) 0 (-1)) bln bexp) = Ok s /\
    solver_next true 50 Adiab 8 (demo_mesh A 8) s = (s', Ok tt) /\
    nltb A (at2 (n0 A) (prim (cent (s_u s'))) 0 4) (n0 A) = true /\
    nltb A (at2 (n0 A) (prim (cent (s_u s'))) 2 4) (n0 A) = true /\
    physics_validate Adiab (cent (s_u s')) = Err ENonFinite.
Proof.
  intros bln bexp A.
  destruct (demo_one (Hll A) true Adiab 8 (demo_cfg (A:=A) CHll RK1 false 100 (nQ A (4 # 10)))
     (tube 4 (vals (-1) 0 (-1)) (vals (-1) 0 (-1)) bln bexp)
     (fun s' => nltb A (at2 (n0 A) (prim (cent (s_u s'))) 0 4) (n0 A) && nltb A (at2 (n0 A) (prim (cent (s_u s'))) 2 4) (n0 A) &&
                match physics_validate Adiab (cent (s_u s')) with Err ENonFinite => true | _ => false end)%bool)
    as (s & s' & H1 & H2 & H3); [vm_compute; reflexivity|].
  exists s, s'. apply andb_true_iff in H3. destruct H3 as [H3 H5]. apply andb_true_iff in H3. destruct H3 as [H3 H4].
  split; [vm_compute; reflexivity|]. split; [exact H1|]. split; [exact H2|]. split; [exact H3|]. split; [exact H4|].
  destruct (physics_validate Adiab (cent (s_u s'))) as [[]|[]| |]; try discriminate. reflexivity.
Qed.
Print Assumptions C26_positivity_not_checked_refuted.

(** C35: failing calls.  Either nothing but the iteration counter, the step
    size fields and internal buffers changed; or the final check found a
    non-finite value, with the time still unchanged; or the step itself
    completed and the iteration limit is reached. *)
Theorem C35_failed_steps : forall A (N : numflux_impl A) validation fuel p S m (s s' : sim A N) e,
  5 <= S -> wsv A p S (cent (s_u s)) ->
  solver_next validation fuel p S m s = (s', Err e) ->
  (s_u s' = s_u s /\ ts_t (s_ts s') = ts_t (s_ts s)) \/
  (ts_t (s_ts s') = ts_t (s_ts s) /\ validation = true /\ exists j i, j < nE p /\ i < S /\
     (nfin A (at2 (n0 A) (prim (cent (s_u s'))) j i) = false \/ nfin A (at2 (n0 A) (cons (cent (s_u s'))) j i) = false)) \/
  (e = EIterMax /\ (ts_iter_max (s_ts s) <= ts_iter (s_ts s) + 1)%N /\ ts_t (s_ts s') = nadd A (ts_t (s_ts s)) (ts_dt (s_ts s')) /\
   rkf_next validation fuel p S m s = (s', Ok tt)).
Proof.
  intros A N validation fuel p S m s s' e HS Hw H. apply solver_next_rkf in H. destruct H as (o' & H & Ho).
  pose proof (next_shape A N _ _ _ _ _ _ _ _ HS Hw H) as W2. pose proof H as Hn. apply rkf_next_cases in H.
  destruct H as (_ & _ & (M & _) & I & H).
  destruct Ho as [(<- & _)|(X & -> & L)].
  - destruct H as [(_ & H1 & H2)|(k & H)]; [left; auto|]. cbn zeta in H.
    destruct H as (_ & [(H & _)|(v & Hv & Eu & [(e' & H & V1 & V2 & H3)|(H & _)])]); try discriminate.
    right. left. split; [exact H3|]. split; [exact V1|]. rewrite Eu in W2 |- *. cbn [cent set_cent] in *.
    eapply validate_nonfinite; eauto.
  - right. right. injection X as ->. split; [reflexivity|]. rewrite M, I in L. split; [exact L|].
    split; [|exact Hn].
    destruct H as [(H & _)|(k & H)]; [contradiction|]. cbn zeta in H.
    destruct H as (_ & [(H & _)|(v & Hv & Eu & [(e' & H & _)|(_ & _ & H3)])]); try discriminate. exact H3.
Qed.
Print Assumptions C35_failed_steps.

(** A panic inside a step never advances the time either, and every call
    counts as an iteration. *)
Theorem C35_time_only_advances_on_completion : forall A (N : numflux_impl A) validation fuel p S m (s s' : sim A N) o,
  solver_next validation fuel p S m s = (s', o) ->
  ts_iter (s_ts s') = (ts_iter (s_ts s) + 1)%N /\
  (o <> Ok tt -> o <> Err EIterMax -> ts_t (s_ts s') = ts_t (s_ts s)) /\
  (o = Ok tt -> ts_t (s_ts s') = nadd A (ts_t (s_ts s)) (ts_dt (s_ts s'))).
Proof.
  intros A N validation fuel p S m s s' o H. apply solver_next_rkf in H. destruct H as (o' & H & Ho). apply rkf_next_cases in H.
  destruct H as (_ & _ & _ & I & H). split; [exact I|].
  destruct Ho as [(<- & _)|(-> & -> & _)].
  - destruct H as [(H & _ & H2)|(k & H)]; [split; [auto|contradiction]|]. cbn zeta in H.
    destruct H as (_ & [(-> & _ & H2)|(v & Hv & Eu & [(e' & -> & _ & _ & H3)|(-> & _ & H3)])]).
    + split; [auto|discriminate].
    + split; [auto|discriminate].
    + split; [contradiction|auto].
  - split; [contradiction|discriminate].
Qed.
Print Assumptions C35_time_only_advances_on_completion.

(** All three outcomes happen: the CFL step is below dt_min; a cell without
    mass becomes non-finite; the iteration limit is reached. *)
Definition fails_with (bln bexp : b64 -> b64) (itmax : N) (cfl : Q) (q : nat -> nat -> b64) (chk : err -> bool) : bool :=
  let A := B64n bln bexp in
  match demo (Hll A) Adiab 8 (demo_cfg (A:=A) CHll RK1 false itmax (nQ A cfl)) q with
  | Ok s => match snd (solver_next true 50 Adiab 8 (demo_mesh A 8) s) with Err e => chk e | _ => false end
  | _ => false
  end.
Example C35_example : forall bln bexp,
  fails_with bln bexp 100 (1 # 10000000) (tube 4 (vals 1 0 1) (vals (1 # 8) 0 (1 # 10)) bln bexp) (fun e => match e with EDtMin => true | _ => false end) = true /\
  fails_with bln bexp 100 (4 # 10) (tube 4 (vals 1 0 1) (vals 0 0 0) bln bexp) (fun e => match e with ENonFinite => true | _ => false end) = true /\
  fails_with bln bexp 1 (4 # 10) (tube 4 (vals 1 0 1) (vals (1 # 8) 0 (1 # 10)) bln bexp) (fun e => match e with EIterMax => true | _ => false end) = true.
Proof. intros. vm_compute. auto. Qed.

(** C36: the validation feature does not influence results. *)
Theorem C36_validation_only_checks : forall A (N : numflux_impl A) fuel p S m (s s' : sim A N) o,
  checks_only N -> solver_next true fuel p S m s = (s', o) ->
  o = Ok tt \/ rkf_next true fuel p S m s = (s', Ok tt) ->
  solver_next false fuel p S m s = (s', o).
Proof. intros A N fuel p S m s s' o HN. exact (solver_next_val A N HN p S m fuel s s' o). Qed.
Print Assumptions C36_validation_only_checks.

Theorem C36_validation_only_checks_run : forall A (N : numflux_impl A) fmt sched afuel fuel p S m (s : sim A N) wr w e,
  checks_only N -> run_loop fmt true sched afuel fuel p S m s wr w = (e, Ok tt) ->
  run_loop (A:=A) (N:=N) fmt false sched afuel fuel p S m s wr w = (e, Ok tt).
Proof. intros A N fmt sched afuel fuel p S m s wr w e HN. exact (run_val A N HN p S m fmt sched afuel fuel s wr w e). Qed.
Print Assumptions C36_validation_only_checks_run.

(** Both schemes of the library are covered. *)
Theorem C36_library_schemes : forall A, checks_only (Hll A) /\ checks_only (Kt A).
Proof. split; [apply hll_checks_only|apply kt_checks_only]. Qed.
Print Assumptions C36_library_schemes.

Example C36_example : forall bln bexp, let A := B64n bln bexp in
  demo_check (Hll A) true Adiab 8 (demo_cfg (A:=A) CHll SSPRK3 false 100 (nQ A (4 # 10)))
    (tube 4 (vals 1 0 1) (vals (1 # 8) 0 (1 # 10)) bln bexp) 1 (fun s => nltb A (n0 A) (ts_t (s_ts s))) = true.
Proof. intros. vm_compute. reflexivity. Qed.

(** C37: the result does not depend on leftover buffers; two simulations that
    agree in state, time data and configuration stay in agreement for any
    number of steps, with identical outcomes. *)
Theorem C37_no_memory_hll : forall A p S mc fuel1 fuel2 n (s1 s2 s1' s2' : sim A (Hll A)) o1 o2,
  let m := mesh_build (A:=A) S mc in
  5 <= S -> wss p S (s_u s1) -> bt_asc (rk_bt (s_rk s1)) = false ->
  same_but_buffers p S (fun _ => True) s1 s2 ->
  next_n false fuel1 p S m n s1 = (s1', o1) -> next_n false fuel2 p S m n s2 = (s2', o2) ->
  o1 = o2 /\ s_u s1' = s_u s2' /\ s_ts s1' = s_ts s2'.
Proof.
  intros A p S mc fuel1 fuel2 n s1 s2 s1' s2' o1 o2 m HS Hu Has SB E1 E2.
  destruct (next_n_eq A (Hll A) p S m (fun _ => True) HS (hll_memoryless A p S m HS (std_build A S mc)) _ _ _ _ _ _ _ _ _ SB Hu Has E1 E2)
    as (H & T & U & _). auto.
Qed.
Print Assumptions C37_no_memory_hll.

Theorem C37_no_memory_kt : forall A p S mc k0 fuel1 fuel2 n (s1 s2 s1' s2' : sim A (Kt A)) o1 o2,
  let m := mesh_build (A:=A) S mc in
  5 <= S -> wss p S (s_u s1) -> bt_asc (rk_bt (s_rk s1)) = false ->
  same_but_buffers p S (fun k : nf_T (Kt A) => kt_like A k k0) s1 s2 ->
  next_n false fuel1 p S m n s1 = (s1', o1) -> next_n false fuel2 p S m n s2 = (s2', o2) ->
  o1 = o2 /\ s_u s1' = s_u s2' /\ s_ts s1' = s_ts s2'.
Proof.
  intros A p S mc k0 fuel1 fuel2 n s1 s2 s1' s2' o1 o2 m HS Hu Has SB E1 E2.
  destruct (next_n_eq A (Kt A) p S m _ HS (kt_memoryless A p S m k0 HS (std_build A S mc)) _ _ _ _ _ _ _ _ _ SB Hu Has E1 E2)
    as (H & T & U & _). auto.
Qed.
Print Assumptions C37_no_memory_kt.

(** For every other scheme without memory. *)
Theorem C37_no_memory : forall A (N : numflux_impl A) p S m good fuel1 fuel2 n (s1 s2 s1' s2' : sim A N) o1 o2,
  memoryless N p S m good ->
  5 <= S -> wss p S (s_u s1) -> bt_asc (rk_bt (s_rk s1)) = false ->
  same_but_buffers p S good s1 s2 ->
  next_n false fuel1 p S m n s1 = (s1', o1) -> next_n false fuel2 p S m n s2 = (s2', o2) ->
  o1 = o2 /\ s_u s1' = s_u s2' /\ s_ts s1' = s_ts s2'.
Proof.
  intros A N p S m good fuel1 fuel2 n s1 s2 s1' s2' o1 o2 HM HS Hu Has SB E1 E2.
  destruct (next_n_eq A N p S m good HS HM _ _ _ _ _ _ _ _ _ SB Hu Has E1 E2) as (H & T & U & _). auto.
Qed.
Print Assumptions C37_no_memory.

(** A solver that has been used and a fresh one for the same configuration:
    the buffers hold different data, and the hypotheses are met. *)
Definition used_buffers {A} p S (s : sim A (Hll A)) (x : nF A) : sim A (Hll A) :=
  let junk := mtab (nE p) S (fun _ _ => x) in
  let jv := set_cons junk (set_prim junk (cent (rk_utilde (s_rk s)))) in
  mkSim (s_ts s) (s_u s) (rk_set_k [junk] (rk_set_utilde (set_cent jv (rk_utilde (s_rk s))) (s_rk s)))
        (mkRhs (r_full (s_rhs s)) (mkHll [x] [x] [x] [x] junk : nf_T (Hll A)) (r_bw (s_rhs s)) (r_be (s_rhs s))).
Example C37_example : forall A p S c m (s : sim A (Hll A)) x, solver_new (Hll A) p S c m (state_new p S (cf_physics c)) = Ok s ->
  same_but_buffers p S (fun _ => True) s (used_buffers p S s x) /\ wss p S (s_u s).
Proof.
  intros A p S c m s x H. unfold solver_new in H. apply bind_Ok in H. destruct H as (rh & Hr & H). injection H as <-.
  unfold rhs_new in Hr. apply bind_Ok in Hr. destruct Hr as (nf & _ & Hr). injection Hr as <-.
  assert (Wn : wss p S (state_new p S (cf_physics c))) by (repeat split; try apply wsv_new; apply (wsv_new A p S (cf_physics c))).
  split; [|exact Wn]. split; [reflexivity|]. split; [reflexivity|]. split; [reflexivity|]. split; [reflexivity|].
  assert (Sz : shape (nE p) S (zeros2 (A:=A) (nE p) S)) by apply shape_zeros2.
  split; cbn [rk_bt s_rk rk_utilde used_buffers rk_set_k rk_set_utilde rkf_new r_nf r_full s_rhs r_bw r_be]; auto.
  - destruct Wn as (W1 & W2 & W3). split; [|split; assumption]. cbn [cent set_cent].
    apply wsv_set_cons; [apply wsv_set_prim; [exact W1|]|]; apply shape_mtab.
  - repeat split.
Qed.

(** C38: stepping never touches the face variables of the user's state. *)
Theorem C38_faces_untouched : forall A (N : numflux_impl A) p S m (s s' : sim A N),
  evolves p S m s s' -> west (s_u s') = west (s_u s) /\ east (s_u s') = east (s_u s).
Proof. exact evolves_faces. Qed.
Print Assumptions C38_faces_untouched.

Theorem C38_faces_untouched_run : forall A (N : numflux_impl A) fmt validation sched afuel fuel p S m (s : sim A N) wr w e o,
  run_loop (A:=A) (N:=N) fmt validation sched afuel fuel p S m s wr w = (e, o) ->
  west (s_u (e_sim e)) = west (s_u s) /\ east (s_u (e_sim e)) = east (s_u s).
Proof. intros. eapply evolves_faces. eapply run_evolves. eassumption. Qed.
Print Assumptions C38_faces_untouched_run.

(** [init_corries] gives both faces the primitive and conserved variables and
    the sound speed of the centre, and they keep them: after a run they still
    show the initial state. *)
Theorem C38_faces_initial : forall A (N : numflux_impl A) fmt validation meta banner sched osched init afuel fuel p S c w w' k wr w2 e o,
  init_corries (A:=A) (N:=N) validation meta banner sched init p S c w = (w', Ok k) ->
  run_loop fmt validation osched afuel fuel p S (c_mesh k) (c_sim k) wr w2 = (e, o) ->
  let start := cent (s_u (c_sim k)) in
  forall f, f = west (s_u (e_sim e)) \/ f = east (s_u (e_sim e)) ->
  prim f = prim start /\ cons f = cons start /\ c_sound f = c_sound start.
Proof.
  intros A N fmt validation meta banner sched osched init afuel fuel p S c w w' k wr w2 e o I E start f Hf.
  destruct (C38_faces_untouched_run _ _ _ _ _ _ _ _ _ _ _ _ _ _ _ E) as (Hw & He).
  assert (K : forall g, g = west (s_u (c_sim k)) \/ g = east (s_u (c_sim k)) -> prim g = prim start /\ cons g = cons start /\ c_sound g = c_sound start).
  { subst start. clear E Hw He Hf. unfold init_corries in I.
    destruct (cf_validate c) as [[]|x| |]; [|discriminate I..]. destruct (mesh_new validation S (cf_mesh c)) as [m|x| |]; [|discriminate I..].
    destruct (solver_new N p S c m (state_new p S (cf_physics c))) as [s|x| |]; [|discriminate I..].
    destruct (writer_new meta S c m w) as [w3 [wr3|x| |]]; [|discriminate I..]. cbv zeta in I.
    match type of I with context [writer_metadata ?a ?b ?c ?d] => destruct (writer_metadata a b c d) as [w4 [[]|x| |]] end; [|discriminate I..].
    destruct (init s m) as [s1 [[]|x| |]]; [|discriminate I..]. cbn [bind] in I.
    destruct (st_update_from_prim p S (r_bw (s_rhs s1)) (r_be (s_rhs s1)) m (s_u s1)) as [u|x| |]; [|discriminate I..]. cbn [bind] in I.
    injection I as <- <-. cbn [c_sim s_u init_west_east west east cent].
    intros g [->| ->]; cbn [vars_assign prim cons c_sound set_prim set_cons set_c_sound]; auto. }
  destruct Hf as [->| ->]; apply K; [left|right]; assumption.
Qed.
Print Assumptions C38_faces_initial.

(** The centre does change: after one KT step the centre differs from the
    faces, which still hold the initial data. *)
Example C38_example : forall bln bexp, let A := B64n bln bexp in
  demo_check (Kt A) true Adiab 8 (demo_cfg (A:=A) (CKt MinMod) RK1 false 100 (nQ A (4 # 10)))
    (tube 4 (vals 1 0 1) (vals (1 # 8) 0 (1 # 10)) bln bexp) 1
    (fun s => nltb A (at2 (n0 A) (cons (cent (s_u s))) 0 3) (at2 (n0 A) (cons (west (s_u s))) 0 3)) = true.
Proof. intros. vm_compute. reflexivity. Qed.
