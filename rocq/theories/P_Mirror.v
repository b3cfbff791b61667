(** C71: symmetric problems stay symmetric.  A state that is its own mirror
    image, between boundary conditions that are, stays its own mirror image in
    every step and in every output: exactly in exact arithmetic, and in doubles
    bit for bit up to the sign of zeros. *)

From Coq Require Import Reals ZArith NArith QArith List Bool Lia Lra String.
From Flocq Require Import Core BinarySingleNaN.
From Verif Require Import Base Num XReal B64 Config Mesh State NumFlux Time Writer Runner Spec SpecFlow SpecStep SpecEuler SpecInit SpecWall SpecMirror
  MeshProofs BoundaryProofs PhysicsProofs FluxProofs UpdateProofs StepProofs StepInv StepEq EulerThms MirrorProofs MirrorNum P_Init P_Wall.
Import ListNotations.
Local Open Scope nat_scope.

Section Gen.
Variable A : Num.
Variable eqv : nF A -> nF A -> Prop.
Variable nz : nF A -> Prop.
Hypothesis L : sign_laws A eqv nz.
Variables (p : phys) (S : nat) (c : config A).
Let m := mesh_build S (cf_mesh c).
Hypothesis HS : 6 <= S.
Hypothesis Hbc : cf_bc_west c = cf_bc_east c.
Hypothesis Heven : even_handed (m_is_logarithmic m) (nE p) (init_bc (cf_bc_west c) (nE p)).
Variable val : bool.

(** A flux scheme that keeps the symmetry in a step, if the faces are [even]. *)
Variable N : numflux_impl A.
Variable even : vars A -> vars A -> Prop.
Notation symm v := (mirror_symmetric eqv p S v).
Notation reach s := (reached (N:=N) p S c m (fun _ => True) s).
Hypothesis Heven0 : forall v w e, symm v -> even (vars_assign w v) (vars_assign e v).
Hypothesis Hstep : forall fuel (s s' : sim A N), reach s -> even (west (s_u s)) (east (s_u s)) -> symm (cent (s_u s)) ->
  solver_next val fuel p S m s = (s', Ok tt) -> symm (cent (s_u s')).
Let HS5 : 5 <= S := Nat.lt_le_incl _ _ HS.
Notation fine s := (even (west (s_u s)) (east (s_u s))).

Lemma even_next : forall (s s' : sim A N) v fuel o, fine s -> solver_next v fuel p S m s = (s', o) -> fine s'.
Proof.
  intros s s' v fuel o F H.
  assert (Ev : evolves p S m s s') by (eapply ev_step; [apply ev_refl|exact H]).
  destruct (evolves_faces A N p S m s s' Ev) as (-> & ->). exact F.
Qed.

Lemma reach_next : forall (s s' : sim A (N)) v fuel o, reach s -> solver_next v fuel p S m s = (s', o) -> reach s'.
Proof. intros s s' v fuel o (u0 & s0 & P & N0 & G & Ev) H. exists u0, s0. repeat match goal with |- _ /\ _ => split end; auto. eapply ev_step; eauto. Qed.
Lemma reach_time : forall (s : sim A (N)) ts, reach s -> reach (mkSim ts (s_u s) (s_rk s) (s_rhs s)).
Proof. intros s ts (u0 & s0 & P & N0 & G & Ev). exists u0, s0. repeat match goal with |- _ /\ _ => split end; auto. apply ev_time. exact Ev. Qed.

Lemma symm_steps : forall fuel n s s', reach s -> fine s -> symm (cent (s_u s)) -> next_n (N:=N) val fuel p S m n s = (s', Ok tt) -> symm (cent (s_u s')).
Proof.
  intros fuel n. induction n as [|n IH]; intros s s' R Fs T H; cbn [next_n] in H; [injection H as <-; exact T|].
  destruct (solver_next val fuel p S m s) as [s1 o] eqn:E. destruct o as [[]|e| |]; try discriminate H.
  exact (IH s1 s' (reach_next _ _ _ _ _ R E) (even_next _ _ _ _ _ Fs E) (Hstep _ _ _ R Fs T E) H).
Qed.

Lemma symm_run : forall fmt sched afuel fuel s wr w e o, reach s -> fine s -> symm (cent (s_u s)) ->
  run_loop (N:=N) fmt val sched afuel fuel p S m s wr w = (e, o) ->
  (forall ts v, In (ts, v) (e_trace e) -> ts_kind ts <> KErrorDump -> symm v) /\
  (o = Ok tt -> symm (cent (s_u (e_sim e))) /\ forall ts v, In (ts, v) (e_trace e) -> symm v).
Proof.
  intros fmt sched afuel fuel. induction fuel as [|fuel IH]; intros s wr w e o B Fs T H; cbn [run_loop] in H.
  - injection H as <- <-. cbn [e_trace]. split; [intros ts v []|discriminate].
  - destruct (run_output fmt sched m s wr w) as [[[[s1 wr1] w1] tr] r] eqn:E.
    assert (E1 : reach s1 /\ s_u s1 = s_u s /\ forall ts v, In (ts, v) tr -> v = cent (s_u s)).
    { unfold run_output in E. destruct (nleb A _ _) in E.
      - destruct (do_output fmt sched m _ wr w) as [[wr2 w2] r2] in E. injection E as <- <- <- <- <-.
        split; [apply reach_time; exact B|]. split; [reflexivity|]. intros ts v [X|[]]. injection X as <- <-. reflexivity.
      - injection E as <- <- <- <- <-. split; [exact B|]. split; [reflexivity|]. intros ts v []. }
    destruct E1 as (B1 & U1 & Tr).
    assert (Tt : forall ts v, In (ts, v) tr -> symm v) by (intros ts v X; rewrite (Tr ts v X); exact T).
    assert (T1 : symm (cent (s_u s1))) by (rewrite U1; exact T).
    assert (F1 : fine s1) by (rewrite U1; exact Fs).
    destruct r as [[]|er| |]; [|injection H as <- <-; cbn [e_trace]; split; [intros ts v X _; exact (Tt ts v X)|discriminate]..].
    destruct (nleb A _ _) in H; [injection H as <- <-; cbn [e_trace e_sim]; split; [intros ts v X _; exact (Tt ts v X)|intros _; split; [exact T1|exact Tt]]|].
    destruct (solver_next val afuel p S m s1) as [s2 r2] eqn:E2.
    destruct r2 as [[]|er| |].
    + destruct (run_loop fmt val sched afuel fuel p S m s2 wr1 w1) as [e' r'] eqn:E4. injection H as <- <-.
      destruct (IH s2 wr1 w1 e' r' (reach_next _ _ _ _ _ B1 E2) (even_next _ _ _ _ _ F1 E2) (Hstep _ _ _ B1 F1 T1 E2) E4) as (I1 & I2). cbn [e_trace e_sim]. split.
      * intros ts v X K. apply in_app_or in X. destruct X as [X|X]; [exact (Tt ts v X)|exact (I1 ts v X K)].
      * intros O. destruct (I2 O) as (I3 & I4). split; [exact I3|]. intros ts v X. apply in_app_or in X. destruct X as [X|X]; [exact (Tt ts v X)|exact (I4 ts v X)].
    + destruct (do_output fmt sched m _ wr1 w1) as [[wr2 w2] r2] in H. injection H as <- <-. cbn [e_trace]. split.
      * intros ts v X K. apply in_app_or in X. destruct X as [X|[X|[]]]; [exact (Tt ts v X)|]. injection X as <- <-. exfalso. apply K. reflexivity.
      * intros O. destruct r2; discriminate O.
    + injection H as <- <-. cbn [e_trace]. split; [intros ts v X _; exact (Tt ts v X)|discriminate].
    + injection H as <- <-. cbn [e_trace]. split; [intros ts v X _; exact (Tt ts v X)|discriminate].
Qed.

Lemma symm_init : forall v meta banner sched init w w' k, fills_state p S init -> symmetric_start eqv nz p S init ->
  init_corries (N:=N) v meta banner sched init p S c w = (w', Ok k) -> c_mesh k = m /\ reach (c_sim k) /\ fine (c_sim k) /\ symm (cent (s_u (c_sim k))).
Proof.
  intros v meta banner sched init w w' k Hi Hsy H. unfold init_corries in H.
  destruct (cf_validate c) as [[]|e| |] eqn:Ec; try discriminate.
  destruct (mesh_new v S (cf_mesh c)) as [m0|e| |] eqn:Em; try discriminate.
  assert (E0 : m0 = m).
  { unfold mesh_new in Em. destruct (S <? 4)%nat; [discriminate|]. apply bind_Ok in Em. destruct Em as (_ & _ & Em). injection Em as <-. reflexivity. }
  subst m0.
  destruct (solver_new (N) p S c m (state_new p S (cf_physics c))) as [s|e| |] eqn:Es; try discriminate.
  destruct (writer_new meta S c m w) as [w1 r1]. destruct r1 as [wr|e| |]; try discriminate.
  destruct (writer_metadata (wr_meta wr) sched (wr_outputs wr) _) as [w2 r2]. destruct r2 as [[]|e| |]; try discriminate.
  destruct (init s m) as [s1 r3] eqn:Ei. apply pair_equal_spec in H. destruct H as (_ & H).
  destruct r3 as [[]|e| |]; try discriminate. cbn [bind] in H. apply bind_Ok in H. destruct H as (u1 & Hu & H). injection H as <-.
  cbn [c_mesh c_sim]. split; [reflexivity|].
  destruct (Hi s m s1 Ei) as (Rk & Rh & Ws & Gs). 
  unfold solver_new in Es. apply bind_Ok in Es. destruct Es as (rh & Enf & Es). injection Es as <-. cbn [s_u s_rk s_rhs] in *.
  assert (P0 : prepared p S c (state_new p S (cf_physics c))).
  { split; [|repeat split]. split; [|split]; apply wsv_new. }
  destruct P0 as (W0 & G0). pose proof (fun sx => Hsy sx m s1) as Hsy1. specialize (Hsy1 (mkSim (ts_new (cf_numerics c) (cf_output_max c)) (state_new p S (cf_physics c)) (rkf_new p S c) rh) W0 Ei). destruct Hsy1 as (Y1 & Y2 & Y3). specialize (Ws W0). destruct Ws as (W1 & W2 & W3). destruct G0 as (G1 & G2 & G3). destruct Gs as (H1 & H2 & H3).
  unfold st_update_from_prim in Hu. apply bind_Ok in Hu. destruct Hu as (x & Hv & Hu). injection Hu as <-.
  destruct (update_from_prim_view A p S _ _ m _ x HS5 W1 Hv) as (W & G & _).
  assert (Sy : symm x).
  { clear G W. rewrite Rh in Hv. unfold rhs_new in Enf. destruct (nf_new N p S (nc_numflux (cf_numerics c)) m) as [n|e| |]; try discriminate Enf. cbn [bind] in Enf. injection Enf as <-.
    cbn [r_bw r_be] in Hv. rewrite <- Hbc in Hv.
    exact (proj1 (from_prim_mirror A eqv nz L p S (cf_mesh c) _ HS Heven _ x W1 Y1 Y2 Y3 Hv)). }
  split; [|split; [cbn [s_u init_west_east west east cent set_cent]; apply Heven0; exact Sy|cbn [s_u init_west_east cent set_cent]; exact Sy]].
  exists (init_west_east (set_cent x (s_u s1))). eexists (mkSim (ts_new (cf_numerics c) (cf_output_max c)) _ (rkf_new p S c) rh).
    split; [|split; [|split]].
    + unfold prepared, wss. cbn [init_west_east set_cent cent west east gamma vars_assign set_prim set_cons set_c_sound].
      split; [|split; [congruence|split; congruence]].
      split; [exact W|]. split; apply wsv_assign; assumption.
    + unfold solver_new. rewrite Enf. reflexivity.
    + exact Logic.I.
    + rewrite Rk, Rh. apply (ev_time _ _ _ _ _ _ (mkSim (ts_new (cf_numerics c) (cf_output_max c)) (init_west_east (set_cent x (s_u s1))) (rkf_new p S c) rh)).
      apply ev_refl.
Qed.
End Gen.

(** HLL: the faces do not matter. *)
Lemma hll_symm_next : forall A eqv nz (L : sign_laws A eqv nz) p S (c : config A) val fuel (s s' : sim A (Hll A)), 6 <= S -> cf_bc_west c = cf_bc_east c ->
  even_handed (m_is_logarithmic (mesh_build S (cf_mesh c))) (nE p) (init_bc (cf_bc_west c) (nE p)) -> val = true \/ (forall x, nz x) ->
  reached p S c (mesh_build S (cf_mesh c)) (fun _ => True) s -> mirror_symmetric eqv p S (cent (s_u s)) ->
  solver_next val fuel p S (mesh_build S (cf_mesh c)) s = (s', Ok tt) -> mirror_symmetric eqv p S (cent (s_u s')).
Proof.
  intros A eqv nz L p S c val fuel s s' HS Hbc Heven HV R (_ & C & Q) E. apply solver_next_rkf in E. destruct E as (o & E & [(<- & _)|(X & _)]); [|discriminate X].
  assert (HS5 : 5 <= S) by lia.
  destruct (reached_ok A (Hll A) p S _ (fun _ => True) HS5 (hll_memoryless A p S _ HS5 (std_build A S (cf_mesh c))) c s R) as (Ok0 & _ & _ & _ & Bw & Be). rewrite <- Hbc in Be.
  refine (hll_next_mirror A eqv nz L p S (cf_mesh c) _ HS Heven val fuel s s' HV Ok0 Bw Be _ _ E).
  - apply (rows_inner A eqv p S HS). exact C.
  - intros _. exact Q.
Qed.

(** ** Doubles *)
Theorem C71_symmetric_b64 : forall bln bexp, let A := B64n bln bexp in
  forall meta banner isched init p S (c : config A) w w' k, 6 <= S ->
  cf_bc_west c = cf_bc_east c -> even_handed (m_is_logarithmic (mesh_build S (cf_mesh c))) (nE p) (init_bc (cf_bc_west c) (nE p)) ->
  fills_state p S init -> symmetric_start (A:=A) (N:=Hll A) same_number nonzero p S init ->
  init_corries (A:=A) (N:=Hll A) true meta banner isched init p S c w = (w', Ok k) ->
  mirror_symmetric (A:=A) same_number p S (cent (s_u (c_sim k))) /\
  (forall fuel n s, next_n true fuel p S (c_mesh k) n (c_sim k) = (s, Ok tt) -> mirror_symmetric (A:=A) same_number p S (cent (s_u s))) /\
  forall fmt sched afuel fuel w2 e o,
  run_loop fmt true sched afuel fuel p S (c_mesh k) (c_sim k) (c_writer k) w2 = (e, o) ->
  (forall ts v, In (ts, v) (e_trace e) -> ts_kind ts <> KErrorDump -> mirror_symmetric (A:=A) same_number p S v) /\
  (o = Ok tt -> mirror_symmetric (A:=A) same_number p S (cent (s_u (e_sim e))) /\ forall ts v, In (ts, v) (e_trace e) -> mirror_symmetric (A:=A) same_number p S v).
Proof.
  intros bln bexp A meta banner isched init p S c w w' k HS Hbc He Hf Hsy H.
  assert (Hst : forall fuel (s s' : sim A (Hll A)), reached p S c (mesh_build S (cf_mesh c)) (fun _ => True) s -> True -> mirror_symmetric (A:=A) same_number p S (cent (s_u s)) ->
    solver_next true fuel p S (mesh_build S (cf_mesh c)) s = (s', Ok tt) -> mirror_symmetric (A:=A) same_number p S (cent (s_u s')))
    by (intros fuel s s' R _ T E; exact (hll_symm_next A same_number nonzero (b64_laws bln bexp) p S c true fuel s s' HS Hbc He (or_introl eq_refl) R T E)).
  destruct (symm_init A same_number nonzero (b64_laws bln bexp) p S c HS Hbc He (Hll A) (fun _ _ => True) (fun _ _ _ _ => Logic.I) true meta banner isched init w w' k Hf Hsy H) as (Em & R & Fs & T).
  rewrite Em. split; [exact T|]. split.
  - intros fuel n s E. exact (symm_steps A same_number p S c true (Hll A) (fun _ _ => True) Hst fuel n _ s R Fs T E).
  - intros fmt sched afuel fuel w2 e o E. exact (symm_run A same_number p S c true (Hll A) (fun _ _ => True) Hst fmt sched afuel fuel _ _ _ e o R Fs T E).
Qed.
Print Assumptions C71_symmetric_b64.

(** ** Exact arithmetic: whatever the densities and with or without validation. *)
Theorem C71_symmetric : forall meta banner isched init p S (c : config XRn) validation w w' k, 6 <= S ->
  cf_bc_west c = cf_bc_east c -> even_handed (m_is_logarithmic (mesh_build S (cf_mesh c))) (nE p) (init_bc (cf_bc_west c) (nE p)) ->
  fills_state p S init -> symmetric_start (A:=XRn) (N:=Hll XRn) eq (fun _ => True) p S init ->
  init_corries (A:=XRn) (N:=Hll XRn) validation meta banner isched init p S c w = (w', Ok k) ->
  mirror_symmetric (A:=XRn) eq p S (cent (s_u (c_sim k))) /\
  (forall fuel n s, next_n validation fuel p S (c_mesh k) n (c_sim k) = (s, Ok tt) -> mirror_symmetric (A:=XRn) eq p S (cent (s_u s))) /\
  forall fmt sched afuel fuel w2 e o,
  run_loop fmt validation sched afuel fuel p S (c_mesh k) (c_sim k) (c_writer k) w2 = (e, o) ->
  (forall ts v, In (ts, v) (e_trace e) -> ts_kind ts <> KErrorDump -> mirror_symmetric (A:=XRn) eq p S v) /\
  (o = Ok tt -> mirror_symmetric (A:=XRn) eq p S (cent (s_u (e_sim e))) /\ forall ts v, In (ts, v) (e_trace e) -> mirror_symmetric (A:=XRn) eq p S v).
Proof.
  intros meta banner isched init p S c validation w w' k HS Hbc He Hf Hsy H. pose proof xr_laws as LW.
  assert (HV : validation = true \/ forall x : nF XRn, True) by (right; intros; exact Logic.I).
  assert (Hst : forall fuel (s s' : sim XRn (Hll XRn)), reached p S c (mesh_build S (cf_mesh c)) (fun _ => True) s -> True -> mirror_symmetric (A:=XRn) eq p S (cent (s_u s)) ->
    solver_next validation fuel p S (mesh_build S (cf_mesh c)) s = (s', Ok tt) -> mirror_symmetric (A:=XRn) eq p S (cent (s_u s')))
    by (intros fuel s s' R _ T E; exact (hll_symm_next XRn eq (fun _ => True) LW p S c validation fuel s s' HS Hbc He HV R T E)).
  destruct (symm_init XRn eq (fun _ => True) LW p S c HS Hbc He (Hll XRn) (fun _ _ => True) (fun _ _ _ _ => Logic.I) validation meta banner isched init w w' k Hf Hsy H) as (Em & R & Fs & T).
  rewrite Em. split; [exact T|]. split.
  - intros fuel n s E. exact (symm_steps XRn eq p S c validation (Hll XRn) (fun _ _ => True) Hst fuel n _ s R Fs T E).
  - intros fmt sched afuel fuel w2 e o E. exact (symm_run XRn eq p S c validation (Hll XRn) (fun _ _ => True) Hst fmt sched afuel fuel _ _ _ e o R Fs T E).
Qed.
Print Assumptions C71_symmetric.

(** ** The Noh problem is symmetric: both doubles and exact numbers, every even
    number of cells. *)
Lemma noh_fills : forall A (N : numflux_impl A) p S, fills_state (N:=N) p S (on_state (init_noh p S)).
Proof.
  intros A N p S s m s' H. unfold on_state in H.
  destruct (init_noh p S (s_u s)) as [u r] eqn:E. apply pair_equal_spec in H. destruct H as (<- & ->).
  cbn [s_rk s_rhs s_u]. split; [reflexivity|]. split; [reflexivity|]. unfold init_noh in E. apply pair_equal_spec in E. destruct E as (<- & _).
  split; [|destruct p; repeat split]. intros ((W1 & W2 & W3 & W4 & W5) & Wo).
  destruct p; (split; [|exact Wo]); cbn [set_cent cent]; unfold wsv; cbn [set_prim set_c_sound prim cons eigen_vals flux c_sound];
    (split; [|repeat match goal with |- _ /\ _ => split end; auto; apply repeat_length]); repeat (apply P_Init.shape_row; [|first [apply repeat_length|apply length_tab]]); exact W1.
Qed.

Section NohSym.
Variable A : Num.
Variable eqv : nF A -> nF A -> Prop.
Variable nz : nF A -> Prop.
Hypothesis Rf : forall x, eqv x x.

Lemma noh_symmetric : forall (N : numflux_impl A) p S h, S = 2 * h -> 3 <= h -> breakpoint A S = Nat.div S 2 -> nz (n1 A) ->
  eqv (n1 A) (nneg A (nZ A (-1))) -> eqv (nZ A (-1)) (nneg A (n1 A)) ->
  symmetric_start (N:=N) eqv nz p S (on_state (init_noh p S)).
Proof.
  intros N p S h ES Hh B Hnz E1 E2 s m s' W H. unfold on_state in H.
  destruct (init_noh p S (s_u s)) as [u r] eqn:E. apply pair_equal_spec in H. destruct H as (<- & ->).
  cbn [s_u]. unfold init_noh in E. apply pair_equal_spec in E. destruct E as (<- & _). rewrite B.
  destruct W as (((LZ & _) & _) & _). assert (Hd : Nat.div S 2 = h) by (rewrite ES, Nat.mul_comm; apply Nat.div_mul; lia). rewrite Hd.
  assert (P : forall j i, j < nE p -> i < S -> at2 (n0 A) (prim (cent (set_cent
      match p with
      | Isot => set_c_sound (repeat (n1 A) S) (set_prim (upd JXI (tab S (fun i0 => if i0 <? h then n1 A else nZ A (-1))) (upd JRHO (repeat (n1 A) S) (prim (cent (s_u s))))) (cent (s_u s)))
      | Adiab => set_prim (upd 2 (repeat (nQ A (1 # 100000)) S) (upd JXI (tab S (fun i0 => if i0 <? h then n1 A else nZ A (-1))) (upd JRHO (repeat (n1 A) S) (prim (cent (s_u s)))))) (cent (s_u s))
      end (s_u s)))) j i = noh_prim A S j i).
  { intros j i Hj Hi. destruct p; cbn [set_cent cent set_prim set_c_sound prim].
    + rewrite !P_Init.at_row by (rewrite ?length_upd, LZ; unfold JRHO, JXI; cbn [nE]; lia). destruct j as [|[|j]]; cbn [Nat.eqb JRHO JXI noh_prim]; [| |cbn in Hj; lia].
      * apply P_Init.nth_repeat_lt; exact Hi.
      * rewrite Hd. apply (nth_tab (nF A) S (fun i0 => if i0 <? h then n1 A else nZ A (-1))); exact Hi.
    + rewrite !P_Init.at_row by (rewrite ?length_upd, LZ; unfold JRHO, JXI; cbn [nE]; lia). destruct j as [|[|[|j]]]; cbn [Nat.eqb JRHO JXI noh_prim]; [| | |cbn in Hj; lia].
      * apply P_Init.nth_repeat_lt; exact Hi.
      * rewrite Hd. apply (nth_tab (nF A) S (fun i0 => if i0 <? h then n1 A else nZ A (-1))); exact Hi.
      * apply P_Init.nth_repeat_lt; exact Hi. }
  split; [|split].
  - intros j i Hj Hi. rewrite !P by lia. unfold flip. destruct j as [|[|j]]; cbn [noh_prim Nat.eqb]; try apply Rf. rewrite Hd.
    destruct (Nat.ltb_spec i h), (Nat.ltb_spec (S - 1 - i) h); try lia; assumption.
  - intros -> i Hi. cbn [set_cent cent set_c_sound c_sound]. unfold at1. rewrite !P_Init.nth_repeat_lt by lia. apply Rf.
  - intros i Hi. rewrite P; [exact Hnz|destruct p; cbn; lia|lia].
Qed.
End NohSym.

(** The shipped Noh problem on an even number of cells, with boundary
    conditions that copy: a symmetric run, in doubles up to the sign of zeros. *)
Lemma copying_even : forall l E, even_handed l E (init_bc BNoGradients E).
Proof.
  intros l E. split.
  - intros j Hj. unfold init_bc. rewrite map_map. cbn [fst]. rewrite map_id. apply in_seq. lia.
  - intros j md H. unfold init_bc in H. apply in_map_iff in H. destruct H as (x & H & _). injection H as <- <-. left. reflexivity.
Qed.

Theorem C71_noh_b64 : forall bln bexp, let A := B64n bln bexp in
  forall meta banner isched p h (c : config A) w w' k, 3 <= h -> (2 * Z.of_nat h < 2 ^ 53)%Z ->
  cf_bc_west c = BNoGradients -> cf_bc_east c = BNoGradients ->
  init_corries (A:=A) (N:=Hll A) true meta banner isched (on_state (init_noh p (2 * h))) p (2 * h) c w = (w', Ok k) ->
  forall fmt sched afuel fuel w2 e o,
  run_loop fmt true sched afuel fuel p (2 * h) (c_mesh k) (c_sim k) (c_writer k) w2 = (e, o) ->
  (forall ts v, In (ts, v) (e_trace e) -> ts_kind ts <> KErrorDump -> mirror_symmetric (A:=A) same_number p (2 * h) v) /\
  (o = Ok tt -> mirror_symmetric (A:=A) same_number p (2 * h) (cent (s_u (e_sim e)))).
Proof.
  intros bln bexp A meta banner isched p h c w w' k Hh Hb Bw Be H fmt sched afuel fuel w2 e o R.
  assert (Y : symmetric_start (A:=A) (N:=Hll A) same_number nonzero p (2 * h) (on_state (init_noh p (2 * h)))).
  { apply (noh_symmetric A same_number nonzero (fun x => or_introl eq_refl) (Hll A) p (2 * h) h eq_refl Hh).
    - apply C53_breakpoint_b64. lia.
    - exact Logic.I.
    - left. apply B2SF_inj. vm_compute. reflexivity.
    - left. apply B2SF_inj. vm_compute. reflexivity. }
  assert (Ev : even_handed (m_is_logarithmic (mesh_build (2 * h) (cf_mesh c))) (nE p) (init_bc (cf_bc_west c) (nE p))) by (rewrite Bw; apply copying_even).
  destruct (C71_symmetric_b64 bln bexp meta banner isched (on_state (init_noh p (2 * h))) p (2 * h) c w w' k ltac:(clear - Hh; lia) (eq_trans Bw (eq_sym Be))
    Ev (noh_fills A (Hll A) p (2 * h)) Y H) as (_ & _ & T).
  destruct (T fmt sched afuel fuel w2 e o R) as (T1 & T2). split; [exact T1|]. intros E. exact (proj1 (T2 E)).
Qed.
Print Assumptions C71_noh_b64.

(** Not vacuous: ten cells, isothermal, validated; the run ends, the colliding
    gas has piled up in the middle and the state is symmetric bit for bit. *)
Section Demo.
Variable bln : b64 -> b64.
Variable bexp : b64 -> b64.
Let A : Num := B64n bln bexp.

Definition noh_cfg (bw be : bmode) : config A :=
  mkCfg false (mkMC (A:=A) Cartesian (n1 A) (nZ A 2)) (mkPC (A:=A) (nQ A (14 # 10)) SI) bw be
    (mkNC (A:=A) CHll (mkRC (A:=A) RK1 false (nQ A (1 # 100)) (nQ A (1 # 1000)) (nQ A (8 # 100))) 100%N (n0 A) (nQ A (1 # 20))
       (nQ A (1 # 1000000)) (nZ A 1000) (nQ A (4 # 10)))
    1%N [].

Definition noh_run (fmt : nat -> nF A -> string) (w : world) : option (vars A) :=
  match init_corries (N:=Hll A) true (fun _ => EmptyString) EmptyString [] (on_state (init_noh Isot (2 * 5))) Isot (2 * 5) (noh_cfg BNoGradients BNoGradients) w with
  | (_, Ok k) =>
      match run_loop fmt true (fun _ => []) 0 3 Isot (2 * 5) (c_mesh k) (c_sim k) (c_writer k) w with
      | (e, Ok _) => Some (cent (s_u (e_sim e)))
      | _ => None
      end
  | _ => None
  end.
End Demo.

Example C71_noh_case : forall bln bexp fmt w, let A := B64n bln bexp in
  match noh_run bln bexp fmt w with
  | Some v => nltb A (nQ A (12 # 10)) (at2 (n0 A) (prim v) 0 4) && nltb A (nQ A (12 # 10)) (at2 (n0 A) (prim v) 0 5)
  | None => false
  end = true.
Proof. intros. vm_compute. reflexivity. Qed.

(** ** The outflow condition is not even-handed: with it on both sides of a
    resting, uniform gas, the state after the first update of the boundaries is
    not symmetric: on the west side the density of the ghost cells is reflected
    to -1, on the east side it is copied. *)
Definition rest_init {A : Num} (p : phys) (S : nat) {N : numflux_impl A} (s : sim A N) (m : mesh A) : sim A N * res unit :=
  (mkSim (s_ts s) (set_cent (set_c_sound (repeat (n1 A) S) (set_prim (mtab (nE p) S (fun j _ => if (j =? 1)%nat then n0 A else n1 A)) (cent (s_u s)))) (s_u s)) (s_rk s) (s_rhs s), Ok tt).

Definition rest_dens {A : Num} (p : phys) (S : nat) (c : config A) (w : world) : option (nF A * nF A) :=
  match init_corries (N:=Hll A) true (fun _ => EmptyString) EmptyString [] (rest_init p S) p S c w with
  | (_, Ok k) => let v := cent (s_u (c_sim k)) in Some (at2 (n0 A) (prim v) 0 1, at2 (n0 A) (prim v) 0 (S - 2))
  | _ => None
  end.

Lemma rest_ok : forall A p S (c : config A) w (P : nF A -> nF A -> Prop),
  match rest_dens p S c w with Some (x, y) => P x y | None => False end ->
  exists w' k, init_corries (N:=Hll A) true (fun _ => EmptyString) EmptyString [] (rest_init p S) p S c w = (w', Ok k) /\
    P (at2 (n0 A) (prim (cent (s_u (c_sim k)))) 0 1) (at2 (n0 A) (prim (cent (s_u (c_sim k)))) 0 (S - 2)).
Proof.
  intros A p S c w P H. unfold rest_dens in H.
  destruct (init_corries (N:=Hll A) true (fun _ => EmptyString) EmptyString [] (rest_init p S) p S c w) as [w' [k|x| |]]; [|destruct H|destruct H|destruct H].
  exists w', k. split; [reflexivity|exact H].
Qed.

Theorem C71_outflow_refuted : forall bln bexp w, let A := B64n bln bexp in
  exists (c : config A) w' k, cf_bc_west c = cf_bc_east c /\ fills_state (A:=A) (N:=Hll A) Isot 8 (rest_init Isot 8) /\
  symmetric_start (A:=A) (N:=Hll A) same_number nonzero Isot 8 (rest_init Isot 8) /\
  init_corries (A:=A) (N:=Hll A) true (fun _ => EmptyString) EmptyString [] (rest_init Isot 8) Isot 8 c w = (w', Ok k) /\
  at2 (n0 A) (prim (cent (s_u (c_sim k)))) 0 1 = nZ A (-1) /\ at2 (n0 A) (prim (cent (s_u (c_sim k)))) 0 6 = n1 A /\
  ~ mirror_symmetric (A:=A) same_number Isot 8 (cent (s_u (c_sim k))).
Proof.
  intros bln bexp w A. set (b := BCustom [(0, OutflowNoGradients); (1, OutflowNoGradients)]).
  exists (noh_cfg bln bexp b b).
  destruct (rest_ok A Isot 8 (noh_cfg bln bexp b b) w (fun x y => B2SF (x : b64) = B2SF (nZ A (-1) : b64) /\ B2SF (y : b64) = B2SF (n1 A : b64))
    ltac:(vm_compute; split; reflexivity)) as (w' & k & E & D1 & D2).
  apply B2SF_inj in D1. apply B2SF_inj in D2. cbn [Nat.sub] in D2. exists w', k.
  split; [reflexivity|]. split.
  { intros s m s' H. unfold rest_init in H. apply pair_equal_spec in H. destruct H as (<- & _). cbn [s_rk s_rhs s_u].
    split; [reflexivity|]. split; [reflexivity|]. split; [|repeat split]. intros ((W1 & W2 & W3 & W4 & W5) & Wo). split; [|exact Wo].
    cbn [set_cent cent]. unfold wsv. cbn [set_prim set_c_sound prim cons eigen_vals flux c_sound].
    split; [apply shape_mtab|]. repeat match goal with |- _ /\ _ => split end; auto; apply repeat_length. }
  split.
  { intros s m s' W H. unfold rest_init in H. apply pair_equal_spec in H. destruct H as (<- & _). cbn [s_u set_cent cent set_c_sound c_sound set_prim prim].
    split; [|split].
    - intros j i Hj Hi. rewrite !at2_mtab by (cbn [nE] in *; lia). unfold flip. destruct j as [|[|j]]; cbn [Nat.eqb]; [left; reflexivity| |left; reflexivity].
      right. repeat split.
    - intros _ i Hi. left. unfold at1. rewrite !P_Init.nth_repeat_lt by lia. reflexivity.
    - intros i Hi. rewrite at2_mtab by (cbn [nE]; lia). exact Logic.I. }
  split; [exact E|]. split; [exact D1|]. split; [exact D2|].
  intros (Q & _). specialize (Q 0 1 ltac:(cbn; lia) ltac:(lia)). cbn [Nat.sub] in Q. unfold flip in Q. cbn [Nat.eqb] in Q.
  assert (X : same_number (nZ A (-1)) (n1 A)).
  { rewrite <- D1, <- D2. exact Q. }
  clear - X. unfold A in X. cbn [nZ n1 B64n] in X.
  assert (Y : B2R (b_ofZ (-1)) = B2R (b_ofZ 1)) by (destruct X as [X|(_ & _ & X)]; [f_equal; exact X|exact X]).
  assert (Z : Bltb (b_ofZ (-1)) (b_ofZ 1) = true) by (vm_compute; reflexivity).
  rewrite Bltb_correct in Z by reflexivity. rewrite Y, Rlt_bool_false in Z by lra. discriminate Z.
Qed.
Print Assumptions C71_outflow_refuted.
