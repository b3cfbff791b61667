(** C26, continued: with the validation feature a completed step also leaves
    finite wave speeds and finite numerical fluxes, those its last stage was
    computed with. *)

From Coq Require Import Reals ZArith NArith QArith List Bool Lia String.
From Verif Require Import Base Num XReal B64 Config Mesh State NumFlux Time Writer Runner Spec SpecFlow SpecStep
  ConfigProofs MeshProofs BoundaryProofs PhysicsProofs FluxProofs UpdateProofs FluxThms StepProofs StepInv StepEq StepVal Demo.
Import ListNotations.
Local Open Scope nat_scope.

Section Last.
Variable A : Num.
Variable N : numflux_impl A.
Variables (p : phys) (S : nat) (m : mesh A).

(** What every successful evaluation of the right-hand side leaves behind is
    there after a successful step. *)
Variable P : nf_T N -> Prop.
Hypothesis HP : forall s d u s' d' u', nf_calc N true p S s d u m = (s', d', u', Ok tt) -> P s'.

Lemma upd_P : forall (h : rhs A N) u h' u', rhs_update true p S h u m = (h', u', Ok tt) -> P (r_nf h').
Proof.
  intros h u h' u' H. destruct (rhs_update_Ok _ _ _ _ _ _ _ _ _ _ _ H) as [(u1 & nf & full & _ & E & ->)|[(_ & _ & _ & X)|[(e & _ & _ & _ & X)|(_ & _ & _ & X)]]]; try discriminate X.
  exact (HP _ _ _ _ _ _ E).
Qed.

Lemma stages_P : forall dt u qs k (h : rhs A N) k' h',
  rkf_stages true p S m dt u qs k h = (k', h', Ok tt) -> P (r_nf h) \/ qs <> [] -> P (r_nf h').
Proof.
  intros dt u qs. induction qs as [|q qs IH]; intros k h k' h' H Hc; cbn [rkf_stages] in H.
  - injection H as <- <-. destruct Hc as [Hc|Hc]; [exact Hc|contradiction].
  - match type of H with context [rhs_update true p S h ?x m] => destruct (rhs_update true p S h x m) as [[h1 u1] o1] eqn:E end.
    destruct o1 as [[]|e| |]; try discriminate. eapply IH; [exact H|left; exact (upd_P _ _ _ _ E)].
Qed.

Lemma calc_P : forall dt u k (h : rhs A N) k' h' x, 0 < bt_order (rk_bt k) ->
  calc_rkf_solution true p S dt u k h m = (k', h', Ok x) -> P (r_nf h').
Proof.
  intros dt u k h k' h' x Ho H. unfold calc_rkf_solution in H.
  match type of H with context [rkf_stages true p S m dt u ?q ?r h] => destruct (rkf_stages true p S m dt u q r h) as [[k1 h1] o1] eqn:E end.
  destruct o1 as [[]|e| |]; try discriminate.
  assert (P (r_nf h1)) as H1.
  { eapply stages_P; [exact E|right]. destruct (bt_order (rk_bt k)); [lia|discriminate]. }
  match type of H with context [if rk_accepted ?r then ?a else ?b] => destruct (if rk_accepted r then a else b) as [k2 dt2] end.
  destruct (rkf_validate k2) as [[]|e| |]; try discriminate. injection H as <- <- <-. exact H1.
Qed.

Lemma next_P : forall fuel (s s' : sim A N), 0 < bt_order (rk_bt (s_rk s)) ->
  rkf_next true fuel p S m s = (s', Ok tt) -> P (r_nf (s_rhs s')).
Proof.
  intros fuel s s' Ho H. unfold rkf_next in H.
  destruct (calc_dt_expl p S (ts_set_iter (ts_iter (s_ts s) + 1)%N (s_ts s)) (s_u s) m) as [ts1 o1].
  destruct o1 as [[]|e| |]; try discriminate.
  destruct (rkf_asc true fuel p S (cap_dt ts1) (s_u s) (s_rk s) (s_rhs s) m) as [[[ts2 rk2] rh2] o2] eqn:E2.
  destruct o2 as [[]|e| |]; try discriminate.
  apply rkf_asc_static in E2. destruct E2 as ((B & _) & _).
  destruct (calc_rkf_solution true p S (ts_dt ts2) (s_u s) rk2 rh2 m) as [[rk3 rh3] o3] eqn:E3.
  destruct o3 as [x|e| |]; try discriminate. apply calc_P in E3; [|rewrite B; exact Ho].
  match type of H with context [match st_update_from_cons ?a ?b ?c ?d ?e ?f with _ => _ end] => destruct (st_update_from_cons a b c d e f) as [u'|er| |] end; try discriminate.
  destruct (state_validate u') as [[]|e| |]; try discriminate. injection H as <-. exact E3.
Qed.
End Last.

Lemma solver_next_P : forall A (N : numflux_impl A) p S m (P : nf_T N -> Prop),
  (forall s d u s' d' u', nf_calc N true p S s d u m = (s', d', u', Ok tt) -> P s') ->
  forall (c : rkf_config A) s0 s fuel s', rk_bt (s_rk s0) = bt_new c -> evolves p S m s0 s ->
  solver_next true fuel p S m s = (s', Ok tt) -> P (r_nf (s_rhs s')).
Proof.
  intros A N p S m P HP c s0 s fuel s' Hn He H.
  assert (Ho : 0 < bt_order (rk_bt (s_rk s))).
  { apply evolves_static in He. destruct He as (_ & _ & B). rewrite B, Hn.
    unfold bt_new. destruct (rc_mode c); cbn; lia. }
  apply solver_next_rkf in H. destruct H as (o' & H & [(<- & _)|(X & _)]); [|discriminate].
  exact (next_P A N p S m P HP fuel s s' Ho H).
Qed.

Lemma all_fin_In : forall A (v : list (nF A)), all_fin v = true -> forall x, In x v -> nfin A x = true.
Proof. intros A v H. apply forallb_forall. exact H. Qed.
Lemma all_fin2_In : forall A (v : list (list (nF A))), all_fin2 v = true -> forall r x, In r v -> In x r -> nfin A x = true.
Proof. intros A v H r x Hr Hx. unfold all_fin2 in H. rewrite forallb_forall in H. exact (all_fin_In A r (H r Hr) x Hx). Qed.

Lemma ensure_ok : forall b e, ensure b e = Ok tt -> b = true.
Proof. intros [] e H; [reflexivity|discriminate]. Qed.

(** C26: after a validated step with HLL, in any simulation whose integrator
    was built from a configuration [c], the wave speeds at the faces, the
    inverse of their difference and all numerical fluxes are finite. *)
Theorem C26_fluxes_finite_hll : forall A p S m (c : rkf_config A) (s0 s s' : sim A (Hll A)) fuel,
  rk_bt (s_rk s0) = bt_new c -> evolves p S m s0 s ->
  solver_next true fuel p S m s = (s', Ok tt) ->
  (forall x, In x (h_sl (r_nf (s_rhs s'))) \/ In x (h_sr (r_nf (s_rhs s'))) \/ In x (h_inv (r_nf (s_rhs s'))) -> nfin A x = true) /\
  (forall row x, In row (h_flux_num (r_nf (s_rhs s'))) -> In x row -> nfin A x = true).
Proof.
  intros A p S m c s0 s s' fuel Hn He H.
  set (P := fun n : hll A => all_fin (h_sl n) = true /\ all_fin (h_sr n) = true /\ all_fin (h_inv n) = true /\ all_fin2 (h_flux_num n) = true).
  assert (Q : P (r_nf (s_rhs s'))).
  { refine (solver_next_P A (Hll A) p S m P _ c s0 s fuel s' Hn He H). clear.
    intros s d u s' d' u' H. cbn [nf_calc Hll] in H. unfold hll_calc in H. injection H as E _ _ V. rewrite E in V. clear E.
    unfold hll_validate in V.
    destruct (all_fin (h_sl s')) eqn:E1; [|discriminate]. cbn [ensure bind] in V.
    destruct (all_fin (h_sr s')) eqn:E2; [|discriminate]. cbn [ensure bind] in V.
    destruct (all_fin (h_inv s')) eqn:E3; [|discriminate]. cbn [ensure bind] in V.
    apply ensure_ok in V. unfold P. auto. }
  destruct Q as (Q1 & Q2 & Q3 & Q4). split.
  - intros x [X|[X|X]]; eapply all_fin_In; [exact Q1|exact X|exact Q2|exact X|exact Q3|exact X].
  - intros row x Hr Hx. eapply all_fin2_In; eassumption.
Qed.
Print Assumptions C26_fluxes_finite_hll.

(** The same with the Kurganov-Tadmor scheme. *)
Theorem C26_fluxes_finite_kt : forall A p S m (c : rkf_config A) (s0 s s' : sim A (Kt A)) fuel,
  rk_bt (s_rk s0) = bt_new c -> evolves p S m s0 s ->
  solver_next true fuel p S m s = (s', Ok tt) ->
  (forall x, In x (k_a_plus (r_nf (s_rhs s'))) \/ In x (k_a_minus (r_nf (s_rhs s'))) \/ In x (k_b (r_nf (s_rhs s'))) -> nfin A x = true) /\
  (forall row x, In row (k_flux_num (r_nf (s_rhs s'))) -> In x row -> nfin A x = true).
Proof.
  intros A p S m c s0 s s' fuel Hn He H.
  set (P := fun n : kt A => all_fin (k_a_plus n) = true /\ all_fin (k_a_minus n) = true /\ all_fin (k_b n) = true /\ all_fin2 (k_flux_num n) = true).
  assert (Q : P (r_nf (s_rhs s'))).
  { refine (solver_next_P A (Kt A) p S m P _ c s0 s fuel s' Hn He H). clear.
    intros s d u s' d' u' H. cbn [nf_calc Kt] in H. unfold kt_calc in H. injection H as E _ _ V. rewrite E in V. clear E.
    unfold kt_validate in V.
    destruct (all_fin (k_a_plus s')) eqn:E1; [|discriminate]. cbn [ensure bind] in V.
    destruct (all_fin (k_a_minus s')) eqn:E2; [|discriminate]. cbn [ensure bind] in V.
    destruct (all_fin (k_b s')) eqn:E3; [|discriminate]. cbn [ensure bind] in V.
    apply ensure_ok in V. unfold P. auto. }
  destruct Q as (Q1 & Q2 & Q3 & Q4). split.
  - intros x [X|[X|X]]; eapply all_fin_In; [exact Q1|exact X|exact Q2|exact X|exact Q3|exact X].
  - intros row x Hr Hx. eapply all_fin2_In; eassumption.
Qed.
Print Assumptions C26_fluxes_finite_kt.

(** Shock tubes with HLL and with the Kurganov-Tadmor scheme take validated
    steps from such a simulation, and the fluxes are not empty. *)
Example C26_fluxes_example : forall bln bexp, let A := B64n bln bexp in
  (exists s s' : sim A (Hll A), rk_bt (s_rk s) = bt_new (nc_time (cf_numerics (demo_cfg (A:=A) CHll RK4 false 100 (nQ A (4 # 10))))) /\
     solver_next true 50 Isot 8 (demo_mesh A 8) s = (s', Ok tt) /\ List.length (h_sl (r_nf (s_rhs s'))) = 8 /\ List.length (h_flux_num (r_nf (s_rhs s'))) = 2) /\
  (exists s s' : sim A (Kt A), rk_bt (s_rk s) = bt_new (nc_time (cf_numerics (demo_cfg (A:=A) (CKt VanLeer) RK4 false 100 (nQ A (4 # 10))))) /\
     solver_next true 50 Isot 8 (demo_mesh A 8) s = (s', Ok tt) /\ List.length (k_a_plus (r_nf (s_rhs s'))) = 8 /\ List.length (k_flux_num (r_nf (s_rhs s'))) = 2).
Proof.
  intros bln bexp A.
  assert (G : forall (N : numflux_impl A) p S c q s, demo N p S c q = Ok s -> rk_bt (s_rk s) = bt_new (nc_time (cf_numerics c))).
  { intros N p S c q s H. unfold demo in H.
    destruct (solver_new N p S c (demo_mesh A S) (state_new p S (cf_physics c))) as [s1|e| |] eqn:E; try discriminate. cbn [bind] in H.
    unfold solver_new in E. destruct (rhs_new N p S c (demo_mesh A S)) as [h0|e| |]; try discriminate. cbn [bind] in E. injection E as <-.
    match type of H with context [bind ?x _] => destruct x as [u|e| |] end; try discriminate. cbn [bind] in H. injection H as <-. reflexivity. }
  split.
  - destruct (demo_one (Hll A) true Isot 8 (demo_cfg (A:=A) CHll RK4 false 100 (nQ A (4 # 10))) (tube 4 (vals 1 0 1) (vals (1 # 8) 0 (1 # 10)) bln bexp)
       (fun s' => (List.length (h_sl (r_nf (s_rhs s'))) =? 8) && (List.length (h_flux_num (r_nf (s_rhs s'))) =? 2))%bool) as (s & s' & H1 & H2 & H3); [vm_compute; reflexivity|].
    apply andb_true_iff in H3. destruct H3 as [H3 H4]. apply Nat.eqb_eq in H3, H4. exists s, s'. eauto 6.
  - destruct (demo_one (Kt A) true Isot 8 (demo_cfg (A:=A) (CKt VanLeer) RK4 false 100 (nQ A (4 # 10))) (tube 4 (vals 1 0 1) (vals (1 # 8) 0 (1 # 10)) bln bexp)
       (fun s' => (List.length (k_a_plus (r_nf (s_rhs s'))) =? 8) && (List.length (k_flux_num (r_nf (s_rhs s'))) =? 2))%bool) as (s & s' & H1 & H2 & H3); [vm_compute; reflexivity|].
    apply andb_true_iff in H3. destruct H3 as [H3 H4]. apply Nat.eqb_eq in H3, H4. exists s, s'. eauto 6.
Qed.
