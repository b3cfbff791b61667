(** C70: finite domain of dependence.  What a cell contains after a number of
    steps depends on nothing but the cells within a distance that grows by a
    fixed number of cells with each stage of each step, and on the sizes of the
    steps. *)

From Coq Require Import ZArith NArith QArith List Bool Lia.
From Verif Require Import Base Num B64 Config Mesh State NumFlux Time Spec SpecFlow SpecStep SpecEuler SpecReach BoundaryProofs PhysicsProofs FluxProofs
  UpdateProofs FluxThms FluxMore StepProofs StepInv StepEq EulerStep EulerThms ReachProofs Demo.
Import ListNotations.
Local Open Scope nat_scope.

Section Steps.
Variable A : Num.
Variable N : numflux_impl A.
Variables (p : phys) (S : nat) (m : mesh A) (good : nf_T N -> Prop) (W : nat).
Hypothesis HS : 6 <= S.
Hypothesis Hmem : memoryless N p S m good.
Hypothesis Hloc : local_scheme N p S m good W.
Variable i : nat.
Hypothesis Hi : 2 <= i <= S - 3.

Let HS5 : 5 <= S. Proof. lia. Qed.

(** the two solvers are comparable *)
Let pair_ok (s1 s2 : sim A N) : Prop := solver_ok p S good s1 /\ solver_ok p S good s2 /\ gamma (cent (s_u s1)) = gamma (cent (s_u s2)) /\
  same_setup p S good (s_rk s1) (s_rhs s1) (s_rk s2) (s_rhs s2).

Lemma steps_reach : forall n r s1 ds s1', steps_of p S m s1 ds s1' -> forall s2 s2', steps_of p S m s2 ds s2' ->
  pair_ok s1 s2 -> bt_order (rk_bt (s_rk s1)) = n -> same_near p S i (r + List.length ds * (n * W)) (s_u s1) (s_u s2) ->
  same_near p S i r (s_u s1') (s_u s2') /\
  (ds <> nil -> forall k, k < S -> near i r k -> same_cell A p (cent (s_u s1')) (cent (s_u s2')) k).
Proof.
  intros n r s1 ds s1' H1. induction H1 as [s1|s1 ts ds s1' H1 IH|val1 fuel1 s1 t1 ds s1' E1 H1 IH]; intros s2 s2' H2 P B SN.
  - split; [|intros C; elim C; reflexivity]. cbn [List.length] in SN. rewrite Nat.add_0_r in SN.
    remember [] as ds eqn:Q in H2. induction H2 as [s2|s2 ts ds s2' H2 IH|]; [exact SN|apply IH; auto|discriminate Q].
  - apply (IH s2 s2' H2 P B SN).
  - remember (ts_dt (s_ts t1) :: ds) as ds2 eqn:Q in H2.
    induction H2 as [s2|s2 ts ds2 s2' H2 IH2|val2 fuel2 s2 t2 ds2 s2' E2 H2 _]; [discriminate Q|exact (IH2 Q P SN)|].
    injection Q as Qt ->. destruct P as (O1 & O2 & G & SS).
    apply solver_next_rkf in E1. destruct E1 as (o1 & E1 & [(<- & _)|(X & _)]); [|discriminate X].
    apply solver_next_rkf in E2. destruct E2 as (o2 & E2 & [(<- & _)|(X & _)]); [|discriminate X].
    pose proof (next_keep A N p S m good HS5 Hmem _ _ _ _ _ O1 E1) as K1.
    assert (SN' : same_near p S i ((r + List.length ds * (n * W)) + bt_order (rk_bt (s_rk s1)) * W) (s_u s1) (s_u s2)).
    { intros k Hn Hk. apply SN; [|exact Hk]. cbn [List.length]. rewrite B in Hn. unfold near in Hn |- *. lia. }
    pose proof (next_local A N p S m good W HS Hmem Hloc i Hi _ _ _ _ _ _ _ _ _ (proj1 O1) (proj1 O2) G SS SN' E1 E2 (eq_sym Qt)) as L.
    destruct (next_same_near A N p S m good W HS Hmem Hloc i Hi _ _ _ _ _ _ _ _ _ O1 O2 G SS SN' E1 E2 (eq_sym Qt)) as (SN1 & SS1).
    assert (P1 : pair_ok t1 t2).
    { split; [exact (solver_ok_next A N p S m good HS5 Hmem _ _ _ _ _ O1 E1)|]. split; [exact (solver_ok_next A N p S m good HS5 Hmem _ _ _ _ _ O2 E2)|].
      split; [|exact SS1].
      rewrite (next_gamma A N p S m HS5 _ _ _ _ _ (proj1 (proj1 O1)) E1), (next_gamma A N p S m HS5 _ _ _ _ _ (proj1 (proj1 O2)) E2). exact G. }
    assert (B1 : bt_order (rk_bt (s_rk t1)) = n) by (destruct K1; congruence).
    destruct (IH t2 s2' H2 P1 B1 SN1) as (R1 & R2). split; [exact R1|]. intros _.
    destruct ds as [|d ds]; [|apply R2; discriminate].
    clear - L H1 H2 SN1.
    assert (E1 : forall s s' : sim A N, steps_of p S m s [] s' -> s_u s' = s_u s).
    { clear. intros s s' H. remember [] as ds eqn:Q. induction H; [reflexivity| |discriminate Q]. rewrite IHsteps_of by exact Q. reflexivity. }
    rewrite (E1 _ _ H1), (E1 _ _ H2). intros k Hk Hn. apply L; [exact Hk|]. cbn [List.length Nat.mul]. rewrite Nat.add_0_r. exact Hn.
Qed.

Lemma reached_pair : forall (c : config A) (s1 s2 : sim A N), reached p S c m good s1 -> reached p S c m good s2 -> pair_ok s1 s2 /\ rk_bt (s_rk s1) = bt_new (nc_time (cf_numerics c)).
Proof.
  intros c s1 s2 R1 R2.
  pose proof (reached_ok A N p S m good HS5 Hmem c s1 R1) as (O1 & B1 & Z1 & G1 & W1 & X1).
  pose proof (reached_ok A N p S m good HS5 Hmem c s2 R2) as (O2 & B2 & Z2 & G2 & W2 & X2).
  split; [|exact B1]. split; [exact O1|]. split; [exact O2|]. split; [congruence|].
  destruct R1 as (u1 & t1 & (P1 & Q1 & Q1w & Q1e) & N1 & D1 & E1). destruct R2 as (u2 & t2 & (P2 & Q2 & Q2w & Q2e) & N2 & D2 & E2).
  assert (T1 : s_u t1 = u1) by (unfold solver_new in N1; destruct (rhs_new N p S c m); try discriminate; injection N1 as <-; reflexivity).
  assert (T2 : s_u t2 = u2) by (unfold solver_new in N2; destruct (rhs_new N p S c m); try discriminate; injection N2 as <-; reflexivity).
  apply evolves_faces in E1, E2. destruct E1 as (F1 & F1'). destruct E2 as (F2 & F2'). rewrite T1 in F1, F1'. rewrite T2 in F2, F2'.
  destruct O1 as (_ & (g1 & g2 & g3) & SS1). destruct O2 as (_ & (h1 & h2 & h3) & SS2). destruct SS1, SS2.
  split; auto; try congruence.
  - unfold same_gamma. repeat split; congruence.
  - intros j k Hj Hk Hg. rewrite Z1, Z2 by assumption. reflexivity.
Qed.
End Steps.

(** Two solvers with the same configuration, from whatever starting states
    and histories, take steps of the same sizes.  If the gas agrees in the
    cells at most [r] plus (number of steps) * (number of stages) * [W] cells
    away from cell [i], it agrees afterwards in the cells at most [r] away. *)
Theorem C70_domain_of_dependence : forall A (N : numflux_impl A) p S c m good W (s1 s2 s1' s2' : sim A N) ds i r,
  6 <= S -> memoryless N p S m good -> local_scheme N p S m good W -> 2 <= i <= S - 3 ->
  reached p S c m good s1 -> reached p S c m good s2 ->
  steps_of p S m s1 ds s1' -> steps_of p S m s2 ds s2' ->
  same_near p S i (r + List.length ds * (get_order (rc_mode (nc_time (cf_numerics c))) * W)) (s_u s1) (s_u s2) ->
  same_near p S i r (s_u s1') (s_u s2') /\
  (ds <> nil -> forall k, k < S -> near i r k -> same_cell A p (cent (s_u s1')) (cent (s_u s2')) k).
Proof.
  intros A N p S c m good W s1 s2 s1' s2' ds i r HS Hm Hl Hi R1 R2 H1 H2 SN.
  destruct (reached_pair A N p S m good HS Hm i Hi c s1 s2 R1 R2) as (P & B).
  refine (steps_reach A N p S m good W HS Hm Hl i Hi _ r s1 ds s1' H1 s2 s2' H2 P _ SN).
  rewrite B. unfold bt_new. destruct (nc_time (cf_numerics c)) as [[] ? ? ? ?]; reflexivity.
Qed.
Print Assumptions C70_domain_of_dependence.

(** The two schemes: one cell for Hll, two cells for Kt. *)
Theorem C70_reach_hll : forall A p S (c : config A) (s1 s2 s1' s2' : sim A (Hll A)) ds i r,
  let m := mesh_build S (cf_mesh c) in
  6 <= S -> 2 <= i <= S - 3 ->
  reached p S c m (fun _ => True) s1 -> reached p S c m (fun _ => True) s2 ->
  steps_of p S m s1 ds s1' -> steps_of p S m s2 ds s2' ->
  same_near p S i (r + List.length ds * get_order (rc_mode (nc_time (cf_numerics c)))) (s_u s1) (s_u s2) ->
  same_near p S i r (s_u s1') (s_u s2') /\
  (ds <> nil -> forall k, k < S -> near i r k -> same_cell A p (cent (s_u s1')) (cent (s_u s2')) k).
Proof.
  intros A p S c s1 s2 s1' s2' ds i r m HS Hi R1 R2 H1 H2 SN.
  refine (C70_domain_of_dependence A (Hll A) p S c m (fun _ => True) 1 s1 s2 s1' s2' ds i r HS _ (hll_local A p S m HS (std_build A S (cf_mesh c))) Hi R1 R2 H1 H2 _).
  - apply hll_memoryless; [lia|apply std_build].
  - rewrite Nat.mul_1_r. exact SN.
Qed.
Print Assumptions C70_reach_hll.

Theorem C70_reach_kt : forall A p S (c : config A) k0 (s1 s2 s1' s2' : sim A (Kt A)) ds i r,
  let m := mesh_build S (cf_mesh c) in
  6 <= S -> 2 <= i <= S - 3 ->
  nf_new (Kt A) p S (nc_numflux (cf_numerics c)) m = Ok k0 ->
  reached p S c m (fun k : nf_T (Kt A) => kt_like A k k0) s1 -> reached p S c m (fun k : nf_T (Kt A) => kt_like A k k0) s2 ->
  steps_of p S m s1 ds s1' -> steps_of p S m s2 ds s2' ->
  same_near p S i (r + List.length ds * (get_order (rc_mode (nc_time (cf_numerics c))) * 2)) (s_u s1) (s_u s2) ->
  same_near p S i r (s_u s1') (s_u s2') /\
  (ds <> nil -> forall k, k < S -> near i r k -> same_cell A p (cent (s_u s1')) (cent (s_u s2')) k).
Proof.
  intros A p S c k0 s1 s2 s1' s2' ds i r m HS Hi Hk R1 R2 H1 H2 SN.
  refine (C70_domain_of_dependence A (Kt A) p S c m _ 2 s1 s2 s1' s2' ds i r HS _ (kt_local A p S m k0 HS (std_build A S (cf_mesh c))) Hi R1 R2 H1 H2 SN).
  apply kt_memoryless; [lia|apply std_build].
Qed.
Print Assumptions C70_reach_kt.

(** Examples: isothermal gas in binary64, two shock tubes that differ in the
    density of one far cell. *)
Definition same_b (x y : b64) : bool :=
  match x, y with
  | BinarySingleNaN.B754_zero a, BinarySingleNaN.B754_zero b => Bool.eqb a b
  | BinarySingleNaN.B754_infinity a, BinarySingleNaN.B754_infinity b => Bool.eqb a b
  | BinarySingleNaN.B754_nan, BinarySingleNaN.B754_nan => true
  | BinarySingleNaN.B754_finite a m e _, BinarySingleNaN.B754_finite b n f _ => Bool.eqb a b && Pos.eqb m n && Z.eqb e f
  | _, _ => false
  end.

Lemma same_b_ok : forall x y, same_b x y = true <-> x = y.
Proof.
  intros x y. split.
  - destruct x as [a|a| |a m e h], y as [b|b| |b n f g]; cbn [same_b]; try discriminate; try (intros H; apply eqb_prop in H; subst; reflexivity); try reflexivity.
    intros H. apply andb_true_iff in H. destruct H as (H & H3). apply andb_true_iff in H. destruct H as (H1 & H2).
    apply eqb_prop in H1. apply Pos.eqb_eq in H2. apply Z.eqb_eq in H3. subst. f_equal. apply Eqdep_dec.UIP_dec, bool_dec.
  - intros <-. destruct x; cbn [same_b]; rewrite ?eqb_reflx, ?Pos.eqb_refl, ?Z.eqb_refl; reflexivity.
Qed.

Section Example.
Variables bln bexp : b64 -> b64.
Notation A := (B64n bln bexp).

(** [n] steps and their sizes *)
Fixpoint sized (N : numflux_impl A) (p : phys) (S : nat) (n : nat) (s : sim A N) : option (list (nF A) * sim A N) :=
  match n with
  | O => Some ([], s)
  | Datatypes.S n =>
      let '(s1, o) := solver_next false 50 p S (demo_mesh A S) s in
      if is_ok o then match sized N p S n s1 with Some (ds, s') => Some (ts_dt (s_ts s1) :: ds, s') | None => None end else None
  end.

Lemma sized_ok : forall N p S n (s : sim A N) ds s', sized N p S n s = Some (ds, s') -> steps_of p S (demo_mesh A S) s ds s'.
Proof.
  intros N p S n. induction n as [|n IH]; intros s ds s' H; cbn [sized] in H.
  - injection H as <- <-. exact (@so_nil A N p S _ s).
  - destruct (solver_next false 50 p S (demo_mesh A S) s) as [s1 o] eqn:E. destruct o as [[]|e| |]; cbn [is_ok] in H; try discriminate.
    destruct (sized N p S n s1) as [[ds1 s2]|] eqn:Q; [|discriminate]. injection H as <- <-. exact (@so_step A N p S _ false 50 s s1 ds1 s2 E (IH _ _ _ Q)).
Qed.

Lemma demo_reached : forall N p S (c : config A) q s (good : nf_T N -> Prop), 5 <= S -> cf_mesh c = mkMC Cartesian (n1 A) (nZ A 2) -> pc_gamma (cf_physics c) = nQ A (14 # 10) ->
  demo N p S c q = Ok s -> (forall k, nf_new N p S (nc_numflux (cf_numerics c)) (demo_mesh A S) = Ok k -> good k) -> reached p S c (demo_mesh A S) good s.
Proof.
  intros N p S c q s good HS Hm Hg H Hgood. unfold demo in H. unfold solver_new, rhs_new in H.
  destruct (nf_new N p S (nc_numflux (cf_numerics c)) (demo_mesh A S)) as [k|e| |] eqn:K; try discriminate. cbn [bind s_rhs s_u r_bw r_be] in H.
  unfold st_update_from_prim in H. cbn [cent set_cent] in H. destruct (update_vars_from_prim _ _ _ _ _ _) as [v|e| |] eqn:V; try discriminate. cbn [bind] in H.
  apply Ok_inj in H. subst s.
  assert (Wd : wsv A p S (demo_vars p S q)).
  { unfold demo_vars, wsv. cbn [prim cons eigen_vals flux c_sound]. split; [apply shape_mtab|]. split; [apply PhysicsProofs.shape_zeros2|]. split; [apply PhysicsProofs.shape_zeros2|]. split; [apply PhysicsProofs.shape_zeros2|]. apply repeat_length. }
  destruct (update_from_prim_view A p S _ _ _ _ _ HS Wd V) as (Wv & Gv & _). cbn [gamma demo_vars] in Gv.
  set (u := init_west_east _). exists u.
  eexists. split.
  { unfold prepared, wss. subst u. cbn [init_west_east cent west east set_cent gamma vars_assign state_new].
    split; [|split; [rewrite Hg; exact Gv|split; reflexivity]]. split; [exact Wv|].
    assert (Wn : wsv A p S (vars_new p S (cf_physics c))) by apply wsv_new.
    destruct Wv as (v1 & v2 & v3 & v4 & v5), Wn as (w1 & w2 & w3 & w4 & w5). unfold wsv, vars_assign, set_c_sound, set_cons, set_prim; cbn [prim cons eigen_vals flux c_sound]. repeat match goal with |- _ /\ _ => split end; assumption. }
  split. { unfold solver_new, rhs_new. rewrite K. cbn [bind]. reflexivity. }
  split. { cbn [r_nf s_rhs]. apply Hgood. reflexivity. }
  match goal with |- evolves _ _ _ ?s0 (mkSim ?ts _ _ _) => exact (ev_time A N p S _ s0 s0 ts (ev_refl A N p S _ s0)) end.
Qed.

(** Steps of at most 1/100; density 1 west, 1/2 east, [d] in cell 7. *)
Definition far_cfg (nf : numflux_config A) : config A :=
  let c := demo_cfg nf RK1 false 100 (nQ A (4 # 10)) in
  mkCfg false (cf_mesh c) (cf_physics c) BNoGradients BNoGradients
    (mkNC nf (nc_time (cf_numerics c)) 100 (n0 A) (n1 A) (nQ A (1 # 1000000)) (nQ A (1 # 100)) (nQ A (4 # 10))) 2%N [].
Definition far (d : Q) (j i : nat) : nF A :=
  nQ A (match j with O => if i =? 7 then d else if i <? 4 then 1%Q else (1 # 2)%Q | _ => 0%Q end).

Definition near_b (i r k : nat) : bool := (i <=? k + r) && (k <=? i + r).
Definition same_near_b (S i r : nat) (u w : state A) : bool :=
  forallb (fun k => negb (near_b i r k) || (forallb (fun j => same_b (at2 (n0 A) (cons (cent u)) j k) (at2 (n0 A) (cons (cent w)) j k)) (seq 0 2) &&
    same_b (at1 (n0 A) (c_sound (cent u)) k) (at1 (n0 A) (c_sound (cent w)) k) &&
    same_b (at1 (n0 A) (c_sound (west u)) k) (at1 (n0 A) (c_sound (west w)) k) &&
    same_b (at1 (n0 A) (c_sound (east u)) k) (at1 (n0 A) (c_sound (east w)) k))) (seq 0 S).

Lemma same_near_b_ok : forall S i r u w, same_near_b S i r u w = true -> same_near Isot S i r u w.
Proof.
  intros S i r u w H k Hn Hk. unfold same_near_b in H. rewrite forallb_forall in H. specialize (H k ltac:(apply in_seq; lia)).
  apply orb_true_iff in H. destruct H as [H|H].
  - exfalso. apply negb_true_iff in H. unfold near_b in H. destruct Hn as (H1 & H2). apply andb_false_iff in H. destruct H as [H|H]; apply Nat.leb_gt in H; lia.
  - repeat match goal with K : _ && _ = true |- _ => apply andb_true_iff in K; destruct K end.
    rewrite forallb_forall in H. split; [intros j Hj; apply same_b_ok, H, in_seq; cbn in Hj; lia|intros _]. split; [apply same_b_ok; assumption|split; apply same_b_ok; assumption].
Qed.

Fixpoint same_l (l l' : list b64) : bool := match l, l' with [], [] => true | x :: l, y :: l' => same_b x y && same_l l l' | _, _ => false end.
Lemma same_l_ok : forall l l', same_l l l' = true -> l = l'.
Proof.
  induction l as [|x l IH]; intros [|y l'] H; cbn [same_l] in H; try discriminate; [reflexivity|].
  apply andb_true_iff in H. destruct H as (H1 & H2). apply same_b_ok in H1. subst y. f_equal. apply IH. exact H2.
Qed.

(** After [n] steps of the same sizes, from states that agree up to [R] cells
    from cell 3, the density in cell [x] differs. *)
Definition far_check (N : numflux_impl A) (nf : numflux_config A) (n R x : nat) : bool :=
  match demo N Isot 10 (far_cfg nf) (far (1 # 2)), demo N Isot 10 (far_cfg nf) (far (1 # 4)) with
  | Ok s1, Ok s2 =>
      match sized N Isot 10 n s1, sized N Isot 10 n s2 with
      | Some (d1, t1), Some (d2, t2) =>
          same_near_b 10 3 R (s_u s1) (s_u s2) && same_l d1 d2 && (List.length d1 =? n) &&
          negb (same_b (at2 (n0 A) (cons (cent (s_u t1))) 0 x) (at2 (n0 A) (cons (cent (s_u t2))) 0 x))
      | _, _ => false
      end
  | _, _ => false
  end.

Lemma far_case : forall N nf n R x (good : nf_T N -> Prop), far_check N nf n R x = true ->
  (forall k, nf_new N Isot 10 nf (demo_mesh A 10) = Ok k -> good k) ->
  exists (s1 s2 s1' s2' : sim A N) ds, reached Isot 10 (far_cfg nf) (demo_mesh A 10) good s1 /\ reached Isot 10 (far_cfg nf) (demo_mesh A 10) good s2 /\
  steps_of Isot 10 (demo_mesh A 10) s1 ds s1' /\ steps_of Isot 10 (demo_mesh A 10) s2 ds s2' /\ List.length ds = n /\
  same_near Isot 10 3 R (s_u s1) (s_u s2) /\
  at2 (n0 A) (cons (cent (s_u s1'))) 0 x <> at2 (n0 A) (cons (cent (s_u s2'))) 0 x.
Proof.
  intros N nf n R x good H Hg. unfold far_check in H.
  destruct (demo N Isot 10 (far_cfg nf) (far (1 # 2))) as [s1|e| |] eqn:D1; try discriminate.
  destruct (demo N Isot 10 (far_cfg nf) (far (1 # 4))) as [s2|e| |] eqn:D2; try discriminate.
  destruct (sized N Isot 10 n s1) as [[d1 t1]|] eqn:Z1; try discriminate. destruct (sized N Isot 10 n s2) as [[d2 t2]|] eqn:Z2; try discriminate.
  apply andb_true_iff in H. destruct H as (H & H4). apply andb_true_iff in H. destruct H as (H & H3). apply andb_true_iff in H. destruct H as (H1 & H2).
  apply same_l_ok in H2. subst d2. apply Nat.eqb_eq in H3.
  exists s1, s2, t1, t2, d1. split; [|split; [|split; [|split; [|split; [|split]]]]].
  - apply (demo_reached N Isot 10 (far_cfg nf) (far (1 # 2)) s1 good ltac:(lia) eq_refl eq_refl D1 Hg).
  - apply (demo_reached N Isot 10 (far_cfg nf) (far (1 # 4)) s2 good ltac:(lia) eq_refl eq_refl D2 Hg).
  - exact (sized_ok N Isot 10 n s1 d1 t1 Z1).
  - exact (sized_ok N Isot 10 n s2 d1 t2 Z2).
  - exact H3.
  - apply same_near_b_ok. exact H1.
  - intros C. apply negb_true_iff in H4. assert (T := proj2 (same_b_ok _ _) C). rewrite T in H4. discriminate.
Qed.

(** Two steps of Hll: the difference in cell 7 reaches cell 5, and the theorem
    says that the cells 2, 3 and 4 do not notice it. *)
Example C70_example_hll : exists (s1 s2 s1' s2' : sim A (Hll A)) ds,
  let m := mesh_build 10 (cf_mesh (far_cfg CHll)) in
  reached Isot 10 (far_cfg CHll) m (fun _ => True) s1 /\ reached Isot 10 (far_cfg CHll) m (fun _ => True) s2 /\
  steps_of Isot 10 m s1 ds s1' /\ steps_of Isot 10 m s2 ds s2' /\ List.length ds = 2 /\
  same_near Isot 10 3 (1 + 2 * 1) (s_u s1) (s_u s2) /\
  at2 (n0 A) (cons (cent (s_u s1'))) 0 5 <> at2 (n0 A) (cons (cent (s_u s2'))) 0 5.
Proof. apply (far_case (Hll A) CHll 2 3 5 (fun _ => True)); [vm_compute; reflexivity|auto]. Qed.

(** One step of Kt: from cell 7 to cell 5, and not further. *)
Example C70_example_kt : exists k0 (s1 s2 s1' s2' : sim A (Kt A)) ds,
  let m := mesh_build 10 (cf_mesh (far_cfg (CKt VanLeer))) in
  nf_new (Kt A) Isot 10 (CKt VanLeer) m = Ok k0 /\
  reached Isot 10 (far_cfg (CKt VanLeer)) m (fun k : nf_T (Kt A) => kt_like A k k0) s1 /\ reached Isot 10 (far_cfg (CKt VanLeer)) m (fun k : nf_T (Kt A) => kt_like A k k0) s2 /\
  steps_of Isot 10 m s1 ds s1' /\ steps_of Isot 10 m s2 ds s2' /\ List.length ds = 1 /\
  same_near Isot 10 3 (1 + 1 * (1 * 2)) (s_u s1) (s_u s2) /\
  at2 (n0 A) (cons (cent (s_u s1'))) 0 6 <> at2 (n0 A) (cons (cent (s_u s2'))) 0 6.
Proof.
  assert (K0 : forall m : mesh A, exists k0, nf_new (Kt A) Isot 10 (CKt VanLeer) m = Ok k0) by (intros m; eexists; reflexivity).
  destruct (K0 (demo_mesh A 10)) as (k0 & K). clear K0.
  exists k0. destruct (far_case (Kt A) (CKt VanLeer) 1 3 6 (fun k : nf_T (Kt A) => kt_like A k k0)) as (s1 & s2 & s1' & s2' & ds & R).
  - vm_compute. reflexivity.
  - intros k Hk. rewrite K in Hk. apply Ok_inj in Hk. subst k. unfold kt_like. repeat split.
  - exists s1, s2, s1', s2', ds. split; [exact K|]. exact R.
Qed.
End Example.
