(** Conservation and positivity over a completed step: proofs. *)

From Coq Require Import Reals ZArith NArith QArith Qreals List Bool Lia Lra.
From Verif Require Import Base Num XReal Config Mesh State NumFlux Time Spec SpecFlow SpecStep SpecTableau SpecEuler
  MeshProofs BoundaryProofs PhysicsProofs FluxProofs UpdateProofs FluxReal FluxThms StepProofs StepInv StepEq TableauProofs
  TimeProofs TimeMore AscProofs EulerStep RealRun EulerThms LinRun.
Import ListNotations.
Local Open Scope R_scope.

Lemma rsum_ext : forall n f g, (forall i, (i < n)%nat -> f i = g i) -> rsum n f = rsum n g.
Proof. induction n; intros f g H; cbn; [reflexivity|]. rewrite (IHn f g), H by (intros; try apply H; lia). reflexivity. Qed.

Lemma rsum_telescope : forall n U a F, rsum n (fun i => U i - a * (F (i + 2)%nat - F (i + 1)%nat)) = rsum n U - a * (F (n + 1)%nat - F 1%nat).
Proof.
  induction n; intros U a F; cbn [rsum].
  - cbn. ring.
  - rewrite IHn. replace (Datatypes.S n + 1)%nat with (n + 2)%nat by lia. ring.
Qed.

(** ** Conservation for any scheme in flux form *)
Lemma conserve : forall (N : numflux_impl XRn) p S m good (c : config XRn) (s s' : sim XRn N) val fuel dt g U F D,
  (5 <= S)%nat -> memoryless N p S m good -> reached p S c m good s ->
  slopes p S m s (fun j i => D * (F j i - F j (i - 1)%nat)) ->
  pc_gamma (cf_physics c) = Fin g -> (p = Adiab -> g <> 1) ->
  solver_next val fuel p S m s = (s', Ok tt) -> ts_dt (s_ts s') = Fin dt ->
  (forall j i, (j < nE p)%nat -> (2 <= i <= S - 3)%nat -> at2 (n0 XRn) (cons (cent (s_u s))) j i = Fin (U j i)) ->
  exists U', forall j, (j < nE p)%nat ->
    (j = 0%nat \/ val = true \/ (forall i, (2 <= i <= S - 3)%nat -> at2 (n0 XRn) (cons (cent (s_u s'))) 0 i <> Fin 0)) ->
    (forall i, (2 <= i <= S - 3)%nat -> at2 (n0 XRn) (cons (cent (s_u s'))) j i = Fin (U' j i)) /\
    inner_sum S (U' j) = inner_sum S (U j) - dt * weight_sum (rc_mode (nc_time (cf_numerics c))) * D * (F j (S - 3)%nat - F j 1%nat).
Proof.
  intros N p S m good c s s' val fuel dt g U F D HS Hm Hr Hf Hg Hg1 E Hd HU.
  set (B := weight_sum (rc_mode (nc_time (cf_numerics c)))).
  exists (fun j i => U j i - dt * B * (D * (F j i - F j (i - 1)%nat))).
  destruct (reached_ok XRn N p S m good HS Hm c s Hr) as (Hok & Hb & _ & G & _). rewrite Hg in G.
  pose proof (reached_rhs N p S m good c s _ HS Hm Hr Hf) as Hv.
  intros j Hj Hc. split.
  - intros i Hi.
    pose proof (euler_cells N p S m good val fuel _ s s' _ dt g i (fun j => U j i) HS Hm Hok Hb Hv E Hd G Hg1 Hi (fun j Hj => HU j i Hj Hi)) as K.
    cbv beta in K. rewrite inner_true in K by exact Hi. destruct K as (K1 & K2 & K3).
    destruct Hc as [->|[Hc|Hc]].
    + exact K1.
    + apply K3; auto.
    + apply K3; auto. intro Z. apply (Hc i Hi). rewrite K1. f_equal. exact Z.
  - unfold inner_sum.
    rewrite (rsum_ext _ _ (fun i => U j (i + 2)%nat - dt * B * D * (F j (i + 2)%nat - F j (i + 1)%nat))).
    + rewrite (rsum_telescope _ (fun i => U j (i + 2)%nat)). replace (S - 4 + 1)%nat with (S - 3)%nat by lia. reflexivity.
    + intros i _. replace (i + 2 - 1)%nat with (i + 1)%nat by lia. ring.
Qed.

(** ** The flux differences of the library's schemes *)
Section Slopes.
Variables (p : phys) (S : nat) (md : mesh_mode) (a b : R).
Let m := mesh_build (A:=XRn) S (mkMC (A:=XRn) md (Fin a) (Fin b)).
Hypothesis HS : (5 <= S)%nat.
Hypothesis Hab : a < b.
Let D := / (powerRZ 2 (-52) + hx S a b).

Lemma hll_slopes : forall (s : sim XRn (Hll XRn)) vld h w F,
  rhs_update vld p S (s_rhs s) (s_u s) m = (h, w, Ok tt) ->
  (forall j i, (j < nE p)%nat -> (1 <= i <= S - 3)%nat -> at2 (n0 XRn) (h_flux_num (r_nf h)) j i = Fin (F j i)) ->
  slopes p S m s (fun j i => D * (F j i - F j (i - 1)%nat)).
Proof.
  intros s vld h w F E HF. exists vld, h, w. split; [exact E|].
  destruct (rhs_update_Ok _ _ _ _ _ _ _ _ _ _ _ E) as [(u1 & nf & full & E1 & E2 & ->)|[(_ & _ & _ & X)|[(e & _ & _ & _ & X)|(_ & _ & _ & X)]]]; try discriminate X.
  cbn [r_full r_nf] in *. cbn [nf_calc Hll] in E2.
  intros j i Hj Hi.
  pose proof (hll_dflux XRn vld p S (r_nf (s_rhs s)) (r_full (s_rhs s)) u1 m (std_build XRn S _) j i Hj ltac:(lia)) as Hd.
  rewrite inner_true in Hd by exact Hi.
  pose proof (hll_num XRn vld p S (r_nf (s_rhs s)) (r_full (s_rhs s)) u1 m (std_build XRn S _) j i Hj ltac:(lia) ltac:(lia) ltac:(lia)) as H1.
  pose proof (hll_num XRn vld p S (r_nf (s_rhs s)) (r_full (s_rhs s)) u1 m (std_build XRn S _) j (i - 1) Hj ltac:(lia) ltac:(lia) ltac:(lia)) as H2.
  rewrite E2 in Hd, H1, H2. cbn [fst snd] in Hd, H1, H2. rewrite Hd, <- H1, <- H2.
  rewrite !HF by lia. unfold m. rewrite mesh_dddv_R by (try exact Hab; lia). rewrite X_sub, X_mul. reflexivity.
Qed.

Lemma kt_slopes : forall (s : sim XRn (Kt XRn)) vld h w F,
  wss p S (s_u s) ->
  rhs_update vld p S (s_rhs s) (s_u s) m = (h, w, Ok tt) ->
  (forall j i, (j < nE p)%nat -> (1 <= i <= S - 3)%nat -> at2 (n0 XRn) (k_flux_num (r_nf h)) j i = Fin (F j i)) ->
  slopes p S m s (fun j i => D * (F j i - F j (i - 1)%nat)).
Proof.
  intros s vld h w F (_ & Ww & We) E HF. exists vld, h, w. split; [exact E|].
  destruct (rhs_update_Ok _ _ _ _ _ _ _ _ _ _ _ E) as [(u1 & nf & full & E1 & E2 & ->)|[(_ & _ & _ & X)|[(e & _ & _ & _ & X)|(_ & _ & _ & X)]]]; try discriminate X.
  destruct (st_update_Ok _ _ _ _ _ _ _ _ E1) as (v1 & Hv1 & ->).
  cbn [r_full r_nf] in *. cbn [nf_calc Kt] in E2.
  intros j i Hj Hi.
  pose proof (kt_dflux XRn vld p S (r_nf (s_rhs s)) (r_full (s_rhs s)) (set_cent v1 (s_u s)) m (std_build XRn S _) Ww We j i Hj ltac:(lia)) as Hd.
  rewrite inner_true in Hd by exact Hi.
  pose proof (kt_num XRn vld p S (r_nf (s_rhs s)) (r_full (s_rhs s)) (set_cent v1 (s_u s)) m (std_build XRn S _) Ww We j i Hj ltac:(lia) ltac:(lia) ltac:(lia)) as H1.
  pose proof (kt_num XRn vld p S (r_nf (s_rhs s)) (r_full (s_rhs s)) (set_cent v1 (s_u s)) m (std_build XRn S _) Ww We j (i - 1) Hj ltac:(lia) ltac:(lia) ltac:(lia)) as H2.
  rewrite E2 in Hd, H1, H2. cbn [fst snd] in Hd, H1, H2. rewrite Hd, <- H1, <- H2.
  rewrite !HF by lia. unfold m. rewrite mesh_dddv_R by (try exact Hab; lia). rewrite X_sub, X_mul. reflexivity.
Qed.
End Slopes.

(** ** A consistent real state evaluates to itself *)
Lemma real_cells : forall p S bw be (m : mesh XRn) v g (q : nat -> nat -> R) cs, (5 <= S)%nat -> wsv XRn p S v ->
  consistent p S bw be m v -> gamma v = Fin g -> (p = Adiab -> g <> 1) ->
  (forall j i, (j < nE p)%nat -> (i < S)%nat -> at2 (n0 XRn) (prim v) j i = Fin (q j i)) ->
  (forall i, (i < S)%nat -> q 0%nat i <> 0 /\ at1 (n0 XRn) (c_sound v) i = Fin (cs i)) ->
  (forall i j, (i < S)%nat -> (j < nE p)%nat -> at2 (n0 XRn) (cons v) j i = Fin (conserved p g (fun k => q k i) j)) /\
  exists v', update_vars_from_cons p S bw be m v = Ok v' /\ wsv XRn p S v' /\
    forall i, (i < S)%nat -> rcell p g v' i (conserved p g (fun j => q j i)) (cs i).
Proof.
  intros p S bw be m v g q cs HS W C G G1 P Q.
  assert (Hc : forall i j, (i < S)%nat -> (j < nE p)%nat -> at2 (n0 XRn) (cons v) j i = Fin (conserved p g (fun k => q k i) j)).
  { intros i j Hi Hj. rewrite (cst_cons _ _ _ _ _ _ _ C j i Hj Hi), G. rewrite <- (p2c_R p g (fun k => q k i) (fun k => at2 (n0 XRn) (prim v) k i)); auto.
    destruct p; destruct j as [|[|[|j]]]; cbn [nE] in Hj; try lia; try reflexivity. }
  split; [exact Hc|].
  assert (U : update_prim p S v = v).
  { destruct (update_prim_fields XRn p S v) as (E1 & E2 & E3 & E4 & E5 & E6).
    assert (Ep : prim (update_prim p S v) = prim v).
    { apply (mat_ext _ (n0 XRn) (nE p) S); [apply update_prim_shape; apply W|apply W|].
      intros j i Hj Hi. rewrite update_prim_at by (auto; apply W). rewrite G.
      rewrite (c2p_R p g (conserved p g (fun k => q k i))); [|apply Q; exact Hi|exact Hj|intros l Hl; apply Hc; assumption].
      rewrite rprim_conserved; [|apply Q; exact Hi|exact G1|exact Hj]. symmetry. apply P; assumption. }
    destruct v as [v1 v2 v3 v4 v5 v6 v7]. destruct (update_prim p S _) as [w1 w2 w3 w4 w5 w6 w7]. cbn in *. subst. reflexivity. }
  destruct (derived_cons_view XRn p S v W) as (V1 & V2 & V3 & V4 & V5 & V6). cbv zeta in *.
  set (v' := update_derived_variables p S (update_cons p S v)) in *.
  exists v'. split.
  { unfold update_vars_from_cons, update_vars_from_prim. rewrite U, (cst_west _ _ _ _ _ _ _ C). cbn [bind]. rewrite (cst_east _ _ _ _ _ _ _ C). reflexivity. }
  split; [exact V1|]. intros i Hi. destruct (V6 i Hi) as (X1 & X2 & X3). destruct (Q i Hi) as (Q0 & Qs).
  assert (Hs : at1 (n0 XRn) (c_sound v') i = Fin (cs i)).
  { rewrite X2. destruct p; [exact Qs|]. rewrite <- Qs. symmetry. rewrite (cst_sound _ _ _ _ _ _ _ C i eq_refl Hi). reflexivity. }
  assert (N2 : (0 < nE p)%nat /\ (1 < nE p)%nat) by (destruct p; cbn; lia).
  assert (V10 : conserved p g (fun j => q j i) 1%nat / conserved p g (fun j => q j i) 0%nat = q 1%nat i) by (cbn [conserved]; field; exact Q0).
  split; [exact Q0|]. split; [|split; [|split; [exact Hs|split]]].
  - intros j Hj. rewrite V4, P by assumption. rewrite rprim_conserved by assumption. reflexivity.
  - intros j Hj. rewrite X1 by exact Hj. rewrite G. apply p2c_R; auto.
  - rewrite X3 by lia. rewrite Hs, P, V10 by lia. destruct p; reflexivity.
  - rewrite X3 by (destruct p; cbn; lia). rewrite Hs, P, V10 by lia. destruct p; reflexivity.
Qed.

(** ** HLL mass fluxes *)
Definition face_lo (q cs : nat -> R) (i : nat) : R := rlo (q i - cs i) (q (i + 1)%nat - cs (i + 1)%nat).
Definition face_hi (q cs : nat -> R) (i : nat) : R := rhi (q i + cs i) (q (i + 1)%nat + cs (i + 1)%nat).

Lemma face_order : forall q cs i, 0 < cs i -> face_lo q cs i < face_hi q cs i.
Proof. intros q cs i H. unfold face_lo, face_hi. pose proof (rlo_le (q i - cs i) (q (i + 1)%nat - cs (i + 1)%nat)). pose proof (rhi_ge (q i + cs i) (q (i + 1)%nat + cs (i + 1)%nat)). lra. Qed.

Lemma mass_flux : forall p S g v (q : nat -> nat -> R) cs i, (i + 1 < S)%nat -> shape (nE p) S (flux v) ->
  (forall i, (i < S)%nat -> 0 < q 0%nat i /\ 0 < cs i /\ rcell p g v i (conserved p g (fun j => q j i)) (cs i)) ->
  exists F, hll_fn XRn p S v 0 i = Fin F /\ F <= q 0%nat i * face_hi (q 1%nat) cs i /\ q 0%nat (i + 1)%nat * face_lo (q 1%nat) cs i <= F /\
    F = rff (face_lo (q 1%nat) cs i) (face_hi (q 1%nat) cs i) (q 0%nat i * q 1%nat i) (q 0%nat (i + 1)%nat * q 1%nat (i + 1)%nat) (q 0%nat i) (q 0%nat (i + 1)%nat).
Proof.
  intros p S g v q cs i Hi Hs H. destruct (H i ltac:(lia)) as (P0 & P1 & R0). destruct (H (i + 1)%nat Hi) as (P2 & P3 & R1).
  assert (H0 : (0 < nE p)%nat) by (destruct p; cbn; lia).
  pose proof (hll_fn_R p S g v 0 i _ _ _ _ H0 Hi Hs R0 R1) as K. cbn zeta in K.
  assert (V0 : forall i, 0 < q 0%nat i -> conserved p g (fun j => q j i) 1%nat / conserved p g (fun j => q j i) 0%nat = q 1%nat i) by (intros k Hk; cbn [conserved]; field; lra).
  rewrite !V0 in K by assumption. fold (face_lo (q 1%nat) cs i) (face_hi (q 1%nat) cs i) in K.
  pose proof (face_order (q 1%nat) cs i P1) as O. specialize (K O).
  eexists. split; [exact K|].
  pose proof (rlo_le (q 1%nat i - cs i) (q 1%nat (i + 1)%nat - cs (i + 1)%nat)) as L. fold (face_lo (q 1%nat) cs i) in L.
  pose proof (rhi_ge (q 1%nat i + cs i) (q 1%nat (i + 1)%nat + cs (i + 1)%nat)) as G. fold (face_hi (q 1%nat) cs i) in G.
  assert (M : forall i cs, euler_flux p g cs (conserved p g (fun j => q j i)) 0 = q 0%nat i * q 1%nat i) by (intros; destruct p; cbn; ring).
  rewrite !M. cbn [conserved]. split; [|split].
  - apply rff_mass_le; lra.
  - apply rff_mass_ge; lra.
  - reflexivity.
Qed.

(** ** The HLL fluxes of a consistent real state *)
Lemma hll_real_eval : forall p S md a b (s : sim XRn (Hll XRn)) bw be g (q : nat -> nat -> R) cs,
  let m := mesh_build (A:=XRn) S (mkMC (A:=XRn) md (Fin a) (Fin b)) in
  (5 <= S)%nat -> a < b -> wsv XRn p S (cent (s_u s)) ->
  r_bw (s_rhs s) = bw -> r_be (s_rhs s) = be ->
  consistent p S bw be m (cent (s_u s)) -> gamma (cent (s_u s)) = Fin g -> (p = Adiab -> g <> 1) ->
  (forall j i, (j < nE p)%nat -> (i < S)%nat -> at2 (n0 XRn) (prim (cent (s_u s))) j i = Fin (q j i)) ->
  (forall i, (i < S)%nat -> 0 < q 0%nat i /\ 0 < cs i /\ at1 (n0 XRn) (c_sound (cent (s_u s))) i = Fin (cs i)) ->
  exists h w F, rhs_update false p S (s_rhs s) (s_u s) m = (h, w, Ok tt) /\
    (forall j i, (j < nE p)%nat -> (1 <= i <= S - 3)%nat -> at2 (n0 XRn) (h_flux_num (r_nf h)) j i = Fin (F j i)) /\
    forall i, (1 <= i <= S - 3)%nat -> F 0%nat i <= q 0%nat i * face_hi (q 1%nat) cs i /\ q 0%nat (i + 1)%nat * face_lo (q 1%nat) cs i <= F 0%nat i /\
      F 0%nat i = rff (face_lo (q 1%nat) cs i) (face_hi (q 1%nat) cs i) (q 0%nat i * q 1%nat i) (q 0%nat (i + 1)%nat * q 1%nat (i + 1)%nat) (q 0%nat i) (q 0%nat (i + 1)%nat).
Proof.
  intros p S md a b s bw be g q cs m HS Hab W Hw He C G G1 P Q.
  destruct (real_cells p S bw be m (cent (s_u s)) g q cs HS W C G G1 P) as (_ & v' & Ev & W' & Hr).
  { intros i Hi. destruct (Q i Hi) as (Q1 & Q2 & Q3). split; [lra|exact Q3]. }
  set (u1 := set_cent v' (s_u s)).
  assert (E1 : st_update_from_cons p S (r_bw (s_rhs s)) (r_be (s_rhs s)) m (s_u s) = Ok u1).
  { unfold st_update_from_cons. rewrite Hw, He, Ev. reflexivity. }
  destruct (nf_calc (Hll XRn) false p S (r_nf (s_rhs s)) (r_full (s_rhs s)) u1 m) as [[[nf full] w] o] eqn:E2.
  assert (Eo : o = Ok tt) by (cbn [nf_calc Hll] in E2; unfold hll_calc in E2; inversion E2; reflexivity). subst o.
  assert (ER : exists h, rhs_update false p S (s_rhs s) (s_u s) m = (h, w, Ok tt) /\ r_nf h = nf).
  { unfold rhs_update. rewrite E1, E2. eexists. split; reflexivity. }
  destruct ER as (h & ER & Hn).
  set (Fx := fun j i => match hll_fn XRn p S v' j i with Fin r => r | _ => 0 end).
  assert (Hfin : forall j i, (j < nE p)%nat -> (i + 1 < S)%nat -> hll_fn XRn p S v' j i = Fin (Fx j i)).
  { intros j i Hj Hi. unfold Fx. destruct (Q i ltac:(lia)) as (Q1 & Q2 & _). destruct (Q (i + 1)%nat Hi) as (Q3 & _).
    pose proof (hll_fn_R p S g v' j i _ _ _ _ Hj Hi ltac:(apply W') (Hr i ltac:(lia)) (Hr (i + 1)%nat Hi)) as K. cbn zeta in K.
    assert (V0 : forall i, 0 < q 0%nat i -> conserved p g (fun j => q j i) 1%nat / conserved p g (fun j => q j i) 0%nat = q 1%nat i) by (intros k Hk; cbn [conserved]; field; lra).
    rewrite !V0 in K by assumption. fold (face_lo (q 1%nat) cs i) (face_hi (q 1%nat) cs i) in K.
    specialize (K (face_order (q 1%nat) cs i Q2)). rewrite K. reflexivity. }
  exists h, w, Fx. split; [exact ER|]. split.
  - rewrite Hn. intros j i Hj Hi.
    pose proof (hll_num XRn false p S (r_nf (s_rhs s)) (r_full (s_rhs s)) u1 m (std_build XRn S _) j i Hj ltac:(lia) ltac:(lia) ltac:(lia)) as H1.
    cbn [nf_calc Hll] in E2. rewrite E2 in H1. cbn [fst snd] in H1. rewrite H1. unfold u1. cbn [cent set_cent]. apply Hfin; [exact Hj|lia].
  - intros i Hi. destruct (mass_flux p S g v' q cs i ltac:(lia) ltac:(apply W')) as (F & EF & L1 & L2 & L3).
    { intros k Hk. destruct (Q k Hk) as (Q1 & Q2 & _). auto. }
    rewrite Hfin in EF by (destruct p; cbn; lia). injection EF as <-. auto.
Qed.

Lemma face_hi_le : forall q cs i B, 0 <= B -> q i + cs i <= B -> q (i + 1)%nat + cs (i + 1)%nat <= B -> face_hi q cs i <= B.
Proof. intros. unfold face_hi, rhi. repeat apply Rmax_lub; assumption. Qed.
Lemma face_lo_ge : forall q cs i B, 0 <= B -> - B <= q i - cs i -> - B <= q (i + 1)%nat - cs (i + 1)%nat -> - B <= face_lo q cs i.
Proof. intros. unfold face_lo, rlo. repeat apply Rmin_glb; lra. Qed.

(** ** Every state of a KT solver carries the limiter data of its construction *)
Lemma reached_kt : forall p S (c : config XRn) m (s : sim XRn (Kt XRn)), reached p S c m (fun _ => True) s ->
  exists k0, nf_new (Kt XRn) p S (nc_numflux (cf_numerics c)) m = Ok k0 /\ reached p S c m (fun k : nf_T (Kt XRn) => kt_like XRn k k0) s.
Proof.
  intros p S c m s (u0 & s0 & P & E & _ & H). pose proof E as E'. unfold solver_new, rhs_new in E.
  destruct (nf_new (Kt XRn) p S (nc_numflux (cf_numerics c)) m) as [k0|e| |] eqn:Ek; try discriminate.
  exists k0. split; [reflexivity|]. exists u0, s0. split; [exact P|]. split; [exact E'|]. split; [|exact H].
  cbn [bind] in E. apply Ok_inj in E. subst s0. cbn [s_rhs r_nf]. unfold kt_like. auto.
Qed.

(** ** Concrete real simulations: an isothermal flow with velocities and
    densities [q] on [1, 2] *)
Lemma tube_step : forall (N : numflux_impl XRn) S nfc md cfl (nf : nf_T N) (q : nat -> nat -> R) cs tn fuel, (6 <= S)%nat ->
  (forall self d u, exists a b c, nf_calc N false Isot S self d u (rmesh S) = (a, b, c, Ok tt)) ->
  0 < cfl -> (forall i, 1 / 1000000 * Rabs (q 1%nat i + cs) * INR (S - 4) <= cfl) -> (forall i, q 1%nat i + cs <> 0) ->
  exists v d, let s := rsim Isot S (rcfg nfc md false cfl) nf v tn in
    wsv XRn Isot S v /\ gamma v = Fin (14 / 10) /\
    consistent Isot S (ng Isot) (ng Isot) (rmesh S) v /\
    (forall j i, (j < 2)%nat -> (i < S)%nat -> at2 (n0 XRn) (prim v) j i = Fin (q j (clamp S i))) /\
    (forall i, (i < S)%nat -> at1 (n0 XRn) (c_sound v) i = Fin cs) /\
    st_calc_dt_cfl Isot S (s_u s) (ts_cfl (s_ts s)) (rmesh S) = Ok (Fin d : nF XRn) /\ 0 < d /\
    (exists i, (i < S)%nat /\ d * Rabs (q 1%nat (clamp S i) + cs) = cfl * (1 / INR (S - 4))) /\
    exists s', solver_next false fuel Isot S (rmesh S) s = (s', Ok tt) /\ rkf_next false fuel Isot S (rmesh S) s = (s', Ok tt).
Proof.
  intros N S nfc md cfl nf q cs tn fuel HS Ht Hc Hlo Hne.
  destruct (rdemo Isot S (14 / 10) cs q (rmesh S) HS) as (v & _ & Cv & Wv & Gv & Pv & Qv).
  assert (Qs : forall i, (i < S)%nat -> at1 (n0 XRn) (c_sound v) i = Fin cs) by (intros; apply Qv; auto).
  pose proof (cfl_mesh Isot S Cartesian 1 2 cfl (one_state v) _ _ (fun i => q 1%nat (clamp S i)) (fun _ => cs) ltac:(lia) ltac:(lra) Hc Cv) as K.
  specialize (K ltac:(apply Wv) ltac:(intros i Hi; split; [apply (Pv 1%nat i); [cbn; lia|exact Hi]|apply Qs; exact Hi])).
  change (mesh_build (A:=XRn) S (mkMC (A:=XRn) Cartesian (Fin 1) (Fin 2))) with (rmesh S) in K.
  assert (D : exists d, st_calc_dt_cfl Isot S (one_state v) (Fin cfl : nF XRn) (rmesh S) = Ok (Fin d : nF XRn) /\ 0 < d /\
     exists i, (i < S)%nat /\ d * Rabs (q 1%nat (clamp S i) + cs) = cfl * hx S 1 2).
  { destruct (st_calc_dt_cfl Isot S (one_state v) (Fin cfl : nF XRn) (rmesh S)) as [x|e| |]; try contradiction.
    - destruct x as [dt| | |]; try contradiction. destruct K as (K1 & _ & K3). eauto.
    - destruct e; try contradiction. exfalso. apply (Hne (clamp S 0)). apply (K 0%nat). lia. }
  destruct D as (d & D & Pd & i0 & Hi0 & Di).
  exists v, d. intros s. split; [exact Wv|]. split; [exact Gv|]. split; [exact Cv|]. split; [exact Pv|]. split; [exact Qs|].
  split; [exact D|]. split; [exact Pd|].
  split; [exists i0; split; [exact Hi0|rewrite Di; unfold hx; f_equal; f_equal; ring]|].
  destruct (fun a b => total_next XRn N Isot S (rmesh S) Ht fuel s (Fin d : nF XRn) eq_refl eq_refl a D b) as (s' & E).
  - destruct md; reflexivity.
  - change (ts_dt_min (s_ts s)) with (Fin (1 / 1000000) : nF XRn). rewrite X_ltb. destruct (Rlt_dec _ _) as [L|L]; [|reflexivity]. exfalso.
    assert (Hn : 0 < INR (S - 4)) by (apply lt_0_INR; lia).
    assert (Hv : 0 < Rabs (q 1%nat (clamp S i0) + cs)) by (apply Rabs_pos_lt; apply Hne).
    pose proof (Hlo (clamp S i0)) as Hl. unfold hx in Di.
    assert (d * Rabs (q 1%nat (clamp S i0) + cs) * INR (S - 4) < 1 / 1000000 * Rabs (q 1%nat (clamp S i0) + cs) * INR (S - 4)).
    { apply Rmult_lt_compat_r; [exact Hn|]. apply Rmult_lt_compat_r; assumption. }
    rewrite Di in H. replace (cfl * ((2 - 1) / INR (S - 4)) * INR (S - 4)) with cfl in H by (field; lra). lra.
  - exists s'. split; [|exact E]. unfold solver_next. rewrite E.
    destruct (rkf_next_cases _ _ _ _ _ _ _ _ _ _ E) as (_ & _ & T & I & _).
    assert (M : ts_iter_max (s_ts s') = 100%N) by (destruct T as (T1 & T2); rewrite T1; reflexivity).
    rewrite M, I. reflexivity.
Qed.

Lemma rsim_reached : forall (N : numflux_impl XRn) p S nfc md asc cfl (nf : nf_T N) v tn,
  nf_new N p S nfc (rmesh S) = Ok nf -> wsv XRn p S v -> gamma v = Fin (14 / 10) ->
  reached p S (rcfg nfc md asc cfl) (rmesh S) (fun _ => True) (rsim (N:=N) p S (rcfg nfc md asc cfl) nf v tn).
Proof.
  intros N p S nfc md asc cfl nf v tn E W G. eexists (one_state v), _. split; [|split; [|split]].
  - split; [split; [exact W|split; exact W]|]. cbn. auto.
  - unfold solver_new, rhs_new. cbn [nc_numflux cf_numerics rcfg]. rewrite E. cbn [bind]. reflexivity.
  - exact I.
  - match goal with |- evolves _ _ _ ?a _ => apply (ev_time XRn N p S (rmesh S) a a (ts_set_next (Fin tn : nF XRn) (s_ts a)) (ev_refl XRn N _ _ _ a)) end.
Qed.

(** The sound speeds and primitive variables that the face of a cell ends up with. *)
Lemma kt_face_prim : forall p S (v : vars XRn) j i, wsv XRn p S v -> (j < nE p)%nat -> (i < S)%nat ->
  at2 (n0 XRn) (prim (kt_face p S v)) j i = c2p XRn p (gamma v) (fun k => at2 (n0 XRn) (cons v) k i) j.
Proof.
  intros p S v j i W Hj Hi. unfold kt_face.
  match goal with |- context [update_flux p S ?x] => rewrite (proj1 (update_flux_fields XRn p S x)) end.
  unfold update_eigen_vals_max, update_eigen_vals_min. cbn [prim set_eigen_vals].
  assert (E : prim (update_c_sound p S (update_prim p S v)) = prim (update_prim p S v)) by (unfold update_c_sound; destruct (is_adiabatic p); reflexivity).
  rewrite E. apply update_prim_at; auto; apply W.
Qed.

Lemma kt_face_sound : forall p S (v : vars XRn) i, wsv XRn p S v -> (i < S)%nat ->
  at1 (n0 XRn) (c_sound (kt_face p S v)) i =
  kt_sound XRn p (at1 (n0 XRn) (c_sound v) i) (c2p XRn p (gamma v) (fun k => at2 (n0 XRn) (cons v) k i)) (gamma v).
Proof.
  intros p S v i W Hi. unfold kt_face.
  match goal with |- context [update_flux p S ?x] => destruct (update_flux_fields XRn p S x) as (_ & _ & E & _); rewrite E end.
  unfold update_eigen_vals_max, update_eigen_vals_min. cbn [c_sound set_eigen_vals].
  destruct (update_prim_fields XRn p S v) as (E1 & E2 & E3 & E4 & E5 & _).
  unfold update_c_sound. destruct p; cbn [is_adiabatic kt_sound].
  - rewrite E2. reflexivity.
  - cbn [c_sound set_c_sound]. rewrite at1_tab by assumption. unfold pressure, row_or_zero, rho_prim. cbn [JPRESSURE]. unfold JRHO.
    change (at1 (n0 XRn) (nth 2 (prim (update_prim Adiab S v)) []) i) with (at2 (n0 XRn) (prim (update_prim Adiab S v)) 2 i).
    change (at1 (n0 XRn) (nth 0 (prim (update_prim Adiab S v)) []) i) with (at2 (n0 XRn) (prim (update_prim Adiab S v)) 0 i).
    rewrite !update_prim_at by (cbn; auto; apply W || lia). rewrite E5. reflexivity.
Qed.

(** ** Positivity *)
Lemma hll_positive : forall p S md a b (c : config XRn) (s s' : sim XRn (Hll XRn)) val fuel dt g (q : nat -> nat -> R) cs i,
  let m := mesh_build (A:=XRn) S (mkMC (A:=XRn) md (Fin a) (Fin b)) in
  (5 <= S)%nat -> a < b -> reached p S c m (fun _ => True) s ->
  consistent p S (init_bc (cf_bc_west c) (nE p)) (init_bc (cf_bc_east c) (nE p)) m (cent (s_u s)) ->
  pc_gamma (cf_physics c) = Fin g -> (p = Adiab -> g <> 1) ->
  (forall j i, (j < nE p)%nat -> (i < S)%nat -> at2 (n0 XRn) (prim (cent (s_u s))) j i = Fin (q j i)) ->
  (forall i, (i < S)%nat -> 0 < q 0%nat i /\ 0 < cs i /\ at1 (n0 XRn) (c_sound (cent (s_u s))) i = Fin (cs i)) ->
  solver_next val fuel p S m s = (s', Ok tt) -> ts_dt (s_ts s') = Fin dt -> 0 <= dt ->
  (forall i, (i < S)%nat -> dt * Rabs (q 1%nat i - cs i) <= hx S a b / 2 /\ dt * Rabs (q 1%nat i + cs i) <= hx S a b / 2) ->
  (2 <= i <= S - 3)%nat ->
  exists r, at2 (n0 XRn) (cons (cent (s_u s'))) 0 i = Fin r /\ 0 < r.
Proof.
  intros p S md a b c s s' val fuel dt g q cs i m HS Hab Hr C Hg Hg1 P Q E Hd Pd Cfl Hi.
  pose proof (hll_memoryless XRn p S m HS (std_build XRn S _)) as Hm.
  destruct (reached_ok XRn (Hll XRn) p S m _ HS Hm c s Hr) as (Hok & Hb & _ & G & Bw & Be). rewrite Hg in G.
  assert (W : wsv XRn p S (cent (s_u s))) by apply Hok.
  destruct (hll_real_eval p S md a b s _ _ g q cs HS Hab W Bw Be C G Hg1 P Q) as (h & w & F & ER & HF & HB).
  pose proof (hll_slopes p S md a b HS Hab s false h w F ER HF) as Hf. fold m in Hf.
  pose proof (reached_rhs (Hll XRn) p S m _ c s _ HS Hm Hr Hf) as Hv.
  assert (HU : forall j, (j < nE p)%nat -> at2 (n0 XRn) (cons (cent (s_u s))) j i = Fin (conserved p g (fun k => q k i) j)).
  { intros j Hj. refine (proj1 (real_cells p S _ _ m (cent (s_u s)) g q cs HS W C G Hg1 P _) i j ltac:(lia) Hj). intros k Hk. destruct (Q k Hk) as (Q1 & _ & Q3). split; [lra|exact Q3]. }
  pose proof (euler_cells (Hll XRn) p S m _ val fuel _ s s' _ dt g i (conserved p g (fun k => q k i)) HS Hm Hok Hb Hv E Hd G Hg1 Hi HU) as K.
  cbv beta in K. rewrite inner_true in K by exact Hi. destruct K as (K & _). eexists. split; [exact K|].
  cbn [conserved]. set (h0 := hx S a b) in *.
  assert (Hh : 0 < h0) by (apply hx_pos; [lia|exact Hab]).
  pose proof eps_pos as He. set (ep := powerRZ 2 (-52)) in *.
  destruct (HB i ltac:(lia)) as (B1 & _ & _). destruct (HB (i - 1)%nat ltac:(lia)) as (_ & B2 & _). replace (i - 1 + 1)%nat with i in B2 by lia.
  destruct (Q i ltac:(lia)) as (Q0 & _).
  assert (Ch : dt * face_hi (q 1%nat) cs i <= h0 / 2).
  { unfold face_hi, rhi. destruct (Cfl i ltac:(lia)) as (_ & C1). destruct (Cfl (i + 1)%nat ltac:(lia)) as (_ & C2).
    pose proof (Rle_abs (q 1%nat i + cs i)). pose proof (Rle_abs (q 1%nat (i + 1)%nat + cs (i + 1)%nat)).
    unfold Rmax. repeat destruct (Rle_dec _ _); nra. }
  assert (Cl : - (h0 / 2) <= dt * face_lo (q 1%nat) cs (i - 1)).
  { unfold face_lo, rlo. replace (i - 1 + 1)%nat with i by lia. destruct (Cfl i ltac:(lia)) as (C1 & _). destruct (Cfl (i - 1)%nat ltac:(lia)) as (C2 & _).
    pose proof (Rle_abs (- (q 1%nat i - cs i))) as A1. pose proof (Rle_abs (- (q 1%nat (i - 1)%nat - cs (i - 1)%nat))) as A2. rewrite Rabs_Ropp in A1, A2.
    unfold Rmin. repeat destruct (Rle_dec _ _); nra. }
  set (B := weight_sum _). assert (HBw : 0 < B <= 1) by (unfold B; destruct (rc_mode _); cbn; lra).
  assert (Hup : dt * (F 0%nat i - F 0%nat (i - 1)%nat) <= q 0%nat i * h0).
  { assert (dt * F 0%nat i <= dt * (q 0%nat i * face_hi (q 1%nat) cs i)) by (apply Rmult_le_compat_l; assumption).
    assert (dt * (q 0%nat i * face_lo (q 1%nat) cs (i - 1)) <= dt * F 0%nat (i - 1)%nat) by (apply Rmult_le_compat_l; assumption).
    nra. }
  set (X := F 0%nat i - F 0%nat (i - 1)%nat) in *.
  set (D := / (ep + h0)).
  assert (HD : 0 < D) by (unfold D; apply Rinv_0_lt_compat; lra).
  assert (HD1 : D * h0 < 1).
  { unfold D. apply Rmult_lt_reg_l with (ep + h0); [lra|]. rewrite <- Rmult_assoc, Rinv_r, Rmult_1_l, Rmult_1_r by lra. lra. }
  replace (dt * B * (D * X)) with (B * D * (dt * X)) by ring.
  assert (B * D * (dt * X) <= B * D * (q 0%nat i * h0)) by (apply Rmult_le_compat_l; [apply Rmult_le_pos; lra|exact Hup]).
  assert (B * (D * h0) < 1) by nra.
  nra.
Qed.
