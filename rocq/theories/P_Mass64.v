(** C78: mass is conserved up to rounding in binary64. *)

From Coq Require Import Reals ZArith NArith QArith Qreals List Bool Lia Lra.
From Flocq Require Import Core BinarySingleNaN.
From Verif Require Import Base Num XReal B64 Config Mesh State NumFlux Time Spec SpecFlow SpecStep SpecTableau SpecEuler SpecWall SpecMass
  MeshProofs BoundaryProofs PhysicsProofs FluxProofs UpdateProofs FluxThms StepProofs StepInv StepEq TableauProofs EulerThms ConsThms WallProofs ConvB64 ConsB64 EnergyB64 WallB64 Demo.
Import ListNotations.
Local Open Scope R_scope.

(** The density (conserved variable 0) of cell [i] as a real number. *)
Definition density {bln bexp} {N : numflux_impl (B64n bln bexp)} (s : sim (B64n bln bexp) N) (i : nat) : R :=
  B2R (at2 (n0 (B64n bln bexp)) (cons (cent (s_u s))) 0 i : b64).

(** One step with HLL, in any simulation and with any of the time integration
    modes: [F q] are the mass fluxes of stage [q], [b q] the weights of the
    mode, [w] the inverse cell volume.  The total mass changes by what flows
    through the first and the last face, up to rounding errors of at most
    2^-47 of the sum of the sizes of the terms that are added up.  The step
    was validated, or the new conserved variables are finite, and the step
    size is between 2^-500 and 2^500. *)
Theorem C78_mass_hll : forall bln bexp p S (c : config (B64n bln bexp)) (s s' : sim (B64n bln bexp) (Hll (B64n bln bexp))) validation fuel,
  let A := B64n bln bexp in
  let m := mesh_build (A:=A) S (cf_mesh c) in
  (5 <= S)%nat -> reached p S c m (fun _ => True) s ->
  solver_next validation fuel p S m s = (s', Ok tt) ->
  (validation = true \/ forall j i, (j < nE p)%nat -> (2 <= i <= S - 3)%nat -> is_finite (at2 (n0 A) (cons (cent (s_u s'))) j i : b64) = true) ->
  let dt := B2R (ts_dt (s_ts s') : b64) in
  let w := B2R (at1 (n0 A) (m_deta_dphi_d_volume m) 2 : b64) in
  let mode := rc_mode (nc_time (cf_numerics c)) in
  let n := bt_order (qtab mode) in
  let b := fun q => Q2R (qat (bt_high (qtab mode)) q) in
  wide dt ->
  exists F : nat -> nat -> R, (forall q, (q < n)%nat -> num_fluxes 0 (N:=Hll A) (fun h => h_flux_num h) p S m (fun _ => True) s (F q)) /\
    Rabs (inner_sum S (density s') - inner_sum S (density s) + rsum n (fun q => dt * b q * w * (F q (S - 3)%nat - F q 1%nat))) <=
      bpow radix2 (-47) * inner_sum S (fun i => Rabs (density s i) + rsum n (fun q => Rabs (dt * b q * w * (F q i - F q (i - 1)%nat)))) +
      INR (S - 4) * bpow radix2 (-510).
Proof.
  intros bln bexp p S c s s' val fuel A m HS Hr E Hf dt w mode n b Wd.
  exact (mass_step bln bexp (Hll A) (fun h => h_flux_num h) p S c (fun _ => True) HS (hll_memoryless A p S m HS (std_build A S (cf_mesh c)))
    (fun v h u h' w _ Eh => hll_form A p S (cf_mesh c) HS v h u h' w Eh) val fuel s s' Hr E Hf Wd).
Qed.
Print Assumptions C78_mass_hll.

(** The same with the Kurganov-Tadmor scheme. *)
Theorem C78_mass_kt : forall bln bexp p S (c : config (B64n bln bexp)) k0 (s s' : sim (B64n bln bexp) (Kt (B64n bln bexp))) validation fuel,
  let A := B64n bln bexp in
  let m := mesh_build (A:=A) S (cf_mesh c) in
  let good := fun k : nf_T (Kt A) => kt_like A k k0 in
  (5 <= S)%nat -> nf_new (Kt A) p S (nc_numflux (cf_numerics c)) m = Ok k0 -> reached p S c m good s ->
  solver_next validation fuel p S m s = (s', Ok tt) ->
  (validation = true \/ forall j i, (j < nE p)%nat -> (2 <= i <= S - 3)%nat -> is_finite (at2 (n0 A) (cons (cent (s_u s'))) j i : b64) = true) ->
  let dt := B2R (ts_dt (s_ts s') : b64) in
  let w := B2R (at1 (n0 A) (m_deta_dphi_d_volume m) 2 : b64) in
  let mode := rc_mode (nc_time (cf_numerics c)) in
  let n := bt_order (qtab mode) in
  let b := fun q => Q2R (qat (bt_high (qtab mode)) q) in
  wide dt ->
  exists F : nat -> nat -> R, (forall q, (q < n)%nat -> num_fluxes 0 (N:=Kt A) (fun k => k_flux_num k) p S m good s (F q)) /\
    Rabs (inner_sum S (density s') - inner_sum S (density s) + rsum n (fun q => dt * b q * w * (F q (S - 3)%nat - F q 1%nat))) <=
      bpow radix2 (-47) * inner_sum S (fun i => Rabs (density s i) + rsum n (fun q => Rabs (dt * b q * w * (F q i - F q (i - 1)%nat)))) +
      INR (S - 4) * bpow radix2 (-510).
Proof.
  intros bln bexp p S c k0 s s' val fuel A m good HS Hk Hr E Hf dt w mode n b Wd.
  exact (mass_step bln bexp (Kt A) (fun k => k_flux_num k) p S c good HS (kt_memoryless A p S m k0 HS (std_build A S (cf_mesh c)))
    (fun v h u h' w W Eh => kt_form A p S (cf_mesh c) HS v h u h' w W Eh) val fuel s s' Hr E Hf Wd).
Qed.
Print Assumptions C78_mass_kt.

(** In a closed box (solid walls on both sides, a level speed of sound) no mass
    at all flows through the walls, so the total mass is the same after the
    step as before, up to the rounding errors of the additions. *)
Lemma walls_tight : forall bln bexp p S (c : config (B64n bln bexp)) (s : sim (B64n bln bexp) (Hll (B64n bln bexp))) F k, kept p k ->
  let A := B64n bln bexp in
  let m := mesh_build (A:=A) S (cf_mesh c) in
  (5 <= S)%nat -> reached p S c m (fun _ => True) s -> closed_box p c -> level_at_walls p S (cent (s_u s)) ->
  num_fluxes k (N:=Hll A) (fun h => h_flux_num h) p S m (fun _ => True) s F ->
  F 1%nat = 0 /\ F (S - 3)%nat = 0.
Proof.
  intros bln bexp p S c s F k Hk A m HS Hr (Bw & Be) Lv (val & h & u & h' & u' & Wu & E & E1 & E2 & _ & G & Cs & _ & Hf).
  destruct (reached_ok A (Hll A) p S m _ HS (hll_memoryless A p S m HS (std_build A S (cf_mesh c))) c s Hr) as (_ & _ & _ & _ & Rw & Re).
  assert (Q1 : r_bw h = wall_list p) by (etransitivity; [exact E1|]; etransitivity; [exact Rw|]; exact (f_equal (fun x => init_bc x (nE p)) Bw)).
  assert (Q2 : r_be h = wall_list p) by (etransitivity; [exact E2|]; etransitivity; [exact Re|]; exact (f_equal (fun x => init_bc x (nE p)) Be)).
  destruct (rhs_update_Ok _ _ _ _ _ _ _ _ _ _ _ E) as [(u1 & nf & full & X1 & X2 & ->)|[(_ & _ & _ & X)|[(e & _ & _ & _ & X)|(_ & _ & _ & X)]]]; try discriminate X.
  cbn [r_nf nf_calc Hll] in X2, Hf. rewrite Q1, Q2 in X1.
  unfold st_update_from_cons in X1. apply bind_Ok in X1. destruct X1 as (v' & Hv & X1). injection X1 as <-.
  assert (Lu : level_at_walls p S (cent u)) by (unfold level_at_walls; rewrite Cs; exact Lv).
  assert (K : forall i, (i = 1 \/ i = S - 3)%nat -> F i = 0).
  { assert (Hkn : (k < nE p)%nat) by (destruct Hk as [->|(-> & ->)]; [destruct p|]; cbn; lia).
    intros i Hi. destruct (Hf i ltac:(lia)) as (Ff & <-).
    pose proof (hll_num A val p S (r_nf h) (r_full h) (set_cent v' u) m (std_build A S _) k i Hkn ltac:(lia) ltac:(lia) ltac:(lia)) as H1.
    rewrite X2 in H1. cbn [fst snd cent set_cent] in H1.
    assert (Ff' : is_finite (hll_fn A p S v' k i : b64) = true) by (rewrite <- H1; exact Ff).
    transitivity (B2R (hll_fn A p S v' k i : b64)); [exact (f_equal (fun x : b64 => B2R x) H1)|].
    apply (wall_flux_64 bln bexp p S m (cent u) v' i HS (proj1 Wu) Lu Hv Hi k Hk); exact Ff'. }
  split; apply K; auto.
Qed.

Theorem C78_closed_box : forall bln bexp p S (c : config (B64n bln bexp)) (s s' : sim (B64n bln bexp) (Hll (B64n bln bexp))) validation fuel,
  let A := B64n bln bexp in
  let m := mesh_build (A:=A) S (cf_mesh c) in
  (5 <= S)%nat -> reached p S c m (fun _ => True) s -> closed_box p c -> level_at_walls p S (cent (s_u s)) ->
  solver_next validation fuel p S m s = (s', Ok tt) ->
  (validation = true \/ forall j i, (j < nE p)%nat -> (2 <= i <= S - 3)%nat -> is_finite (at2 (n0 A) (cons (cent (s_u s'))) j i : b64) = true) ->
  let dt := B2R (ts_dt (s_ts s') : b64) in
  let w := B2R (at1 (n0 A) (m_deta_dphi_d_volume m) 2 : b64) in
  let mode := rc_mode (nc_time (cf_numerics c)) in
  let n := bt_order (qtab mode) in
  let b := fun q => Q2R (qat (bt_high (qtab mode)) q) in
  wide dt ->
  exists F : nat -> nat -> R,
    (forall q, (q < n)%nat -> num_fluxes 0 (N:=Hll A) (fun h => h_flux_num h) p S m (fun _ => True) s (F q) /\ F q 1%nat = 0 /\ F q (S - 3)%nat = 0) /\
    Rabs (inner_sum S (density s') - inner_sum S (density s)) <=
      bpow radix2 (-47) * inner_sum S (fun i => Rabs (density s i) + rsum n (fun q => Rabs (dt * b q * w * (F q i - F q (i - 1)%nat)))) +
      INR (S - 4) * bpow radix2 (-510).
Proof.
  intros bln bexp p S c s s' val fuel A m HS Hr Hb Lv E Hf dt w mode n b Wd.
  destruct (C78_mass_hll bln bexp p S c s s' val fuel HS Hr E Hf Wd) as (F & HF & B).
  exists F.
  assert (Z : forall q, (q < n)%nat -> F q 1%nat = 0 /\ F q (S - 3)%nat = 0).
  { intros q Hq. apply (walls_tight bln bexp p S c s (F q) 0%nat (or_introl eq_refl) HS Hr Hb Lv). apply HF. exact Hq. }
  split; [intros q Hq; split; [apply HF; exact Hq|apply Z; exact Hq]|].
  match type of B with Rabs (_ - _ + ?r) <= _ => assert (Zr : r = 0) end.
  { rewrite (rsum_ext _ _ (fun _ => 0)) by (intros q Hq; destruct (Z q Hq) as (-> & ->); ring). clear. induction (bt_order _); cbn [rsum]; [reflexivity|]. lra. }
  rewrite Zr, Rplus_0_r in B. exact B.
Qed.
Print Assumptions C78_closed_box.

(** The same for momentum (conserved variable 1), which is recomputed from the
    velocity after the step: the density enters the bound with the underflow of
    that computation. *)
Definition momentum {bln bexp} {N : numflux_impl (B64n bln bexp)} (s : sim (B64n bln bexp) N) (i : nat) : R :=
  B2R (at2 (n0 (B64n bln bexp)) (cons (cent (s_u s))) 1 i : b64).

Theorem C78_momentum_hll : forall bln bexp p S (c : config (B64n bln bexp)) (s s' : sim (B64n bln bexp) (Hll (B64n bln bexp))) validation fuel,
  let A := B64n bln bexp in
  let m := mesh_build (A:=A) S (cf_mesh c) in
  (5 <= S)%nat -> reached p S c m (fun _ => True) s ->
  solver_next validation fuel p S m s = (s', Ok tt) ->
  (validation = true \/ forall j i, (j < nE p)%nat -> (2 <= i <= S - 3)%nat -> is_finite (at2 (n0 A) (cons (cent (s_u s'))) j i : b64) = true) ->
  let dt := B2R (ts_dt (s_ts s') : b64) in
  let w := B2R (at1 (n0 A) (m_deta_dphi_d_volume m) 2 : b64) in
  let mode := rc_mode (nc_time (cf_numerics c)) in
  let n := bt_order (qtab mode) in
  let b := fun q => Q2R (qat (bt_high (qtab mode)) q) in
  wide dt ->
  exists F : nat -> nat -> R, (forall q, (q < n)%nat -> num_fluxes 1 (N:=Hll A) (fun h => h_flux_num h) p S m (fun _ => True) s (F q)) /\
    Rabs (inner_sum S (momentum s') - inner_sum S (momentum s) + rsum n (fun q => dt * b q * w * (F q (S - 3)%nat - F q 1%nat))) <=
      bpow radix2 (-47) * inner_sum S (fun i => Rabs (momentum s i) + rsum n (fun q => Rabs (dt * b q * w * (F q i - F q (i - 1)%nat)))) +
      INR (S - 4) * bpow radix2 (-510) + bpow radix2 (-1020) * inner_sum S (fun i => Rabs (density s' i)).
Proof.
  intros bln bexp p S c s s' val fuel A m HS Hr E Hf dt w mode n b Wd.
  exact (momentum_step bln bexp (Hll A) (fun h => h_flux_num h) p S c (fun _ => True) HS (hll_memoryless A p S m HS (std_build A S (cf_mesh c)))
    (fun v h u h' w _ Eh => hll_form A p S (cf_mesh c) HS v h u h' w Eh) val fuel s s' Hr E Hf Wd).
Qed.
Print Assumptions C78_momentum_hll.

Theorem C78_momentum_kt : forall bln bexp p S (c : config (B64n bln bexp)) k0 (s s' : sim (B64n bln bexp) (Kt (B64n bln bexp))) validation fuel,
  let A := B64n bln bexp in
  let m := mesh_build (A:=A) S (cf_mesh c) in
  let good := fun k : nf_T (Kt A) => kt_like A k k0 in
  (5 <= S)%nat -> nf_new (Kt A) p S (nc_numflux (cf_numerics c)) m = Ok k0 -> reached p S c m good s ->
  solver_next validation fuel p S m s = (s', Ok tt) ->
  (validation = true \/ forall j i, (j < nE p)%nat -> (2 <= i <= S - 3)%nat -> is_finite (at2 (n0 A) (cons (cent (s_u s'))) j i : b64) = true) ->
  let dt := B2R (ts_dt (s_ts s') : b64) in
  let w := B2R (at1 (n0 A) (m_deta_dphi_d_volume m) 2 : b64) in
  let mode := rc_mode (nc_time (cf_numerics c)) in
  let n := bt_order (qtab mode) in
  let b := fun q => Q2R (qat (bt_high (qtab mode)) q) in
  wide dt ->
  exists F : nat -> nat -> R, (forall q, (q < n)%nat -> num_fluxes 1 (N:=Kt A) (fun k => k_flux_num k) p S m good s (F q)) /\
    Rabs (inner_sum S (momentum s') - inner_sum S (momentum s) + rsum n (fun q => dt * b q * w * (F q (S - 3)%nat - F q 1%nat))) <=
      bpow radix2 (-47) * inner_sum S (fun i => Rabs (momentum s i) + rsum n (fun q => Rabs (dt * b q * w * (F q i - F q (i - 1)%nat)))) +
      INR (S - 4) * bpow radix2 (-510) + bpow radix2 (-1020) * inner_sum S (fun i => Rabs (density s' i)).
Proof.
  intros bln bexp p S c k0 s s' val fuel A m good HS Hk Hr E Hf dt w mode n b Wd.
  exact (momentum_step bln bexp (Kt A) (fun k => k_flux_num k) p S c good HS (kt_memoryless A p S m k0 HS (std_build A S (cf_mesh c)))
    (fun v h u h' w W Eh => kt_form A p S (cf_mesh c) HS v h u h' w W Eh) val fuel s s' Hr E Hf Wd).
Qed.
Print Assumptions C78_momentum_kt.

(** The energy (conserved variable 2 of the adiabatic physics) is recomputed
    from pressure and velocity after the step.  The rounding errors of this are
    measured by the energies themselves, if densities, velocities and the
    adiabatic index are of ordinary size. *)
Definition energy {bln bexp} {N : numflux_impl (B64n bln bexp)} (s : sim (B64n bln bexp) N) (i : nat) : R :=
  B2R (at2 (n0 (B64n bln bexp)) (cons (cent (s_u s))) 2 i : b64).
Definition velocity {bln bexp} {N : numflux_impl (B64n bln bexp)} (s : sim (B64n bln bexp) N) (i : nat) : R :=
  B2R (at2 (n0 (B64n bln bexp)) (prim (cent (s_u s))) 1 i : b64).

Theorem C78_energy_hll : forall bln bexp S (c : config (B64n bln bexp)) (s s' : sim (B64n bln bexp) (Hll (B64n bln bexp))) validation fuel,
  let A := B64n bln bexp in
  let m := mesh_build (A:=A) S (cf_mesh c) in
  (5 <= S)%nat -> reached Adiab S c m (fun _ => True) s ->
  solver_next validation fuel Adiab S m s = (s', Ok tt) ->
  (validation = true \/ forall j i, (j < nE Adiab)%nat -> (2 <= i <= S - 3)%nat -> is_finite (at2 (n0 A) (cons (cent (s_u s'))) j i : b64) = true) ->
  let dt := B2R (ts_dt (s_ts s') : b64) in
  let w := B2R (at1 (n0 A) (m_deta_dphi_d_volume m) 2 : b64) in
  let mode := rc_mode (nc_time (cf_numerics c)) in
  let n := bt_order (qtab mode) in
  let b := fun q => Q2R (qat (bt_high (qtab mode)) q) in
  wide dt ->
  (forall i, (2 <= i <= S - 3)%nat -> bpow radix2 (-100) <= density s' i <= bpow radix2 100 /\ Rabs (velocity s' i) <= bpow radix2 100) ->
  bpow radix2 (-100) <= Rabs (B2R (b_sub (pc_gamma (cf_physics c)) (b_ofZ 1))) <= bpow radix2 100 ->
  exists F : nat -> nat -> R, (forall q, (q < n)%nat -> num_fluxes 2 (N:=Hll A) (fun h => h_flux_num h) Adiab S m (fun _ => True) s (F q)) /\
    Rabs (inner_sum S (energy s') - inner_sum S (energy s) + rsum n (fun q => dt * b q * w * (F q (S - 3)%nat - F q 1%nat))) <=
      bpow radix2 (-47) * inner_sum S (fun i => Rabs (energy s i) + rsum n (fun q => Rabs (dt * b q * w * (F q i - F q (i - 1)%nat)))) +
      INR (S - 4) * bpow radix2 (-510) + bpow radix2 (-47) * inner_sum S (fun i => / 2 * density s' i * (velocity s' i * velocity s' i)).
Proof.
  intros bln bexp S c s s' val fuel A m HS Hr E Hf dt w mode n b Wd Ho Hg.
  exact (energy_step bln bexp (Hll A) (fun h => h_flux_num h) S c (fun _ => True) HS (hll_memoryless A Adiab S m HS (std_build A S (cf_mesh c)))
    (fun v h u h' w _ Eh => hll_form A Adiab S (cf_mesh c) HS v h u h' w Eh) val fuel s s' Hr E Hf Wd Ho Hg).
Qed.
Print Assumptions C78_energy_hll.

Theorem C78_energy_kt : forall bln bexp S (c : config (B64n bln bexp)) k0 (s s' : sim (B64n bln bexp) (Kt (B64n bln bexp))) validation fuel,
  let A := B64n bln bexp in
  let m := mesh_build (A:=A) S (cf_mesh c) in
  let good := fun k : nf_T (Kt A) => kt_like A k k0 in
  (5 <= S)%nat -> nf_new (Kt A) Adiab S (nc_numflux (cf_numerics c)) m = Ok k0 -> reached Adiab S c m good s ->
  solver_next validation fuel Adiab S m s = (s', Ok tt) ->
  (validation = true \/ forall j i, (j < nE Adiab)%nat -> (2 <= i <= S - 3)%nat -> is_finite (at2 (n0 A) (cons (cent (s_u s'))) j i : b64) = true) ->
  let dt := B2R (ts_dt (s_ts s') : b64) in
  let w := B2R (at1 (n0 A) (m_deta_dphi_d_volume m) 2 : b64) in
  let mode := rc_mode (nc_time (cf_numerics c)) in
  let n := bt_order (qtab mode) in
  let b := fun q => Q2R (qat (bt_high (qtab mode)) q) in
  wide dt ->
  (forall i, (2 <= i <= S - 3)%nat -> bpow radix2 (-100) <= density s' i <= bpow radix2 100 /\ Rabs (velocity s' i) <= bpow radix2 100) ->
  bpow radix2 (-100) <= Rabs (B2R (b_sub (pc_gamma (cf_physics c)) (b_ofZ 1))) <= bpow radix2 100 ->
  exists F : nat -> nat -> R, (forall q, (q < n)%nat -> num_fluxes 2 (N:=Kt A) (fun k => k_flux_num k) Adiab S m good s (F q)) /\
    Rabs (inner_sum S (energy s') - inner_sum S (energy s) + rsum n (fun q => dt * b q * w * (F q (S - 3)%nat - F q 1%nat))) <=
      bpow radix2 (-47) * inner_sum S (fun i => Rabs (energy s i) + rsum n (fun q => Rabs (dt * b q * w * (F q i - F q (i - 1)%nat)))) +
      INR (S - 4) * bpow radix2 (-510) + bpow radix2 (-47) * inner_sum S (fun i => / 2 * density s' i * (velocity s' i * velocity s' i)).
Proof.
  intros bln bexp S c k0 s s' val fuel A m good HS Hk Hr E Hf dt w mode n b Wd Ho Hg.
  exact (energy_step bln bexp (Kt A) (fun k => k_flux_num k) S c good HS (kt_memoryless A Adiab S m k0 HS (std_build A S (cf_mesh c)))
    (fun v h u h' w W Eh => kt_form A Adiab S (cf_mesh c) HS v h u h' w W Eh) val fuel s s' Hr E Hf Wd Ho Hg).
Qed.
Print Assumptions C78_energy_kt.

(** Any number of steps: the bounds add up. *)
Lemma many_steps : forall K (Q : nat -> R) (flow err : nat -> (nat -> nat -> R) -> R) (P : nat -> (nat -> nat -> R) -> Prop),
  (forall t, (t < K)%nat -> exists F, P t F /\ Rabs (Q (t + 1)%nat - Q t + flow t F) <= err t F) ->
  exists F : nat -> nat -> nat -> R, (forall t, (t < K)%nat -> P t (F t)) /\
    Rabs (Q K - Q 0%nat + rsum K (fun t => flow t (F t))) <= rsum K (fun t => err t (F t)).
Proof.
  intros K Q flow err P H. destruct (choose _ (fun _ _ => 0) K _ H) as (F & HF). exists F. split; [intros t Ht; apply HF; exact Ht|].
  assert (K1 : forall k, (k <= K)%nat -> Rabs (Q k - Q 0%nat + rsum k (fun t => flow t (F t))) <= rsum k (fun t => err t (F t))).
  { induction k as [|k IH]; intros Hk; cbn [rsum]; [right; replace (Q 0%nat - Q 0%nat + 0) with 0 by ring; apply Rabs_R0|].
    destruct (HF k ltac:(lia)) as (_ & B). specialize (IH ltac:(lia)). replace (k + 1)%nat with (Datatypes.S k) in B by lia.
    replace (Q (Datatypes.S k) - Q 0%nat + (rsum k (fun t => flow t (F t)) + flow k (F k)))
      with ((Q k - Q 0%nat + rsum k (fun t => flow t (F t))) + (Q (Datatypes.S k) - Q k + flow k (F k))) by ring.
    eapply Rle_trans; [apply Rabs_triang|]. lra. }
  apply K1. lia.
Qed.

Lemma steps_reached : forall (A : Num) (N : numflux_impl A) p S c m (good : nf_T N -> Prop) val fuel K (st : nat -> sim A N), reached p S c m good (st 0%nat) ->
  steps_of val fuel p S m K st -> forall t, (t <= K)%nat -> reached p S c m good (st t).
Proof.
  intros A N p S c m good val fuel K st (u0 & s0 & P1 & P2 & P3 & P4) H t Ht. exists u0, s0. repeat match goal with |- _ /\ _ => split; [assumption|] end.
  induction t as [|t IH]; [exact P4|]. destruct (H t ltac:(lia)) as (ts & E). replace (t + 1)%nat with (Datatypes.S t) in E by lia.
  eapply ev_step; [|exact E]. apply ev_time. apply IH. lia.
Qed.

Theorem C78_run_hll : forall bln bexp p S (c : config (B64n bln bexp)) fuel K (st : nat -> sim (B64n bln bexp) (Hll (B64n bln bexp))),
  let A := B64n bln bexp in
  let m := mesh_build (A:=A) S (cf_mesh c) in
  (5 <= S)%nat -> reached p S c m (fun _ => True) (st 0%nat) -> steps_of true fuel p S m K st ->
  let dt := fun t => B2R (ts_dt (s_ts (st t)) : b64) in
  let w := B2R (at1 (n0 A) (m_deta_dphi_d_volume m) 2 : b64) in
  let mode := rc_mode (nc_time (cf_numerics c)) in
  let n := bt_order (qtab mode) in
  let a := fun t q => dt (t + 1)%nat * Q2R (qat (bt_high (qtab mode)) q) * w in
  (forall t, (t < K)%nat -> wide (dt (t + 1)%nat)) ->
  exists F : nat -> nat -> nat -> R,
    (forall t, (t < K)%nat -> forall q, (q < n)%nat -> num_fluxes 0 (N:=Hll A) (fun h => h_flux_num h) p S m (fun _ => True) (st t) (F t q)) /\
    Rabs (inner_sum S (density (st K)) - inner_sum S (density (st 0%nat)) + rsum K (fun t => outflow S n (a t) (F t))) <=
      rsum K (fun t => bpow radix2 (-47) * sizes S n (density (st t)) (a t) (F t) + INR (S - 4) * bpow radix2 (-510)).
Proof.
  intros bln bexp p S c fuel K st A m HS Hr Hs dt w mode n a Wd.
  apply (many_steps K (fun t => inner_sum S (density (st t))) (fun t F => outflow S n (a t) F)
    (fun t F => bpow radix2 (-47) * sizes S n (density (st t)) (a t) F + INR (S - 4) * bpow radix2 (-510))
    (fun t F => forall q, (q < n)%nat -> num_fluxes 0 (N:=Hll A) (fun h => h_flux_num h) p S m (fun _ => True) (st t) (F q))).
  intros t Ht. destruct (Hs t Ht) as (ts & E).
  assert (R1 : reached p S c m (fun _ => True) (mkSim ts (s_u (st t)) (s_rk (st t)) (s_rhs (st t)))).
  { destruct (steps_reached A (Hll A) p S c m _ true fuel K st Hr Hs t ltac:(lia)) as (u0 & s0 & P1 & P2 & P3 & P4). exists u0, s0.
    split; [exact P1|]. split; [exact P2|]. split; [exact P3|]. apply ev_time. exact P4. }
  exact (C78_mass_hll bln bexp p S c _ (st (t + 1)%nat) true fuel HS R1 E (or_introl eq_refl) (Wd t Ht)).
Qed.
Print Assumptions C78_run_hll.

Theorem C78_run_kt : forall bln bexp p S (c : config (B64n bln bexp)) k0 fuel K (st : nat -> sim (B64n bln bexp) (Kt (B64n bln bexp))),
  let A := B64n bln bexp in
  let m := mesh_build (A:=A) S (cf_mesh c) in
  let good := fun k : nf_T (Kt A) => kt_like A k k0 in
  (5 <= S)%nat -> nf_new (Kt A) p S (nc_numflux (cf_numerics c)) m = Ok k0 -> reached p S c m good (st 0%nat) -> steps_of true fuel p S m K st ->
  let dt := fun t => B2R (ts_dt (s_ts (st t)) : b64) in
  let w := B2R (at1 (n0 A) (m_deta_dphi_d_volume m) 2 : b64) in
  let mode := rc_mode (nc_time (cf_numerics c)) in
  let n := bt_order (qtab mode) in
  let a := fun t q => dt (t + 1)%nat * Q2R (qat (bt_high (qtab mode)) q) * w in
  (forall t, (t < K)%nat -> wide (dt (t + 1)%nat)) ->
  exists F : nat -> nat -> nat -> R,
    (forall t, (t < K)%nat -> forall q, (q < n)%nat -> num_fluxes 0 (N:=Kt A) (fun k => k_flux_num k) p S m good (st t) (F t q)) /\
    Rabs (inner_sum S (density (st K)) - inner_sum S (density (st 0%nat)) + rsum K (fun t => outflow S n (a t) (F t))) <=
      rsum K (fun t => bpow radix2 (-47) * sizes S n (density (st t)) (a t) (F t) + INR (S - 4) * bpow radix2 (-510)).
Proof.
  intros bln bexp p S c k0 fuel K st A m good HS Hk Hr Hs dt w mode n a Wd.
  apply (many_steps K (fun t => inner_sum S (density (st t))) (fun t F => outflow S n (a t) F)
    (fun t F => bpow radix2 (-47) * sizes S n (density (st t)) (a t) F + INR (S - 4) * bpow radix2 (-510))
    (fun t F => forall q, (q < n)%nat -> num_fluxes 0 (N:=Kt A) (fun k => k_flux_num k) p S m good (st t) (F q))).
  intros t Ht. destruct (Hs t Ht) as (ts & E).
  assert (R1 : reached p S c m good (mkSim ts (s_u (st t)) (s_rk (st t)) (s_rhs (st t)))).
  { destruct (steps_reached A (Kt A) p S c m _ true fuel K st Hr Hs t ltac:(lia)) as (u0 & s0 & P1 & P2 & P3 & P4). exists u0, s0.
    split; [exact P1|]. split; [exact P2|]. split; [exact P3|]. apply ev_time. exact P4. }
  exact (C78_mass_kt bln bexp p S c k0 _ (st (t + 1)%nat) true fuel HS Hk R1 E (or_introl eq_refl) (Wd t Ht)).
Qed.
Print Assumptions C78_run_kt.

(** A closed box keeps its mass over any number of steps, up to rounding. *)
Theorem C78_closed_box_run : forall bln bexp p S (c : config (B64n bln bexp)) fuel K (st : nat -> sim (B64n bln bexp) (Hll (B64n bln bexp))),
  let A := B64n bln bexp in
  let m := mesh_build (A:=A) S (cf_mesh c) in
  (5 <= S)%nat -> reached p S c m (fun _ => True) (st 0%nat) -> closed_box p c -> (forall t, (t < K)%nat -> level_at_walls p S (cent (s_u (st t)))) ->
  steps_of true fuel p S m K st ->
  let dt := fun t => B2R (ts_dt (s_ts (st t)) : b64) in
  let w := B2R (at1 (n0 A) (m_deta_dphi_d_volume m) 2 : b64) in
  let mode := rc_mode (nc_time (cf_numerics c)) in
  let n := bt_order (qtab mode) in
  let a := fun t q => dt (t + 1)%nat * Q2R (qat (bt_high (qtab mode)) q) * w in
  (forall t, (t < K)%nat -> wide (dt (t + 1)%nat)) ->
  exists F : nat -> nat -> nat -> R,
    (forall t, (t < K)%nat -> forall q, (q < n)%nat -> num_fluxes 0 (N:=Hll A) (fun h => h_flux_num h) p S m (fun _ => True) (st t) (F t q)) /\
    Rabs (inner_sum S (density (st K)) - inner_sum S (density (st 0%nat))) <=
      rsum K (fun t => bpow radix2 (-47) * sizes S n (density (st t)) (a t) (F t) + INR (S - 4) * bpow radix2 (-510)).
Proof.
  intros bln bexp p S c fuel K st A m HS Hr Hb Lv Hs dt w mode n a Wd.
  destruct (C78_run_hll bln bexp p S c fuel K st HS Hr Hs Wd) as (F & HF & B). exists F. split; [exact HF|].
  match type of B with Rabs (_ - _ + ?r) <= _ => assert (Zr : r = 0) end.
  { rewrite (rsum_ext _ _ (fun _ => 0)); [clear; induction K; cbn [rsum]; [reflexivity|lra]|].
    intros t Ht. unfold outflow. rewrite (rsum_ext _ _ (fun _ => 0)).
    - clear. induction (bt_order _); cbn [rsum]; [reflexivity|]. lra.
    - intros q Hq. destruct (walls_tight bln bexp p S c (st t) (F t q) 0%nat (or_introl eq_refl) HS (steps_reached A (Hll A) p S c m _ true fuel K st Hr Hs t ltac:(lia)) Hb (Lv t Ht) (HF t Ht q Hq)) as (-> & ->). ring. }
  rewrite Zr, Rplus_0_r in B. exact B.
Qed.
Print Assumptions C78_closed_box_run.

(** Its energy is kept as well (adiabatic physics). *)
Theorem C78_closed_box_energy : forall bln bexp S (c : config (B64n bln bexp)) fuel K (st : nat -> sim (B64n bln bexp) (Hll (B64n bln bexp))),
  let A := B64n bln bexp in
  let m := mesh_build (A:=A) S (cf_mesh c) in
  (5 <= S)%nat -> reached Adiab S c m (fun _ => True) (st 0%nat) -> closed_box Adiab c -> steps_of true fuel Adiab S m K st ->
  let dt := fun t => B2R (ts_dt (s_ts (st t)) : b64) in
  let w := B2R (at1 (n0 A) (m_deta_dphi_d_volume m) 2 : b64) in
  let mode := rc_mode (nc_time (cf_numerics c)) in
  let n := bt_order (qtab mode) in
  let a := fun t q => dt (t + 1)%nat * Q2R (qat (bt_high (qtab mode)) q) * w in
  let kinetic := fun t => inner_sum S (fun i => / 2 * density (st t) i * (velocity (st t) i * velocity (st t) i)) in
  (forall t, (t < K)%nat -> wide (dt (t + 1)%nat) /\
    forall i, (2 <= i <= S - 3)%nat -> bpow radix2 (-100) <= density (st (t + 1)%nat) i <= bpow radix2 100 /\ Rabs (velocity (st (t + 1)%nat) i) <= bpow radix2 100) ->
  bpow radix2 (-100) <= Rabs (B2R (b_sub (pc_gamma (cf_physics c)) (b_ofZ 1))) <= bpow radix2 100 ->
  exists F : nat -> nat -> nat -> R,
    (forall t, (t < K)%nat -> forall q, (q < n)%nat -> num_fluxes 2 (N:=Hll A) (fun h => h_flux_num h) Adiab S m (fun _ => True) (st t) (F t q)) /\
    Rabs (inner_sum S (energy (st K)) - inner_sum S (energy (st 0%nat))) <=
      rsum K (fun t => bpow radix2 (-47) * sizes S n (energy (st t)) (a t) (F t) + INR (S - 4) * bpow radix2 (-510) + bpow radix2 (-47) * kinetic (t + 1)%nat).
Proof.
  intros bln bexp S c fuel K st A m HS Hr Hb Hs dt w mode n a kinetic Ho Hg.
  destruct (many_steps K (fun t => inner_sum S (energy (st t))) (fun t F => outflow S n (a t) F)
    (fun t F => bpow radix2 (-47) * sizes S n (energy (st t)) (a t) F + INR (S - 4) * bpow radix2 (-510) + bpow radix2 (-47) * kinetic (t + 1)%nat)
    (fun t F => forall q, (q < n)%nat -> num_fluxes 2 (N:=Hll A) (fun h => h_flux_num h) Adiab S m (fun _ => True) (st t) (F q))) as (F & HF & B).
  - intros t Ht. destruct (Hs t Ht) as (ts & E). destruct (Ho t Ht) as (Wd & O).
    assert (R1 : reached Adiab S c m (fun _ => True) (mkSim ts (s_u (st t)) (s_rk (st t)) (s_rhs (st t)))).
    { destruct (steps_reached A (Hll A) Adiab S c m _ true fuel K st Hr Hs t ltac:(lia)) as (u0 & s0 & P1 & P2 & P3 & P4). exists u0, s0.
      split; [exact P1|]. split; [exact P2|]. split; [exact P3|]. apply ev_time. exact P4. }
    exact (C78_energy_hll bln bexp S c _ (st (t + 1)%nat) true fuel HS R1 E (or_introl eq_refl) Wd O Hg).
  - exists F. split; [exact HF|].
    match type of B with Rabs (_ - _ + ?r) <= _ => assert (Zr : r = 0) end.
    { rewrite (rsum_ext _ _ (fun _ => 0)); [clear; induction K; cbn [rsum]; [reflexivity|lra]|].
      intros t Ht. unfold outflow. rewrite (rsum_ext _ _ (fun _ => 0)).
      - rewrite rsum_const. ring.
      - intros q Hq. destruct (walls_tight bln bexp Adiab S c (st t) (F t q) 2%nat (or_intror (conj eq_refl eq_refl)) HS
          (steps_reached A (Hll A) Adiab S c m _ true fuel K st Hr Hs t ltac:(lia)) Hb (fun X => ltac:(discriminate X)) (HF t Ht q Hq)) as (-> & ->). ring. }
    rewrite Zr, Rplus_0_r in B. exact B.
Qed.
Print Assumptions C78_closed_box_energy.

(** The demo simulations are reached. *)
Lemma demo_reached : forall (A : Num) (N : numflux_impl A) p S c q s (good : nf_T N -> Prop), (5 <= S)%nat ->
  pc_gamma (cf_physics c) = nQ A (14 # 10) ->
  (forall k0, nf_new N p S (nc_numflux (cf_numerics c)) (demo_mesh A S) = Ok k0 -> good k0) ->
  demo N p S c q = Ok s -> reached p S c (demo_mesh A S) good s.
Proof.
  intros A N p S c q s good HS Hc Hg H. unfold demo in H.
  destruct (solver_new N p S c (demo_mesh A S) (state_new p S (cf_physics c))) as [s0|e| |] eqn:Es; try discriminate.
  cbn [bind] in H. apply bind_Ok in H. destruct H as (u & Hu & H). injection H as <-.
  unfold solver_new in Es. apply bind_Ok in Es. destruct Es as (rh & Enf & Es). injection Es as <-. cbn [s_ts s_u s_rk s_rhs] in *.
  unfold st_update_from_prim in Hu. apply bind_Ok in Hu. destruct Hu as (v & Hv & Hu). injection Hu as <-.
  assert (W0 : wsv A p S (demo_vars p S q)).
  { unfold wsv, demo_vars. cbn [prim cons eigen_vals flux c_sound]. repeat match goal with |- _ /\ _ => split end;
      first [apply shape_mtab|apply shape_zeros2|apply repeat_length]. }
  destruct (update_from_prim_view A p S _ _ (demo_mesh A S) _ v ltac:(lia) W0 Hv) as (W & G & _).
  assert (P0 : prepared p S c (state_new p S (cf_physics c))) by (split; [split; [|split]; apply wsv_new|repeat split]).
  destruct P0 as ((_ & W2 & W3) & G1 & G2 & G3).
  set (u1 := init_west_east (set_cent v (set_cent (demo_vars p S q) (state_new p S (cf_physics c))))).
  exists u1, (mkSim (ts_new (cf_numerics c) (cf_output_max c)) u1 (rkf_new p S c) rh).
  split; [|split; [|split]].
  - unfold prepared, wss, u1. cbn [init_west_east set_cent cent west east gamma vars_assign set_prim set_cons set_c_sound].
    split; [|split; [rewrite G; symmetry; exact Hc|split; assumption]].
    split; [exact W|]. split; apply wsv_assign; assumption.
  - unfold solver_new. rewrite Enf. reflexivity.
  - cbn [s_rhs]. apply Hg. unfold rhs_new in Enf. apply bind_Ok in Enf. destruct Enf as (k & Ek & Enf). injection Enf as <-. exact Ek.
  - apply (ev_time A N p S (demo_mesh A S) _ (mkSim (ts_new (cf_numerics c) (cf_output_max c)) u1 (rkf_new p S c) rh)). apply ev_refl.
Qed.

(** Between 2^-10 and 1. *)
Definition small : b64 := @B754_finite 53 1024 false 4503599627370496 (-62) (eq_refl true).
Definition small_step (d : b64) : bool := is_finite d && Bltb small d && Bltb d (b_ofZ 1).
Lemma small_wide : forall d, small_step d = true -> wide (B2R d).
Proof.
  intros d H. unfold small_step in H. apply andb_true_iff in H. destruct H as (H & H2). apply andb_true_iff in H. destruct H as (F & H1).
  destruct (ofZ_exact 1 ltac:(lia)) as (F1 & E1).
  rewrite (Bltb_correct 53 1024) in H1, H2 by (assumption || reflexivity). rewrite E1 in H2.
  destruct (Rlt_bool_spec (B2R small) (B2R d)) as [L1|]; [|discriminate H1]. destruct (Rlt_bool_spec (B2R d) 1) as [L2|]; [|discriminate H2].
  assert (Es : bpow radix2 (-500) <= B2R small).
  { change (B2R small) with (IZR 4503599627370496 * bpow radix2 (-62)). 
    pose proof (bpow_le radix2 (-500) (-62) ltac:(lia)). pose proof (bpow_gt_0 radix2 (-62)).
    assert (1 <= IZR 4503599627370496) by (apply IZR_le; lia). nra. }
  assert (El : 1 <= bpow radix2 500) by (change 1 with (bpow radix2 0); apply bpow_le; lia).
  split; lra.
Qed.

(** Non-vacuity: the first step of Sod's shock tube with SSPRK5, with either
    scheme; the validated step succeeds, changes the density next to the jump
    and its size is in range. *)
Definition moved {bln bexp} {N : numflux_impl (B64n bln bexp)} (q : nat -> nat -> b64) (s : sim (B64n bln bexp) N) : bool :=
  small_step (ts_dt (s_ts s)) && negb (Beqb (at2 (n0 (B64n bln bexp)) (cons (cent (s_u s))) 0 4 : b64) (q 0%nat 4%nat)).

Lemma mass_demo : forall bln bexp (N : numflux_impl (B64n bln bexp)) p S c q (good : nf_T N -> Prop), (5 <= S)%nat ->
  let A := B64n bln bexp in
  pc_gamma (cf_physics c) = nQ A (14 # 10) ->
  (forall k0, nf_new N p S (nc_numflux (cf_numerics c)) (demo_mesh A S) = Ok k0 -> good k0) ->
  demo_check N true p S c q 1 (moved q) = true ->
  exists s s', reached p S c (demo_mesh A S) good s /\ solver_next true 50 p S (demo_mesh A S) s = (s', Ok tt) /\
    wide (B2R (ts_dt (s_ts s') : b64)) /\ moved q s' = true.
Proof.
  intros bln bexp N p S c q good HS A Hc Hg H. destruct (demo_one _ _ _ _ _ _ _ H) as (s & s' & H1 & H2 & H3).
  exists s, s'. split; [apply (demo_reached A N p S c q s good HS Hc Hg H1)|]. split; [exact H2|]. split; [|exact H3].
  apply andb_true_iff in H3. apply small_wide. apply H3.
Qed.

Example C78_hll_example : forall bln bexp, let A := B64n bln bexp in
  let c := demo_cfg (A:=A) CHll SSPRK5 false 10 (nQ A (4 # 10)) in
  let q := tube 4 (vals 1 0 1) (vals (1 # 8) 0 (1 # 10)) bln bexp in
  exists s s', reached (N:=Hll A) Adiab 8 c (mesh_build 8 (cf_mesh c)) (fun _ => True) s /\
    solver_next true 50 Adiab 8 (mesh_build 8 (cf_mesh c)) s = (s', Ok tt) /\ wide (B2R (ts_dt (s_ts s') : b64)) /\ moved q s' = true.
Proof.
  intros bln bexp A c q. apply (mass_demo bln bexp (Hll A) Adiab 8 c q (fun _ => True) ltac:(lia)); [reflexivity|auto|]. vm_compute. reflexivity.
Qed.

Example C78_kt_example : forall bln bexp, let A := B64n bln bexp in
  let c := demo_cfg (A:=A) (CKt VanLeer) SSPRK5 false 10 (nQ A (4 # 10)) in
  let q := tube 4 (vals 1 0 1) (vals (1 # 8) 0 (1 # 10)) bln bexp in
  exists k0 s s', nf_new (Kt A) Adiab 8 (CKt VanLeer) (mesh_build 8 (cf_mesh c)) = Ok k0 /\
    reached (N:=Kt A) Adiab 8 c (mesh_build 8 (cf_mesh c)) (fun k : nf_T (Kt A) => kt_like A k k0) s /\
    solver_next true 50 Adiab 8 (mesh_build 8 (cf_mesh c)) s = (s', Ok tt) /\ wide (B2R (ts_dt (s_ts s') : b64)) /\ moved q s' = true.
Proof.
  intros bln bexp A c q. destruct (nf_new (Kt A) Adiab 8 (CKt VanLeer) (demo_mesh A 8)) as [k0|e| |] eqn:E; [|discriminate E..].
  exists k0. 
  destruct (mass_demo bln bexp (Kt A) Adiab 8 c q (fun k : nf_T (Kt A) => kt_like A k k0) ltac:(lia) eq_refl) as (s & s' & H).
  - intros k E'. pose proof (eq_trans (eq_sym E) E') as E2. injection E2 as <-. repeat split.
  - vm_compute. reflexivity.
  - exists s, s'. split; [exact E|exact H].
Qed.

(** Gas that moves towards the east wall of a closed box. *)
Example C78_box_example : forall bln bexp, let A := B64n bln bexp in
  let d := demo_cfg (A:=A) CHll SSPRK5 false 10 (nQ A (4 # 10)) in
  let c := mkCfg (cf_banner d) (cf_mesh d) (cf_physics d) (walls Adiab) (walls Adiab) (cf_numerics d) (cf_output_max d) (cf_writer d) in
  let q := tube 4 (vals 1 (1 # 2) 1) (vals (1 # 8) (1 # 2) (1 # 10)) bln bexp in
  closed_box Adiab c /\
  exists s s', reached (N:=Hll A) Adiab 8 c (mesh_build 8 (cf_mesh c)) (fun _ => True) s /\ level_at_walls Adiab 8 (cent (s_u s)) /\
    solver_next true 50 Adiab 8 (mesh_build 8 (cf_mesh c)) s = (s', Ok tt) /\ wide (B2R (ts_dt (s_ts s') : b64)) /\ moved q s' = true.
Proof.
  intros bln bexp A d c q. split; [split; reflexivity|].
  destruct (mass_demo bln bexp (Hll A) Adiab 8 c q (fun _ => True) ltac:(lia) eq_refl (fun _ _ => Logic.I)) as (s & s' & H1 & H2 & H3).
  - vm_compute. reflexivity.
  - exists s, s'. split; [exact H1|]. split; [intros X; discriminate X|]. split; [exact H2|exact H3].
Qed.

(** Two successive steps of the same simulation. *)
Lemma steps_demo : forall bln bexp (N : numflux_impl (B64n bln bexp)) p S c q (good : nf_T N -> Prop) (chk : sim (B64n bln bexp) N -> bool), (5 <= S)%nat ->
  let A := B64n bln bexp in
  pc_gamma (cf_physics c) = nQ A (14 # 10) ->
  (forall k0, nf_new N p S (nc_numflux (cf_numerics c)) (demo_mesh A S) = Ok k0 -> good k0) ->
  (forall s, chk s = true -> small_step (ts_dt (s_ts s)) = true) ->
  demo_check N true p S c q 2 chk = true -> demo_check N true p S c q 1 chk = true ->
  exists st : nat -> sim A N, reached p S c (demo_mesh A S) good (st 0%nat) /\ steps_of true 50 p S (demo_mesh A S) 2 st /\
    (forall t, (t < 2)%nat -> wide (B2R (ts_dt (s_ts (st (t + 1)%nat)) : b64))) /\ chk (st 1%nat) = true /\ chk (st 2%nat) = true.
Proof.
  intros bln bexp N p S c q good chk HS A Hc Hg Hchk H2 H1. unfold demo_check in H1, H2. destruct (demo N p S c q) as [s|e| |] eqn:E0; try discriminate H1.
  destruct (demo_steps N true 50 p S 2 s) as [s2 b2] eqn:E2. apply andb_true_iff in H2. destruct H2 as (B2 & C2).
  destruct (demo_steps N true 50 p S 1 s) as [s1 b1] eqn:E1. apply andb_true_iff in H1. destruct H1 as (B1 & C1).
  destruct (demo_steps_S _ _ _ _ _ _ _ _ _ _ E1 B1) as (x1 & X1 & Y1). cbn [demo_steps] in Y1. injection Y1 as ->.
  destruct (demo_steps_S _ _ _ _ _ _ _ _ _ _ E2 B2) as (x2 & X2 & Y2). 
  destruct (demo_steps_S _ _ _ _ _ _ _ _ _ _ Y2 eq_refl) as (x3 & X3 & Y3). cbn [demo_steps] in Y3. injection Y3 as ->.
  pose proof (eq_trans (eq_sym X1) X2) as Ex. injection Ex as <-.
  exists (fun t => match t with 0%nat => s | 1%nat => s1 | _ => s2 end). split; [apply (demo_reached A N p S c q s good HS Hc Hg E0)|]. split; [|split; [|split; [exact C1|exact C2]]].
  - intros t Ht. destruct t as [|[|t]]; [|..|lia]; [exists (s_ts s); destruct s; exact X1|exists (s_ts s1); destruct s1; exact X3].
  - intros t Ht. apply small_wide. apply Hchk. destruct t as [|[|t]]; [exact C1|exact C2|lia].
Qed.

Example C78_box_run_example : forall bln bexp, let A := B64n bln bexp in
  let d := demo_cfg (A:=A) CHll SSPRK5 false 10 (nQ A (4 # 10)) in
  let c := mkCfg (cf_banner d) (cf_mesh d) (cf_physics d) (walls Adiab) (walls Adiab) (cf_numerics d) (cf_output_max d) (cf_writer d) in
  let q := tube 4 (vals 1 (1 # 2) 1) (vals (1 # 8) (1 # 2) (1 # 10)) bln bexp in
  closed_box Adiab c /\
  exists st : nat -> sim A (Hll A), reached (N:=Hll A) Adiab 8 c (mesh_build 8 (cf_mesh c)) (fun _ => True) (st 0%nat) /\
    (forall t, (t < 2)%nat -> level_at_walls Adiab 8 (cent (s_u (st t)))) /\
    steps_of true 50 Adiab 8 (mesh_build 8 (cf_mesh c)) 2 st /\
    (forall t, (t < 2)%nat -> wide (B2R (ts_dt (s_ts (st (t + 1)%nat)) : b64))) /\ moved q (st 2%nat) = true.
Proof.
  intros bln bexp A d c q. split; [split; reflexivity|].
  destruct (steps_demo bln bexp (Hll A) Adiab 8 c q (fun _ => True) (moved q) ltac:(lia) eq_refl (fun _ _ => Logic.I)) as (st & H1 & H2 & H3 & _ & H4).
  - intros s H. apply andb_true_iff in H. apply H.
  - vm_compute. reflexivity.
  - vm_compute. reflexivity.
  - exists st. split; [exact H1|]. split; [intros t Ht X; discriminate X|]. split; [exact H2|]. split; [exact H3|exact H4].
Qed.

(** Energy: the first step of the shock tube leaves densities between 2^-10 and
    2 and velocities between -2 and 2. *)
Definition within (lo hi x : b64) : bool := is_finite x && Bltb lo x && Bltb x hi.
Lemma within_R : forall lo hi x, is_finite lo = true -> is_finite hi = true -> within lo hi x = true -> B2R lo < B2R x < B2R hi.
Proof.
  intros lo hi x Fl Fh H. unfold within in H. apply andb_true_iff in H. destruct H as (H & H2). apply andb_true_iff in H. destruct H as (F & H1).
  rewrite (Bltb_correct 53 1024) in H1, H2 by assumption.
  destruct (Rlt_bool_spec (B2R lo) (B2R x)) as [L1|]; [|discriminate H1]. destruct (Rlt_bool_spec (B2R x) (B2R hi)) as [L2|]; [|discriminate H2]. lra.
Qed.

Definition tame {bln bexp} {N : numflux_impl (B64n bln bexp)} (q : nat -> nat -> b64) (s : sim (B64n bln bexp) N) : bool :=
  moved q s && forallb (fun i => within small (b_ofZ 2) (at2 (n0 (B64n bln bexp)) (cons (cent (s_u s))) 0 i) &&
    within (b_ofZ (-2)) (b_ofZ 2) (at2 (n0 (B64n bln bexp)) (prim (cent (s_u s))) 1 i)) (seq 2 4).

Lemma tame_R : forall bln bexp (N : numflux_impl (B64n bln bexp)) q (s : sim (B64n bln bexp) N), tame q s = true ->
  forall i, (2 <= i <= 8 - 3)%nat -> bpow radix2 (-100) <= density s i <= bpow radix2 100 /\ Rabs (velocity s i) <= bpow radix2 100.
Proof.
  intros bln bexp N q s H i Hi. apply andb_true_iff in H. destruct H as (_ & H4).
  assert (Es : bpow radix2 (-100) <= B2R small).
  { change (B2R small) with (IZR 4503599627370496 * bpow radix2 (-62)).
    pose proof (bpow_le radix2 (-100) (-62) ltac:(lia)). pose proof (bpow_gt_0 radix2 (-62)).
    assert (1 <= IZR 4503599627370496) by (apply IZR_le; lia). nra. }
  assert (E2 : 2 <= bpow radix2 100) by (change 2 with (bpow radix2 1); apply bpow_le; lia).
  destruct (ofZ_exact 2 ltac:(lia)) as (F2 & V2). destruct (ofZ_exact (-2) ltac:(lia)) as (F2' & V2').
  rewrite forallb_forall in H4. specialize (H4 i ltac:(apply in_seq; lia)). apply andb_true_iff in H4. destruct H4 as (R1 & R2).
  pose proof (within_R small _ _ eq_refl F2 R1) as Q1. pose proof (within_R _ _ _ F2' F2 R2) as Q2. rewrite V2 in Q1, Q2. rewrite V2' in Q2.
  unfold density, velocity. split; [lra|apply Rabs_le; lra].
Qed.

Lemma gamma_R : forall g : b64, within small (b_ofZ 2) (b_sub g (b_ofZ 1)) = true ->
  bpow radix2 (-100) <= Rabs (B2R (b_sub g (b_ofZ 1))) <= bpow radix2 100.
Proof.
  intros g Hg. 
  assert (Es : bpow radix2 (-100) <= B2R small).
  { change (B2R small) with (IZR 4503599627370496 * bpow radix2 (-62)).
    pose proof (bpow_le radix2 (-100) (-62) ltac:(lia)). pose proof (bpow_gt_0 radix2 (-62)).
    assert (1 <= IZR 4503599627370496) by (apply IZR_le; lia). nra. }
  assert (E2 : 2 <= bpow radix2 100) by (change 2 with (bpow radix2 1); apply bpow_le; lia).
  destruct (ofZ_exact 2 ltac:(lia)) as (F2 & V2). pose proof (bpow_gt_0 radix2 (-100)) as P0.
  pose proof (within_R small _ _ eq_refl F2 Hg) as Q1. rewrite V2 in Q1. rewrite Rabs_pos_eq by lra. lra.
Qed.

Example C78_energy_example : forall bln bexp, let A := B64n bln bexp in
  let c := demo_cfg (A:=A) CHll SSPRK5 false 10 (nQ A (4 # 10)) in
  let q := tube 4 (vals 1 0 1) (vals (1 # 8) 0 (1 # 10)) bln bexp in
  exists s s', reached (N:=Hll A) Adiab 8 c (mesh_build 8 (cf_mesh c)) (fun _ => True) s /\
    solver_next true 50 Adiab 8 (mesh_build 8 (cf_mesh c)) s = (s', Ok tt) /\ wide (B2R (ts_dt (s_ts s') : b64)) /\ moved q s' = true /\
    (forall i, (2 <= i <= 8 - 3)%nat -> bpow radix2 (-100) <= density s' i <= bpow radix2 100 /\ Rabs (velocity s' i) <= bpow radix2 100) /\
    bpow radix2 (-100) <= Rabs (B2R (b_sub (pc_gamma (cf_physics c)) (b_ofZ 1))) <= bpow radix2 100.
Proof.
  intros bln bexp A c q.
  assert (H : demo_check (Hll A) true Adiab 8 c q 1 (tame q) = true) by (vm_compute; reflexivity).
  assert (Hg : within small (b_ofZ 2) (b_sub (pc_gamma (cf_physics c)) (b_ofZ 1)) = true) by (vm_compute; reflexivity).
  destruct (demo_one _ _ _ _ _ _ _ H) as (s & s' & H1 & H2 & H3). exists s, s'.
  pose proof H3 as H4. apply andb_true_iff in H4. destruct H4 as (H4 & _).
  split; [apply (demo_reached A (Hll A) Adiab 8 c q s (fun _ => True) ltac:(lia) eq_refl (fun _ _ => Logic.I) H1)|]. split; [exact H2|].
  split; [pose proof H4 as H5; apply andb_true_iff in H5; apply small_wide; apply H5|]. split; [exact H4|]. split; [exact (tame_R bln bexp (Hll A) q s' H3)|exact (gamma_R _ Hg)].
Qed.

Example C78_box_energy_example : forall bln bexp, let A := B64n bln bexp in
  let d := demo_cfg (A:=A) CHll SSPRK5 false 10 (nQ A (4 # 10)) in
  let c := mkCfg (cf_banner d) (cf_mesh d) (cf_physics d) (walls Adiab) (walls Adiab) (cf_numerics d) (cf_output_max d) (cf_writer d) in
  let q := tube 4 (vals 1 (1 # 2) 1) (vals (1 # 8) (1 # 2) (1 # 10)) bln bexp in
  closed_box Adiab c /\
  exists st : nat -> sim A (Hll A), reached (N:=Hll A) Adiab 8 c (mesh_build 8 (cf_mesh c)) (fun _ => True) (st 0%nat) /\
    steps_of true 50 Adiab 8 (mesh_build 8 (cf_mesh c)) 2 st /\ moved q (st 2%nat) = true /\
    (forall t, (t < 2)%nat -> wide (B2R (ts_dt (s_ts (st (t + 1)%nat)) : b64)) /\
      forall i, (2 <= i <= 8 - 3)%nat -> bpow radix2 (-100) <= density (st (t + 1)%nat) i <= bpow radix2 100 /\ Rabs (velocity (st (t + 1)%nat) i) <= bpow radix2 100) /\
    bpow radix2 (-100) <= Rabs (B2R (b_sub (pc_gamma (cf_physics c)) (b_ofZ 1))) <= bpow radix2 100.
Proof.
  intros bln bexp A d c q. split; [split; reflexivity|].
  assert (Hg : within small (b_ofZ 2) (b_sub (pc_gamma (cf_physics c)) (b_ofZ 1)) = true) by (vm_compute; reflexivity).
  destruct (steps_demo bln bexp (Hll A) Adiab 8 c q (fun _ => True) (tame q) ltac:(lia) eq_refl (fun _ _ => Logic.I)) as (st & H1 & H2 & H3 & T1 & T2).
  - intros s H. apply andb_true_iff in H. destruct H as (H & _). apply andb_true_iff in H. apply H.
  - vm_compute. reflexivity.
  - vm_compute. reflexivity.
  - exists st. split; [exact H1|]. split; [exact H2|]. split; [apply andb_true_iff in T2; apply T2|]. split; [|exact (gamma_R _ Hg)].
    intros t Ht. split; [apply H3; exact Ht|]. destruct t as [|[|t]]; [exact (tame_R bln bexp (Hll A) q _ T1)|exact (tame_R bln bexp (Hll A) q _ T2)|lia].
Qed.
