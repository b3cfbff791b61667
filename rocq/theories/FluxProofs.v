(** Facts about the numerical fluxes: cell view of the two schemes, limiters,
    consistency, upwinding, locality and mirror symmetry. *)

From Coq Require Import Reals ZArith QArith Qreals List Bool Lra Lia.
From Verif Require Import Base Num XReal Config Mesh State NumFlux Spec SpecFlow ConfigProofs MeshProofs PhysicsProofs.
Import ListNotations.
Local Open Scope nat_scope.

(** ** Shapes *)
Section Shapes.
Variable A : Num.

Notation wsv := (SpecFlow.wsv A).
Lemma wsv_new : forall p S c, wsv p S (vars_new p S c).
Proof. intros. unfold wsv; cbn. repeat match goal with |- _ /\ _ => split end; try apply shape_zeros2. apply repeat_length. Qed.
Lemma wsv_update_prim : forall p S v, wsv p S v -> wsv p S (update_prim p S v).
Proof.
  intros p S v (H1 & H2 & H3 & H4 & H5). destruct (update_prim_fields A p S v) as (E1 & E2 & E3 & E4 & _).
  unfold wsv. rewrite E1, E2, E3, E4. auto 8 using update_prim_shape.
Qed.
Lemma wsv_update_cons : forall p S v, wsv p S v -> wsv p S (update_cons p S v).
Proof.
  intros p S v (H1 & H2 & H3 & H4 & H5). destruct (update_cons_fields A p S v) as (E1 & E2 & E3 & E4 & _).
  unfold wsv. rewrite E1, E2, E3, E4. auto 8 using update_cons_shape.
Qed.
Lemma wsv_update_flux : forall p S v, wsv p S v -> wsv p S (update_flux p S v).
Proof.
  intros p S v (H1 & H2 & H3 & H4 & H5). destruct (update_flux_fields A p S v) as (E1 & E2 & E3 & E4 & _).
  unfold wsv. rewrite E1, E2, E3, E4. auto 8 using update_flux_shape.
Qed.
Lemma length_c_new : forall p S v, length (c_sound v) = S -> length (c_new A p S v) = S.
Proof. intros [] S v H; cbn [c_new]; [assumption|apply length_tab]. Qed.
Lemma wsv_derived : forall p S v, wsv p S v -> wsv p S (update_derived_variables p S v).
Proof.
  intros p S v (H1 & H2 & H3 & H4 & H5). destruct (derived_fields A p S v) as (E1 & E2 & E3 & E4 & _).
  unfold wsv. rewrite E1, E2, E3, E4.
  repeat match goal with |- _ /\ _ => split end; auto using derived_eigen_shape, length_c_new.
Qed.
Lemma wsv_set_cons : forall p S v c, wsv p S v -> shape (nE p) S c -> wsv p S (set_cons c v).
Proof. intros p S v c (H1 & H2 & H3 & H4 & H5) Hc. unfold wsv; cbn. auto. Qed.
Lemma wsv_set_prim : forall p S v c, wsv p S v -> shape (nE p) S c -> wsv p S (set_prim c v).
Proof. intros p S v c (H1 & H2 & H3 & H4 & H5) Hc. unfold wsv; cbn. auto. Qed.
Lemma wsv_assign : forall p S v w, wsv p S v -> wsv p S w -> wsv p S (vars_assign v w).
Proof. intros p S v w (H1 & H2 & H3 & H4 & H5) (K1 & K2 & K3 & K4 & K5). unfold wsv; cbn. auto. Qed.

Lemma wsv_face : forall p S v, wsv p S v -> wsv p S (kt_face p S v).
Proof.
  intros p S v H. unfold kt_face. apply wsv_update_flux.
  assert (H1 : wsv p S (update_c_sound p S (update_prim p S v))).
  { apply wsv_update_prim in H. destruct H as (H1 & H2 & H3 & H4 & H5). unfold update_c_sound.
    destruct (is_adiabatic p); unfold wsv; cbn; auto using length_tab. }
  destruct H1 as (H1 & H2 & H3 & H4 & H5). unfold wsv, update_eigen_vals_max, update_eigen_vals_min.
  cbn [prim cons eigen_vals flux c_sound set_eigen_vals].
  repeat match goal with |- _ /\ _ => split end; auto.
  repeat apply shape_upd_row; auto using length_tab.
Qed.
End Shapes.

(** ** Cell view, every arithmetic *)
Section View.
Variable A : Num.
Notation F := (nF A).
Notation vec := (list F).
Notation mat := (list vec).

Lemma at2_upd_range2 : forall e n lo hi f (m : mat) j i, j < e -> i < n ->
  at2 (n0 A) (upd_range2 e n lo hi f m) j i = if (lo <=? i) && (i <=? hi) then f j i else at2 (n0 A) m j i.
Proof. intros. unfold upd_range2. rewrite at2_mtab by assumption. reflexivity. Qed.

Lemma shape_upd_range2 : forall e n lo hi f (m : mat), shape e n (upd_range2 e n lo hi f m).
Proof. intros. apply shape_mtab. Qed.

(** The flux through a face with the wave speed estimates [sl], [sr]: fluxes
    [fl], [fr] and conserved variables [ul], [ur] on its left and right. *)
Definition face_flux (a sl sr fl fr ul ur : F) : F :=
  nmul A (ndiv A a (nsub A sr sl))
    (nadd A (nsub A (nmul A sr fl) (nmul A sl fr)) (nmul A (nmul A sr sl) (nsub A ur ul))).

(** Wave speed estimates of the two schemes. *)
Definition lo_h (x y : F) : F := nmin A (n0 A) (nmin A x y).
Definition hi_h (x y : F) : F := nmax A (n0 A) (nmax A x y).
Definition lo_k (x y : F) : F := mmin (n0 A) (mmin y x).
Definition hi_k (x y : F) : F := mmax (n0 A) (mmax y x).

(** HLL flux through the face between cells [i] and [i + 1]. *)
Definition hll_fn (p : phys) (S : nat) (v : vars A) (j i : nat) : F :=
  let w := update_flux p S v in
  let e0 k := at2 (n0 A) (eigen_vals v) 0 k in
  let e1 k := at2 (n0 A) (eigen_vals v) (nE p - 1) k in
  face_flux (n1 A) (lo_h (e0 i) (e0 (i + 1))) (hi_h (e1 i) (e1 (i + 1)))
            (at2 (n0 A) (flux w) j i) (at2 (n0 A) (flux w) j (i + 1))
            (at2 (n0 A) (cons v) j i) (at2 (n0 A) (cons v) j (i + 1)).

Definition std_ix (S : nat) (m : mesh A) : Prop := m_ixi_in m = 2 /\ m_ixi_out m = S - 3.

Lemma std_build : forall S c, std_ix S (mesh_build S c).
Proof. intros S c. split; cbn [m_ixi_in m_ixi_out mesh_build]; lia. Qed.

Lemma eigen_at : forall (v : vars A) j i, at1 (n0 A) (nth j (eigen_vals v) []) i = at2 (n0 A) (eigen_vals v) j i.
Proof. reflexivity. Qed.

Section HLL.
Variables (validation : bool) (p : phys) (S : nat) (h : hll A) (d : mat) (u : state A) (m : mesh A).
Hypothesis Hm : std_ix S m.
Notation r := (hll_calc validation p S h d u m).

Lemma hll_state : snd (fst r) = set_cent (update_flux p S (cent u)) u.
Proof. reflexivity. Qed.

Lemma hll_num : forall j i, j < nE p -> 1 <= i -> i <= S - 3 -> i < S ->
  at2 (n0 A) (h_flux_num (fst (fst (fst r)))) j i = hll_fn p S (cent u) j i.
Proof.
  intros j i Hj H1 H2 H3. destruct Hm as [E1 E2].
  unfold hll_calc. cbn [fst snd h_flux_num cent set_cent].
  rewrite at2_upd_range2 by assumption. rewrite E1, E2.
  assert (Hb : (2 - 1 <=? i) && (i <=? S - 3) = true).
  { apply andb_true_intro; split; apply Nat.leb_le; lia. }
  rewrite Hb. rewrite !at1_upd_range by assumption. rewrite Hb.
  destruct (update_flux_fields A p S (cent u)) as (F1 & F2 & F3 & F4 & _).
  unfold hll_fn, face_flux, lo_h, hi_h, eigen_min, eigen_max, at1. rewrite F2, F4. reflexivity.
Qed.

Lemma hll_dflux : forall j i, j < nE p -> i < S ->
  at2 (n0 A) (snd (fst (fst r))) j i =
  if (2 <=? i) && (i <=? S - 3)
  then nmul A (at1 (n0 A) (m_deta_dphi_d_volume m) i) (nsub A (hll_fn p S (cent u) j i) (hll_fn p S (cent u) j (i - 1)))
  else at2 (n0 A) d j i.
Proof.
  intros j i Hj Hi. pose proof Hm as [E1 E2].
  change (snd (fst (fst r))) with (calc_dflux_generic (nE p) S d (h_flux_num (fst (fst (fst r)))) m).
  unfold calc_dflux_generic. rewrite at2_upd_range2 by assumption. rewrite E1, E2.
  destruct (Nat.leb_spec 2 i) as [H2|H2]; [|reflexivity].
  destruct (Nat.leb_spec i (S - 3)) as [H3|H3]; [|reflexivity]. cbn [andb].
  rewrite !hll_num by lia. reflexivity.
Qed.

Lemma hll_dflux_shape : shape (nE p) S (snd (fst (fst r))).
Proof. apply shape_upd_range2. Qed.
End HLL.

Section KT.
(** Reconstructed conserved variables at a face of cell [i]; [dist] is the
    signed distance of the face from the centre. *)
Definition recon (k : kt A) (c : mat) (dist : vec) (j i : nat) : F :=
  nadd A (at2 (n0 A) c j i) (nmul A (kt_slope k c j i) (at1 (n0 A) dist i)).

Definition kt_sound (p : phys) (cs : F) (q : nat -> F) (g : F) : F :=
  match p with Isot => cs | Adiab => nsqrt A (ndiv A (nmul A g (q 2)) (q 0)) end.

Lemma kt_face_cons : forall p S (v : vars A), cons (kt_face p S v) = cons v.
Proof.
  intros p S v. unfold kt_face.
  match goal with |- cons (update_flux _ _ ?w) = _ => rewrite (proj1 (proj2 (update_flux_fields A p S w))) end.
  unfold update_eigen_vals_max, update_eigen_vals_min, update_c_sound.
  destruct (update_prim_fields A p S v) as (E1 & _). destruct (is_adiabatic p); cbn; exact E1.
Qed.

(** One face: primitive variables, sound speed, wave speeds and flux of cell
    [i], from its conserved variables. *)
Lemma kt_face_at : forall p S (v : vars A) i, wsv A p S v -> i < S ->
  let U k := at2 (n0 A) (cons v) k i in
  let q := c2p A p (gamma v) U in
  let cs := kt_sound p (at1 (n0 A) (c_sound v) i) q (gamma v) in
  at2 (n0 A) (eigen_vals (kt_face p S v)) 0 i = nsub A (q 1) cs /\
  at2 (n0 A) (eigen_vals (kt_face p S v)) (nE p - 1) i = nadd A (q 1) cs /\
  forall j, j < nE p -> at2 (n0 A) (flux (kt_face p S v)) j i = pflux A p q U cs j.
Proof.
  intros p S v i Hw Hi U q cs.
  pose proof (wsv_update_prim A p S v Hw) as Hw1. destruct Hw as (H1 & H2 & H3 & H4 & H5).
  destruct (update_prim_fields A p S v) as (E1 & E2 & E3 & E4 & E5 & _).
  set (v1 := update_prim p S v) in *.
  assert (Hq : forall k, k < nE p -> at2 (n0 A) (prim v1) k i = q k).
  { intros k Hk. unfold v1. rewrite update_prim_at by assumption. reflexivity. }
  set (v2 := update_c_sound p S v1).
  assert (Hcs : at1 (n0 A) (c_sound v2) i = cs).
  { unfold v2, update_c_sound, cs. destruct p; cbn [is_adiabatic kt_sound].
    - rewrite E2. reflexivity.
    - cbn [c_sound set_c_sound]. rewrite at1_tab by assumption.
      unfold pressure, row_or_zero, rho_prim. cbn [JPRESSURE]. unfold JRHO.
      change (at1 (n0 A) (nth 2 (prim v1) []) i) with (at2 (n0 A) (prim v1) 2 i).
      change (at1 (n0 A) (nth 0 (prim v1) []) i) with (at2 (n0 A) (prim v1) 0 i).
      rewrite !Hq by (cbn; lia). rewrite E5. reflexivity. }
  assert (P2 : prim v2 = prim v1) by (unfold v2, update_c_sound; destruct (is_adiabatic p); reflexivity).
  assert (C2 : cons v2 = cons v) by (unfold v2, update_c_sound; destruct (is_adiabatic p); cbn; exact E1).
  assert (F2 : flux v2 = flux v) by (unfold v2, update_c_sound; destruct (is_adiabatic p); cbn; exact E4).
  assert (G2 : eigen_vals v2 = eigen_vals v) by (unfold v2, update_c_sound; destruct (is_adiabatic p); cbn; exact E3).
  assert (L0 : length (eigen_vals v) = nE p) by apply H3.
  unfold kt_face. fold v1 v2.
  set (w := update_eigen_vals_max p S (update_eigen_vals_min S v2)).
  destruct (update_flux_fields A p S w) as (W1 & W2 & W3 & W4 & _).
  repeat match goal with |- _ /\ _ => split end.
  - rewrite W4. unfold w, update_eigen_vals_max, update_eigen_vals_min; cbn [eigen_vals set_eigen_vals prim c_sound].
    unfold at2 at 1. rewrite nth_upd_ne by (destruct p; cbn; lia).
    rewrite nth_upd_eq by (rewrite G2, L0; destruct p; cbn; lia).
    rewrite nth_tab by assumption. rewrite Hcs, P2. unfold JXI. rewrite Hq by (destruct p; cbn; lia). reflexivity.
  - rewrite W4. unfold w, update_eigen_vals_max, update_eigen_vals_min; cbn [eigen_vals set_eigen_vals prim c_sound].
    unfold at2 at 1. rewrite nth_upd_eq by (rewrite length_upd, G2, L0; destruct p; cbn; lia).
    rewrite nth_tab by assumption. rewrite Hcs, P2. unfold JXI. rewrite Hq by (destruct p; cbn; lia). reflexivity.
  - intros j Hj. rewrite update_flux_at; [|unfold w; cbn; rewrite F2; exact H4|assumption|assumption].
    change (c_sound w) with (c_sound v2). change (prim w) with (prim v2). change (cons w) with (cons v2).
    rewrite Hcs, P2, C2. fold U.
    destruct p; unfold pflux; rewrite !Hq by (cbn; lia); reflexivity.
Qed.

(** KT flux through the face between cells [i] and [i + 1], from the state
    before the call. *)
Definition kt_fn (p : phys) (k : kt A) (u : state A) (m : mesh A) (j i : nat) : F :=
  let c := cons (cent u) in
  let UL l := recon k c (k_dist_east k) l i in
  let UR l := recon k c (k_dist_west k) l (i + 1) in
  let qL := c2p A p (gamma (east u)) UL in
  let qR := c2p A p (gamma (west u)) UR in
  let cL := kt_sound p (at1 (n0 A) (c_sound (east u)) i) qL (gamma (east u)) in
  let cR := kt_sound p (at1 (n0 A) (c_sound (west u)) (i + 1)) qR (gamma (west u)) in
  face_flux (at1 (n0 A) (m_d_area_east m) i)
            (lo_k (nsub A (qL 1) cL) (nsub A (qR 1) cR)) (hi_k (nadd A (qL 1) cL) (nadd A (qR 1) cR))
            (pflux A p qL UL cL j) (pflux A p qR UR cR j) (UL j) (UR j).

Lemma pflux_ext : forall p q q' U U' cs j, (forall l, l < nE p -> q l = q' l) -> (forall l, l < nE p -> U l = U' l) ->
  pflux A p q U cs j = pflux A p q' U' cs j.
Proof. intros p q q' U U' cs j Hq HU. unfold pflux. destruct p; cbn [nE] in *; rewrite ?Hq, ?HU by lia; reflexivity. Qed.
Lemma c2p_ext : forall p g U U' j, (forall l, l < nE p -> U l = U' l) -> c2p A p g U j = c2p A p g U' j.
Proof. intros p g U U' j HU. unfold c2p. destruct p; cbn [nE] in *; rewrite ?HU by lia; reflexivity. Qed.
Lemma p2c_ext : forall p g U U' j, (forall l, l < nE p -> U l = U' l) -> p2c A p g U j = p2c A p g U' j.
Proof. intros p g U U' j HU. unfold p2c. destruct p; cbn [nE] in *; rewrite ?HU by lia; reflexivity. Qed.
Lemma kt_sound_ext : forall p cs q q' g, (forall l, l < nE p -> q l = q' l) -> kt_sound p cs q g = kt_sound p cs q' g.
Proof. intros p cs q q' g Hq. unfold kt_sound. destruct p; cbn [nE] in *; rewrite ?Hq by lia; reflexivity. Qed.

Variables (validation : bool) (p : phys) (S : nat) (k : kt A) (d : mat) (u : state A) (m : mesh A).
Hypothesis Hm : std_ix S m.
Hypothesis Hw : wsv A p S (west u).
Hypothesis He : wsv A p S (east u).
Notation r := (kt_calc validation p S k d u m).

Lemma kt_state : snd (fst r) =
  let u' := kt_reconstruct k (nE p) S u in mkState (cent u) (kt_face p S (west u')) (kt_face p S (east u')).
Proof. reflexivity. Qed.

Lemma kt_num : forall j i, j < nE p -> 1 <= i -> i <= S - 3 -> i + 2 < S ->
  at2 (n0 A) (k_flux_num (fst (fst (fst r)))) j i = kt_fn p k u m j i.
Proof.
  intros j i Hj H1 H2 H3. pose proof Hm as [E1 E2].
  set (u1 := kt_reconstruct k (nE p) S u).
  assert (Hw1 : wsv A p S (west u1)) by (apply wsv_set_cons; [exact Hw|apply shape_upd_range2]).
  assert (He1 : wsv A p S (east u1)) by (apply wsv_set_cons; [exact He|apply shape_upd_range2]).
  unfold kt_calc. fold u1. cbn [fst snd k_flux_num cent west east].
  rewrite at2_upd_range2 by lia. rewrite E1, E2.
  assert (Hb : (2 - 1 <=? i) && (i <=? S - 3) = true) by (apply andb_true_intro; split; apply Nat.leb_le; lia).
  rewrite Hb. rewrite !at1_upd_range by lia. rewrite Hb.
  unfold eigen_min, eigen_max. rewrite !eigen_at.
  destruct (kt_face_at p S (west u1) (i + 1) Hw1 ltac:(lia)) as (W0 & W1 & WF).
  destruct (kt_face_at p S (east u1) i He1 ltac:(lia)) as (T0 & T1 & TF).
  rewrite W0, W1, T0, T1, WF, TF by assumption. rewrite !kt_face_cons.
  assert (EU : forall l, l < nE p -> at2 (n0 A) (cons (east u1)) l i = recon k (cons (cent u)) (k_dist_east k) l i).
  { intros l Hl. unfold u1, kt_reconstruct; cbn [east cons set_cons]. rewrite at2_upd_range2 by lia.
    replace ((1 <=? i) && (i <=? S - 2)) with true by (symmetry; apply andb_true_intro; split; apply Nat.leb_le; lia).
    reflexivity. }
  assert (WU : forall l, l < nE p -> at2 (n0 A) (cons (west u1)) l (i + 1) = recon k (cons (cent u)) (k_dist_west k) l (i + 1)).
  { intros l Hl. unfold u1, kt_reconstruct; cbn [west cons set_cons]. rewrite at2_upd_range2 by lia.
    replace ((1 <=? i + 1) && (i + 1 <=? S - 2)) with true by (symmetry; apply andb_true_intro; split; apply Nat.leb_le; lia).
    reflexivity. }
  change (gamma (west u1)) with (gamma (west u)). change (gamma (east u1)) with (gamma (east u)).
  change (c_sound (west u1)) with (c_sound (west u)). change (c_sound (east u1)) with (c_sound (east u)).
  unfold kt_fn.
  set (UL := fun l => recon k (cons (cent u)) (k_dist_east k) l i) in *.
  set (UR := fun l => recon k (cons (cent u)) (k_dist_west k) l (i + 1)) in *.
  change (recon k (cons (cent u)) (k_dist_west k) j (i + 1)) with (UR j).
  change (recon k (cons (cent u)) (k_dist_east k) j i) with (UL j).
  rewrite (EU j Hj), (WU j Hj).
  assert (QL : forall l, c2p A p (gamma (east u)) (fun k0 => at2 (n0 A) (cons (east u1)) k0 i) l = c2p A p (gamma (east u)) UL l)
    by (intros l; apply c2p_ext; exact EU).
  assert (QR : forall l, c2p A p (gamma (west u)) (fun k0 => at2 (n0 A) (cons (west u1)) k0 (i + 1)) l = c2p A p (gamma (west u)) UR l)
    by (intros l; apply c2p_ext; exact WU).
  rewrite QL, QR.
  rewrite !(kt_sound_ext p _ _ _ (gamma (east u)) (fun l _ => QL l)).
  rewrite !(kt_sound_ext p _ _ _ (gamma (west u)) (fun l _ => QR l)).
  rewrite !(pflux_ext p _ _ _ _ (kt_sound p (at1 (n0 A) (c_sound (east u)) i) (c2p A p (gamma (east u)) UL) (gamma (east u))) j (fun l _ => QL l) EU).
  rewrite !(pflux_ext p _ _ _ _ (kt_sound p (at1 (n0 A) (c_sound (west u)) (i+1)) (c2p A p (gamma (west u)) UR) (gamma (west u))) j (fun l _ => QR l) WU).
  reflexivity.
Qed.

Lemma kt_dflux : forall j i, j < nE p -> i < S ->
  at2 (n0 A) (snd (fst (fst r))) j i =
  if (2 <=? i) && (i <=? S - 3)
  then nmul A (at1 (n0 A) (m_deta_dphi_d_volume m) i) (nsub A (kt_fn p k u m j i) (kt_fn p k u m j (i - 1)))
  else at2 (n0 A) d j i.
Proof.
  intros j i Hj Hi. pose proof Hm as [E1 E2].
  change (snd (fst (fst r))) with (calc_dflux_generic (nE p) S d (k_flux_num (fst (fst (fst r)))) m).
  unfold calc_dflux_generic. rewrite at2_upd_range2 by assumption. rewrite E1, E2.
  destruct (Nat.leb_spec 2 i) as [H2|H2]; [|reflexivity].
  destruct (Nat.leb_spec i (S - 3)) as [H3|H3]; [|reflexivity]. cbn [andb].
  rewrite !kt_num by lia. reflexivity.
Qed.

Lemma kt_dflux_shape : shape (nE p) S (snd (fst (fst r))).
Proof. apply shape_upd_range2. Qed.
End KT.
End View.
