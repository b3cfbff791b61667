(** The numerical fluxes over the reals. *)

From Coq Require Import Reals ZArith QArith Qreals List Bool Lra Lia.
From Verif Require Import Base Num XReal Config Mesh State NumFlux Spec SpecFlow ConfigProofs MeshProofs BoundaryProofs PhysicsProofs FluxProofs UpdateProofs.
Import ListNotations.
Local Open Scope R_scope.

Definition rff (sl sr fl fr ul ur : R) : R := (sr * fl - sl * fr + sr * sl * (ur - ul)) / (sr - sl).
Definition rlo (x y : R) : R := Rmin 0 (Rmin x y).
Definition rhi (x y : R) : R := Rmax 0 (Rmax x y).

Lemma rlo_le : forall x y, rlo x y <= 0 /\ rlo x y <= x /\ rlo x y <= y.
Proof.
  intros. unfold rlo. pose proof (Rmin_l 0 (Rmin x y)). pose proof (Rmin_r 0 (Rmin x y)).
  pose proof (Rmin_l x y). pose proof (Rmin_r x y). lra.
Qed.
Lemma rhi_ge : forall x y, 0 <= rhi x y /\ x <= rhi x y /\ y <= rhi x y.
Proof.
  intros. unfold rhi. pose proof (Rmax_l 0 (Rmax x y)). pose proof (Rmax_r 0 (Rmax x y)).
  pose proof (Rmax_l x y). pose proof (Rmax_r x y). lra.
Qed.

Lemma face_flux_R : forall sl sr fl fr ul ur, sl < sr ->
  face_flux XRn (Fin 1) (Fin sl) (Fin sr) (Fin fl) (Fin fr) (Fin ul) (Fin ur) = Fin (rff sl sr fl fr ul ur).
Proof.
  intros. unfold face_flux. rewrite !X_mul, !X_sub, X_div by lra. rewrite !X_mul, X_add, X_mul.
  f_equal. unfold rff. field. lra.
Qed.

Lemma lo_h_R : forall x y, lo_h XRn (Fin x) (Fin y) = Fin (rlo x y).
Proof. intros. unfold lo_h. rewrite X_n0, !X_min. reflexivity. Qed.
Lemma hi_h_R : forall x y, hi_h XRn (Fin x) (Fin y) = Fin (rhi x y).
Proof. intros. unfold hi_h. rewrite X_n0, !X_max. reflexivity. Qed.
Lemma mmin_R : forall x y, mmin (A:=XRn) (Fin x) (Fin y) = Fin (Rmin x y).
Proof.
  intros. unfold mmin. rewrite X_ltb. unfold Rmin.
  destruct (Rlt_dec x y), (Rle_dec x y); try reflexivity; f_equal; lra.
Qed.
Lemma mmax_R : forall x y, mmax (A:=XRn) (Fin x) (Fin y) = Fin (Rmax x y).
Proof.
  intros. unfold mmax. rewrite X_ltb. unfold Rmax.
  destruct (Rlt_dec y x), (Rle_dec x y); try reflexivity; f_equal; lra.
Qed.
Lemma lo_k_R : forall x y, lo_k XRn (Fin x) (Fin y) = Fin (rlo x y).
Proof. intros. unfold lo_k. rewrite X_n0, !mmin_R. unfold rlo. rewrite (Rmin_comm x y). reflexivity. Qed.
Lemma hi_k_R : forall x y, hi_k XRn (Fin x) (Fin y) = Fin (rhi x y).
Proof. intros. unfold hi_k. rewrite X_n0, !mmax_R. unfold rhi. rewrite (Rmax_comm x y). reflexivity. Qed.

(** Consistency and upwinding of the flux formula. *)
Lemma rff_same : forall sl sr f u, sl < sr -> rff sl sr f f u u = f.
Proof. intros. unfold rff. field. lra. Qed.
Lemma rff_right : forall sr fl fr ul ur, 0 < sr -> rff 0 sr fl fr ul ur = fl.
Proof. intros. unfold rff. field. lra. Qed.
Lemma rff_left : forall sl fl fr ul ur, sl < 0 -> rff sl 0 fl fr ul ur = fr.
Proof. intros. unfold rff. field. lra. Qed.

(** Bounds on the mass flux: [ul], [ur] densities, [vl], [vr] velocities. *)
Lemma rff_mass_le : forall sl sr ul ur vl vr, sl <= 0 -> 0 <= sr -> sl < sr -> 0 <= ul -> 0 <= ur ->
  sl <= vl <= sr -> sl <= vr <= sr -> rff sl sr (ul * vl) (ur * vr) ul ur <= ul * sr.
Proof.
  intros sl sr ul ur vl vr H1 H2 H3 H4 H5 [H6 H7] [H8 H9]. unfold rff.
  apply Rmult_le_reg_r with (sr - sl); [lra|]. unfold Rdiv. rewrite Rmult_assoc, Rinv_l, Rmult_1_r by lra.
  assert (0 <= ul * sr * (sr - vl)) by (apply Rmult_le_pos; [apply Rmult_le_pos; lra|lra]).
  assert (0 <= ur * (- sl) * (sr - vr)) by (apply Rmult_le_pos; [apply Rmult_le_pos; lra|lra]).
  nra.
Qed.
Lemma rff_mass_ge : forall sl sr ul ur vl vr, sl <= 0 -> 0 <= sr -> sl < sr -> 0 <= ul -> 0 <= ur ->
  sl <= vl <= sr -> sl <= vr <= sr -> ur * sl <= rff sl sr (ul * vl) (ur * vr) ul ur.
Proof.
  intros sl sr ul ur vl vr H1 H2 H3 H4 H5 [H6 H7] [H8 H9]. unfold rff.
  apply Rmult_le_reg_r with (sr - sl); [lra|]. unfold Rdiv. rewrite (Rmult_assoc _ (/ _)), Rinv_l, Rmult_1_r by lra.
  assert (0 <= ul * sr * (vl - sl)) by (apply Rmult_le_pos; [apply Rmult_le_pos; lra|lra]).
  assert (0 <= ur * (- sl) * (vr - sl)) by (apply Rmult_le_pos; [apply Rmult_le_pos; lra|lra]).
  nra.
Qed.

(** ** Physical quantities of one cell *)

(** primitive variables of conserved ones *)
Definition rprim (p : phys) (g : R) (U : nat -> R) (j : nat) : R :=
  match j with 0%nat => U 0%nat | 1%nat => U 1%nat / U 0%nat | _ => match p with Isot => 0 | Adiab => euler_pressure g U end end.

Lemma c2p_R : forall p g (U : nat -> R) (X : nat -> XR) j, U 0%nat <> 0 -> (j < nE p)%nat ->
  (forall l, (l < nE p)%nat -> X l = Fin (U l)) ->
  c2p XRn p (Fin g) X j = Fin (rprim p g U j).
Proof.
  intros p g U X j H0 Hj HX. unfold c2p. destruct p; cbn [nE] in *.
  - rewrite !HX by lia. unfold isot_cons_to_prim; cbn [fst snd]. rewrite X_div by assumption.
    destruct j as [|[|j]]; [reflexivity|reflexivity|lia].
  - rewrite !HX by lia. unfold adiab_cons_to_prim, isot_cons_to_prim; cbn [fst snd]. rewrite X_div by assumption.
    destruct j as [|[|[|j]]]; [reflexivity|reflexivity| |lia].
    rewrite X_Q, Q2R_half, X_n1, X_div by assumption. rewrite !X_mul, !X_sub, X_mul. cbn [rprim]. f_equal.
    unfold euler_pressure. field. assumption.
Qed.

Lemma p2c_R : forall p g (q : nat -> R) (X : nat -> XR) j, (p = Adiab -> g <> 1) -> (j < nE p)%nat ->
  (forall l, (l < nE p)%nat -> X l = Fin (q l)) ->
  p2c XRn p (Fin g) X j = Fin (conserved p g q j).
Proof.
  intros p g q X j Hg Hj HX. unfold p2c. destruct p; cbn [nE] in *.
  - rewrite !HX by lia. unfold isot_prim_to_cons; cbn [fst snd]. rewrite X_mul.
    destruct j as [|[|j]]; [reflexivity| |lia]. cbn [conserved]. f_equal. lra.
  - specialize (Hg eq_refl). rewrite !HX by lia. unfold adiab_prim_to_cons, isot_prim_to_cons; cbn [fst snd].
    rewrite X_n1, X_Q, Q2R_half, X_sub, X_recip by lra. rewrite !X_mul, X_add.
    destruct j as [|[|[|j]]]; [reflexivity| | |lia]; cbn [conserved]; f_equal; [lra|field; lra].
Qed.

Lemma pflux_R : forall p g cs (U : nat -> R) (X Q : nat -> XR) j, U 0%nat <> 0 -> (j < nE p)%nat ->
  (forall l, (l < nE p)%nat -> X l = Fin (U l)) -> (forall l, (l < nE p)%nat -> Q l = Fin (rprim p g U l)) ->
  pflux XRn p Q X (Fin cs) j = Fin (euler_flux p g cs U j).
Proof.
  intros p g cs U X Q j H0 Hj HX HQ. unfold pflux. destruct p; cbn [nE] in *.
  - rewrite !HX, !HQ by lia. unfold isot_flux; cbn [fst snd]. rewrite !X_mul, X_add, X_mul.
    destruct j as [|[|j]]; [reflexivity| |lia]. cbn [euler_flux rprim]. f_equal. field. assumption.
  - rewrite !HX, !HQ by lia. unfold adiab_flux; cbn [fst snd]. rewrite !X_add, !X_mul, X_add.
    destruct j as [|[|[|j]]]; [reflexivity| | |lia]; cbn [euler_flux rprim]; f_equal; field; assumption.
Qed.

Lemma rprim_conserved : forall p g q j, q 0%nat <> 0 -> (p = Adiab -> g <> 1) -> (j < nE p)%nat ->
  rprim p g (conserved p g q) j = q j.
Proof.
  intros p g q j H0 Hg Hj. destruct p; cbn [nE] in *.
  - destruct j as [|[|j]]; [reflexivity| |lia]. cbn [rprim conserved]. field. assumption.
  - specialize (Hg eq_refl). destruct j as [|[|[|j]]]; [reflexivity| | |lia]; cbn [rprim]; unfold euler_pressure; cbn [conserved]; field; [assumption|].
    split; [assumption|lra].
Qed.
Lemma conserved_rprim : forall p g U j, U 0%nat <> 0 -> (p = Adiab -> g <> 1) -> (j < nE p)%nat ->
  conserved p g (rprim p g U) j = U j.
Proof.
  intros p g q j H0 Hg Hj. destruct p; cbn [nE] in *.
  - destruct j as [|[|j]]; [reflexivity| |lia]. cbn [rprim conserved]. field. assumption.
  - specialize (Hg eq_refl). destruct j as [|[|[|j]]]; [reflexivity| | |lia]; cbn [conserved rprim]; unfold euler_pressure; field; [assumption|].
    split; [assumption|lra].
Qed.

(** A cell of the centre variables with real values: conserved variables [U],
    sound speed [cs], everything else consistent with them. *)
Definition rcell (p : phys) (g : R) (v : vars XRn) (i : nat) (U : nat -> R) (cs : R) : Prop :=
  U 0%nat <> 0 /\
  (forall j, (j < nE p)%nat -> at2 (n0 XRn) (prim v) j i = Fin (rprim p g U j)) /\
  (forall j, (j < nE p)%nat -> at2 (n0 XRn) (cons v) j i = Fin (U j)) /\
  at1 (n0 XRn) (c_sound v) i = Fin cs /\
  at2 (n0 XRn) (eigen_vals v) 0 i = Fin (U 1%nat / U 0%nat - cs) /\
  at2 (n0 XRn) (eigen_vals v) (nE p - 1) i = Fin (U 1%nat / U 0%nat + cs).

Lemma hll_fn_R : forall p S g v j i U cs U' cs', (j < nE p)%nat -> (i + 1 < S)%nat ->
  shape (nE p) S (flux v) ->
  rcell p g v i U cs -> rcell p g v (i + 1) U' cs' ->
  let sl := rlo (U 1%nat / U 0%nat - cs) (U' 1%nat / U' 0%nat - cs') in
  let sr := rhi (U 1%nat / U 0%nat + cs) (U' 1%nat / U' 0%nat + cs') in
  sl < sr ->
  hll_fn XRn p S v j i = Fin (rff sl sr (euler_flux p g cs U j) (euler_flux p g cs' U' j) (U j) (U' j)).
Proof.
  intros p S g v j i U cs U' cs' Hj Hi Hs (C1 & C2 & C3 & C4 & C5 & C6) (D1 & D2 & D3 & D4 & D5 & D6) sl sr Hlt.
  unfold hll_fn. rewrite !update_flux_at by (auto; lia).
  rewrite C3, D3, C4, D4, C5, D5, C6, D6 by assumption.
  rewrite lo_h_R, hi_h_R.
  rewrite (pflux_R p g cs U) by assumption. rewrite (pflux_R p g cs' U') by assumption.
  apply face_flux_R. exact Hlt.
Qed.

Lemma sound_R : forall p g c0 q f, (0 < f 0%nat) -> (p = Adiab -> 0 <= g * f 2%nat) ->
  (forall l, (l < nE p)%nat -> q l = Fin (f l)) ->
  kt_sound XRn p (Fin c0) q (Fin g) = Fin (match p with Isot => c0 | Adiab => sqrt (g * f 2%nat / f 0%nat) end).
Proof.
  intros p g c0 q f H0 H2 Hq. destruct p; cbn [kt_sound nE] in *; [reflexivity|].
  rewrite !Hq by lia. rewrite X_mul, X_div by lra. apply X_sqrt. specialize (H2 eq_refl).
  unfold Rdiv. apply Rmult_le_pos; [assumption|]. apply Rlt_le, Rinv_0_lt_compat; assumption.
Qed.

Lemma rsound_pos : forall p g c0 f, 0 < f 0%nat -> (p = Adiab -> 0 < g * f 2%nat) -> (p = Isot -> 0 < c0) ->
  0 < rsound p g c0 f.
Proof.
  intros p g c0 f H0 H2 H1. destruct p; cbn [rsound]; [auto|]. apply sqrt_lt_R0.
  apply Rdiv_lt_0_compat; auto.
Qed.

(** Cells of an updated state, from its primitive variables. *)
Lemma rcell_intro : forall p S (v : vars XRn) g c0 f i, (i < S)%nat -> gamma v = Fin g -> (p = Adiab -> g <> 1) ->
  (forall j, (j < nE p)%nat -> at2 (n0 XRn) (prim v) j i = Fin (f j)) -> 0 < f 0%nat ->
  (p = Adiab -> 0 <= g * f 2%nat) ->
  (forall j, (j < nE p)%nat -> at2 (n0 XRn) (cons v) j i = p2c XRn p (Fin g) (fun k => at2 (n0 XRn) (prim v) k i) j) ->
  at1 (n0 XRn) (c_sound v) i = cs_of XRn p (Fin g) (Fin c0) (fun k => at2 (n0 XRn) (prim v) k i) ->
  (forall j, (j < nE p)%nat -> at2 (n0 XRn) (eigen_vals v) j i =
      eigen_row XRn p (at2 (n0 XRn) (prim v) 1 i) (at1 (n0 XRn) (c_sound v) i) j) ->
  rcell p g v i (conserved p g f) (rsound p g c0 f).
Proof.
  intros p S v g c0 f i Hi Hg Hg1 Hf H0 H2 Hc Hs He.
  assert (Hcs : at1 (n0 XRn) (c_sound v) i = Fin (rsound p g c0 f)).
  { rewrite Hs. unfold cs_of. rewrite (sound_R p g c0 _ f); auto. }
  assert (V1 : conserved p g f 1%nat / conserved p g f 0%nat = f 1%nat) by (cbn [conserved]; field; lra).
  unfold rcell. rewrite V1. repeat match goal with |- _ /\ _ => split end.
  - cbn [conserved]. lra.
  - intros j Hj. rewrite Hf by assumption. f_equal. symmetry. apply rprim_conserved; auto; lra.
  - intros j Hj. rewrite Hc by assumption. apply p2c_R; auto.
  - exact Hcs.
  - rewrite He by (destruct p; cbn; lia). rewrite Hcs, Hf by (destruct p; cbn; lia). reflexivity.
  - rewrite He by (destruct p; cbn; lia). rewrite Hcs, Hf by (destruct p; cbn; lia). destruct p; reflexivity.
Qed.

(** ** Limiters *)
Lemma sgn_R : forall a, sgn (A:=XRn) (Fin a) = if Rlt_dec 0 a then 1%Z else (-1)%Z.
Proof. intros. unfold sgn. rewrite X_n0, X_ltb. destruct (Rlt_dec 0 a); reflexivity. Qed.

(** the real slope functions *)
Definition rslope (l : limiter_mode XRn) (a b c th : R) : R :=
  match l with
  | NoLimiter => / 2 * (a + b)
  | MinMod => if Rlt_dec 0 a then (if Rlt_dec 0 b then Rmin a b else 0)
              else (if Rlt_dec 0 b then 0 else Rmax a b)
  | Superbee => if Rlt_dec 0 (a * b)
                then (if Rlt_dec 0 a then 1 else -1) * Rmin (Rmin (Rabs a) (Rabs b)) (/ 2 * Rmax (Rabs a) (Rabs b)) else 0
  | Monocent _ => if Rlt_dec 0 a then (if Rlt_dec 0 b then (if Rlt_dec 0 c then Rmin (Rabs (th * a)) (Rmin (Rabs (th * b)) (Rabs c)) else 0) else 0)
              else (if Rlt_dec 0 b then 0 else if Rlt_dec 0 c then 0 else - Rmin (Rabs (th * a)) (Rmin (Rabs (th * b)) (Rabs c)))
  | VanLeer => (a * Rabs b + b * Rabs a) / (Rabs a + Rabs b - (2 - powerRZ 2 (-52)) * powerRZ 2 1023)
  end.

Lemma slope_R : forall l a b c th,
  (l = VanLeer -> Rabs a + Rabs b <> (2 - powerRZ 2 (-52)) * powerRZ 2 1023) ->
  slope_fn (A:=XRn) l (Fin a) (Fin b) (Fin c) (Fin th) = Fin (rslope l a b c th).
Proof.
  intros l a b c th HV. destruct l; cbn [slope_fn].
  - rewrite X_Q, Q2R_half, X_add, X_mul. cbn [rslope]. f_equal. lra.
  - rewrite !sgn_R, !X_abs, mmin_R. cbn [rslope].
    destruct (Rlt_dec 0 a), (Rlt_dec 0 b); cbn [Z.mul Pos.mul Z.ltb Z.compare]; rewrite ?X_n0; try reflexivity.
    + rewrite X_Z, X_mul. f_equal. rewrite !Rabs_pos_eq by lra. lra.
    + rewrite X_Z, X_mul. f_equal. rewrite !Rabs_left1 by lra.
      unfold Rmin, Rmax. destruct (Rle_dec (- a) (- b)), (Rle_dec a b); lra.
  - rewrite X_n0, X_mul, X_ltb. cbn [rslope]. destruct (Rlt_dec 0 (a * b)); [|reflexivity].
    rewrite !sgn_R, !X_abs, !mmin_R, mmax_R, X_Q, Q2R_half, X_mul, mmin_R, X_Z, X_mul. f_equal.
    replace (1 / 2) with (/ 2) by lra. destruct (Rlt_dec 0 a); reflexivity.
  - rewrite !sgn_R, !X_mul, !X_abs, !mmin_R. cbn [rslope].
    destruct (Rlt_dec 0 a), (Rlt_dec 0 b), (Rlt_dec 0 c); cbn [Z.mul Pos.mul Z.ltb Z.compare andb]; rewrite ?X_n0; try reflexivity;
    rewrite X_Z, X_mul; f_equal; ring.
  - rewrite !X_abs, !X_mul, !X_add. cbn [nMIN XRn]. change (xadd ?x ?y) with (nadd XRn x y). rewrite X_add.
    specialize (HV eq_refl). rewrite X_div by lra. reflexivity.
Qed.

Lemma rslope_zero : forall l th, rslope l 0 0 0 th = 0.
Proof.
  intros l th. destruct l; cbn [rslope].
  - lra.
  - destruct (Rlt_dec 0 0); [lra|]. unfold Rmax. destruct (Rle_dec 0 0); lra.
  - destruct (Rlt_dec 0 (0 * 0)); [lra|reflexivity].
  - destruct (Rlt_dec 0 0); [lra|]. rewrite !Rmult_0_r, Rabs_R0. unfold Rmin. repeat destruct (Rle_dec _ _); lra.
  - rewrite Rabs_R0, !Rmult_0_r, Rplus_0_r. unfold Rdiv. lra.
Qed.
