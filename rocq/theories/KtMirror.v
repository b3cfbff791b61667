(** Mirror symmetry of the KT scheme in exact arithmetic: the limiters are odd
    and symmetric, so the reconstructed faces mirror each other. *)

From Coq Require Import Reals ZArith NArith QArith List Bool Lia Lra.
From Verif Require Import Base Num XReal Config Mesh State NumFlux Time Spec SpecFlow SpecStep SpecEuler SpecMirror MeshProofs BoundaryProofs PhysicsProofs FluxProofs
  UpdateProofs FluxReal FluxThms FluxMore StepProofs StepInv StepEq EulerStep EulerThms ConsThms FlatProofs MirrorProofs MirrorNum.
Import ListNotations.
Local Open Scope nat_scope.

Notation LX := xr_laws.
Notation fin x := (nfin XRn x = true).

Lemma fin_ex : forall x : nF XRn, fin x -> exists r, x = Fin r.
Proof. intros [r| | |] H; try discriminate H. exists r. reflexivity. Qed.

(** ** The limiters *)
Lemma vanleer_shape : forall a b c th : R, slope_fn (A:=XRn) VanLeer (Fin a) (Fin b) (Fin c) (Fin th) =
  ndiv XRn (Fin (a * Rabs b + b * Rabs a)) (nadd XRn (Fin (Rabs a + Rabs b)) (nMIN XRn)).
Proof. reflexivity. Qed.

Lemma slope_swap : forall l (a b c th : R), slope_fn (A:=XRn) l (Fin b) (Fin a) (Fin c) (Fin th) = slope_fn l (Fin a) (Fin b) (Fin c) (Fin th).
Proof.
  intros l a b c th. destruct l; try (rewrite !slope_R by discriminate; f_equal; cbn [rslope]).
  - lra.
  - destruct (Rlt_dec 0 a), (Rlt_dec 0 b); auto using Rmin_comm, Rmax_comm.
  - rewrite (Rmult_comm b a). destruct (Rlt_dec 0 (a * b)) as [H|]; [|reflexivity].
    rewrite (Rmin_comm (Rabs b)), (Rmax_comm (Rabs b)). f_equal.
    destruct (Rlt_dec 0 a), (Rlt_dec 0 b); try reflexivity; exfalso; nra.
  - rewrite (Rmin_assoc (Rabs (th * b))), (Rmin_comm (Rabs (th * b))), <- Rmin_assoc.
    destruct (Rlt_dec 0 a), (Rlt_dec 0 b), (Rlt_dec 0 c); reflexivity.
  - rewrite !vanleer_shape. f_equal; [f_equal; lra|]. f_equal. f_equal. lra.
Qed.

Lemma slope_odd : forall l (a b c th : R), slope_fn (A:=XRn) l (Fin (- a)) (Fin (- b)) (Fin (- c)) (Fin th) = nneg XRn (slope_fn l (Fin a) (Fin b) (Fin c) (Fin th)).
Proof.
  intros l a b c th. destruct l; try (rewrite !slope_R by discriminate; rewrite X_neg; f_equal; cbn [rslope]).
  - lra.
  - unfold Rmin, Rmax. destruct (Rlt_dec 0 a), (Rlt_dec 0 b), (Rlt_dec 0 (- a)), (Rlt_dec 0 (- b)); repeat destruct (Rle_dec _ _); lra.
  - replace (- a * - b)%R with (a * b)%R by lra. rewrite !Rabs_Ropp. destruct (Rlt_dec 0 (a * b)) as [H|]; [|lra].
    assert (a <> 0%R) by nra. destruct (Rlt_dec 0 a), (Rlt_dec 0 (- a)); lra.
  - replace (th * - a)%R with (- (th * a))%R by lra. replace (th * - b)%R with (- (th * b))%R by lra. rewrite !Rabs_Ropp.
    pose proof (Rabs_pos (th * a)) as Pa. pose proof (Rabs_pos (th * b)) as Pb. pose proof (Rabs_pos c) as Pc.
    assert (Za : a = 0%R -> Rabs (th * a) = 0%R) by (intros ->; rewrite Rmult_0_r; apply Rabs_R0).
    assert (Zb : b = 0%R -> Rabs (th * b) = 0%R) by (intros ->; rewrite Rmult_0_r; apply Rabs_R0).
    assert (Zc : c = 0%R -> Rabs c = 0%R) by (intros ->; apply Rabs_R0).
    destruct (Rlt_dec 0 a), (Rlt_dec 0 b), (Rlt_dec 0 c), (Rlt_dec 0 (- a)), (Rlt_dec 0 (- b)), (Rlt_dec 0 (- c)); try lra;
      try (assert (a = 0%R) by lra); try (assert (b = 0%R) by lra); try (assert (c = 0%R) by lra);
      try (rewrite Za by assumption); try (rewrite Zb by assumption); try (rewrite Zc by assumption);
      unfold Rmin; repeat destruct (Rle_dec _ _); lra.
  - rewrite !vanleer_shape, !Rabs_Ropp. rewrite <- (l_divneg _ _ _ LX) by exact Logic.I. rewrite X_neg. f_equal. f_equal. lra.
Qed.

(** ** The faces *)
Section Faces.
Variables (p : phys) (S : nat) (k : kt XRn) (h th : R) (lim : limiter_mode XRn).
Hypothesis HS : 6 <= S.
Hypothesis Hk : kt_params S h lim th k.

Lemma flip_Fin : forall j r, flip (A:=XRn) j (Fin r) = Fin (if j =? 1 then - r else r)%R.
Proof. intros j r. unfold flip. destruct (j =? 1); reflexivity. Qed.

Lemma recon_mirror : forall c j i, mirror_rows (A:=XRn) eq (nE p) S c -> (forall i, i < S -> fin (at2 (n0 XRn) c j i)) -> j < nE p -> 1 <= i -> i <= S - 2 ->
  recon XRn k c (k_dist_west k) j (S - 1 - i) = flip j (recon XRn k c (k_dist_east k) j i).
Proof.
  intros c j i Hc Hf Hj H1 H2. destruct Hk as (K1 & K2 & K3 & K4).
  destruct (fin_ex _ (Hf (i - 1) ltac:(lia))) as (cm & Em). destruct (fin_ex _ (Hf i ltac:(lia))) as (c0 & E0). destruct (fin_ex _ (Hf (i + 1) ltac:(lia))) as (cp & Ep).
  assert (Fm : at2 (n0 XRn) c j (S - 1 - i + 1) = flip (A:=XRn) j (Fin cm)).
  { rewrite (Hc j (S - 1 - i + 1) Hj ltac:(lia)). replace (S - 1 - (S - 1 - i + 1)) with (i - 1) by lia. rewrite Em. reflexivity. }
  assert (F0 : at2 (n0 XRn) c j (S - 1 - i) = flip (A:=XRn) j (Fin c0)).
  { rewrite (Hc j (S - 1 - i) Hj ltac:(lia)). replace (S - 1 - (S - 1 - i)) with i by lia. rewrite E0. reflexivity. }
  assert (Fp : at2 (n0 XRn) c j (S - 1 - i - 1) = flip (A:=XRn) j (Fin cp)).
  { rewrite (Hc j (S - 1 - i - 1) Hj ltac:(lia)). replace (S - 1 - (S - 1 - i - 1)) with (i + 1) by lia. rewrite Ep. reflexivity. }
  unfold recon, kt_slope. rewrite Fm, F0, Fp, Em, E0, Ep, K1, K2, K3, (proj1 (K4 (S - 1 - i) ltac:(lia))), (proj2 (K4 i ltac:(lia))).
  rewrite !flip_Fin, !X_sub, X_Q, Q2R_half, !X_mul. unfold flip. destruct (j =? 1).
  - replace (- c0 - - cp)%R with (cp - c0)%R by lra. replace (- cm - - c0)%R with (c0 - cm)%R by lra. replace (- cm - - cp)%R with (cp - cm)%R by lra.
    rewrite slope_swap. rewrite <- (X_neg (h / 2)), (mulneg_r XRn eq _ LX), <- X_neg.
    set (y := nmul XRn _ (Fin (h / 2))). rewrite (l_negadd _ _ _ LX). rewrite <- (l_subswap _ _ _ LX). destruct y; reflexivity || (cbn; f_equal; lra).
  - replace (c0 - cp)%R with (- (cp - c0))%R by lra. replace (cm - c0)%R with (- (c0 - cm))%R by lra. replace (1 / 2 * (cm - cp))%R with (- (1 / 2 * (cp - cm)))%R by lra.
    rewrite slope_odd, slope_swap. rewrite <- (X_neg (h / 2)), (mulneg_r XRn eq _ LX (Fin (/ h))), (mulneg2 XRn eq _ LX). reflexivity.
Qed.
End Faces.

(** ** Wave speeds of finite numbers *)
Lemma lo_kh : forall x y, fin x -> fin y -> lo_k XRn x y = lo_h XRn x y.
Proof.
  intros x y Hx Hy. destruct (fin_ex _ Hx) as (a & ->). destruct (fin_ex _ Hy) as (b & ->).
  unfold lo_k, lo_h. rewrite X_n0, !mmin_R, !X_min. f_equal. rewrite (Rmin_comm b a). reflexivity.
Qed.
Lemma hi_kh : forall x y, fin x -> fin y -> hi_k XRn x y = hi_h XRn x y.
Proof.
  intros x y Hx Hy. destruct (fin_ex _ Hx) as (a & ->). destruct (fin_ex _ Hy) as (b & ->).
  unfold hi_k, hi_h. rewrite X_n0, !mmax_R, !X_max. f_equal. rewrite (Rmax_comm b a). reflexivity.
Qed.
(** the estimate is finite: the wave speed on the west side of the face is no
    NaN and not infinitely fast *)
Lemma hi_fin : forall x y, fin (hi_k XRn x y) -> x <> XNaN /\ x <> PInf.
Proof.
  intros x y H. unfold hi_k, mmax in H. split; intros ->; cbn in H; destruct y; cbn in H; unfold xltb in H; repeat destruct (Rlt_dec _ _); cbn in H; discriminate H.
Qed.

(** What a finite flux says about the quantities in it. *)
Lemma face_fin : forall a sl sr fl fr ul ur, fin (face_flux XRn a sl sr fl fr ul ur) -> fin sl /\ fin sr /\ fin fl /\ fin fr /\ fin ul /\ fin ur.
Proof.
  intros a sl sr fl fr ul ur H. unfold face_flux in H. apply (l_fmul _ _ _ LX) in H. destruct H as (_ & H).
  apply (l_fadd _ _ _ LX) in H. destruct H as (H & G). apply (l_fsub _ _ _ LX) in H. destruct H as (H1 & H2).
  apply (l_fmul _ _ _ LX) in H1, H2, G. destruct H1 as (H1 & H1'). destruct H2 as (H2 & H2'). destruct G as (_ & G). apply (l_fsub _ _ _ LX) in G.
  destruct G. repeat split; assumption.
Qed.

Lemma sqrt_not_NInf : forall x : nF XRn, nsqrt XRn x <> NInf.
Proof. intros [r| | |]; cbn; try discriminate. destruct (Rle_dec 0 r); discriminate || (destruct (Rlt_dec r 0); discriminate). Qed.

Lemma isot_cs_fin : forall q f cs, fin (pflux XRn Isot q f cs 1) -> fin cs.
Proof.
  intros q f cs Fx. cbn in Fx. apply (l_fmul _ _ _ LX) in Fx. destruct Fx as (_ & Fx).
  apply (l_fadd _ _ _ LX) in Fx. destruct Fx as (_ & Fx). apply (l_fmul _ _ _ LX) in Fx. apply Fx.
Qed.

Section Flux.
Variables (p : phys) (S : nat) (k : kt XRn) (h th : R) (lim : limiter_mode XRn) (m : mesh XRn) (u : state XRn).
Hypothesis HS : 6 <= S.
Hypothesis Hk : kt_params S h lim th k.
Hypothesis Hg : gamma (west u) = gamma (east u).
Hypothesis Hcs : p = Isot -> forall i, i < S -> at1 (n0 XRn) (c_sound (east u)) i = at1 (n0 XRn) (c_sound (west u)) (S - 1 - i).
Hypothesis Harea : forall i, i < S -> at1 (n0 XRn) (m_d_area_east m) i = n1 XRn.
Hypothesis Hc : mirror_rows (A:=XRn) eq (nE p) S (cons (cent u)).
Hypothesis Hf : forall j i, j < nE p -> i < S -> fin (at2 (n0 XRn) (cons (cent u)) j i).
Hypothesis Hfn : forall j i, j < nE p -> 1 <= i -> i <= S - 3 -> fin (kt_fn XRn p k u m j i).

Let g := gamma (east u).
Let UL i l := recon XRn k (cons (cent u)) (k_dist_east k) l i.
Let UR i l := recon XRn k (cons (cent u)) (k_dist_west k) l (i + 1).
Let qL i := c2p XRn p g (UL i).
Let qR i := c2p XRn p g (UR i).
Let cL i := kt_sound XRn p (at1 (n0 XRn) (c_sound (east u)) i) (qL i) g.
Let cR i := kt_sound XRn p (at1 (n0 XRn) (c_sound (west u)) (i + 1)) (qR i) g.

Lemma fn_eq : forall j i, i < S -> kt_fn XRn p k u m j i =
  face_flux XRn (n1 XRn) (lo_k XRn (nsub XRn (qL i 1) (cL i)) (nsub XRn (qR i 1) (cR i))) (hi_k XRn (nadd XRn (qL i 1) (cL i)) (nadd XRn (qR i 1) (cR i)))
    (pflux XRn p (qL i) (UL i) (cL i) j) (pflux XRn p (qR i) (UR i) (cR i) j) (UL i j) (UR i j).
Proof. intros j i Hi. unfold kt_fn. rewrite (Harea i Hi), Hg. reflexivity. Qed.

Let Ueq : forall i l, l < nE p -> 1 <= i -> i <= S - 3 -> UR i l = flip l (UL (S - 2 - i) l).
Proof.
  intros i l Hl H1 H2. unfold UR, UL. replace (i + 1) with (S - 1 - (S - 2 - i)) by lia.
  apply (recon_mirror p S k h th lim HS Hk); auto; lia.
Qed.
Let qeq : forall i l, l < nE p -> 1 <= i -> i <= S - 3 -> qR i l = flip l (qL (S - 2 - i) l).
Proof. intros i l Hl H1 H2. unfold qR, qL. apply (c2p_flip XRn eq _ LX); [|exact Logic.I|exact Hl]. intros j Hj. apply Ueq; assumption. Qed.
Let ceq : forall i, 1 <= i -> i <= S - 3 -> cR i = cL (S - 2 - i).
Proof.
  intros i H1 H2. unfold cR, cL, kt_sound. destruct p eqn:P.
  - rewrite Hcs by (auto; lia). f_equal. lia.
  - rewrite !qeq by (cbn; lia). reflexivity.
Qed.

Let fin_face : forall i, 1 <= i -> i <= S - 3 -> fin (qL i 1) /\ fin (cL i).
Proof.
  intros i H1 H2. pose proof (Hfn 1 i ltac:(destruct p; cbn; lia) H1 H2) as F. rewrite fn_eq in F by lia.
  apply face_fin in F. destruct F as (_ & Fh & Fx & _).
  assert (Q : fin (qL i 1)).
  { clear - Fx. destruct p; cbn in Fx.
    - apply (l_fmul _ _ _ LX) in Fx. destruct Fx as (_ & Fx). apply (l_fadd _ _ _ LX) in Fx. destruct Fx as (Fx & _). apply (l_fmul _ _ _ LX) in Fx. apply Fx.
    - apply (l_fadd _ _ _ LX) in Fx. destruct Fx as (Fx & _). apply (l_fmul _ _ _ LX) in Fx. apply Fx. }
  split; [exact Q|]. apply hi_fin in Fh. destruct Fh as (N1 & N2). destruct (fin_ex _ Q) as (r & Er). rewrite Er in N1, N2.
  assert (NI : cL i <> NInf).
  { unfold cL, kt_sound. destruct p; [|apply sqrt_not_NInf]. intros X. cbn [nE] in *. pose proof (isot_cs_fin _ _ _ Fx) as Y. unfold cL, kt_sound in Y. rewrite X in Y. discriminate Y. }
  destruct (cL i); [reflexivity|elim N2; reflexivity|elim NI; reflexivity|elim N1; reflexivity].
Qed.

Lemma kt_fn_mirror : forall j i, j < nE p -> 1 <= i -> i <= S - 3 -> kt_fn XRn p k u m j i = flop XRn j (kt_fn XRn p k u m j (S - 2 - i)).
Proof.
  intros j i Hj H1 H2. rewrite !fn_eq by lia. set (i' := S - 2 - i).
  assert (I1 : 1 <= i') by (unfold i'; lia). assert (I2 : i' <= S - 3) by (unfold i'; lia). assert (I3 : S - 2 - i' = i) by (unfold i'; lia).
  destruct (fin_face i H1 H2) as (Q & C). destruct (fin_face i' I1 I2) as (Q' & C').
  assert (N1 : 1 < nE p) by (destruct p; cbn; lia).
  assert (E1 : qR i 1 = nneg XRn (qL i' 1)) by (exact (qeq i 1 N1 H1 H2)).
  assert (E1' : qR i' 1 = nneg XRn (qL i 1)) by (rewrite (qeq i' 1 N1 I1 I2), I3; reflexivity).
  assert (E2 : cR i = cL i') by (exact (ceq i H1 H2)).
  assert (E2' : cR i' = cL i) by (rewrite (ceq i' I1 I2), I3; reflexivity).
  assert (Fu : forall l, l < nE p -> UL i l = flip l (UR i' l)) by (intros l Hl; rewrite (Ueq i' l Hl I1 I2), I3; symmetry; apply (flip2 XRn eq _ LX)).
  assert (Fq : forall l, l < nE p -> qL i l = flip l (qR i' l)) by (intros l Hl; rewrite (qeq i' l Hl I1 I2), I3; symmetry; apply (flip2 XRn eq _ LX)).
  destruct (fin_ex _ Q) as (q & Eq). destruct (fin_ex _ C) as (c & Ec). destruct (fin_ex _ Q') as (q' & Eq'). destruct (fin_ex _ C') as (c' & Ec').
  rewrite !lo_kh, !hi_kh by (rewrite ?E1, ?E1', ?E2, ?E2', ?Eq, ?Ec, ?Eq', ?Ec'; reflexivity).
  apply (face_mirror XRn eq _ LX); try exact Logic.I.
  - apply (lo_mirror XRn eq _ LX); rewrite ?E1, ?E1', ?E2, ?E2', ?Eq, ?Ec, ?Eq', ?Ec', ?X_neg, ?X_sub, ?X_add, ?X_neg; f_equal; lra.
  - apply (hi_mirror XRn eq _ LX); rewrite ?E1, ?E1', ?E2, ?E2', ?Eq, ?Ec, ?Eq', ?Ec', ?X_neg, ?X_sub, ?X_add, ?X_neg; f_equal; lra.
  - apply (pflux_flop XRn eq _ LX); [exact Fq|exact Fu|symmetry; exact E2'|exact Hj].
  - apply (pflux_flop XRn eq _ LX); [intros l Hl; apply qeq; assumption|intros l Hl; apply Ueq; assumption|exact E2|exact Hj].
  - apply Fu. exact Hj.
  - apply Ueq; auto.
Qed.
End Flux.

(** ** One stage *)
Section Stage.
Variables (p : phys) (S : nat) (c0 : mesh_config XRn) (l : list (nat * cbmode)).
Hypothesis HS : 6 <= S.
Hypothesis Hl : even_handed (m_is_logarithmic (mesh_build S c0)) (nE p) l.
Let m := mesh_build S c0.
Let Hm : std_ix XRn S m. Proof. apply std_build. Qed.
Let HS5 : 5 <= S. Proof. lia. Qed.

Lemma Gval_fin : forall s md j i (f : nat -> nF XRn), i = 1 \/ i = 2 ->
  md = NoGradients \/ md = Reflecting \/ (j <> 0 /\ ((md = Extrapolate /\ m_is_logarithmic (mesh_build S c0) = false) \/ md = NearZero)) ->
  (forall d, d < 2 -> fin (f (inner_cell s S d))) -> fin (Gval XRn s S m md i f).
Proof.
  intros s md j i f Hi Hmd H. destruct (fin_ex _ (H 0 ltac:(lia))) as (x & E0). destruct (fin_ex _ (H 1 ltac:(lia))) as (y & E1). destruct (fin_ex _ (H (i - 1) ltac:(lia))) as (z & E2).
  unfold Gval. unfold m in *. destruct Hmd as [->|[->|(_ & [(-> & Hlin)| ->])]].
  - rewrite E0. reflexivity.
  - rewrite E2. reflexivity.
  - rewrite Hlin, E0, E1. reflexivity.
  - rewrite E0. reflexivity.
Qed.

Lemma modes_fin : forall q q1 q2, shape (nE p) S q -> (forall j i, j < nE p -> 2 <= i <= S - 3 -> fin (at2 (n0 XRn) q j i)) ->
  apply_modes West (nE p) S m l q = Ok q1 -> apply_modes East (nE p) S m l q1 = Ok q2 -> forall j i, j < nE p -> i < S -> fin (at2 (n0 XRn) q2 j i).
Proof.
  intros q q1 q2 Sq Hq E1 E2 j i Hj Hi. destruct Hl as (Hall & Hmd).
  assert (HS4 : 4 <= S) by lia.
  assert (Sq1 : shape (nE p) S q1) by (eapply apply_modes_shape; eassumption).
  assert (IN1 : forall i, 2 <= i <= S - 3 -> at2 (n0 XRn) q1 j i = at2 (n0 XRn) q j i).
  { intros i' Hi'. apply (apply_modes_other XRn _ _ _ _ _ _ _ j i' HS4 E1). right. cbn [ghost_cell]. lia. }
  destruct (last_entry l j) as [Hn|(l1 & md & l2 & El & Hn)]; [elim Hn; apply Hall; exact Hj|].
  assert (M := Hmd j md ltac:(rewrite El; apply in_or_app; right; left; reflexivity)).
  destruct (Nat.lt_ge_cases i 2) as [Lo|Lo].
  { rewrite (apply_modes_other XRn _ _ _ _ _ _ _ j i HS4 E2) by (right; cbn [ghost_cell]; lia).
    pose proof (apply_modes_ghost XRn West (nE p) S m l q q1 j (2 - i) l1 md l2 HS5 Sq E1 El Hn ltac:(lia)) as V. cbn [ghost_cell] in V.
    replace (2 - (2 - i)) with i in V by lia. rewrite V. apply (Gval_fin West md j); [lia|exact M|]. intros d Hd. cbn [inner_cell]. apply Hq; [exact Hj|lia]. }
  destruct (Nat.lt_ge_cases (S - 3) i) as [Up|Up].
  { pose proof (apply_modes_ghost XRn East (nE p) S m l q1 q2 j (i - (S - 3)) l1 md l2 HS5 Sq1 E2 El Hn ltac:(lia)) as V. cbn [ghost_cell] in V.
    replace (S - 3 + (i - (S - 3))) with i in V by lia. rewrite V. apply (Gval_fin East md j); [lia|exact M|]. intros d Hd. cbn [inner_cell]. rewrite IN1 by lia. apply Hq; [exact Hj|lia]. }
  rewrite (apply_modes_other XRn _ _ _ _ _ _ _ j i HS4 E2) by (right; cbn [ghost_cell]; lia). rewrite IN1 by lia. apply Hq; [exact Hj|lia].
Qed.

(** conserved variables computed from primitive ones *)
Lemma p2c_fin_inv : forall g (f : nat -> nF XRn), (forall j, j < nE p -> fin (p2c XRn p g f j)) ->
  (forall j, j < nE p -> fin (f j)) /\ (p = Adiab -> fin (nrecip XRn (nsub XRn g (n1 XRn)))).
Proof.
  intros g f H. pose proof (H 0 ltac:(destruct p; cbn; lia)) as H0. pose proof (H 1 ltac:(destruct p; cbn; lia)) as H1.
  assert (F0 : fin (f 0)) by (clear - H0; destruct p; exact H0).
  assert (F1 : fin (f 1)) by (clear - H1; destruct p; cbn in H1; apply (l_fmul _ _ _ LX) in H1; apply H1).
  destruct p eqn:P.
  - split; [|discriminate]. intros [|[|j]] Hj; [exact F0|exact F1|cbn in Hj; lia].
  - pose proof (H 2 ltac:(cbn; lia)) as H2. cbn -[nrecip nQ n1] in H2. apply (l_fadd _ _ _ LX) in H2. destruct H2 as (H2 & _). apply (l_fmul _ _ _ LX) in H2. destruct H2 as (H2 & H3).
    split; [|intros _; exact H3]. intros [|[|[|j]]] Hj; [exact F0|exact F1|exact H2|cbn in Hj; lia].
Qed.
Lemma p2c_fin : forall g (f : nat -> nF XRn), (forall j, j < nE p -> fin (f j)) -> (p = Adiab -> fin (nrecip XRn (nsub XRn g (n1 XRn)))) ->
  forall j, j < nE p -> fin (p2c XRn p g f j).
Proof.
  intros g f H Hr j Hj. destruct (fin_ex _ (H 0 ltac:(destruct p; cbn; lia))) as (x & Ex). destruct (fin_ex _ (H 1 ltac:(destruct p; cbn; lia))) as (y & Ey).
  destruct p eqn:P.
  - destruct j as [|[|j]]; [| |cbn in Hj; lia]; cbn; rewrite ?Ex, ?Ey; reflexivity.
  - destruct (fin_ex _ (H 2 ltac:(cbn; lia))) as (z & Ez). destruct (fin_ex _ (Hr eq_refl)) as (w & Ew).
    destruct j as [|[|[|j]]]; [| | |cbn in Hj; lia]; cbn -[nrecip nQ n1]; try change (xsub g (n1 XRn)) with (nsub XRn g (n1 XRn)); rewrite ?Ex, ?Ey, ?Ez, ?Ew; reflexivity.
Qed.

Definition kt_extra (u t : state XRn) : Prop := gamma (west t) = gamma (east t) /\
  (p = Isot -> forall i, i < S -> at1 (n0 XRn) (c_sound (east u)) i = at1 (n0 XRn) (c_sound (west u)) (S - 1 - i)).

Lemma kt_stage_mirror : forall h th lim k0 c u (k : rkf XRn) (r : rhs XRn (Kt XRn)) r' w,
  (forall x, kt_like XRn x k0 -> kt_params S h lim th x) -> (forall i, i < S -> at1 (n0 XRn) (m_d_area_east m) i = n1 XRn) ->
  wss p S u -> shape (nE p) S c -> inner_rows XRn eq p S c -> even_sound XRn eq p S (cent u) -> kt_extra u (rk_utilde k) ->
  same_setup p S (fun x : nf_T (Kt XRn) => kt_like XRn x k0) k r k r -> r_bw r = l -> r_be r = l ->
  rhs_update true p S r (stage_state XRn c (rk_utilde k) u) m = (r', w, Ok tt) -> inner_rows XRn eq p S (r_full r').
Proof.
  intros h th lim k0 c u k r r' w HP Harea U Sc Hc Hs (X1 & X2) SS Bw Be E.
  pose proof (HP _ (ss_good1 _ _ _ _ _ _ _ _ _ SS)) as Hk. pose proof (ss_shape1 _ _ _ _ _ _ _ _ _ SS) as Uk.
  set (t := stage_state XRn c (rk_utilde k) u) in *.
  assert (T : wss p S t) by (destruct (same_stage XRn p S c _ _ u U Uk Uk ltac:(repeat split) Sc) as (Y1 & Y2 & Y3); split; [apply Y1|split; [apply Y2|apply Y3]]).
  unfold rhs_update, st_update_from_cons in E. rewrite Bw, Be in E.
  destruct (update_vars_from_cons p S l l m (cent t)) as [v| | |] eqn:V; try discriminate E. cbn [bind] in E.
  destruct (nf_calc (Kt XRn) true p S (r_nf r) (r_full r) (set_cent v t) m) as [[[n d] x] o] eqn:N.
  apply pair_equal_spec in E. destruct E as (E & ->). apply pair_equal_spec in E. destruct E as (<- & _). cbn [r_full].
  cbn [nf_calc Kt] in N. set (t1 := set_cent v t) in *.
  assert (Tw : wsv XRn p S (west t1)) by apply T. assert (Te : wsv XRn p S (east t1)) by apply T.
  assert (Wv : wsv XRn p S v) by (eapply wsv_update_from_cons; [exact HS5|exact (proj1 T)|exact V]).
  destruct (update_from_cons_view XRn p S l l m (cent t) v HS5 (proj1 T) V) as (_ & _ & _ & _ & Vp & Vc).
  assert (FIN : forall j i, j < nE p -> 1 <= i -> i <= S - 3 -> fin (kt_fn XRn p (r_nf r) t1 m j i)).
  { intros j i Hj H1 H2. pose proof (kt_num XRn true p S (r_nf r) (r_full r) t1 m Hm Tw Te j i Hj H1 H2 ltac:(lia)) as Q. rewrite N in Q. cbn [fst] in Q. rewrite <- Q.
    assert (VO : kt_validate n = Ok tt /\ shape (nE p) S (k_flux_num n)).
    { unfold kt_calc in N. apply pair_equal_spec in N. destruct N as (N & NV). apply pair_equal_spec in N. destruct N as (N & _). apply pair_equal_spec in N. destruct N as (<- & _).
      split; [exact NV|cbn [k_flux_num]; apply shape_upd_range2]. }
    destruct VO as (VO & Sh). unfold kt_validate in VO.
    assert (AF : all_fin2 (k_flux_num n) = true).
    { destruct (all_fin (k_a_plus n)); [|discriminate VO]. destruct (all_fin (k_a_minus n)); [|discriminate VO]. destruct (all_fin (k_b n)); [|discriminate VO].
      destruct (all_fin2 (k_flux_num n)); [reflexivity|discriminate VO]. }
    apply (all_fin2_entry XRn S HS _ (nE p) S); auto; lia. }
  assert (M : mirrored XRn eq p S v).
  { apply (from_cons_mirror XRn eq _ LX p S c0 l HS Hl (cent t) v (proj1 T)); [exact Hc|exact Hs|intros; exact Logic.I|exact V]. }
  (* finite cells *)
  assert (FC : forall j i, j < nE p -> 1 <= i -> i <= S - 3 -> fin (at2 (n0 XRn) (cons v) j i)).
  { intros j i Hj H1 H2. pose proof (FIN j i Hj H1 H2) as Q. unfold kt_fn in Q. apply face_fin in Q. destruct Q as (_ & _ & _ & _ & Q & _).
    unfold recon in Q. apply (l_fadd _ _ _ LX) in Q. apply Q. }
  assert (FP : forall i, 2 <= i <= S - 3 -> (forall j, j < nE p -> fin (at2 (n0 XRn) (prim v) j i)) /\ (p = Adiab -> fin (nrecip XRn (nsub XRn (gamma (cent t)) (n1 XRn))))).
  { intros i Hi. destruct (Vc i ltac:(lia)) as (Q & _). apply (p2c_fin_inv (gamma (cent t)) (fun j => at2 (n0 XRn) (prim v) j i)).
    intros j Hj. rewrite <- Q by exact Hj. apply FC; [exact Hj|lia|lia]. }
  assert (FA : forall j i, j < nE p -> i < S -> fin (at2 (n0 XRn) (cons v) j i)).
  { intros j i Hj Hi. destruct (Vc i Hi) as (Q & _). rewrite Q by exact Hj. apply p2c_fin; [|apply (FP 2); lia|exact Hj].
    clear j Hj Q. intros j Hj. pose proof V as V'. unfold update_vars_from_cons, update_vars_from_prim in V'. apply bind_Ok in V'. destruct V' as (y & Hy & V'). apply bind_Ok in V'. destruct V' as (z & Hz & V'). injection V' as V'.
    apply bc_apply_Ok in Hy, Hz. destruct Hy as (q1 & Hq1 & ->). destruct Hz as (q2 & Hq2 & ->). cbn [prim set_prim] in Hq2.
    assert (Ev : prim v = q2).
    { rewrite <- V'. match goal with |- prim (update_derived_variables p S ?z) = _ => destruct (derived_fields XRn p S z) as (D & _); rewrite D end.
      match goal with |- prim (update_cons p S ?z) = _ => destruct (update_cons_fields XRn p S z) as (D' & _); rewrite D' end. reflexivity. }
    rewrite Ev. refine (modes_fin _ q1 q2 _ _ Hq1 Hq2 j i Hj Hi).
    - exact (proj1 (wsv_update_prim XRn p S _ (proj1 T))).
    - intros j' i' Hj' Hi'. destruct (FP i' Hi') as (F & _). specialize (F j' Hj'). rewrite Vp in F by (auto; split; lia).
      rewrite update_prim_at by (auto; try lia; apply T). exact F. }
  assert (Gt : gamma (west t1) = gamma (east t1)) by exact X1.
  pose proof (kt_fn_mirror p S (r_nf r) h th lim m t1 HS Hk Gt X2 Harea (proj1 (proj2 (proj1 M))) FA FIN) as KM.
  intros j i Hj Hi.
  pose proof (kt_dflux XRn true p S (r_nf r) (r_full r) t1 m Hm Tw Te j i Hj ltac:(lia)) as Q1. rewrite N in Q1. cbn [fst snd] in Q1.
  pose proof (kt_dflux XRn true p S (r_nf r) (r_full r) t1 m Hm Tw Te j (S - 1 - i) Hj ltac:(lia)) as Q2. rewrite N in Q2. cbn [fst snd] in Q2.
  rewrite Q1, Q2. clear Q1 Q2.
  replace ((2 <=? i) && (i <=? S - 3))%nat with true by (symmetry; apply andb_true_intro; split; apply Nat.leb_le; lia).
  replace ((2 <=? S - 1 - i) && (S - 1 - i <=? S - 3))%nat with true by (symmetry; apply andb_true_intro; split; apply Nat.leb_le; lia).
  unfold m at 1 4. rewrite (FlatProofs.dddv_flat XRn S c0 (S - 1 - i) i) by lia.
  pose proof (KM j i Hj ltac:(lia) ltac:(lia)) as M1. pose proof (KM j (i - 1) Hj ltac:(lia) ltac:(lia)) as M2.
  replace (S - 2 - i) with (S - 1 - i - 1) in M1 by lia. replace (S - 2 - (i - 1)) with (S - 1 - i) in M2 by lia.
  rewrite M1, M2, <- (flip_mul_r XRn eq _ LX). f_equal.
  unfold flip, flop. destruct (j =? 1); [apply (l_subswap _ _ _ LX)|]. rewrite (l_subneg _ _ _ LX). symmetry. apply (l_subswap _ _ _ LX).
Qed.
End Stage.
