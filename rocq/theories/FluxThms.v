(** Proofs of the flux properties (stated in P_Flux.v). *)

From Coq Require Import Reals ZArith QArith Qreals List Bool Lra Lia.
From Verif Require Import Base Num XReal Config Mesh State NumFlux Spec SpecFlow ConfigProofs MeshProofs BoundaryProofs PhysicsProofs FluxProofs UpdateProofs FluxReal.
Import ListNotations.
Local Open Scope R_scope.

Lemma Ok_inj : forall T (x y : T), Ok x = Ok y -> x = y.
Proof. intros T x y H. injection H as H. exact H. Qed.

(** ** Upwinding *)
Lemma hll_upwind : forall validation p S h d u m h' d' u' o j i el er xl xr fl fr ul ur,
  (m_ixi_in m = 2 /\ m_ixi_out m = S - 3)%nat ->
  hll_calc (A:=XRn) validation p S h d u m = (h', d', u', o) ->
  (j < nE p)%nat -> (1 <= i <= S - 3)%nat -> (i < S)%nat ->
  at2 (n0 XRn) (eigen_vals (cent u')) 0 i = Fin el -> at2 (n0 XRn) (eigen_vals (cent u')) 0 (i + 1) = Fin er ->
  at2 (n0 XRn) (eigen_vals (cent u')) (nE p - 1) i = Fin xl -> at2 (n0 XRn) (eigen_vals (cent u')) (nE p - 1) (i + 1) = Fin xr ->
  at2 (n0 XRn) (flux (cent u')) j i = Fin fl -> at2 (n0 XRn) (flux (cent u')) j (i + 1) = Fin fr ->
  at2 (n0 XRn) (cons (cent u')) j i = Fin ul -> at2 (n0 XRn) (cons (cent u')) j (i + 1) = Fin ur ->
  (0 <= el -> 0 <= er -> 0 < Rmax xl xr -> at2 (n0 XRn) (h_flux_num h') j i = Fin fl) /\
  (xl <= 0 -> xr <= 0 -> Rmin el er < 0 -> at2 (n0 XRn) (h_flux_num h') j i = Fin fr).
Proof.
  intros validation p S h d u m h' d' u' o j i el er xl xr fl fr ul ur Hm E Hj [H1 H2] H3 Eel Eer Exl Exr Efl Efr Eul Eur.
  assert (N : at2 (n0 XRn) (h_flux_num h') j i = hll_fn XRn p S (cent u) j i).
  { pose proof (hll_num XRn validation p S h d u m Hm j i Hj H1 H2 H3) as Q. rewrite E in Q. exact Q. }
  pose proof (hll_state XRn validation p S h d u m) as Q. rewrite E in Q. cbn [fst snd] in Q. subst u'.
  cbn [cent set_cent] in *.
  destruct (update_flux_fields XRn p S (cent u)) as (F1 & F2 & F3 & F4 & _).
  rewrite F4 in Eel, Eer, Exl, Exr. rewrite F2 in Eul, Eur.
  rewrite N. unfold hll_fn. rewrite Eel, Eer, Exl, Exr, Efl, Efr, Eul, Eur.
  rewrite lo_h_R, hi_h_R. rewrite X_n1.
  pose proof (rlo_le el er). pose proof (rhi_ge xl xr).
  split; intros A1 A2 A3.
  - assert (L : rlo el er = 0). { unfold rlo. apply Rmin_left. apply Rmin_glb; assumption. }
    assert (G : 0 < rhi xl xr). { unfold rhi. eapply Rlt_le_trans; [exact A3|apply Rmax_r]. }
    rewrite face_flux_R by lra. rewrite L, rff_right by assumption. reflexivity.
  - assert (G : rhi xl xr = 0). { unfold rhi. apply Rmax_left. apply Rmax_lub; assumption. }
    assert (L : rlo el er < 0). { unfold rlo. eapply Rle_lt_trans; [apply Rmin_r|exact A3]. }
    rewrite face_flux_R by lra. rewrite G, rff_left by assumption. reflexivity.
Qed.

Lemma kt_num_u : forall A validation p S k d (u : state A) m k' d' u' o j i,
  std_ix A S m -> kt_calc validation p S k d u m = (k', d', u', o) ->
  (j < nE p)%nat -> (1 <= i <= S - 3)%nat -> (i < S)%nat ->
  at2 (n0 A) (k_flux_num k') j i =
  face_flux A (at1 (n0 A) (m_d_area_east m) i)
    (lo_k A (at2 (n0 A) (eigen_vals (east u')) 0 i) (at2 (n0 A) (eigen_vals (west u')) 0 (i + 1)))
    (hi_k A (at2 (n0 A) (eigen_vals (east u')) (nE p - 1) i) (at2 (n0 A) (eigen_vals (west u')) (nE p - 1) (i + 1)))
    (at2 (n0 A) (flux (east u')) j i) (at2 (n0 A) (flux (west u')) j (i + 1))
    (at2 (n0 A) (cons (east u')) j i) (at2 (n0 A) (cons (west u')) j (i + 1)).
Proof.
  intros A validation p S k d u m k' d' u' o j i [E1 E2] E Hj [H1 H2] H3.
  unfold kt_calc in E. injection E as <- _ <- _. cbn [k_flux_num west east].
  rewrite at2_upd_range2 by assumption. rewrite E1, E2.
  assert (Hb : ((2 - 1 <=? i) && (i <=? S - 3))%nat = true) by (apply andb_true_intro; split; apply Nat.leb_le; lia).
  rewrite Hb. rewrite !at1_upd_range by assumption. rewrite Hb. reflexivity.
Qed.

Lemma kt_upwind : forall validation p S md a b k d u k' d' u' o j i el er xl xr fl fr ul ur,
  let m := mesh_build (A:=XRn) S (mkMC (A:=XRn) md (Fin a) (Fin b)) in
  kt_calc (A:=XRn) validation p S k d u m = (k', d', u', o) ->
  (j < nE p)%nat -> (1 <= i <= S - 3)%nat -> (i < S)%nat ->
  at2 (n0 XRn) (eigen_vals (east u')) 0 i = Fin el -> at2 (n0 XRn) (eigen_vals (west u')) 0 (i + 1) = Fin er ->
  at2 (n0 XRn) (eigen_vals (east u')) (nE p - 1) i = Fin xl -> at2 (n0 XRn) (eigen_vals (west u')) (nE p - 1) (i + 1) = Fin xr ->
  at2 (n0 XRn) (flux (east u')) j i = Fin fl -> at2 (n0 XRn) (flux (west u')) j (i + 1) = Fin fr ->
  at2 (n0 XRn) (cons (east u')) j i = Fin ul -> at2 (n0 XRn) (cons (west u')) j (i + 1) = Fin ur ->
  (0 <= el -> 0 <= er -> 0 < Rmax xl xr -> at2 (n0 XRn) (k_flux_num k') j i = Fin fl) /\
  (xl <= 0 -> xr <= 0 -> Rmin el er < 0 -> at2 (n0 XRn) (k_flux_num k') j i = Fin fr).
Proof.
  intros validation p S md a b k d u k' d' u' o j i el er xl xr fl fr ul ur m E Hj H12 H3 Eel Eer Exl Exr Efl Efr Eul Eur.
  rewrite (kt_num_u XRn _ _ _ _ _ _ _ _ _ _ _ j i (std_build XRn S _) E Hj H12 H3).
  rewrite Eel, Eer, Exl, Exr, Efl, Efr, Eul, Eur. unfold m. rewrite mesh_area_east_R by assumption.
  rewrite lo_k_R, hi_k_R.
  pose proof (rlo_le el er). pose proof (rhi_ge xl xr).
  split; intros A1 A2 A3.
  - assert (L : rlo el er = 0). { unfold rlo. apply Rmin_left. apply Rmin_glb; assumption. }
    assert (G : 0 < rhi xl xr). { unfold rhi. eapply Rlt_le_trans; [exact A3|apply Rmax_r]. }
    rewrite face_flux_R by lra. rewrite L, rff_right by assumption. reflexivity.
  - assert (G : rhi xl xr = 0). { unfold rhi. apply Rmax_left. apply Rmax_lub; assumption. }
    assert (L : rlo el er < 0). { unfold rlo. eapply Rle_lt_trans; [apply Rmin_r|exact A3]. }
    rewrite face_flux_R by lra. rewrite G, rff_left by assumption. reflexivity.
Qed.

(** ** Reconstruction *)
Definition kt_params (S : nat) (h : R) (l : limiter_mode XRn) (th : R) (k : kt XRn) : Prop :=
  k_limiter k = l /\ k_inv_dxi k = Fin (/ h) /\ k_theta k = Fin th /\
  forall i, (i < S)%nat -> at1 (n0 XRn) (k_dist_west k) i = Fin (- (h / 2)) /\
                           at1 (n0 XRn) (k_dist_east k) i = Fin (h / 2).

Lemma kt_new_params : forall p S md a b l th k, (5 <= S)%nat -> a < b ->
  limiter_theta l = Fin th ->
  kt_new (A:=XRn) p S (CKt l) (mesh_build (A:=XRn) S (mkMC (A:=XRn) md (Fin a) (Fin b))) = Ok k ->
  kt_params S (hx S a b) l th k.
Proof.
  intros p S md a b l th k HS Hab Hth H.
  unfold kt_new in H. apply Ok_inj in H. subst k.
  pose proof (hx_pos S a b HS Hab) as Hh.
  unfold kt_params; cbn [k_limiter k_inv_dxi k_theta k_dist_west k_dist_east].
  split; [reflexivity|]. split; [|split].
  - rewrite mesh_dxi_R by assumption. rewrite X_n1, X_div by lra. f_equal. unfold Rdiv. lra.
  - exact Hth.
  - intros i Hi. rewrite !at1_tab by assumption. rewrite mesh_west_R, mesh_cent_R, mesh_east_R by assumption.
    rewrite !X_sub. split; f_equal; lra.
Qed.

Lemma kt_calc_static : forall A validation p S k d (u : state A) m k' d' u' o,
  kt_calc validation p S k d u m = (k', d', u', o) ->
  k_limiter k' = k_limiter k /\ k_inv_dxi k' = k_inv_dxi k /\ k_theta k' = k_theta k /\
  k_dist_west k' = k_dist_west k /\ k_dist_east k' = k_dist_east k.
Proof. intros A validation p S k d u m k' d' u' o E. unfold kt_calc in E. injection E as <- _ _ _. cbn. auto. Qed.

Lemma kt_calc_params : forall validation p S h l th k d u m k' d' u' o,
  kt_params S h l th k -> kt_calc (A:=XRn) validation p S k d u m = (k', d', u', o) -> kt_params S h l th k'.
Proof. intros validation p S h l th k d u m k' d' u' o H E.
  destruct (kt_calc_static XRn _ _ _ _ _ _ _ _ _ _ _ E) as (E1 & E2 & E3 & E4 & E5).
  unfold kt_params. rewrite E1, E2, E3, E4, E5. exact H.
Qed.

Lemma recon_R : forall S h l th k c j i cm c0 cp,
  kt_params S h l th k -> 0 < h -> (1 <= i)%nat -> (i + 1 < S)%nat ->
  at2 (n0 XRn) c j (i - 1) = Fin cm -> at2 (n0 XRn) c j i = Fin c0 -> at2 (n0 XRn) c j (i + 1) = Fin cp ->
  (l = VanLeer -> Rabs (c0 - cm) + Rabs (cp - c0) <> (2 - powerRZ 2 (-52)) * powerRZ 2 1023) ->
  let s := rslope l (c0 - cm) (cp - c0) (/ 2 * (cp - cm)) th in
  recon XRn k c (k_dist_west k) j i = Fin (c0 - s / 2) /\ recon XRn k c (k_dist_east k) j i = Fin (c0 + s / 2).
Proof.
  intros S h l th k c j i cm c0 cp (P1 & P2 & P3 & P4) Hh Hi1 Hi2 Em E0 Ep HV s.
  destruct (P4 i ltac:(lia)) as [Dw De].
  unfold recon, kt_slope. rewrite P1, P2, P3, Em, E0, Ep, Dw, De, !X_sub, X_Q, Q2R_half, X_mul.
  replace (1 / 2 * (cp - cm)) with (/ 2 * (cp - cm)) by lra.
  rewrite slope_R by assumption. fold s. rewrite !X_mul, !X_add. split; f_equal; field; lra.
Qed.

(** The face values [kt_calc] leaves behind. *)
Lemma kt_faces : forall A validation p S k d (u : state A) m k' d' u' o j i,
  kt_calc validation p S k d u m = (k', d', u', o) -> (j < nE p)%nat -> (1 <= i)%nat -> (i + 1 < S)%nat ->
  at2 (n0 A) (cons (west u')) j i = recon A k (cons (cent u)) (k_dist_west k) j i /\
  at2 (n0 A) (cons (east u')) j i = recon A k (cons (cent u)) (k_dist_east k) j i /\
  cent u' = cent u.
Proof.
  intros A validation p S k d u m k' d' u' o j i E Hj H1 H2.
  unfold kt_calc in E. injection E as _ _ <- _. cbn [west east cent]. rewrite !kt_face_cons.
  unfold kt_reconstruct; cbn [west east cent cons set_cons]. rewrite !at2_upd_range2 by lia.
  assert (Hb : ((1 <=? i) && (i <=? S - 2))%nat = true) by (apply andb_true_intro; split; apply Nat.leb_le; lia).
  rewrite Hb. auto.
Qed.

(** limiter bounds *)
Lemma Rmin_cases : forall x y, (x <= y /\ Rmin x y = x) \/ (y <= x /\ Rmin x y = y).
Proof. intros. unfold Rmin. destruct (Rle_dec x y); [left|right]; split; lra. Qed.
Lemma Rmax_cases : forall x y, (x <= y /\ Rmax x y = y) \/ (y <= x /\ Rmax x y = x).
Proof. intros. unfold Rmax. destruct (Rle_dec x y); [left|right]; split; lra. Qed.

Lemma mono_bound : forall th a b c, 0 <= th -> Rmin (Rabs (th * a)) (Rmin (Rabs (th * b)) (Rabs c)) <= th * Rabs a /\
  Rmin (Rabs (th * a)) (Rmin (Rabs (th * b)) (Rabs c)) <= th * Rabs b /\
  0 <= Rmin (Rabs (th * a)) (Rmin (Rabs (th * b)) (Rabs c)).
Proof.
  intros th a b c H. rewrite !Rabs_mult, (Rabs_pos_eq th) by assumption.
  pose proof (Rabs_pos a). pose proof (Rabs_pos b). pose proof (Rabs_pos c).
  assert (0 <= th * Rabs a) by (apply Rmult_le_pos; lra). assert (0 <= th * Rabs b) by (apply Rmult_le_pos; lra).
  destruct (Rmin_cases (th * Rabs b) (Rabs c)) as [[K1 K2] | [K1 K2]]; rewrite K2;
  destruct (Rmin_cases (th * Rabs a) (th * Rabs b)) as [[K3 K4] | [K3 K4]];
  destruct (Rmin_cases (th * Rabs a) (Rabs c)) as [[K5 K6] | [K5 K6]]; rewrite ?K4, ?K6; lra.
Qed.

(** a slope of the given sign and at most twice the differences *)
Definition tame (s a b : R) : Prop :=
  (0 <= s -> s <= 2 * Rmax a 0 /\ s <= 2 * Rmax b 0) /\ (s <= 0 -> 2 * Rmin a 0 <= s /\ 2 * Rmin b 0 <= s).

Lemma rslope_tame : forall l a b c th, tvd_limiter l th -> tame (rslope l a b c th) a b.
Proof.
  intros l a b c th Ht. destruct l; cbn [tvd_limiter] in Ht; try contradiction; cbn [rslope]; unfold tame.
  - destruct (Rlt_dec 0 a), (Rlt_dec 0 b).
    + destruct (Rmin_cases a b) as [[K1 K2] | [K1 K2]]; rewrite K2; rewrite (Rmax_left a 0), (Rmax_left b 0), (Rmin_right a 0), (Rmin_right b 0) by lra; lra.
    + rewrite (Rmax_left a 0), (Rmax_right b 0), (Rmin_right a 0), (Rmin_left b 0) by lra; lra.
    + rewrite (Rmax_right a 0), (Rmax_left b 0), (Rmin_left a 0), (Rmin_right b 0) by lra; lra.
    + destruct (Rmax_cases a b) as [[K1 K2] | [K1 K2]]; rewrite K2; rewrite (Rmax_right a 0), (Rmax_right b 0), (Rmin_left a 0), (Rmin_left b 0) by lra; lra.
  - destruct (Rlt_dec 0 (a * b)) as [P|P].
    + pose proof (Rabs_pos a). pose proof (Rabs_pos b).
      assert (M : Rmin (Rmin (Rabs a) (Rabs b)) (/ 2 * Rmax (Rabs a) (Rabs b)) <= Rabs a /\
                  Rmin (Rmin (Rabs a) (Rabs b)) (/ 2 * Rmax (Rabs a) (Rabs b)) <= Rabs b /\
                  0 <= Rmin (Rmin (Rabs a) (Rabs b)) (/ 2 * Rmax (Rabs a) (Rabs b))).
      { pose proof (Rmin_l (Rabs a) (Rabs b)). pose proof (Rmin_r (Rabs a) (Rabs b)).
        pose proof (Rmin_l (Rmin (Rabs a) (Rabs b)) (/ 2 * Rmax (Rabs a) (Rabs b))).
        assert (0 <= Rmin (Rabs a) (Rabs b)) by (apply Rmin_glb; assumption).
        assert (0 <= / 2 * Rmax (Rabs a) (Rabs b)) by (pose proof (Rmax_l (Rabs a) (Rabs b)); lra).
        assert (0 <= Rmin (Rmin (Rabs a) (Rabs b)) (/ 2 * Rmax (Rabs a) (Rabs b))) by (apply Rmin_glb; assumption). lra. }
      destruct (Rlt_dec 0 a) as [Ha|Ha].
      * assert (0 < b) by nra. rewrite !Rabs_pos_eq in * by lra.
        rewrite (Rmax_left a 0), (Rmax_left b 0), (Rmin_right a 0), (Rmin_right b 0) by lra. lra.
      * assert (a < 0) by (destruct (Req_dec a 0); [subst; lra|lra]). assert (b < 0) by nra.
        rewrite !Rabs_left in * by lra.
        rewrite (Rmax_right a 0), (Rmax_right b 0), (Rmin_left a 0), (Rmin_left b 0) by lra. lra.
    + pose proof (Rmax_r a 0). pose proof (Rmax_r b 0). pose proof (Rmin_r a 0). pose proof (Rmin_r b 0). lra.
  - destruct Ht as [Ht0 Ht2]. destruct (mono_bound th a b c (Rlt_le _ _ Ht0)) as (M1 & M2 & M3).
    pose proof (Rmax_r a 0). pose proof (Rmax_r b 0). pose proof (Rmin_r a 0). pose proof (Rmin_r b 0).
    set (M := Rmin (Rabs (th * a)) (Rmin (Rabs (th * b)) (Rabs c))) in *.
    pose proof (Rabs_pos a). pose proof (Rabs_pos b).
    assert (M <= 2 * Rabs a) by nra. assert (M <= 2 * Rabs b) by nra.
    destruct (Rlt_dec 0 a), (Rlt_dec 0 b), (Rlt_dec 0 c); try lra.
    + rewrite !Rabs_pos_eq in * by lra. rewrite (Rmax_left a 0), (Rmax_left b 0) by lra. lra.
    + rewrite !Rabs_left1 in * by lra. rewrite (Rmin_left a 0), (Rmin_left b 0) by lra. lra.
Qed.

Lemma tame_between : forall s cm c0 cp, tame s (c0 - cm) (cp - c0) ->
  (Rmin c0 cp <= c0 + s / 2 <= Rmax c0 cp) /\ (Rmin cm c0 <= c0 - s / 2 <= Rmax cm c0).
Proof.
  intros s cm c0 cp [T1 T2].
  destruct (Rle_lt_dec cm c0), (Rle_lt_dec c0 cp).
  - rewrite (Rmin_left c0 cp), (Rmax_right c0 cp), (Rmin_left cm c0), (Rmax_right cm c0) by lra.
    rewrite (Rmax_left (c0 - cm) 0), (Rmax_left (cp - c0) 0) in T1 by lra.
    rewrite (Rmin_right (c0 - cm) 0), (Rmin_right (cp - c0) 0) in T2 by lra. destruct (Rle_dec 0 s); lra.
  - rewrite (Rmin_right c0 cp), (Rmax_left c0 cp), (Rmin_left cm c0), (Rmax_right cm c0) by lra.
    rewrite (Rmax_left (c0 - cm) 0), (Rmax_right (cp - c0) 0) in T1 by lra.
    rewrite (Rmin_right (c0 - cm) 0), (Rmin_left (cp - c0) 0) in T2 by lra. destruct (Rle_dec 0 s); lra.
  - rewrite (Rmin_left c0 cp), (Rmax_right c0 cp), (Rmin_right cm c0), (Rmax_left cm c0) by lra.
    rewrite (Rmax_right (c0 - cm) 0), (Rmax_left (cp - c0) 0) in T1 by lra.
    rewrite (Rmin_left (c0 - cm) 0), (Rmin_right (cp - c0) 0) in T2 by lra. destruct (Rle_dec 0 s); lra.
  - rewrite (Rmin_right c0 cp), (Rmax_left c0 cp), (Rmin_right cm c0), (Rmax_left cm c0) by lra.
    rewrite (Rmax_right (c0 - cm) 0), (Rmax_right (cp - c0) 0) in T1 by lra.
    rewrite (Rmin_left (c0 - cm) 0), (Rmin_left (cp - c0) 0) in T2 by lra. destruct (Rle_dec 0 s); lra.
Qed.

Lemma tame_extremum : forall s a b, tame s a b -> a * b <= 0 -> s = 0.
Proof.
  intros s a b [T1 T2] H.
  destruct (Rle_lt_dec a 0), (Rle_lt_dec b 0).
  - destruct (Req_dec a 0) as [->|Ha]; [|destruct (Req_dec b 0) as [->|Hb]; [|nra]].
    + rewrite (Rmax_left 0 0), (Rmin_left 0 0) in * by lra. lra.
    + rewrite (Rmax_left 0 0), (Rmin_left 0 0) in * by lra. lra.
  - rewrite (Rmax_right a 0) in T1 by lra. rewrite (Rmin_right b 0) in T2 by lra. lra.
  - rewrite (Rmax_right b 0) in T1 by lra. rewrite (Rmin_right a 0) in T2 by lra. lra.
  - nra.
Qed.

Lemma tame_sign : forall s a b, tame s a b -> 0 <= s * a /\ 0 <= s * b.
Proof.
  intros s a b T. destruct (Rle_lt_dec (a * b) 0) as [H|H].
  - rewrite (tame_extremum s a b T H). lra.
  - destruct T as [T1 T2]. destruct (Rle_lt_dec a 0).
    + assert (a < 0) by (destruct (Req_dec a 0); [subst; lra|lra]). assert (b < 0) by nra.
      rewrite (Rmax_right a 0), (Rmax_right b 0) in T1 by lra. assert (s <= 0) by lra. nra.
    + assert (0 < b) by nra. rewrite (Rmin_right a 0), (Rmin_right b 0) in T2 by lra. assert (0 <= s) by lra. nra.
Qed.

(** ** KT flux in terms of the reconstructed states *)
Lemma kt_fn_R : forall p S md a b (k : kt XRn) (u : state XRn) g j i c0l c0r (UL UR : nat -> R),
  let m := mesh_build (A:=XRn) S (mkMC (A:=XRn) md (Fin a) (Fin b)) in
  (j < nE p)%nat -> (i < S)%nat -> gamma (east u) = Fin g -> gamma (west u) = Fin g ->
  (forall l, (l < nE p)%nat -> recon XRn k (cons (cent u)) (k_dist_east k) l i = Fin (UL l)) ->
  (forall l, (l < nE p)%nat -> recon XRn k (cons (cent u)) (k_dist_west k) l (i + 1) = Fin (UR l)) ->
  0 < UL 0%nat -> 0 < UR 0%nat ->
  (p = Adiab -> 0 <= g * rprim p g UL 2%nat /\ 0 <= g * rprim p g UR 2%nat) ->
  (p = Isot -> at1 (n0 XRn) (c_sound (east u)) i = Fin c0l /\ at1 (n0 XRn) (c_sound (west u)) (i + 1) = Fin c0r) ->
  let cL := rsound p g c0l (rprim p g UL) in
  let cR := rsound p g c0r (rprim p g UR) in
  let sl := rlo (UL 1%nat / UL 0%nat - cL) (UR 1%nat / UR 0%nat - cR) in
  let sr := rhi (UL 1%nat / UL 0%nat + cL) (UR 1%nat / UR 0%nat + cR) in
  sl < sr ->
  kt_fn XRn p k u m j i = Fin (rff sl sr (euler_flux p g cL UL j) (euler_flux p g cR UR j) (UL j) (UR j)).
Proof.
  intros p S md a b k u g j i c0l c0r UL UR m Hj Hi Ge Gw HL HR L0 R0 Hp Hc cL cR sl sr Hlt.
  unfold kt_fn. rewrite Ge, Gw. unfold m at 1. rewrite mesh_area_east_R by assumption.
  set (XL := fun l => recon XRn k (cons (cent u)) (k_dist_east k) l i).
  set (XR' := fun l => recon XRn k (cons (cent u)) (k_dist_west k) l (i + 1)).
  assert (QL : forall l, (l < nE p)%nat -> c2p XRn p (Fin g) XL l = Fin (rprim p g UL l))
    by (intros l Hl; apply c2p_R; auto; lra).
  assert (QR : forall l, (l < nE p)%nat -> c2p XRn p (Fin g) XR' l = Fin (rprim p g UR l))
    by (intros l Hl; apply c2p_R; auto; lra).
  assert (CL : kt_sound XRn p (at1 (n0 XRn) (c_sound (east u)) i) (c2p XRn p (Fin g) XL) (Fin g) = Fin cL).
  { destruct p.
    - destruct (Hc eq_refl) as [-> _]. reflexivity.
    - refine (sound_R Adiab g 0 _ _ L0 _ QL). intros _. apply Hp; reflexivity. }
  assert (CR : kt_sound XRn p (at1 (n0 XRn) (c_sound (west u)) (i + 1)) (c2p XRn p (Fin g) XR') (Fin g) = Fin cR).
  { destruct p.
    - destruct (Hc eq_refl) as [_ ->]. reflexivity.
    - refine (sound_R Adiab g 0 _ _ R0 _ QR). intros _. apply Hp; reflexivity. }
  rewrite CL, CR. rewrite QL, QR by (destruct p; cbn; lia).
  change (recon XRn k (cons (cent u)) (k_dist_east k) j i) with (XL j).
  change (recon XRn k (cons (cent u)) (k_dist_west k) j (i + 1)) with (XR' j).
  rewrite (pflux_R p g cL UL) by (auto; lra). rewrite (pflux_R p g cR UR) by (auto; lra).
  unfold XL at 1, XR' at 1. rewrite HL, HR by assumption.
  rewrite !X_sub, !X_add, lo_k_R, hi_k_R. cbn [rprim]. apply face_flux_R. exact Hlt.
Qed.

(** ** Evaluation of the right-hand side *)
Lemma rhs_update_Ok : forall A (N : numflux_impl A) validation p S (r r' : rhs A N) u u' m o,
  rhs_update validation p S r u m = (r', u', o) -> 
  (exists u1 nf full, st_update_from_cons p S (r_bw r) (r_be r) m u = Ok u1 /\
     nf_calc N validation p S (r_nf r) (r_full r) u1 m = (nf, full, u', o) /\
     r' = mkRhs full nf (r_bw r) (r_be r)) \/
  (st_update_from_cons p S (r_bw r) (r_be r) m u = Panic /\ r' = r /\ u' = u /\ o = Panic) \/
  (exists e, st_update_from_cons p S (r_bw r) (r_be r) m u = Err e /\ r' = r /\ u' = u /\ o = Err e) \/
  (st_update_from_cons p S (r_bw r) (r_be r) m u = Fuel /\ r' = r /\ u' = u /\ o = Fuel).
Proof.
  intros A N validation p S r r' u u' m o H. unfold rhs_update in H.
  destruct (st_update_from_cons p S (r_bw r) (r_be r) m u) as [u1|e| |] eqn:E.
  - left. destruct (nf_calc N validation p S (r_nf r) (r_full r) u1 m) as [[[nf full] u2] o2] eqn:E2.
    exists u1, nf, full. injection H as <- <- <-. auto.
  - right; right; left. exists e. injection H as <- <- <-. auto.
  - right; left. injection H as <- <- <-. auto.
  - right; right; right. injection H as <- <- <-. auto.
Qed.

Lemma st_update_Ok : forall A p S bw be (m : mesh A) u u1, st_update_from_cons p S bw be m u = Ok u1 ->
  exists v, update_vars_from_cons p S bw be m (cent u) = Ok v /\ u1 = set_cent v u.
Proof.
  intros A p S bw be m u u1 H. unfold st_update_from_cons in H.
  destruct (update_vars_from_cons p S bw be m (cent u)) as [v| | |]; try discriminate.
  cbn [bind] in H. injection H as <-. eauto.
Qed.

Lemma uniform_cells : forall p S g f c0 u m, (5 <= S)%nat -> uniform_ok p g f c0 -> uniform_state p S g f c0 u ->
  exists v, update_vars_from_cons p S (init_bc BNoGradients (nE p)) (init_bc BNoGradients (nE p)) m (cent u) = Ok v /\
  wsv XRn p S v /\ gamma v = Fin g /\
  forall i, (i < S)%nat -> rcell p g v i (conserved p g f) (rsound p g c0 f).
Proof.
  intros p S g f c0 u m HS (Hg & H0 & H2 & Hc) (Hs & Hu).
  destruct (Hs (cent u) (or_introl eq_refl)) as (Hw & Gu & Cu).
  destruct (ng_cons XRn p S m (cent u) HS Hw) as (v & Hv & Pv).
  destruct (update_from_cons_view XRn p S _ _ m _ v HS Hw Hv) as (V1 & V2 & V3 & V4 & V5 & V6).
  exists v. split; [exact Hv|]. split; [exact V1|]. split; [rewrite V2; exact Gu|].
  intros i Hi.
  assert (Hprim : forall j, (j < nE p)%nat -> at2 (n0 XRn) (prim v) j i = Fin (f j)).
  { intros j Hj. rewrite Pv by assumption. rewrite Gu.
    rewrite (c2p_R p g (conserved p g f)); [|cbn; lra|assumption|].
    - f_equal. apply rprim_conserved; [lra|intros _; lra|assumption].
    - intros l Hl. apply Hu; [assumption|]. apply clamp_interior; assumption. }
  destruct (V6 i Hi) as (W1 & W2 & W3). rewrite Gu in W1, W2.
  assert (Hcs : at1 (n0 XRn) (c_sound v) i = cs_of XRn p (Fin g) (Fin c0) (fun k => at2 (n0 XRn) (prim v) k i)).
  { rewrite W2. unfold cs_of. destruct p; cbn [kt_sound]; [|reflexivity]. apply Cu; [reflexivity|assumption]. }
  apply rcell_intro with (S := S); auto.
  - rewrite V2; exact Gu.
  - intros _; lra.
  - intros ->. specialize (H2 eq_refl). nra.
Qed.

Lemma hll_uniform : forall validation S p g f c0 md a b (r r' : rhs XRn (Hll XRn)) u u' o,
  let m := mesh_build (A:=XRn) S (mkMC (A:=XRn) md (Fin a) (Fin b)) in
  (5 <= S)%nat -> a < b -> uniform_ok p g f c0 -> uniform_state p S g f c0 u ->
  r_bw r = init_bc BNoGradients (nE p) -> r_be r = init_bc BNoGradients (nE p) ->
  rhs_update validation p S r u m = (r', u', o) ->
  (forall j i, (j < nE p)%nat -> (2 <= i <= S - 3)%nat -> at2 (n0 XRn) (r_full r') j i = Fin 0) /\
  (forall j i, (j < nE p)%nat -> (1 <= i <= S - 3)%nat ->
     at2 (n0 XRn) (h_flux_num (r_nf r' : hll XRn)) j i = Fin (euler_flux p g (rsound p g c0 f) (conserved p g f) j)).
Proof.
  intros validation S p g f c0 md a b r r' u u' o m HS Hab Hok Hun Bw Be H.
  destruct (uniform_cells p S g f c0 u m HS Hok Hun) as (v & Hv & Wv & Gv & Cv).
  destruct Hok as (Hg & H0 & H2 & Hc).
  destruct (rhs_update_Ok _ _ _ _ _ _ _ _ _ _ _ H) as [(u1 & nf & full & E1 & E2 & ->)|Hbad].
  2:{ exfalso. unfold st_update_from_cons in Hbad. rewrite Bw, Be, Hv in Hbad.
      destruct Hbad as [(Q & _)|[(e & Q & _)|(Q & _)]]; discriminate. }
  rewrite Bw, Be in E1. destruct (st_update_Ok _ _ _ _ _ _ _ _ E1) as (v1 & Hv1 & ->).
  rewrite Hv in Hv1. apply Ok_inj in Hv1. subst v1.
  assert (Hpos : 0 < rsound p g c0 f).
  { apply rsound_pos; auto. intros ->. specialize (H2 eq_refl). nra. }
  assert (Hfn : forall j i, (j < nE p)%nat -> (i + 1 < S)%nat ->
            hll_fn XRn p S v j i = Fin (euler_flux p g (rsound p g c0 f) (conserved p g f) j)).
  { intros j i Hj Hi. rewrite (hll_fn_R p S g v j i _ _ _ _ Hj Hi (proj1 (proj2 (proj2 (proj2 Wv)))) (Cv i ltac:(lia)) (Cv (i + 1)%nat Hi)).
    - f_equal. apply rff_same. pose proof (rlo_le (conserved p g f 1 / conserved p g f 0 - rsound p g c0 f) (conserved p g f 1 / conserved p g f 0 - rsound p g c0 f)).
      pose proof (rhi_ge (conserved p g f 1 / conserved p g f 0 + rsound p g c0 f) (conserved p g f 1 / conserved p g f 0 + rsound p g c0 f)). lra.
    - pose proof (rlo_le (conserved p g f 1 / conserved p g f 0 - rsound p g c0 f) (conserved p g f 1 / conserved p g f 0 - rsound p g c0 f)).
      pose proof (rhi_ge (conserved p g f 1 / conserved p g f 0 + rsound p g c0 f) (conserved p g f 1 / conserved p g f 0 + rsound p g c0 f)). lra. }
  cbn [nf_calc Hll] in E2. cbn [r_full r_nf].
  split; intros j i Hj Hi.
  - pose proof (hll_dflux XRn validation p S (r_nf r) (r_full r) (set_cent v u) m (std_build XRn S _) j i Hj ltac:(lia)) as Q.
    rewrite E2 in Q. cbn [fst snd cent set_cent] in Q. rewrite Q.
    replace ((2 <=? i) && (i <=? S - 3))%nat with true by (symmetry; apply andb_true_intro; split; apply Nat.leb_le; lia).
    unfold m. rewrite mesh_dddv_R by (auto; lia). rewrite !Hfn by lia. rewrite X_sub, X_mul. f_equal. lra.
  - pose proof (hll_num XRn validation p S (r_nf r) (r_full r) (set_cent v u) m (std_build XRn S _) j i Hj ltac:(lia) ltac:(lia) ltac:(lia)) as Q.
    rewrite E2 in Q. cbn [fst snd cent set_cent] in Q. rewrite Q. apply Hfn; lia.
Qed.

Lemma kt_uniform : forall validation S p g f c0 md a b l th (r r' : rhs XRn (Kt XRn)) u u' o,
  let m := mesh_build (A:=XRn) S (mkMC (A:=XRn) md (Fin a) (Fin b)) in
  (5 <= S)%nat -> a < b -> uniform_ok p g f c0 -> uniform_state p S g f c0 u ->
  r_bw r = init_bc BNoGradients (nE p) -> r_be r = init_bc BNoGradients (nE p) ->
  kt_params S (hx S a b) l th (r_nf r) ->
  rhs_update validation p S r u m = (r', u', o) ->
  (forall j i, (j < nE p)%nat -> (2 <= i <= S - 3)%nat -> at2 (n0 XRn) (r_full r') j i = Fin 0) /\
  (forall j i, (j < nE p)%nat -> (1 <= i <= S - 3)%nat ->
     at2 (n0 XRn) (k_flux_num (r_nf r' : kt XRn)) j i = Fin (euler_flux p g (rsound p g c0 f) (conserved p g f) j)).
Proof.
  intros validation S p g f c0 md a b l th r r' u u' o m HS Hab Hok Hun Bw Be Hk H.
  destruct (uniform_cells p S g f c0 u m HS Hok Hun) as (v & Hv & Wv & Gv & Cv).
  destruct Hok as (Hg & H0 & H2 & Hc). destruct Hun as (Hs & Hu).
  destruct (Hs (west u) (or_intror (or_introl eq_refl))) as (Ww & Gw & Cw).
  destruct (Hs (east u) (or_intror (or_intror eq_refl))) as (We & Ge & Ce).
  destruct (rhs_update_Ok _ _ _ _ _ _ _ _ _ _ _ H) as [(u1 & nf & full & E1 & E2 & ->)|Hbad].
  2:{ exfalso. unfold st_update_from_cons in Hbad. rewrite Bw, Be, Hv in Hbad.
      destruct Hbad as [(Q & _)|[(e & Q & _)|(Q & _)]]; discriminate. }
  rewrite Bw, Be in E1. destruct (st_update_Ok _ _ _ _ _ _ _ _ E1) as (v1 & Hv1 & ->).
  rewrite Hv in Hv1. apply Ok_inj in Hv1. subst v1.
  assert (Hpos : 0 < rsound p g c0 f).
  { apply rsound_pos; auto. intros ->. specialize (H2 eq_refl). nra. }
  assert (Hh := hx_pos S a b HS Hab).
  assert (Hrec : forall j i, (j < nE p)%nat -> (1 <= i)%nat -> (i + 1 < S)%nat ->
     recon XRn (r_nf r) (cons v) (k_dist_west (r_nf r)) j i = Fin (conserved p g f j) /\
     recon XRn (r_nf r) (cons v) (k_dist_east (r_nf r)) j i = Fin (conserved p g f j)).
  { intros j i Hj Hi1 Hi2.
    assert (Ec : forall i', (i' < S)%nat -> at2 (n0 XRn) (cons v) j i' = Fin (conserved p g f j)).
    { intros i' Hi'. destruct (Cv i' Hi') as (_ & _ & Q & _). apply Q; assumption. }
    destruct (recon_R S (hx S a b) l th (r_nf r) (cons v) j i _ _ _ Hk Hh Hi1 Hi2 (Ec (i - 1)%nat ltac:(lia)) (Ec i ltac:(lia)) (Ec (i + 1)%nat ltac:(lia))) as [Q1 Q2].
    { intros _. rewrite Rminus_diag_eq, Rabs_R0 by reflexivity. assert (0 < (2 - powerRZ 2 (-52)) * powerRZ 2 1023); [|lra].
      apply Rmult_lt_0_compat; [|apply powerRZ_lt; lra]. assert (powerRZ 2 (-52) <= 1); [|lra].
      change (powerRZ 2 (-52)) with (/ 2 ^ 52). rewrite <- Rinv_1. apply Rinv_le_contravar; [lra|].
      apply pow_R1_Rle. lra. }
    replace (/ 2 * (conserved p g f j - conserved p g f j)) with 0 in Q1, Q2 by lra.
    replace (conserved p g f j - conserved p g f j) with 0 in Q1, Q2 by lra.
    rewrite rslope_zero in Q1, Q2. rewrite Q1, Q2. split; f_equal; lra. }
  assert (Hfn : forall j i, (j < nE p)%nat -> (1 <= i)%nat -> (i + 2 < S)%nat ->
            kt_fn XRn p (r_nf r) (set_cent v u) m j i = Fin (euler_flux p g (rsound p g c0 f) (conserved p g f) j)).
  { intros j i Hj Hi1 Hi2.
    assert (Rs : forall c, rsound p g c (rprim p g (conserved p g f)) = rsound p g c f).
    { intros c. destruct p; cbn [rsound]; [reflexivity|].
      rewrite !rprim_conserved by (try (cbn; lia); try lra; intros _; lra). reflexivity. }
    unfold m. rewrite (kt_fn_R p S md a b (r_nf r) (set_cent v u) g j i c0 c0 (conserved p g f) (conserved p g f)); auto.
    - rewrite Rs. f_equal. apply rff_same.
      pose proof (rlo_le (conserved p g f 1 / conserved p g f 0 - rsound p g c0 f) (conserved p g f 1 / conserved p g f 0 - rsound p g c0 f)).
      pose proof (rhi_ge (conserved p g f 1 / conserved p g f 0 + rsound p g c0 f) (conserved p g f 1 / conserved p g f 0 + rsound p g c0 f)). lra.
    - lia.
    - intros l0 Hl0. apply Hrec; auto; lia.
    - intros l0 Hl0. apply Hrec; auto; lia.
    - intros ->. specialize (H2 eq_refl). rewrite rprim_conserved by (try (cbn; lia); try lra; intros _; lra). nra.
    - intros Hp. split; [apply Ce|apply Cw]; auto; lia.
    - rewrite Rs. pose proof (rlo_le (conserved p g f 1 / conserved p g f 0 - rsound p g c0 f) (conserved p g f 1 / conserved p g f 0 - rsound p g c0 f)).
      pose proof (rhi_ge (conserved p g f 1 / conserved p g f 0 + rsound p g c0 f) (conserved p g f 1 / conserved p g f 0 + rsound p g c0 f)). lra. }
  cbn [nf_calc Kt] in E2. cbn [r_full r_nf].
  split; intros j i Hj Hi.
  - pose proof (kt_dflux XRn validation p S (r_nf r) (r_full r) (set_cent v u) m (std_build XRn S _) Ww We j i Hj ltac:(lia)) as Q.
    rewrite E2 in Q. cbn [fst snd] in Q. rewrite Q.
    replace ((2 <=? i) && (i <=? S - 3))%nat with true by (symmetry; apply andb_true_intro; split; apply Nat.leb_le; lia).
    unfold m at 1. rewrite mesh_dddv_R by (auto; lia). rewrite !Hfn by lia. rewrite X_sub, X_mul. f_equal. lra.
  - pose proof (kt_num XRn validation p S (r_nf r) (r_full r) (set_cent v u) m (std_build XRn S _) Ww We j i Hj ltac:(lia) ltac:(lia) ltac:(lia)) as Q.
    rewrite E2 in Q. cbn [fst snd] in Q. rewrite Q. apply Hfn; lia.
Qed.
