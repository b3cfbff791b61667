(** A change of the units of mass and time: the flux schemes and the slopes of
    one stage. *)

From Coq Require Import Reals ZArith QArith Qreals List Bool Lia Lra.
From Verif Require Import Base Num XReal Config Mesh State NumFlux ScaleBase ScaleState.
Import ListNotations.
Local Open Scope R_scope.

Section Scale.
Variables lam sig : R.
Hypothesis Hl : 0 < lam.
Hypothesis Hs : 0 < sig.
Notation fp := (fp lam sig).
Notation fc := (fc lam sig).
Notation ff := (ff lam sig).
Notation vs := (vs lam sig).
Notation us := (us lam sig).
Notation z := (n0 XRn).

Lemma rm_range2 : forall f e n lo hi g g' m m', (forall j i, (lo <= i <= hi)%nat -> sc (f j) (g j i) (g' j i)) -> rm f m m' ->
  rm f (upd_range2 e n lo hi g m) (upd_range2 e n lo hi g' m').
Proof using.
  intros f e n lo hi g g' m m' H Hm. unfold upd_range2. apply rm_mtab. intros j i _ _.
  destruct (Nat.leb_spec lo i), (Nat.leb_spec i hi); cbn [andb]; try (apply rm_at; exact Hm). apply H. lia.
Qed.

Ltac ppos ::= repeat first [assumption | apply Rlt_0_1 | apply fp_pos | apply fc_pos | apply ff_pos | apply Rmult_lt_0_compat | apply Rdiv_lt_0_compat | apply Rinv_0_lt_compat].
Ltac rel ::= first [reflexivity | unfold ScaleState.ff; field; repeat match goal with |- _ /\ _ => split end; pne | ring].

Lemma dflux_scaled : forall E S d d' fl fl' m, rm ff d d' -> rm ff fl fl' ->
  rm ff (calc_dflux_generic E S d fl m) (calc_dflux_generic E S d' fl' m).
Proof using Hl Hs.
  intros E S d d' fl fl' m Hd Hf. unfold calc_dflux_generic. apply rm_range2; [|exact Hd]. intros j i _.
  sx ltac:(eapply rm_at; eassumption).
Qed.

(** what a flux scheme has to satisfy *)
Definition scales (N : numflux_impl XRn) (Rn : nf_T N -> nf_T N -> Prop) : Prop :=
  forall v p S s s' d d' u u' m, Rn s s' -> rm ff d d' -> us u u' ->
  let '(s1, d1, u1, o) := nf_calc N v p S s d u m in
  let '(s1', d1', u1', o') := nf_calc N v p S s' d' u' m in
  Rn s1 s1' /\ rm ff d1 d1' /\ us u1 u1' /\ o' = o.

(** *** HLL *)
Record hs (h h' : hll XRn) : Prop := mkHs {
  hs_sl : rv sig (h_sl h) (h_sl h');
  hs_sr : rv sig (h_sr h) (h_sr h');
  hs_inv : rv (/ sig) (h_inv h) (h_inv h');
  hs_srsl : rv (sig * sig) (h_srsl h) (h_srsl h');
  hs_flux : rm ff (h_flux_num h) (h_flux_num h')
}.

Ltac lf := first [eapply rm_at; eassumption | eapply rv_at; eassumption].
Ltac sxx := sx lf.
Ltac nm x := let y := fresh "w" in set (y := x) in *; clearbody y.

Lemma hll_scales : scales (Hll XRn) hs.
Proof using Hl Hs.
  intros v p S s s' d d' u u' m Hh Hd Hu. cbn [Hll nf_calc nf_T] in *. unfold hll_calc. cbv zeta.
  assert (Hv : us (set_cent (update_flux p S (cent u)) u) (set_cent (update_flux p S (cent u')) u')).
  { destruct Hu as (H & H1 & H2). unfold ScaleState.us; cbn [set_cent cent west east]. repeat match goal with |- _ /\ _ => split end; try assumption.
    apply vs_update_flux; assumption. }
  set (u1 := set_cent (update_flux p S (cent u)) u) in *. set (u1' := set_cent (update_flux p S (cent u')) u') in *. clearbody u1 u1'. clear Hu u u'.
  pose proof Hv as (Hc & _ & _).
  pose proof (vs_flux _ _ _ _ Hc) as Hf. pose proof (vs_cons _ _ _ _ Hc) as Hcn.
  pose proof (vs_eigen_min _ _ _ _ Hc) as En. pose proof (vs_eigen_max _ _ p _ _ Hc) as Ex.
  nm (flux (cent u1)). nm (flux (cent u1')). nm (cons (cent u1)). nm (cons (cent u1')).
  nm (eigen_min (cent u1)). nm (eigen_min (cent u1')). nm (eigen_max p (cent u1)). nm (eigen_max p (cent u1')).
  destruct Hh as [A1 A2 A3 A4 A5].
  match goal with |- hs (mkHll ?a _ _ _ _) (mkHll ?a' _ _ _ _) /\ _ =>
    assert (R1 : rv sig a a') by (apply rv_range; [intros; sxx|assumption]); nm a; nm a' end.
  match goal with |- hs (mkHll _ ?a _ _ _) (mkHll _ ?a' _ _ _) /\ _ =>
    assert (R2 : rv sig a a') by (apply rv_range; [intros; sxx|assumption]); nm a; nm a' end.
  match goal with |- hs (mkHll _ _ ?a _ _) (mkHll _ _ ?a' _ _) /\ _ =>
    assert (R3 : rv (/ sig) a a') by (apply rv_range; [intros; sxx|assumption]); nm a; nm a' end.
  match goal with |- hs (mkHll _ _ _ ?a _) (mkHll _ _ _ ?a' _) /\ _ =>
    assert (R4 : rv (sig * sig) a a') by (apply rv_range; [intros; sxx|assumption]); nm a; nm a' end.
  match goal with |- hs (mkHll _ _ _ _ ?a) (mkHll _ _ _ _ ?a') /\ _ =>
    assert (R5 : rm ff a a') by (apply rm_range2; [intros; sxx|assumption]); nm a; nm a' end.
  split; [constructor; assumption|]. split; [apply dflux_scaled; assumption|]. split; [exact Hv|].
  destruct v; [|reflexivity]. unfold hll_validate. cbn [h_sl h_sr h_inv h_flux_num].
  rewrite (rv_all_fin _ _ _ R1), (rv_all_fin _ _ _ R2), (rv_all_fin _ _ _ R3), (rm_all_fin2 _ _ _ R5). reflexivity.
Qed.

(** *** KT *)
Definition is_vanleer (l : limiter_mode XRn) : bool := match l with VanLeer => true | _ => false end.

Record ks (h h' : kt XRn) : Prop := mkKs {
  ks_ap : rv sig (k_a_plus h) (k_a_plus h');
  ks_am : rv sig (k_a_minus h) (k_a_minus h');
  ks_b : rv (/ sig) (k_b h) (k_b h');
  ks_c : rv (sig * sig) (k_c h) (k_c h');
  ks_flux : rm ff (k_flux_num h) (k_flux_num h');
  ks_lim : k_limiter h' = k_limiter h;
  ks_inv : k_inv_dxi h' = k_inv_dxi h;
  ks_th : k_theta h' = k_theta h;
  ks_w : k_dist_west h' = k_dist_west h;
  ks_e : k_dist_east h' = k_dist_east h;
  ks_vl : is_vanleer (k_limiter h) = false
}.

Lemma sc_mmin : forall k x y x' y', 0 < k -> sc k x x' -> sc k y y' -> sc k (mmin (A:=XRn) x y) (mmin (A:=XRn) x' y').
Proof using. intros k x y x' y' Hk Hx Hy. unfold mmin. apply sc_if; try assumption. apply (sc_ltb k); assumption. Qed.
Lemma sc_mmax : forall k x y x' y', 0 < k -> sc k x x' -> sc k y y' -> sc k (mmax (A:=XRn) x y) (mmax (A:=XRn) x' y').
Proof using. intros k x y x' y' Hk Hx Hy. unfold mmax. apply sc_if; try assumption. apply (sc_ltb k); assumption. Qed.
Lemma sc_sgn : forall k x x', 0 < k -> sc k x x' -> sgn (A:=XRn) x' = sgn (A:=XRn) x.
Proof using. intros k x x' Hk Hx. unfold sgn. rewrite (sc_ltb k _ _ _ _ Hk (sc_zero k) Hx). reflexivity. Qed.

Lemma slope_scaled : forall k l a b c th a' b' c', 0 < k -> is_vanleer l = false -> sc k a a' -> sc k b b' -> sc k c c' ->
  sc k (slope_fn l a b c th) (slope_fn l a' b' c' th).
Proof using.
  intros k l a b c th a' b' c' Hk Hv Ha Hb Hc.
  assert (M : forall x x', sc k x x' -> sc k (nabs XRn x) (nabs XRn x')) by (intros; apply sc_abs; assumption).
  assert (T : forall y x x', sc k x x' -> sc k (nmul XRn y x) (nmul XRn y x')).
  { intros y x x' Hx. eapply sc_mul'; [apply sc_refl1; reflexivity|exact Hx|ring|lra|exact Hk]. }
  destruct l as [| | |x|]; cbn [slope_fn is_vanleer] in *; try discriminate.
  - apply T. apply sc_add; assumption.
  - rewrite (sc_sgn k a a'), (sc_sgn k b b') by assumption. apply sc_if; [reflexivity| |apply sc_zero]. apply T. apply sc_mmin; auto.
  - rewrite (sc_sgn k a a') by assumption. apply sc_if; [|apply T; repeat first [apply sc_mmin | apply sc_mmax | apply T | apply M]; auto|apply sc_zero].
    apply (sc_ltb (k * k)); [nra|apply sc_zero|]. eapply sc_mul'; eauto.
  - rewrite (sc_sgn k a a'), (sc_sgn k b b'), (sc_sgn k c c') by assumption. apply sc_if; [reflexivity| |apply sc_zero].
    apply T. repeat first [apply sc_mmin | apply T | apply M]; auto.
Qed.

Lemma kt_slope_scaled : forall s s' c c' j i, ks s s' -> rm fc c c' -> sc (fc j) (kt_slope s c j i) (kt_slope s' c' j i).
Proof using Hl Hs.
  intros s s' c c' j i [_ _ _ _ _ E1 E2 E3 _ _ V] Hc. unfold kt_slope. rewrite E1, E2, E3.
  eapply sc_mul'; [apply sc_refl1; reflexivity| |apply Rmult_1_l|apply Rlt_0_1|apply fc_pos; assumption].
  apply slope_scaled; [apply fc_pos; assumption|exact V| | |]; sxx.
Qed.

Lemma kt_face_scaled : forall p S v v', vs v v' -> vs (kt_face p S v) (kt_face p S v').
Proof using Hl Hs.
  intros. unfold kt_face. apply vs_update_flux; try assumption. apply vs_eig_max; try assumption. apply vs_eig_min; try assumption.
  apply vs_update_c_sound; try assumption. apply vs_update_prim; assumption.
Qed.

Lemma kt_reconstruct_scaled : forall s s' E S u u', ks s s' -> us u u' -> us (kt_reconstruct s E S u) (kt_reconstruct s' E S u').
Proof using Hl Hs.
  intros s s' E S u u' Hk (H & H1 & H2). unfold kt_reconstruct. unfold ScaleState.us; cbn [cent west east].
  pose proof (vs_cons _ _ _ _ H) as Hc. pose proof Hk as [_ _ _ _ _ _ _ _ E4 E5 _]. rewrite E4, E5.
  split; [exact H|]. split; (apply vs_set_cons; [assumption|]; apply rm_range2; [|apply vs_cons; assumption]; intros j i _;
    apply sc_add; [sxx|]; eapply sc_mul'; [apply (kt_slope_scaled s s' _ _ j i Hk Hc)|apply sc_refl1; reflexivity|apply Rmult_1_r|apply fc_pos; assumption|apply Rlt_0_1]).
Qed.

Lemma kt_scales : scales (Kt XRn) ks.
Proof using Hl Hs.
  intros v p S s s' d d' u u' m Hk Hd Hu. cbn [Kt nf_calc nf_T] in *. unfold kt_calc. cbv zeta.
  pose proof (kt_reconstruct_scaled s s' (nE p) S u u' Hk Hu) as (Hc & Hw & He).
  apply (kt_face_scaled p S) in Hw. apply (kt_face_scaled p S) in He. cbn [cent west east].
  nm (kt_face p S (west (kt_reconstruct s (nE p) S u))). nm (kt_face p S (west (kt_reconstruct s' (nE p) S u'))).
  nm (kt_face p S (east (kt_reconstruct s (nE p) S u))). nm (kt_face p S (east (kt_reconstruct s' (nE p) S u'))).
  nm (cent (kt_reconstruct s (nE p) S u)). nm (cent (kt_reconstruct s' (nE p) S u')).
  pose proof (vs_flux _ _ _ _ Hw) as Fw. pose proof (vs_flux _ _ _ _ He) as Fe.
  pose proof (vs_cons _ _ _ _ Hw) as Cw. pose proof (vs_cons _ _ _ _ He) as Ce.
  pose proof (vs_eigen_min _ _ _ _ Hw) as Nw. pose proof (vs_eigen_min _ _ _ _ He) as Ne.
  pose proof (vs_eigen_max _ _ p _ _ Hw) as Xw. pose proof (vs_eigen_max _ _ p _ _ He) as Xe.
  destruct Hk as [A1 A2 A3 A4 A5 E1 E2 E3 E4 E5 V].
  match goal with |- ks (mkKt ?a _ _ _ _ _ _ _ _ _) (mkKt ?a' _ _ _ _ _ _ _ _ _) /\ _ =>
    assert (R1 : rv sig a a') by (apply rv_range; [intros; apply sc_mmax; [assumption|apply sc_zero|]; apply sc_mmax; [assumption| |]; sxx|assumption]); nm a; nm a' end.
  match goal with |- ks (mkKt _ ?a _ _ _ _ _ _ _ _) (mkKt _ ?a' _ _ _ _ _ _ _ _) /\ _ =>
    assert (R2 : rv sig a a') by (apply rv_range; [intros; apply sc_mmin; [assumption|apply sc_zero|]; apply sc_mmin; [assumption| |]; sxx|assumption]); nm a; nm a' end.
  match goal with |- ks (mkKt _ _ ?a _ _ _ _ _ _ _) (mkKt _ _ ?a' _ _ _ _ _ _ _) /\ _ =>
    assert (R3 : rv (/ sig) a a') by (apply rv_range; [intros; sxx|assumption]); nm a; nm a' end.
  match goal with |- ks (mkKt _ _ _ ?a _ _ _ _ _ _) (mkKt _ _ _ ?a' _ _ _ _ _ _) /\ _ =>
    assert (R4 : rv (sig * sig) a a') by (apply rv_range; [intros; sxx|assumption]); nm a; nm a' end.
  match goal with |- ks (mkKt _ _ _ _ ?a _ _ _ _ _) (mkKt _ _ _ _ ?a' _ _ _ _ _) /\ _ =>
    assert (R5 : rm ff a a') by (apply rm_range2; [intros; sxx|assumption]); nm a; nm a' end.
  split; [constructor; assumption|]. split; [apply dflux_scaled; assumption|].
  split; [unfold ScaleState.us; cbn [cent west east]; auto|].
  destruct v; [|reflexivity]. unfold kt_validate. cbn [k_a_plus k_a_minus k_b k_flux_num].
  rewrite (rv_all_fin _ _ _ R1), (rv_all_fin _ _ _ R2), (rv_all_fin _ _ _ R3), (rm_all_fin2 _ _ _ R5). reflexivity.
Qed.

(** *** Rhs *)
Section Rhs.
Variable N : numflux_impl XRn.
Variable Rn : nf_T N -> nf_T N -> Prop.
Hypothesis HN : scales N Rn.

Record rs (r r' : rhs XRn N) : Prop := mkRs {
  rs_full : rm ff (r_full r) (r_full r');
  rs_nf : Rn (r_nf r) (r_nf r');
  rs_bw : r_bw r' = r_bw r;
  rs_be : r_be r' = r_be r
}.

Lemma rhs_scaled : forall v p S r r' u u' m, rs r r' -> us u u' ->
  let '(r1, u1, o) := rhs_update v p S r u m in
  let '(r1', u1', o') := rhs_update v p S r' u' m in
  rs r1 r1' /\ us u1 u1' /\ o' = o.
Proof using Hl Hs HN.
  intros v p S r r' u u' m Hr Hu. unfold rhs_update. pose proof Hr as [Hf Hn Eb1 Eb2]. rewrite Eb1, Eb2.
  pose proof (us_from_cons lam sig Hl Hs p S (r_bw r) (r_be r) m u u' Hu) as X.
  destruct (st_update_from_cons p S (r_bw r) (r_be r) m u) as [u1|e| |], (st_update_from_cons p S (r_bw r) (r_be r) m u') as [u1'|e'| |]; cbn [rres] in X; try contradiction;
    try (split; [exact Hr|]; split; [exact Hu|congruence]).
  pose proof (HN v p S _ _ _ _ _ _ m Hn Hf X) as Y.
  destruct (nf_calc N v p S (r_nf r) (r_full r) u1 m) as [[[s1 d1] u2] o]. destruct (nf_calc N v p S (r_nf r') (r_full r') u1' m) as [[[s1' d1'] u2'] o'].
  destruct Y as (Y1 & Y2 & Y3 & Y4). split; [constructor; cbn [r_full r_nf r_bw r_be]; auto|]. auto.
Qed.
End Rhs.
End Scale.
