(** Property C23 in binary64 arithmetic: MinMod and Superbee create no new
    extremum. *)

From Coq Require Import Reals ZArith QArith List Bool Lia Lra Psatz.
From Flocq Require Import Core BinarySingleNaN.
From Verif Require Import Base Num B64 Config Mesh State NumFlux Spec FluxProofs FluxReal FluxThms MeshB64 ConvB64 ConsB64 Demo P_CflEdge P_SlopeB64.
Import ListNotations.
Local Open Scope R_scope.

Lemma fl_B2R : forall x : b64, fl (B2R x) = B2R x.
Proof. intros x. apply round_generic; [apply valid_rnd_N|]. exact (generic_format_B2R 53 1024 x). Qed.
Lemma fl_mono : forall x y, x <= y -> fl x <= fl y.
Proof. intros x y H. apply round_le; [exact (fexp_correct 53 1024 Hp64)|apply valid_rnd_N|exact H]. Qed.
Lemma fl_between : forall (x z : b64) v, B2R x <= v <= B2R z -> B2R x <= fl v <= B2R z.
Proof. intros x z v (L & H). rewrite <- (fl_B2R x), <- (fl_B2R z). split; apply fl_mono; assumption. Qed.

Section Bound.
Variables bln bexp : b64 -> b64.
Notation A := (B64n bln bexp).

Lemma min_le_l : forall p q : b64, is_finite p = true -> is_finite (@mmin A p q : b64) = true -> B2R (@mmin A p q : b64) <= B2R p.
Proof.
  intros p q Fp F. unfold mmin in *. change (nltb A p q) with (Bltb p q) in *. destruct (Bltb p q) eqn:E; [lra|].
  rewrite (Bltb_correct 53 1024) in E by assumption. destruct (Rlt_bool_spec (B2R p) (B2R q)); [discriminate|assumption].
Qed.
Lemma min_le_r : forall p q : b64, is_finite p = true -> is_finite q = true -> B2R (@mmin A p q : b64) <= B2R q.
Proof.
  intros p q Fp Fq. unfold mmin. change (nltb A p q) with (Bltb p q). destruct (Bltb p q) eqn:E; [|lra].
  rewrite (Bltb_correct 53 1024) in E by assumption. destruct (Rlt_bool_spec (B2R p) (B2R q)); [lra|discriminate].
Qed.
Lemma min_fin : forall p q : b64, is_finite p = true -> is_finite q = true -> is_finite (@mmin A p q : b64) = true.
Proof. intros p q Fp Fq. unfold mmin. destruct (nltb A p q); assumption. Qed.
Lemma max_fin : forall p q : b64, is_finite p = true -> is_finite q = true -> is_finite (@mmax A p q : b64) = true.
Proof. intros p q Fp Fq. unfold mmax. destruct (nltb A q p); assumption. Qed.

Lemma signed : forall (sg : Z) (m : b64), sg = 1%Z \/ sg = (-1)%Z -> is_finite (b_mul (b_ofZ sg) m) = true -> is_finite m = true /\ Rabs (B2R (b_mul (b_ofZ sg) m)) = Rabs (B2R m).
Proof.
  intros sg m Hs F. destruct (fl_mul_val _ _ F) as (_ & Fm & E). split; [exact Fm|]. rewrite E. destruct Hs as [-> | ->].
  - replace (B2R (b_ofZ 1)) with 1 by (vm_compute; lra). rewrite Rmult_1_l, fl_B2R. reflexivity.
  - replace (B2R (b_ofZ (-1)) * B2R m) with (B2R (Bopp m)); [rewrite fl_B2R, B2R_Bopp; apply Rabs_Ropp|].
    rewrite B2R_Bopp. replace (B2R (b_ofZ (-1))) with (-1) by (vm_compute; lra). ring.
Qed.

Lemma sgn_one : forall a : b64, @sgn A a = 1%Z \/ @sgn A a = (-1)%Z.
Proof. intros a. unfold sgn. destruct (nltb A (n0 A) a); [left|right]; reflexivity. Qed.

Lemma slope_bound : forall (l : limiter_mode A) (a b c th : b64), l = MinMod \/ l = Superbee -> is_finite a = true -> is_finite b = true ->
  is_finite (@slope_fn A l a b c th : b64) = true ->
  Rabs (B2R (@slope_fn A l a b c th : b64)) <= Rabs (B2R a) /\ Rabs (B2R (@slope_fn A l a b c th : b64)) <= Rabs (B2R b).
Proof.
  intros l a b c th Hl Fa Fb F.
  assert (GA : is_finite (Babs a) = true) by (rewrite is_finite_Babs; exact Fa). assert (GB : is_finite (Babs b) = true) by (rewrite is_finite_Babs; exact Fb).
  pose proof (B2R_Babs 53 1024 a) as VA. pose proof (B2R_Babs 53 1024 b) as VB.
  pose proof (min_fin _ _ GA GB) as GM. pose proof (min_le_l _ _ GA GM) as LA. pose proof (min_le_r _ _ GA GB) as LB. rewrite VA in LA. rewrite VB in LB.
  assert (PM : 0 <= B2R (@mmin A (Babs a) (Babs b) : b64)).
  { unfold mmin. destruct (nltb A (Babs a) (Babs b)); [rewrite VA|rewrite VB]; apply Rabs_pos. }
  assert (Z : Rabs (B2R (n0 A : b64)) <= Rabs (B2R a) /\ Rabs (B2R (n0 A : b64)) <= Rabs (B2R b)).
  { change (B2R (n0 A : b64)) with 0. rewrite Rabs_R0. split; apply Rabs_pos. }
  destruct Hl as [-> | ->]; cbn [slope_fn] in F |- *.
  - destruct (0 <? @sgn A a * @sgn A b)%Z; [|exact Z].
    change (is_finite (b_mul (b_ofZ (@sgn A a)) (@mmin A (Babs a) (Babs b))) = true) in F.
    destruct (signed _ _ (sgn_one a) F) as (_ & E).
    match goal with |- Rabs ?v <= _ /\ _ => change v with (B2R (b_mul (b_ofZ (@sgn A a)) (@mmin A (Babs a) (Babs b)))) end.
    rewrite E, (Rabs_pos_eq _ PM). split; assumption.
  - destruct (nltb A (n0 A) (nmul A a b)); [|exact Z].
    set (h := b_mul (b_div (b_ofZ 1) (b_ofZ 2)) (@mmax A (Babs a) (Babs b))).
    change (is_finite (b_mul (b_ofZ (@sgn A a)) (@mmin A (@mmin A (Babs a) (Babs b)) h)) = true) in F.
    destruct (signed _ _ (sgn_one a) F) as (Fm & E).
    match goal with |- Rabs ?v <= _ /\ _ => change v with (B2R (b_mul (b_ofZ (@sgn A a)) (@mmin A (@mmin A (Babs a) (Babs b)) h))) end.
    rewrite E. pose proof (min_le_l _ _ GM Fm) as L.
    assert (P : 0 <= B2R (@mmin A (@mmin A (Babs a) (Babs b)) h : b64)).
    { revert Fm. unfold mmin at 1 3. destruct (nltb A (@mmin A (Babs a) (Babs b)) h); [intros _; exact PM|]. intros Fh.
      destruct (fl_mul_val _ _ Fh) as (_ & _ & Eh). unfold h. rewrite Eh. rewrite <- (round_0 radix2 (FLT_exp (3 - 1024 - 53) 53) (Znearest (fun x => negb (Z.even x)))).
      apply fl_mono. apply Rmult_le_pos; [vm_compute; lra|]. unfold mmax. destruct (nltb A (Babs b) (Babs a)); [rewrite VA|rewrite VB]; apply Rabs_pos. }
    rewrite (Rabs_pos_eq _ P). split; lra.
Qed.
End Bound.

Lemma shift_small : forall s b D I d t w : R, Rabs s <= Rabs b -> Rabs (b - D) <= u53 * Rabs D + eta -> Rabs (t - I * s) <= u53 * Rabs (I * s) + eta ->
  Rabs (w - t * d) <= u53 * Rabs (t * d) + eta -> Rabs I * Rabs d <= 3 / 5 -> Rabs d <= bpow radix2 100 -> bpow radix2 (-900) <= Rabs D -> Rabs w <= Rabs D.
Proof.
  intros s b D I d t w Hs Hb Ht Hw HP Hd HD. pose proof u53_lt as (U0 & U1). pose proof (bpow_gt_0 radix2 (-1021)) as E0.
  assert (Ed : Rabs d * eta <= bpow radix2 (-921)).
  { replace (bpow radix2 (-921)) with (bpow radix2 100 * eta) by (rewrite <- bpow_plus; reflexivity). apply Rmult_le_compat_r; lra. }
  assert (Q : bpow radix2 (-921) * 1000 <= bpow radix2 (-900)).
  { replace (bpow radix2 (-900)) with (bpow radix2 (-921) * bpow radix2 21) by (rewrite <- bpow_plus; reflexivity).
    apply Rmult_le_compat_l; [apply bpow_ge_0|]. change (bpow radix2 21) with (IZR (2 ^ 21)). apply IZR_le. vm_compute. discriminate. }
  assert (Q2 : eta <= bpow radix2 (-921)) by (apply bpow_le; lia).
  set (q := bpow radix2 (-921)) in *. set (v := u53) in *. set (e := eta) in *. set (q9 := bpow radix2 (-900)) in *.
  assert (B : Rabs b <= Rabs D + (v * Rabs D + e)).
  { replace b with (D + (b - D)) by ring. eapply Rle_trans; [apply Rabs_triang|]. lra. }
  assert (T : Rabs t <= Rabs I * Rabs s + (v * (Rabs I * Rabs s) + e)).
  { rewrite <- Rabs_mult. replace t with (I * s + (t - I * s)) at 1 by ring. eapply Rle_trans; [apply Rabs_triang|]. lra. }
  assert (W : Rabs w <= Rabs t * Rabs d + (v * (Rabs t * Rabs d) + e)).
  { rewrite <- Rabs_mult. replace w with (t * d + (w - t * d)) at 1 by ring. eapply Rle_trans; [apply Rabs_triang|]. lra. }
  clear Hb Ht Hw. clearbody q v e q9.
  pose proof (Rabs_pos s). pose proof (Rabs_pos D). pose proof (Rabs_pos d). pose proof (Rabs_pos I). pose proof (Rabs_pos t).
  set (S := Rabs s) in *. set (DD := Rabs D) in *. set (dd := Rabs d) in *. set (II := Rabs I) in *. set (TT := Rabs t) in *. clearbody S DD dd II TT.
  assert (V1 : v * DD <= / 1000000 * DD) by (apply Rmult_le_compat_r; lra).
  assert (M1 : TT * dd <= (II * S + (v * (II * S) + e)) * dd) by (apply Rmult_le_compat_r; lra).
  assert (M2 : II * dd * S <= 3 / 5 * S) by (apply Rmult_le_compat_r; lra).
  assert (M3 : v * (II * dd * S) <= / 1000000 * S).
  { apply Rle_trans with (v * (3 / 5 * S)); [apply Rmult_le_compat_l; lra|]. apply Rle_trans with (/ 1000000 * (3 / 5 * S)); [apply Rmult_le_compat_r; lra|lra]. }
  assert (M4 : TT * dd <= 3 / 5 * S + / 1000000 * S + q).
  { replace ((II * S + (v * (II * S) + e)) * dd) with (II * dd * S + v * (II * dd * S) + dd * e) in M1 by ring. lra. }
  assert (M5 : v * (TT * dd) <= / 1000000 * (TT * dd)) by (apply Rmult_le_compat_r; [apply Rmult_le_pos; lra|lra]).
  lra.
Qed.

Lemma face_range : forall x y z inv s dist : b64, is_finite (b_add y (b_mul (b_mul inv s) dist)) = true ->
  is_finite (b_sub y x) = true -> is_finite (b_sub z y) = true ->
  Rabs (B2R s) <= Rabs (B2R (b_sub y x)) -> Rabs (B2R s) <= Rabs (B2R (b_sub z y)) ->
  Rabs (B2R inv) * Rabs (B2R dist) <= 3 / 5 -> Rabs (B2R dist) <= bpow radix2 100 ->
  bpow radix2 (-900) <= Rabs (B2R y - B2R x) -> bpow radix2 (-900) <= Rabs (B2R z - B2R y) ->
  (B2R x <= B2R y <= B2R z \/ B2R z <= B2R y <= B2R x) ->
  Rmin (B2R x) (B2R z) <= B2R (b_add y (b_mul (b_mul inv s) dist)) <= Rmax (B2R x) (B2R z).
Proof.
  intros x y z inv s dist F Fa Fb Sa Sb HP Hd Da Db O.
  destruct (b_add_val _ _ F) as (_ & Fw & Ef). rewrite Ef. change (Rmin (B2R x) (B2R z) <= fl (B2R y + B2R (b_mul (b_mul inv s) dist)) <= Rmax (B2R x) (B2R z)).
  destruct (fl_mul_val _ _ Fw) as (Ft & _ & Ew). destruct (fl_mul_val _ _ Ft) as (_ & _ & Et).
  destruct (fl_sub_val _ _ Fa) as (_ & _ & Ea). destruct (fl_sub_val _ _ Fb) as (_ & _ & Eb).
  pose proof (fl_any (B2R y - B2R x)) as Ka. rewrite <- Ea in Ka. pose proof (fl_any (B2R z - B2R y)) as Kb. rewrite <- Eb in Kb.
  pose proof (fl_any (B2R inv * B2R s)) as Kt. rewrite <- Et in Kt. pose proof (fl_any (B2R (b_mul inv s) * B2R dist)) as Kw. rewrite <- Ew in Kw.
  pose proof (shift_small _ _ _ _ _ _ _ Sa Ka Kt Kw HP Hd Da) as Wa. pose proof (shift_small _ _ _ _ _ _ _ Sb Kb Kt Kw HP Hd Db) as Wb.
  set (w := B2R (b_mul (b_mul inv s) dist)) in *. clearbody w.
  destruct O as [O|O].
  - rewrite Rmin_left, Rmax_right by lra. apply fl_between. rewrite (Rabs_pos_eq (B2R y - B2R x)) in Wa by lra. rewrite (Rabs_pos_eq (B2R z - B2R y)) in Wb by lra. apply Rabs_le_inv in Wa. apply Rabs_le_inv in Wb. lra.
  - rewrite Rmin_right, Rmax_left by lra. apply fl_between. rewrite (Rabs_left1 (B2R y - B2R x)) in Wa by lra. rewrite (Rabs_left1 (B2R z - B2R y)) in Wb by lra.
    apply Rabs_le_inv in Wa. apply Rabs_le_inv in Wb. lra.
Qed.

(** C23 in f64 arithmetic, MinMod and Superbee: the face values computed with
    rounding lie between the smallest and the largest of the three cells. *)
Theorem C23_no_new_extrema_b64 : forall bln bexp, let A := B64n bln bexp in
  forall validation p S (k k' : kt A) d d' (u u' : state A) m o j i (x y z w e : b64),
  kt_calc validation p S k d u m = (k', d', u', o) ->
  k_limiter k = MinMod \/ k_limiter k = Superbee ->
  (forall dist, dist = k_dist_west k \/ dist = k_dist_east k -> Rabs (B2R (k_inv_dxi k : b64)) * Rabs (B2R (at1 (n0 A) dist i : b64)) <= 3 / 5 /\
     Rabs (B2R (at1 (n0 A) dist i : b64)) <= bpow radix2 100) ->
  (j < nE p)%nat -> (1 <= i <= S - 2)%nat ->
  at2 (n0 A) (cons (cent u)) j (i - 1) = x -> at2 (n0 A) (cons (cent u)) j i = y -> at2 (n0 A) (cons (cent u)) j (i + 1) = z ->
  is_finite (b_sub y x) = true -> is_finite (b_sub z y) = true ->
  (B2R x = B2R y \/ bpow radix2 (-900) <= Rabs (B2R y - B2R x)) -> (B2R y = B2R z \/ bpow radix2 (-900) <= Rabs (B2R z - B2R y)) ->
  at2 (n0 A) (cons (west u')) j i = w -> at2 (n0 A) (cons (east u')) j i = e -> is_finite w = true -> is_finite e = true ->
  Rmin (B2R x) (Rmin (B2R y) (B2R z)) <= B2R w <= Rmax (B2R x) (Rmax (B2R y) (B2R z)) /\
  Rmin (B2R x) (Rmin (B2R y) (B2R z)) <= B2R e <= Rmax (B2R x) (Rmax (B2R y) (B2R z)).
Proof.
  intros bln bexp A val p S k k' d d' u u' m o j i x y z w e E Hl Hd Hj Hi Ex Ey Ez Fa Fb Da Db Ew Ee Fw Fe.
  destruct (kt_faces _ _ _ _ _ _ _ _ _ _ _ _ j i E Hj ltac:(lia) ltac:(lia)) as (Rw & Re & _). rewrite Ew in Rw. rewrite Ee in Re. clear E Ew Ee.
  assert (G : forall dist (f : b64), dist = k_dist_west k \/ dist = k_dist_east k -> f = recon A k (cons (cent u)) dist j i -> is_finite f = true ->
    Rmin (B2R x) (Rmin (B2R y) (B2R z)) <= B2R f <= Rmax (B2R x) (Rmax (B2R y) (B2R z))).
  { intros dist f Hdist Ef Ff. destruct (Hd dist Hdist) as (HP & Hb). unfold recon, kt_slope in Ef. rewrite Ex, Ey, Ez in Ef.
    set (c := nmul A _ (nsub A (z : nF A) (x : nF A))) in Ef. 
    set (s := slope_fn (k_limiter k) (nsub A (y : nF A) (x : nF A)) (nsub A (z : nF A) (y : nF A)) c (k_theta k)) in Ef.
    set (dd := at1 (n0 A) dist i) in *. set (inv := k_inv_dxi k) in *.
    change (f = b_add y (b_mul (b_mul inv s) dd)) in Ef. rewrite Ef in Ff |- *.
    destruct (b_add_val _ _ Ff) as (Fy & Fm & Eq). destruct (fl_mul_val _ _ Fm) as (Ft & Fd & _). destruct (fl_mul_val _ _ Ft) as (Fi & Fs & _).
    destruct (fl_sub_val _ _ Fa) as (_ & Fx & Va). destruct (fl_sub_val _ _ Fb) as (Fz & _ & Vb).
    assert (K : opposed (b_sub y x) (b_sub z y) \/ (B2R x < B2R y < B2R z) \/ (B2R z < B2R y < B2R x)).
    { assert (P0 : fl 0 = 0) by (apply round_0; apply valid_rnd_N).
      destruct (Rle_or_lt (B2R x) (B2R y)) as [L1|L1], (Rle_or_lt (B2R z) (B2R y)) as [L2|L2].
      - left. left. rewrite Va, Vb. split; rewrite <- P0; apply fl_mono; lra.
      - destruct (Rle_lt_or_eq_dec _ _ L1) as [L|L]; [right; left; lra|]. left. right. rewrite Va, Vb. split; rewrite <- P0; apply fl_mono; lra.
      - destruct (Rle_lt_or_eq_dec _ _ L2) as [L|L]; [right; right; lra|]. left. right. rewrite Va, Vb. split; rewrite <- P0; apply fl_mono; lra.
      - left. right. rewrite Va, Vb. split; rewrite <- P0; apply fl_mono; lra. }
    destruct K as [K|K].
    - assert (Zs : zero s).
      { assert (Z0 : zero (slope_fn (k_limiter k) (b_sub y x : nF A) (b_sub z y : nF A) (b_ofZ 0 : nF A) (b_ofZ 0 : nF A))).
        { apply slope_zero; try assumption; try reflexivity. destruct Hl as [Hl|Hl]; [left|right; left]; exact Hl. }
        unfold s. destruct Hl as [Hl|Hl]; rewrite Hl in Z0 |- *; cbn [slope_fn] in Z0 |- *; exact Z0. }
      assert (Zm : zero (b_mul (b_mul inv s) dd)) by (apply mul_zero_l; [exact Fd|]; apply mul_zero_r; assumption).
      destruct (add_zero y _ Fy Zm) as (_ & V). rewrite V. unfold Rmin, Rmax. repeat destruct (Rle_dec _ _); lra.
    - destruct (slope_bound bln bexp (k_limiter k) (b_sub y x) (b_sub z y) c (k_theta k) Hl Fa Fb Fs) as (Sa & Sb).
      assert (Da' : bpow radix2 (-900) <= Rabs (B2R y - B2R x)) by (destruct Da as [Da|Da]; [lra|exact Da]).
      assert (Db' : bpow radix2 (-900) <= Rabs (B2R z - B2R y)) by (destruct Db as [Db|Db]; [lra|exact Db]).
      pose proof (face_range x y z inv s dd Ff Fa Fb Sa Sb HP Hb Da' Db' ltac:(lra)) as R.
      set (g := B2R (b_add y (b_mul (b_mul inv s) dd))) in *. clearbody g. revert R. unfold Rmin, Rmax. repeat destruct (Rle_dec _ _); lra. }
  split; [exact (G _ _ (or_introl eq_refl) Rw Fw)|exact (G _ _ (or_intror eq_refl) Re Fe)].
Qed.
Print Assumptions C23_no_new_extrema_b64.

(** Example: KT with MinMod on 8 cells of width 1/4; the density grows from 1
    over 2 to 4 in the cells 3, 4 and 5. *)
Definition ramp (bln bexp : b64 -> b64) : state (B64n bln bexp) :=
  let v := demo_vars Isot 8 (fun _ i => (match i with 3%nat => b_ofZ 1 | 4%nat => b_ofZ 2 | _ => b_ofZ 4 end : nF (B64n bln bexp))) in
  let v := set_cons (prim v) v in mkState v v v.

Lemma kt_minmod : forall A p S (m : mesh A), exists k : kt A, kt_new p S (CKt MinMod) m = Ok k /\
  k_limiter k = MinMod /\ k_inv_dxi k = ndiv A (n1 A) (m_dxi m) /\
  k_dist_west k = tab S (fun i => nsub A (at1 (n0 A) (m_xi_west m) i) (at1 (n0 A) (m_xi_cent m) i)) /\
  k_dist_east k = tab S (fun i => nsub A (at1 (n0 A) (m_xi_east m) i) (at1 (n0 A) (m_xi_cent m) i)).
Proof. intros. eexists. split; [reflexivity|]. repeat split. Qed.

Example C23_range_example : forall bln bexp, let A := B64n bln bexp in let u := ramp bln bexp in exists k : kt A,
  kt_new Isot 8 (CKt MinMod) (demo_mesh A 8) = Ok k /\ k_limiter k = MinMod /\
  (forall dist, dist = k_dist_west k \/ dist = k_dist_east k -> Rabs (B2R (k_inv_dxi k : b64)) * Rabs (B2R (at1 (n0 A) dist 4 : b64)) <= 3 / 5 /\
     Rabs (B2R (at1 (n0 A) dist 4 : b64)) <= bpow radix2 100) /\
  (at2 (n0 A) (cons (cent u)) 0 3 : b64) = b_ofZ 1 /\ (at2 (n0 A) (cons (cent u)) 0 4 : b64) = b_ofZ 2 /\ (at2 (n0 A) (cons (cent u)) 0 5 : b64) = b_ofZ 4 /\
  is_finite (recon A k (cons (cent u)) (k_dist_west k) 0 4 : b64) = true /\ is_finite (recon A k (cons (cent u)) (k_dist_east k) 0 4 : b64) = true.
Proof.
  intros bln bexp A u. destruct (kt_minmod A Isot 8 (demo_mesh A 8)) as (k & Ek & El & Ei & Ew & Ee).
  exists k. split; [exact Ek|]. clear Ek. split; [exact El|].
  assert (I : same_b (k_inv_dxi k) (b_ofZ 4) && (same_b (at1 (n0 A) (k_dist_west k) 4) (Bopp (b_div (b_ofZ 1) (b_ofZ 8))) &&
    same_b (at1 (n0 A) (k_dist_east k) 4) (b_div (b_ofZ 1) (b_ofZ 8))) = true) by (rewrite Ei, Ew, Ee; vm_compute; reflexivity).
  assert (J : same_b (at2 (n0 A) (cons (cent u)) 0 3) (b_ofZ 1) && (same_b (at2 (n0 A) (cons (cent u)) 0 4) (b_ofZ 2) &&
    same_b (at2 (n0 A) (cons (cent u)) 0 5) (b_ofZ 4)) = true) by (vm_compute; reflexivity).
  assert (H : is_finite (recon A k (cons (cent u)) (k_dist_west k) 0 4 : b64) && is_finite (recon A k (cons (cent u)) (k_dist_east k) 0 4 : b64) = true).
  { unfold recon, kt_slope. rewrite El, Ei, Ew, Ee. vm_compute. reflexivity. }
  apply andb_true_iff in I. destruct I as (I1 & I). apply andb_true_iff in I. destruct I as (I2 & I3).
  apply andb_true_iff in J. destruct J as (J1 & J). apply andb_true_iff in J. destruct J as (J2 & J3). apply andb_true_iff in H. destruct H as (H1 & H2).
  apply same_b_eq in I1, I2, I3, J1, J2, J3.
  split; [|split; [exact J1|split; [exact J2|split; [exact J3|split; [exact H1|exact H2]]]]].
  assert (V4 : B2R (b_ofZ 4) = 4) by (vm_compute; lra). assert (V8 : B2R (b_div (b_ofZ 1) (b_ofZ 8)) = / 8) by (vm_compute; lra).
  assert (P : 1 <= bpow radix2 100) by (apply (bpow_le radix2 0 100); lia).
  intros dist [-> | ->].
  - rewrite I1, I2, B2R_Bopp, V4, V8, Rabs_Ropp, !Rabs_pos_eq by lra. split; lra.
  - rewrite I1, I3, V4, V8, !Rabs_pos_eq by lra. split; lra.
Qed.
