(** Rounding errors of the conversion of energies in binary64. *)

From Coq Require Import Reals ZArith QArith Qreals List Lia Lra Psatz.
From Flocq Require Import Core BinarySingleNaN.
From Verif Require Import Base Num B64 Config Mesh State NumFlux Time Spec SpecFlow SpecStep SpecTableau SpecEuler SpecMass PhysicsProofs StepInv EulerThms TableauProofs ConsThms ConvB64 MeshB64 ConsB64.
Import ListNotations.
Local Open Scope R_scope.

(** ** Real arithmetic *)
Section Real.
Variables (v e : R).
Hypothesis Hv : 0 < v < / 1000000.
Hypothesis He : 0 < e.

(** c x^2, computed as ((c x) x) *)
Lemma square_err : forall c h x a b, 0 <= c -> Rabs (h - c) <= 2 * v * c -> Rabs (a - h * x) <= v * Rabs (h * x) + e -> Rabs (b - a * x) <= v * Rabs (a * x) + e ->
  Rabs (b - c * (x * x)) <= 41 / 10 * (v * (c * (x * x))) + 2 * (e * Rabs x) + e.
Proof.
  intros c h x a b Hc H1 H2 H3. set (X := Rabs x) in *. assert (X0 : 0 <= X) by apply Rabs_pos.
  assert (XX : x * x = X * X) by (unfold X; rewrite <- Rabs_mult; rewrite Rabs_pos_eq; [reflexivity|nra]).
  set (k := c * X). assert (K0 : 0 <= k) by (apply Rmult_le_pos; assumption).
  assert (A1 : Rabs (h * x - c * x) <= 2 * (v * k)).
  { replace (h * x - c * x) with ((h - c) * x) by ring. rewrite Rabs_mult. fold X. unfold k. replace (2 * (v * (c * X))) with (2 * v * c * X) by ring. apply Rmult_le_compat_r; assumption. }
  assert (Vk : 0 <= v * k <= / 1000000 * k) by (split; [apply Rmult_le_pos; lra|apply Rmult_le_compat_r; lra]).
  assert (Cx : Rabs (c * x) = k) by (rewrite Rabs_mult, (Rabs_pos_eq c) by exact Hc; reflexivity).
  assert (A2 : Rabs (h * x) <= 1001 / 1000 * k).
  { replace (h * x) with (c * x + (h * x - c * x)) by ring. eapply Rle_trans; [apply Rabs_triang|]. lra. }
  assert (A3 : v * Rabs (h * x) <= v * (1001 / 1000 * k)) by (apply Rmult_le_compat_l; lra).
  assert (A4 : Rabs (a - c * x) <= 3001 / 1000 * (v * k) + e).
  { replace (a - c * x) with ((a - h * x) + (h * x - c * x)) by ring. eapply Rle_trans; [apply Rabs_triang|]. lra. }
  set (q := c * (X * X)). assert (Q0 : 0 <= q) by (apply Rmult_le_pos; [exact Hc|apply Rmult_le_pos; exact X0]).
  assert (A5 : Rabs (a * x - c * (x * x)) <= 3001 / 1000 * (v * q) + e * X).
  { replace (a * x - c * (x * x)) with ((a - c * x) * x) by ring. rewrite Rabs_mult. fold X.
    apply Rle_trans with ((3001 / 1000 * (v * k) + e) * X); [apply Rmult_le_compat_r; assumption|]. right. unfold q, k. ring. }
  assert (EX : 0 <= e * X) by (apply Rmult_le_pos; lra).
  assert (Vq : 0 <= v * q <= / 1000000 * q) by (split; [apply Rmult_le_pos; lra|apply Rmult_le_compat_r; lra]).
  assert (Cq : Rabs (c * (x * x)) = q) by (rewrite XX; apply Rabs_pos_eq; exact Q0).
  assert (A6 : Rabs (a * x) <= 1001 / 1000 * q + e * X).
  { replace (a * x) with (c * (x * x) + (a * x - c * (x * x))) by ring. eapply Rle_trans; [apply Rabs_triang|]. lra. }
  assert (A7 : v * Rabs (a * x) <= v * (1001 / 1000 * q + e * X)) by (apply Rmult_le_compat_l; lra).
  assert (A8 : v * (e * X) <= / 1000000 * (e * X)) by (apply Rmult_le_compat_r; lra).
  replace (b - c * (x * x)) with ((b - a * x) + (a * x - c * (x * x))) by ring. eapply Rle_trans; [apply Rabs_triang|].
  rewrite XX in A5 |- *. fold q in A5 |- *. lra.
Qed.

(** the velocity instead of the quotient *)
Lemma vel_err : forall u U, Rabs (u - U) <= v * Rabs U + e ->
  Rabs U <= 101 / 100 * (Rabs u + e) /\ Rabs (U * U - u * u) <= 204 / 100 * (v * (u * u)) + 21 / 10 * (e * Rabs u) + 11 / 10 * (e * e).
Proof.
  intros u U H. set (a := Rabs u). set (b := Rabs U) in *. assert (A0 : 0 <= a) by apply Rabs_pos. assert (B0 : 0 <= b) by apply Rabs_pos.
  assert (Vb : v * b <= / 1000000 * b) by (apply Rmult_le_compat_r; lra).
  assert (H1 : b <= a + Rabs (u - U)).
  { unfold a, b. replace U with (u + - (u - U)) at 1 by ring. eapply Rle_trans; [apply Rabs_triang|]. rewrite Rabs_Ropp. lra. }
  assert (H2 : b <= 1001 / 1000 * (a + e)) by lra.
  split; [lra|].
  assert (Vb2 : v * b <= v * (1001 / 1000 * (a + e))) by (apply Rmult_le_compat_l; lra).
  assert (Ve : v * e <= / 1000000 * e) by (apply Rmult_le_compat_r; lra).
  assert (Va : 0 <= v * a) by (apply Rmult_le_pos; lra).
  assert (H3 : Rabs (u - U) <= 1001 / 1000 * (v * a) + 1001 / 1000 * e) by lra.
  assert (H4 : Rabs (u + U) <= 2001 / 1000 * a + 1001 / 1000 * e) by (eapply Rle_trans; [apply Rabs_triang|]; fold a b; lra).
  replace (U * U - u * u) with (- ((u - U) * (u + U))) by ring. rewrite Rabs_Ropp, Rabs_mult.
  assert (UU : u * u = a * a) by (unfold a; rewrite <- Rabs_mult; rewrite Rabs_pos_eq; [reflexivity|nra]). rewrite UU.
  apply Rle_trans with ((1001 / 1000 * (v * a) + 1001 / 1000 * e) * (2001 / 1000 * a + 1001 / 1000 * e)).
  - apply Rmult_le_compat; try apply Rabs_pos; assumption.
  - assert (E1 : v * (e * a) <= / 1000000 * (e * a)) by (apply Rmult_le_compat_r; [apply Rmult_le_pos; lra|lra]).
    assert (E2 : 0 <= v * (a * a)) by (apply Rmult_le_pos; [lra|apply Rmult_le_pos; exact A0]).
    assert (E3 : 0 <= e * a) by (apply Rmult_le_pos; lra). assert (E4 : 0 <= e * e) by (apply Rmult_le_pos; lra).
    replace ((1001 / 1000 * (v * a) + 1001 / 1000 * e) * (2001 / 1000 * a + 1001 / 1000 * e))
      with (1001 / 1000 * (2001 / 1000) * (v * (a * a)) + 1001 / 1000 * (1001 / 1000) * (v * (e * a)) + 1001 / 1000 * (2001 / 1000) * (e * a) + 1001 / 1000 * (1001 / 1000) * (e * e)) by ring.
    lra.
Qed.

(** multiplying by G and by its computed inverse *)
Lemma scale_err : forall G r D P t tau, G <> 0 -> Rabs (r - / G) <= 2 * v * Rabs (/ G) -> Rabs (P - G * D) <= v * Rabs (G * D) + e -> Rabs (t - P * r) <= v * Rabs (P * r) + e ->
  e <= / 10 * tau -> e * Rabs (/ G) <= / 10 * tau ->
  Rabs (t - D) <= 41 / 10 * (v * Rabs D) + tau.
Proof.
  intros G r D P t tau HG H1 H2 H3 T1 T2. set (g := Rabs (/ G)) in *. assert (G0 : 0 <= g) by apply Rabs_pos. set (d := Rabs D). assert (D0 : 0 <= d) by apply Rabs_pos.
  assert (Vg : 0 <= v * g <= / 1000000 * g) by (split; [apply Rmult_le_pos; lra|apply Rmult_le_compat_r; lra]).
  assert (R1 : Rabs r <= 1001 / 1000 * g).
  { replace r with (/ G + (r - / G)) by ring. eapply Rle_trans; [apply Rabs_triang|]. fold g. lra. }
  assert (Gg : Rabs G * g = 1) by (unfold g; rewrite <- Rabs_mult, Rinv_r by exact HG; apply Rabs_R1).
  assert (R2 : Rabs (G * r - 1) <= 2 * v).
  { replace (G * r - 1) with (G * (r - / G)) by (field; exact HG). rewrite Rabs_mult.
    apply Rle_trans with (Rabs G * (2 * v * g)); [apply Rmult_le_compat_l; [apply Rabs_pos|exact H1]|]. right. replace (Rabs G * (2 * v * g)) with (2 * v * (Rabs G * g)) by ring. rewrite Gg. ring. }
  assert (R3 : Rabs ((P - G * D) * r) <= 1001 / 1000 * (v * d) + 1001 / 1000 * (e * g)).
  { rewrite Rabs_mult. apply Rle_trans with ((v * Rabs (G * D) + e) * (1001 / 1000 * g)); [apply Rmult_le_compat; try apply Rabs_pos; assumption|].
    right. rewrite Rabs_mult. fold d. replace ((v * (Rabs G * d) + e) * (1001 / 1000 * g)) with (1001 / 1000 * (v * d) * (Rabs G * g) + 1001 / 1000 * (e * g)) by ring. rewrite Gg. ring. }
  assert (R4 : Rabs (D * (G * r - 1)) <= 2 * (v * d)).
  { rewrite Rabs_mult. fold d. replace (2 * (v * d)) with (d * (2 * v)) by ring. apply Rmult_le_compat_l; assumption. }
  assert (R5 : Rabs (P * r - D) <= 3001 / 1000 * (v * d) + 1001 / 1000 * (e * g)).
  { replace (P * r - D) with ((P - G * D) * r + D * (G * r - 1)) by ring. eapply Rle_trans; [apply Rabs_triang|]. lra. }
  assert (Vd : 0 <= v * d <= / 1000000 * d) by (split; [apply Rmult_le_pos; lra|apply Rmult_le_compat_r; lra]).
  assert (EG : 0 <= e * g) by (apply Rmult_le_pos; lra).
  assert (R6 : Rabs (P * r) <= 1001 / 1000 * d + 1001 / 1000 * (e * g)).
  { replace (P * r) with (D + (P * r - D)) by ring. eapply Rle_trans; [apply Rabs_triang|]. fold d. lra. }
  assert (R7 : v * Rabs (P * r) <= v * (1001 / 1000 * d + 1001 / 1000 * (e * g))) by (apply Rmult_le_compat_l; lra).
  assert (R8 : v * (e * g) <= / 1000000 * (e * g)) by (apply Rmult_le_compat_r; lra).
  replace (t - D) with ((t - P * r) + (P * r - D)) by ring. eapply Rle_trans; [apply Rabs_triang|]. lra.
Qed.

(** all together; [K] is the kinetic energy of the new state *)
Lemma energy_err : forall E E' K k b f t D tau, 0 <= K -> 0 <= tau -> e <= tau -> 0 <= k ->
  Rabs (b - k) <= 41 / 10 * (v * k) + tau -> Rabs (k - K) <= 21 / 10 * (v * K) + tau -> Rabs (f - K) <= 41 / 10 * (v * K) + tau ->
  Rabs (D - (E - b)) <= v * Rabs (E - b) + e -> Rabs (t - D) <= 41 / 10 * (v * Rabs D) + tau -> Rabs (E' - (t + f)) <= v * Rabs (t + f) + e ->
  Rabs (E' - E) <= 7 * (v * Rabs E) + 20 * (v * K) + 10 * tau.
Proof.
  intros E E' K k b f t D tau HK Ht Het Hk H1 H2 H3 H4 H5 H6.
  set (a := Rabs E). assert (A0 : 0 <= a) by apply Rabs_pos.
  assert (VT : 0 <= v * tau <= / 1000000 * tau) by (split; [apply Rmult_le_pos; lra|apply Rmult_le_compat_r; lra]).
  assert (VK : 0 <= v * K <= / 1000000 * K) by (split; [apply Rmult_le_pos; lra|apply Rmult_le_compat_r; lra]).
  assert (VA : 0 <= v * a <= / 1000000 * a) by (split; [apply Rmult_le_pos; lra|apply Rmult_le_compat_r; lra]).
  assert (k1 : k <= 1001 / 1000 * K + tau) by (apply Rabs_le_inv in H2; lra).
  assert (Vk : v * k <= v * (1001 / 1000 * K + tau)) by (apply Rmult_le_compat_l; lra).
  assert (B1 : Rabs (b - K) <= 621 / 100 * (v * K) + 201 / 100 * tau).
  { replace (b - K) with ((b - k) + (k - K)) by ring. eapply Rle_trans; [apply Rabs_triang|]. lra. }
  assert (B2 : Rabs b <= 1001 / 1000 * K + 201 / 100 * tau).
  { replace b with (K + (b - K)) by ring. eapply Rle_trans; [apply Rabs_triang|]. rewrite (Rabs_pos_eq K) by exact HK. lra. }
  assert (C1 : Rabs (E - b) <= a + 1001 / 1000 * K + 201 / 100 * tau).
  { unfold Rminus. eapply Rle_trans; [apply Rabs_triang|]. rewrite Rabs_Ropp. fold a. lra. }
  assert (C2 : v * Rabs (E - b) <= v * (a + 1001 / 1000 * K + 201 / 100 * tau)) by (apply Rmult_le_compat_l; lra).
  assert (C3 : Rabs D <= 1001 / 1000 * (a + 1001 / 1000 * K) + 4 * tau).
  { replace D with ((E - b) + (D - (E - b))) by ring. eapply Rle_trans; [apply Rabs_triang|]. lra. }
  assert (C4 : v * Rabs D <= v * (1001 / 1000 * (a + 1001 / 1000 * K) + 4 * tau)) by (apply Rmult_le_compat_l; lra).
  assert (C5 : Rabs (t + f - E) <= 52 / 10 * (v * a) + 158 / 10 * (v * K) + 6 * tau).
  { replace (t + f - E) with ((t - D) + (D - (E - b)) + ((f - K) + - (b - K))) by ring.
    eapply Rle_trans; [apply Rabs_triang|]. pose proof (Rabs_triang (t - D) (D - (E - b))). pose proof (Rabs_triang (f - K) (- (b - K))) as T. rewrite Rabs_Ropp in T. lra. }
  assert (C6 : Rabs (t + f) <= 1001 / 1000 * a + K + 7 * tau).
  { replace (t + f) with (E + (t + f - E)) by ring. eapply Rle_trans; [apply Rabs_triang|]. fold a. lra. }
  assert (C7 : v * Rabs (t + f) <= v * (1001 / 1000 * a + K + 7 * tau)) by (apply Rmult_le_compat_l; lra).
  replace (E' - E) with ((E' - (t + f)) + (t + f - E)) by ring. eapply Rle_trans; [apply Rabs_triang|]. lra.
Qed.
End Real.

(** ** The conversions *)
Definition half : b64 := b_div (b_ofZ 1) (b_ofZ 2).
Definition one : b64 := b_ofZ 1.

Lemma rel_small : forall c, bpow radix2 (-101) <= c -> Rabs (fl c - c) <= 2 * u53 * c.
Proof.
  intros c H. pose proof (fl_any c) as K. pose proof (bpow_gt_0 radix2 (-101)). rewrite (Rabs_pos_eq c) in K by lra. pose proof u53_lt as (U0 & _).
  assert (eta <= u53 * c); [|lra].
  apply Rle_trans with (u53 * bpow radix2 (-101)); [rewrite <- bpow_plus; apply bpow_le; lia|apply Rmult_le_compat_l; lra].
Qed.

Lemma convert_err : forall rr mm ee g : b64,
  let G := b_sub g one in let u := b_div mm rr in
  let P := b_mul G (b_sub ee (b_mul (b_mul (b_div half rr) mm) mm)) in
  let E' := b_add (b_mul P (b_div one G)) (b_mul (b_mul (b_mul half rr) u) u) in
  is_finite rr = true -> is_finite E' = true ->
  bpow radix2 (-100) <= B2R rr <= bpow radix2 100 -> Rabs (B2R u) <= bpow radix2 100 -> bpow radix2 (-100) <= Rabs (B2R G) <= bpow radix2 100 ->
  Rabs (B2R E' - B2R ee) <= 7 * (u53 * Rabs (B2R ee)) + 20 * (u53 * (/ 2 * B2R rr * (B2R u * B2R u))) + 10 * bpow radix2 (-700).
Proof.
  intros rr mm ee g G u P E' Fr FE Hr Hu HG.
  destruct half64 as (Fh & Vh). destruct (ofZ_exact 1 ltac:(lia)) as (F1 & V1). fold half in Fh, Vh. fold one in F1, V1.
  destruct (b_add_val _ _ FE) as (Ft & Ff & VE).
  destruct (fl_mul_val _ _ Ft) as (FP & Fri & Vt). destruct (fl_mul_val _ _ FP) as (FG & FD & VP).
  destruct (fl_sub_val _ _ FD) as (Fe & Fb & VD). destruct (fl_mul_val _ _ Fb) as (Fa & Fm & Vb). destruct (fl_mul_val _ _ Fa) as (Fh2 & _ & Va).
  destruct (fl_mul_val _ _ Ff) as (Fc & Fu & Vf). destruct (fl_mul_val _ _ Fc) as (Fg2 & _ & Vc). destruct (fl_mul_val _ _ Fg2) as (_ & _ & Vg2).
  destruct (b_div_val _ _ Fh2 Fr) as (_ & Nr & Vh2). destruct (b_div_val _ _ Fu Fr) as (_ & _ & Vu). destruct (b_div_val _ _ Fri FG) as (_ & NG & Vri).
  rewrite Vh in Vh2, Vg2. rewrite V1 in Vri.
  change (B2R E') with (B2R (b_add (b_mul P (b_div one G)) (b_mul (b_mul (b_mul half rr) u) u))). fold u in Vu.
  set (f := B2R (b_mul (b_mul (b_mul half rr) u) u)) in *. set (t := B2R (b_mul P (b_div one G))) in *.
  set (E2 := B2R (b_add _ _)) in *.
  set (b := B2R (b_mul (b_mul (b_div half rr) mm) mm)) in *. set (D := B2R (b_sub ee _)) in *. fold P in VP.
  set (a := B2R (b_mul (b_div half rr) mm)) in *. set (h := B2R (b_div half rr)) in *. set (c := B2R (b_mul (b_mul half rr) u)) in *. set (g2 := B2R (b_mul half rr)) in *.
  set (r := B2R rr) in *. set (x := B2R mm) in *. set (E0 := B2R ee) in *. set (w := B2R u) in *. set (ri := B2R (b_div one G)) in *. set (p := B2R P) in *. set (gm := B2R G) in *.
  clearbody f t E2 b D a h c g2 r x E0 w ri p gm. clear - VE Vt VP VD Vb Va Vf Vc Vg2 Vh2 Vu Vri Nr NG Hr Hu HG.
  pose proof u53_lt as Hv. pose proof (bpow_gt_0 radix2 (-1021)) as He. pose proof (bpow_gt_0 radix2 (-100)) as P100.
  assert (Inv : bpow radix2 (-100) = / bpow radix2 100) by apply (bpow_opp radix2 100).
  assert (Hi : bpow radix2 (-100) <= / r <= bpow radix2 100).
  { pose proof (bpow_gt_0 radix2 100) as Q. split; [rewrite Inv; apply Rinv_le; lra|]. replace (bpow radix2 100) with (/ bpow radix2 (-100)) by (rewrite Inv, Rinv_inv; reflexivity). apply Rinv_le; lra. }
  assert (H101 : bpow radix2 (-101) = / 2 * bpow radix2 (-100)) by (change (-101)%Z with (-1 + -100)%Z; rewrite bpow_plus; reflexivity).
  set (v := u53) in *. set (e := eta) in *. set (tau := bpow radix2 (-700)).
  assert (B0 : 1 <= bpow radix2 100) by (change 1 with (bpow radix2 0); apply bpow_le; lia).
  assert (e_tau : forall B, B <= bpow radix2 210 -> e * B <= / 16 * tau).
  { intros B HB. replace (/ 16 * tau) with (bpow radix2 (-704)) by (unfold tau; change (-704)%Z with (-4 + -700)%Z; rewrite bpow_plus; reflexivity).
    apply Rle_trans with (e * bpow radix2 210); [apply Rmult_le_compat_l; lra|]. unfold e. rewrite <- bpow_plus. apply bpow_le. lia. }
  assert (B210 : bpow radix2 210 = bpow radix2 100 * bpow radix2 100 * 1024) by (change 210%Z with (100 + 100 + 10)%Z; rewrite !bpow_plus; reflexivity).
  set (T := bpow radix2 100) in *.
  assert (TT : T <= T * T) by (rewrite <- (Rmult_1_l T) at 1; apply Rmult_le_compat_r; lra).
  assert (e1 : e <= / 16 * tau) by (rewrite <- (Rmult_1_r e); apply e_tau; lra).
  assert (Ee : e * e <= / 16 * tau).
  { apply Rle_trans with (e * 1); [apply Rmult_le_compat_l; [lra|]|apply e_tau; lra]. unfold e. change 1 with (bpow radix2 0). apply bpow_le. lia. }
  (* velocity *)
  set (U := x / r) in *.
  assert (Ku : Rabs (w - U) <= v * Rabs U + e) by (rewrite Vu; apply fl_any).
  destruct (vel_err v e Hv He w U Ku) as (U1 & U2).
  assert (Xr : x = U * r) by (unfold U; field; lra).
  assert (Rx : Rabs x <= 4 * (T * T)).
  { rewrite Xr, Rabs_mult, (Rabs_pos_eq r) by lra. apply Rle_trans with (4 * T * T); [|lra]. apply Rmult_le_compat; [apply Rabs_pos|lra| |lra].
    assert (e <= 1) by (unfold e; change 1 with (bpow radix2 0); apply bpow_le; lia). lra. }
  (* kinetic energies *)
  set (k := / 2 * / r * (x * x)). set (K := / 2 * r * (w * w)).
  assert (W0 : 0 <= w * w) by nra.
  assert (K0 : 0 <= K) by (apply Rmult_le_pos; [lra|exact W0]).
  assert (k0 : 0 <= k) by (apply Rmult_le_pos; [lra|nra]).
  assert (S1 : Rabs (b - k) <= 41 / 10 * (v * k) + 2 * (e * Rabs x) + e).
  { apply (square_err v e Hv He (/ 2 * / r) h x a b); [lra| | |].
    - rewrite Vh2. apply (rel_small (/ 2 * / r)). lra.
    - rewrite Va. apply fl_any.
    - rewrite Vb. apply fl_any. }
  assert (S2 : Rabs (f - K) <= 41 / 10 * (v * K) + 2 * (e * Rabs w) + e).
  { apply (square_err v e Hv He (/ 2 * r) g2 w c f); [lra| | |].
    - rewrite Vg2. apply rel_small. lra.
    - rewrite Vc. apply fl_any.
    - rewrite Vf. apply fl_any. }
  assert (X1 : e * Rabs x <= / 16 * tau) by (apply e_tau; lra).
  assert (X2 : e * Rabs w <= / 16 * tau) by (apply e_tau; lra).
  assert (X3 : r * (e * Rabs w) <= / 16 * tau).
  { replace (r * (e * Rabs w)) with (e * (r * Rabs w)) by ring. apply e_tau. apply Rle_trans with (T * T); [apply Rmult_le_compat; [lra|apply Rabs_pos|lra|exact Hu]|lra]. }
  assert (X4 : r * (e * e) <= / 16 * tau).
  { replace (r * (e * e)) with (e * (r * e)) by ring. apply e_tau. apply Rle_trans with (T * 1); [apply Rmult_le_compat; try lra|lra]. unfold e. change 1 with (bpow radix2 0). apply bpow_le. lia. }
  assert (tau0 : 0 < tau) by apply bpow_gt_0.
  assert (S3 : Rabs (k - K) <= 21 / 10 * (v * K) + tau).
  { replace (k - K) with (/ 2 * r * (U * U - w * w)) by (unfold k, K; rewrite Xr; field; lra). rewrite Rabs_mult, (Rabs_pos_eq (/ 2 * r)) by lra.
    apply Rle_trans with (/ 2 * r * (204 / 100 * (v * (w * w)) + 21 / 10 * (e * Rabs w) + 11 / 10 * (e * e))); [apply Rmult_le_compat_l; [lra|exact U2]|].
    replace (/ 2 * r * (204 / 100 * (v * (w * w)) + 21 / 10 * (e * Rabs w) + 11 / 10 * (e * e)))
      with (204 / 100 * (v * K) + 21 / 20 * (r * (e * Rabs w)) + 11 / 20 * (r * (e * e))) by (unfold K; field).
    assert (0 <= v * K) by (apply Rmult_le_pos; lra). lra. }
  (* pressure and back *)
  assert (Gi : Rabs (/ gm) = / Rabs gm) by (apply Rabs_inv).
  assert (Gr : bpow radix2 (-100) <= Rabs (/ gm) <= T).
  { rewrite Gi. split; [rewrite Inv; apply Rinv_le; lra|]. unfold T. replace (bpow radix2 100) with (/ bpow radix2 (-100)) by (rewrite Inv, Rinv_inv; reflexivity). apply Rinv_le; lra. }
  assert (Kr : Rabs (ri - / gm) <= 2 * v * Rabs (/ gm)).
  { rewrite Vri. change (rnd (1 / gm)) with (fl (1 / gm)). replace (1 / gm) with (/ gm) by (field; exact NG).
    pose proof (fl_any (/ gm)) as Q. fold v e in Q.
    assert (e <= v * Rabs (/ gm)); [|lra]. apply Rle_trans with (v * bpow radix2 (-100)); [unfold v, e; rewrite <- bpow_plus; apply bpow_le; lia|apply Rmult_le_compat_l; lra]. }
  assert (S4 : Rabs (t - D) <= 41 / 10 * (v * Rabs D) + tau).
  { apply (scale_err v e Hv He gm ri D p t tau NG Kr).
    - rewrite VP. apply fl_any.
    - rewrite Vt. apply fl_any.
    - lra.
    - assert (e * Rabs (/ gm) <= / 16 * tau) by (apply e_tau; lra). lra. }
  apply (energy_err v e Hv He E0 E2 K k b f t D tau); try assumption; try lra.
  - rewrite VD. apply fl_any.
  - rewrite VE. apply fl_any.
Qed.

(** ** The energy after a step *)
Section Energy.
Variables (bln bexp : b64 -> b64).
Notation B := (B64n bln bexp).
Variable N : numflux_impl B.
Variable fluxes : nf_T N -> list (list (nF B)).
Variables (S : nat) (c : config B).
Let m := mesh_build S (cf_mesh c).
Variable good : nf_T N -> Prop.
Hypothesis HS : (5 <= S)%nat.
Hypothesis Hmem : memoryless N Adiab S m good.
Hypothesis Hform : forall val (h : rhs B N) u h' w, wss Adiab S u -> rhs_update val Adiab S h u m = (h', w, Ok tt) ->
  forall j i, (j < nE Adiab)%nat -> (2 <= i <= S - 3)%nat ->
  at2 (n0 B) (r_full h') j i =
    nmul B (at1 (n0 B) (m_deta_dphi_d_volume m) i) (nsub B (at2 (n0 B) (fluxes (r_nf h')) j i) (at2 (n0 B) (fluxes (r_nf h')) j (i - 1))).

Let w : b64 := at1 (n0 B) (m_deta_dphi_d_volume m) 2.
Let Q (j : nat) (s : sim B N) (i : nat) : R := B2R (at2 (n0 B) (cons (cent (s_u s))) j i : b64).
Let vel (s : sim B N) (i : nat) : R := B2R (at2 (n0 B) (prim (cent (s_u s))) 1 i : b64).

Lemma energy_step : forall val fuel (s s' : sim B N), reached Adiab S c m good s -> solver_next val fuel Adiab S m s = (s', Ok tt) ->
  (val = true \/ forall j i, (j < nE Adiab)%nat -> (2 <= i <= S - 3)%nat -> is_finite (at2 (n0 B) (cons (cent (s_u s'))) j i : b64) = true) ->
  let dt := B2R (ts_dt (s_ts s') : b64) in let mode := rc_mode (nc_time (cf_numerics c)) in
  let n := bt_order (qtab mode) in let beta := fun q => Q2R (qat (bt_high (qtab mode)) q) in
  wide dt ->
  (forall i, (2 <= i <= S - 3)%nat -> bpow radix2 (-100) <= Q 0 s' i <= bpow radix2 100 /\ Rabs (vel s' i) <= bpow radix2 100) ->
  bpow radix2 (-100) <= Rabs (B2R (b_sub (pc_gamma (cf_physics c)) one)) <= bpow radix2 100 ->
  exists F : nat -> nat -> R, (forall q, (q < n)%nat -> num_fluxes 2 fluxes Adiab S m good s (F q)) /\
    Rabs (inner_sum S (Q 2 s') - inner_sum S (Q 2 s) + rsum n (fun q => dt * beta q * B2R w * (F q (S - 3)%nat - F q 1%nat))) <=
      bpow radix2 (-47) * inner_sum S (fun i => Rabs (Q 2 s i) + rsum n (fun q => Rabs (dt * beta q * B2R w * (F q i - F q (i - 1)%nat)))) +
      INR (S - 4) * bpow radix2 (-510) + bpow radix2 (-47) * inner_sum S (fun i => / 2 * Q 0 s' i * (vel s' i * vel s' i)).
Proof.
  intros val fuel s s' Hr E Hf dt mode n beta Wd Ho Hga.
  destruct (row_step bln bexp N fluxes Adiab S c good HS Hmem Hform val fuel s s' Hr E Hf Wd) as (v0 & Hg & Hv & HR).
  assert (H0 : (0 < nE Adiab)%nat) by (cbn; lia). assert (H1 : (1 < nE Adiab)%nat) by (cbn; lia). assert (H2 : (2 < nE Adiab)%nat) by (cbn; lia).
  destruct (HR 2%nat H2) as (F & HF & Cell). exists F. split; [exact HF|].
  pose proof (total_step S HS n (Q 2 s) (Q 2 s') (fun q => dt * beta q * B2R w) F (bpow radix2 (-47)) (bpow radix2 (-510)) (fun i => bpow radix2 (-47) * (/ 2 * Q 0 s' i * (vel s' i * vel s' i)))) as T.
  eapply Rle_trans; [apply T|].
  - intros i Hi. destruct (Hv 0%nat i H0 Hi) as (F00 & _ & C1 & C2). destruct (Hv 1%nat i H1 Hi) as (F10 & _ & _ & D2). destruct (Hv 2%nat i H2 Hi) as (F20 & F2 & G1 & G2).
    destruct (Ho i Hi) as (O1 & O2).
    set (mm := at2 (n0 B) (cons v0) 1 i : b64) in *. set (rr := at2 (n0 B) (cons v0) 0 i : b64) in *. set (ee := at2 (n0 B) (cons v0) 2 i : b64) in *.
    rewrite Hg in *. set (g := pc_gamma (cf_physics c) : b64) in *.
    assert (R1 : at2 (n0 B) (cons (cent (s_u s'))) 0 i = rr) by (rewrite C1, p2c_0, C2, c2p_0 by exact H0; reflexivity).
    assert (U1 : at2 (n0 B) (prim (cent (s_u s'))) 1 i = (b_div mm rr : nF B)) by (rewrite D2, c2p_1 by exact H1; reflexivity).
    assert (P2 : at2 (n0 B) (prim (cent (s_u s'))) 2 i = (b_mul (b_sub g one) (b_sub ee (b_mul (b_mul (b_div half rr) mm) mm)) : nF B)) by (rewrite G2; reflexivity).
    assert (R0 : at2 (n0 B) (prim (cent (s_u s'))) 0 i = (rr : nF B)) by (rewrite C2, c2p_0 by exact H0; reflexivity).
    assert (E1 : forall f, p2c B Adiab g f 2%nat = (b_add (b_mul (f 2%nat) (b_div one (b_sub g one))) (b_mul (b_mul (b_mul half (f 0%nat)) (f 1%nat)) (f 1%nat)) : nF B)) by reflexivity.
    rewrite E1, P2, R0, U1 in G1.
    unfold Q in O1. rewrite R1 in O1. unfold vel in O2. rewrite U1 in O2.
    assert (F2' : is_finite (b_add (b_mul (b_mul (b_sub g one) (b_sub ee (b_mul (b_mul (b_div half rr) mm) mm))) (b_div one (b_sub g one))) (b_mul (b_mul (b_mul half rr) (b_div mm rr)) (b_div mm rr))) = true)
      by (rewrite <- (G1 : _ = _); exact F2).
    pose proof (convert_err rr mm ee g F00 F2' O1 O2 Hga) as K.
    unfold Q at 1. rewrite G1. unfold Q at 3. rewrite R1. unfold vel. rewrite U1.
    set (M := Rabs (Q 2 s i) + rsum n (fun q => Rabs (dt * beta q * B2R w * (F q i - F q (i - 1)%nat)))) in *.
    set (I := Q 2 s i - rsum n (fun q => dt * beta q * B2R w * (F q i - F q (i - 1)%nat))) in *.
    assert (HI : Rabs I <= M).
    { unfold I, M, Rminus. eapply Rle_trans; [apply Rabs_triang|]. rewrite Rabs_Ropp. apply Rplus_le_compat_l. apply (rsum_abs n). }
    assert (Cl : Rabs (B2R ee - I) <= 3 / 4 * (bpow radix2 (-47) * M) + 3 / 4 * bpow radix2 (-510)) by exact (Cell i Hi).
    set (KE := / 2 * B2R rr * (B2R (b_div mm rr) * B2R (b_div mm rr))) in *.
    assert (K0 : 0 <= KE).
    { unfold KE. pose proof (bpow_gt_0 radix2 (-100)). apply Rmult_le_pos; [lra|nra]. }
    set (x := B2R ee) in *. set (x' := B2R (b_add _ _)) in *.
    assert (U : u53 = bpow radix2 (-47) * / 64) by (change u53 with (bpow radix2 (-53)); change (-53)%Z with (-47 + -6)%Z; rewrite bpow_plus; reflexivity).
    assert (Ez : bpow radix2 (-700) <= / 1024 * bpow radix2 (-510)).
    { replace (/ 1024 * bpow radix2 (-510)) with (bpow radix2 (-520)) by (change (-520)%Z with (-10 + -510)%Z; rewrite bpow_plus; reflexivity). apply bpow_le. lia. }
    pose proof u53_lt as (U0 & U2). rewrite U in *. pose proof (bpow_gt_0 radix2 (-510)) as Zp.
    set (y := bpow radix2 (-47)) in *. set (z := bpow radix2 (-510)) in *. set (e := bpow radix2 (-700)) in *.
    assert (Mp : 0 <= M) by (pose proof (Rabs_pos I); lra).
    assert (Hx : Rabs x <= Rabs I + (3 / 4 * (y * M) + 3 / 4 * z)).
    { replace x with (I + (x - I)) by ring. eapply Rle_trans; [apply Rabs_triang|]. lra. }
    assert (Y0 : 0 <= y * M) by (apply Rmult_le_pos; lra).
    assert (Y1 : y * M <= M) by (rewrite <- (Rmult_1_l M) at 2; apply Rmult_le_compat_r; lra).
    assert (YK : 0 <= y * KE) by (apply Rmult_le_pos; lra).
    assert (Hx' : Rabs x <= 2 * M + z) by lra.
    assert (YX : y * Rabs x <= y * (2 * M + z)) by (apply Rmult_le_compat_l; lra).
    assert (YZ : y * z <= / 100 * z) by (apply Rmult_le_compat_r; lra).
    replace (x' - I) with ((x' - x) + (x - I)) by ring. eapply Rle_trans; [apply Rabs_triang|].
    replace (7 * (y * / 64 * Rabs x)) with (7 / 64 * (y * Rabs x)) in K by field. replace (20 * (y * / 64 * KE)) with (20 / 64 * (y * KE)) in K by field.
    replace (y * (2 * M + z)) with (2 * (y * M) + y * z) in YX by ring. lra.
  - apply Rplus_le_compat_l. right. exact (rsum_scal (S - 4) (bpow radix2 (-47)) (fun i => / 2 * Q 0 s' (i + 2)%nat * (vel s' (i + 2)%nat * vel s' (i + 2)%nat))).
Qed.
End Energy.
