(** Admissible states of a gas: positive density and pressure.  They form a
    convex cone that contains the intermediate states of HLL. *)

From Coq Require Import Reals ZArith List Lia Lra Psatz.
From Verif Require Import Base Num XReal Config Mesh State NumFlux Spec SpecFlow PhysicsProofs FluxProofs FluxReal.
Local Open Scope R_scope.

Definition adm (p : phys) (U : nat -> R) : Prop := 0 < U 0%nat /\ (p = Adiab -> U 1%nat * U 1%nat < 2 * U 0%nat * U 2%nat).

Lemma adm_ext : forall p U V, (forall j, (j < nE p)%nat -> U j = V j) -> adm p U -> adm p V.
Proof.
  intros p U V E (H0 & H1). split.
  - rewrite <- E by (destruct p; cbn; lia). exact H0.
  - intros ->. rewrite <- !E by (cbn; lia). auto.
Qed.

Lemma adm_scale : forall p a U, 0 < a -> adm p U -> adm p (fun j => a * U j).
Proof.
  intros p a U Ha (H0 & H1). split; [apply Rmult_lt_0_compat; assumption|]. intros E. specialize (H1 E).
  assert (0 < a * a) by (apply Rmult_lt_0_compat; assumption). nra.
Qed.

Lemma adm_add : forall p U V, adm p U -> adm p V -> adm p (fun j => U j + V j).
Proof.
  intros p U V (H0 & H1) (K0 & K1). split; [lra|]. intros E. specialize (H1 E). specialize (K1 E).
  set (r := U 0%nat) in *. set (m := U 1%nat) in *. set (e := U 2%nat) in *. set (r' := V 0%nat) in *. set (m' := V 1%nat) in *. set (e' := V 2%nat) in *.
  assert (P : 0 < r * r') by (apply Rmult_lt_0_compat; assumption).
  assert (Q : m * m' <= r * e' + r' * e).
  { apply Rmult_le_reg_l with (2 * (r * r')); [lra|].
    assert (0 <= (r * m' - r' * m) * (r * m' - r' * m)) by apply Rle_0_sqr.
    assert (r * r * (m' * m') <= r * r * (2 * r' * e')) by (apply Rmult_le_compat_l; [nra|lra]).
    assert (r' * r' * (m * m) <= r' * r' * (2 * r * e)) by (apply Rmult_le_compat_l; [nra|lra]).
    nra. }
  nra.
Qed.

Lemma adm_comb : forall p a b c U X Y, 0 < a -> 0 <= b -> 0 <= c -> adm p U -> adm p X -> adm p Y ->
  adm p (fun j => a * U j + b * X j + c * Y j).
Proof.
  intros p a b c U X Y Ha Hb Hc HU HX HY.
  assert (H1 : adm p (fun j => a * U j + b * X j)).
  { destruct (Rle_lt_or_eq_dec 0 b Hb) as [Pb|<-].
    - apply (adm_add p (fun j => a * U j) (fun j => b * X j)); apply adm_scale; assumption.
    - apply (adm_ext p (fun j => a * U j)); [intros; ring|]. apply adm_scale; assumption. }
  destruct (Rle_lt_or_eq_dec 0 c Hc) as [Pc|<-].
  - apply (adm_add p (fun j => a * U j + b * X j) (fun j => c * Y j)); [exact H1|]. apply adm_scale; assumption.
  - apply (adm_ext p (fun j => a * U j + b * X j)); [intros; ring|exact H1].
Qed.

(** A gas with positive density and pressure [q] and its sound speed [c]. *)
Definition sound (p : phys) (g : R) (q : nat -> R) (c : R) : Prop :=
  0 < q 0%nat /\ 0 < c /\ (p = Adiab -> 1 < g /\ 0 < q 2%nat /\ c * c = g * q 2%nat / q 0%nat).

Lemma adm_sound : forall p g q c, sound p g q c -> adm p (conserved p g q).
Proof.
  intros p g q c (H0 & Hc & H). split; [exact H0|]. intros E. destruct (H E) as (Hg & H2 & _). subst p. cbn [conserved].
  assert (0 < q 2%nat / (g - 1)) by (apply Rdiv_lt_0_compat; lra). nra.
Qed.

(** The states to the right and to the left of a wave that is faster than
    sound. *)
Lemma adm_wave : forall p g q c s sg, sound p g q c -> (sg = 1 /\ q 1%nat + c <= s \/ sg = -1 /\ s <= q 1%nat - c) ->
  adm p (fun j => sg * (s * conserved p g q j - euler_flux p g c (conserved p g q) j)).
Proof.
  intros p g q c s sg (H0 & Hc & H) Hs. set (d := s - q 1%nat).
  assert (Hd : 0 < sg * d /\ c * c <= d * d).
  { unfold d. destruct Hs as [(-> & Hs)|(-> & Hs)]; split; try lra; nra. }
  assert (Hsg : sg * sg = 1) by (destruct Hs as [(-> & _)|(-> & _)]; ring).
  destruct Hd as (Hd & Hdd).
  assert (E0 : forall p, sg * (s * conserved p g q 0%nat - euler_flux p g c (conserved p g q) 0%nat) = q 0%nat * (sg * d)).
  { intros []; cbn [conserved euler_flux]; unfold d; ring. }
  split; [rewrite E0; apply Rmult_lt_0_compat; assumption|]. intros E. destruct (H E) as (Hg & H2 & Hcc). subst p.
  rewrite E0.
  assert (E1 : sg * (s * conserved Adiab g q 1%nat - euler_flux Adiab g c (conserved Adiab g q) 1%nat) = sg * (q 0%nat * q 1%nat * d - q 2%nat)).
  { cbn [conserved euler_flux]. unfold euler_pressure. cbn [conserved]. unfold d. field. split; lra. }
  assert (E2 : sg * (s * conserved Adiab g q 2%nat - euler_flux Adiab g c (conserved Adiab g q) 2%nat) =
               sg * ((q 2%nat / (g - 1) + q 0%nat * (q 1%nat * q 1%nat) / 2) * d - q 2%nat * q 1%nat)).
  { cbn [conserved euler_flux]. unfold euler_pressure. cbn [conserved]. unfold d. field. split; lra. }
  rewrite E1, E2. set (r := q 0%nat) in *. set (v := q 1%nat) in *. set (P := q 2%nat) in *.
  apply Rminus_gt_0_lt. unfold Rgt.
  replace (2 * (r * (sg * d)) * (sg * ((P / (g - 1) + r * (v * v) / 2) * d - P * v)) - sg * (r * v * d - P) * (sg * (r * v * d - P)))
    with (sg * sg * (P * (2 * (r * (d * d)) / (g - 1) - P))) by (field; lra).
  rewrite Hsg, Rmult_1_l. apply Rmult_lt_0_compat; [exact H2|].
  assert (K : r * (c * c) = g * P) by (rewrite Hcc; field; lra).
  assert (K2 : g * P <= r * (d * d)) by (rewrite <- K; apply Rmult_le_compat_l; lra).
  assert (P < 2 * (r * (d * d)) / (g - 1)); [|lra].
  apply Rmult_lt_reg_r with (g - 1); [lra|]. unfold Rdiv. rewrite (Rmult_assoc _ (/ _)), Rinv_l, Rmult_1_r by lra. nra.
Qed.

(** The intermediate state between two gases. *)
Definition ust (sl sr fl fr ul ur : R) : R := (sr * ur - sl * ul + fl - fr) / (sr - sl).

Lemma rff_ust_l : forall sl sr fl fr ul ur, sl < sr -> rff sl sr fl fr ul ur = fl + sl * (ust sl sr fl fr ul ur - ul).
Proof. intros. unfold rff, ust. field. lra. Qed.
Lemma rff_ust_r : forall sl sr fl fr ul ur, sl < sr -> rff sl sr fl fr ul ur = fr + sr * (ust sl sr fl fr ul ur - ur).
Proof. intros. unfold rff, ust. field. lra. Qed.

Lemma adm_ust : forall p g ql qr cl cr sl sr, sound p g ql cl -> sound p g qr cr -> sl <= ql 1%nat - cl -> qr 1%nat + cr <= sr -> sl < sr ->
  adm p (fun j => ust sl sr (euler_flux p g cl (conserved p g ql) j) (euler_flux p g cr (conserved p g qr) j) (conserved p g ql j) (conserved p g qr j)).
Proof.
  intros p g ql qr cl cr sl sr Hl Hr H1 H2 H3.
  pose proof (adm_wave p g qr cr sr 1 Hr (or_introl (conj eq_refl H2))) as A1.
  pose proof (adm_wave p g ql cl sl (-1) Hl (or_intror (conj eq_refl H1))) as A2.
  pose proof (adm_scale p (/ (sr - sl)) _ ltac:(apply Rinv_0_lt_compat; lra) (adm_add p _ _ A1 A2)) as A3.
  refine (adm_ext p _ _ _ A3). intros j _. unfold ust. field. lra.
Qed.

(** One update of a cell between two others. *)
Lemma adm_update : forall p g q0 q1 q2 c0 c1 c2 mu, sound p g q0 c0 -> sound p g q1 c1 -> sound p g q2 c2 -> 0 <= mu ->
  let sl := rlo (q0 1%nat - c0) (q1 1%nat - c1) in let sr := rhi (q0 1%nat + c0) (q1 1%nat + c1) in
  let tl := rlo (q1 1%nat - c1) (q2 1%nat - c2) in let tr := rhi (q1 1%nat + c1) (q2 1%nat + c2) in
  mu * sr - mu * tl < 1 ->
  adm p (fun j => conserved p g q1 j -
    mu * (rff tl tr (euler_flux p g c1 (conserved p g q1) j) (euler_flux p g c2 (conserved p g q2) j) (conserved p g q1 j) (conserved p g q2 j) -
          rff sl sr (euler_flux p g c0 (conserved p g q0) j) (euler_flux p g c1 (conserved p g q1) j) (conserved p g q0 j) (conserved p g q1 j))).
Proof.
  intros p g q0 q1 q2 c0 c1 c2 mu S0 S1 S2 Hmu sl sr tl tr Hc.
  pose proof (rlo_le (q0 1%nat - c0) (q1 1%nat - c1)) as (L1 & L2 & L3). pose proof (rhi_ge (q0 1%nat + c0) (q1 1%nat + c1)) as (G1 & G2 & G3).
  pose proof (rlo_le (q1 1%nat - c1) (q2 1%nat - c2)) as (M1 & M2 & M3). pose proof (rhi_ge (q1 1%nat + c1) (q2 1%nat + c2)) as (N1 & N2 & N3).
  fold sl in L1, L2, L3. fold sr in G1, G2, G3. fold tl in M1, M2, M3. fold tr in N1, N2, N3.
  destruct S0 as (A0 & B0 & D0) eqn:X0. destruct S1 as (A1 & B1 & D1) eqn:X1. destruct S2 as (A2 & B2 & D2) eqn:X2. clear X0 X1 X2.
  assert (Ls : sl < sr) by lra. assert (Lt : tl < tr) by lra.
  pose proof (adm_ust p g q0 q1 c0 c1 sl sr (conj A0 (conj B0 D0)) (conj A1 (conj B1 D1)) L2 G3 Ls) as U1.
  pose proof (adm_ust p g q1 q2 c1 c2 tl tr (conj A1 (conj B1 D1)) (conj A2 (conj B2 D2)) M2 N3 Lt) as U2.
  pose proof (adm_comb p (1 + mu * tl - mu * sr) (mu * - tl) (mu * sr) (conserved p g q1) _ _ ltac:(lra) ltac:(apply Rmult_le_pos; lra) ltac:(apply Rmult_le_pos; lra)
    (adm_sound p g q1 c1 (conj A1 (conj B1 D1))) U2 U1) as K.
  refine (adm_ext p _ _ _ K). intros j _. rewrite (rff_ust_l tl tr) by exact Lt. rewrite (rff_ust_r sl sr) by exact Ls. ring.
Qed.

Lemma adm_prim : forall p g U, adm p U -> (p = Adiab -> 1 < g) -> 0 < rprim p g U 0 /\ (p = Adiab -> 0 < rprim p g U 2).
Proof.
  intros p g U (H0 & H1) Hg. split; [exact H0|]. intros E. specialize (H1 E). specialize (Hg E). subst p. cbn [rprim]. unfold euler_pressure.
  apply Rmult_lt_0_compat; [lra|]. 
  assert (U 1%nat * U 1%nat / (2 * U 0%nat) < U 2%nat); [|lra].
  apply Rmult_lt_reg_r with (2 * U 0%nat); [lra|]. unfold Rdiv. rewrite Rmult_assoc, Rinv_l, Rmult_1_r by lra. lra.
Qed.
