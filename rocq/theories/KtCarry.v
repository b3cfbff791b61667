(** Steps of KT on a density profile in a uniform flow. *)

From Coq Require Import Reals ZArith NArith QArith Qreals List Bool Lia Lra.
From Verif Require Import Base Num XReal Config Mesh State NumFlux Time Spec SpecFlow SpecStep SpecTableau SpecEuler SpecHealthy SpecCarry
  MeshProofs BoundaryProofs PhysicsProofs FluxProofs UpdateProofs FluxReal FluxThms FluxMore StepProofs StepInv StepEq TableauProofs
  TimeProofs TimeMore AscProofs EulerStep RealRun EulerThms LinRun ConsThms PosProofs HealthProofs CarryProofs P_Flux.
Import ListNotations.
Local Open Scope R_scope.

(** ** Slopes of multiples *)
Lemma rmin_scale : forall k a b, 0 <= k -> Rmin (k * a) (k * b) = k * Rmin a b.
Proof. intros k a b H. unfold Rmin. destruct (Rle_dec a b), (Rle_dec (k * a) (k * b)); nra. Qed.

Lemma rmax_scale : forall k a b, 0 <= k -> Rmax (k * a) (k * b) = k * Rmax a b.
Proof. intros k a b H. unfold Rmax. destruct (Rle_dec a b), (Rle_dec (k * a) (k * b)); nra. Qed.

Lemma rmin_neg : forall a b, Rmin (- a) (- b) = - Rmax a b.
Proof. intros a b. unfold Rmin, Rmax. destruct (Rle_dec a b), (Rle_dec (- a) (- b)); lra. Qed.

Lemma rmax_neg : forall a b, Rmax (- a) (- b) = - Rmin a b.
Proof. intros a b. unfold Rmin, Rmax. destruct (Rle_dec a b), (Rle_dec (- a) (- b)); lra. Qed.

Lemma rmin_zero : forall a b, 0 <= a -> 0 <= b -> a = 0 \/ b = 0 -> Rmin a b = 0.
Proof. intros a b Ha Hb H. unfold Rmin. destruct (Rle_dec a b); lra. Qed.

Definition mslope (l : limiter_mode XRn) (a b th : R) : R := rslope l a b (/ 2 * (a + b)) th.

Lemma mslope_pos : forall l a b th k, tvd_limiter l th -> 0 < k -> mslope l (k * a) (k * b) th = k * mslope l a b th.
Proof.
  intros l a b th k Ht Hk.
  assert (S1 : forall z, 0 < z -> 0 < k * z) by (intros z Hz; apply Rmult_lt_0_compat; assumption).
  assert (S2 : forall z, 0 < k * z -> 0 < z) by (intros z Hz; apply Rmult_lt_reg_l with k; [exact Hk|lra]).
  assert (Ab : forall z, Rabs (k * z) = k * Rabs z) by (intros z; rewrite Rabs_mult, (Rabs_pos_eq k) by lra; reflexivity).
  unfold mslope. replace (/ 2 * (k * a + k * b)) with (k * (/ 2 * (a + b))) by ring.
  destruct l; cbn [tvd_limiter] in Ht; try contradiction; cbn [rslope].
  - destruct (Rlt_dec 0 a), (Rlt_dec 0 (k * a)); try (exfalso; auto; fail); destruct (Rlt_dec 0 b), (Rlt_dec 0 (k * b)); try (exfalso; auto; fail); try ring.
    + apply rmin_scale; lra.
    + apply rmax_scale; lra.
  - replace (k * a * (k * b)) with (k * (k * (a * b))) by ring. rewrite !Ab.
    rewrite rmin_scale, rmax_scale by lra. replace (/ 2 * (k * Rmax (Rabs a) (Rabs b))) with (k * (/ 2 * Rmax (Rabs a) (Rabs b))) by ring. rewrite rmin_scale by lra.
    destruct (Rlt_dec 0 (a * b)), (Rlt_dec 0 (k * (k * (a * b)))); try (exfalso; auto; fail); try ring.
    destruct (Rlt_dec 0 a), (Rlt_dec 0 (k * a)); try (exfalso; auto; fail); ring.
  - replace (th * (k * a)) with (k * (th * a)) by ring. replace (th * (k * b)) with (k * (th * b)) by ring. rewrite !Ab, !rmin_scale by lra.
    destruct (Rlt_dec 0 a), (Rlt_dec 0 (k * a)); try (exfalso; auto; fail); destruct (Rlt_dec 0 b), (Rlt_dec 0 (k * b)); try (exfalso; auto; fail);
      destruct (Rlt_dec 0 (/ 2 * (a + b))), (Rlt_dec 0 (k * (/ 2 * (a + b)))); try (exfalso; auto; fail); ring.
Qed.

Lemma mslope_opp : forall l a b th, tvd_limiter l th -> mslope l (- a) (- b) th = - mslope l a b th.
Proof.
  intros l a b th Ht. unfold mslope. replace (/ 2 * (- a + - b)) with (- (/ 2 * (a + b))) by ring.
  destruct l; cbn [tvd_limiter] in Ht; try contradiction; cbn [rslope].
  - rewrite rmin_neg, rmax_neg. unfold Rmin, Rmax. destruct (Rlt_dec 0 a), (Rlt_dec 0 b), (Rlt_dec 0 (- a)), (Rlt_dec 0 (- b)); destruct (Rle_dec a b); lra.
  - replace (- a * - b) with (a * b) by ring. rewrite !Rabs_Ropp. destruct (Rlt_dec 0 (a * b)); [|ring].
    destruct (Rlt_dec 0 a), (Rlt_dec 0 (- a)); try (exfalso; lra); try ring. assert (a = 0) by lra. subst a. exfalso. lra.
  - replace (th * - a) with (- (th * a)) by ring. replace (th * - b) with (- (th * b)) by ring. rewrite !Rabs_Ropp.
    assert (Z : a = 0 \/ b = 0 -> Rmin (Rabs (th * a)) (Rmin (Rabs (th * b)) (Rabs (/ 2 * (a + b)))) = 0).
    { assert (P : 0 <= Rmin (Rabs (th * b)) (Rabs (/ 2 * (a + b)))) by (apply Rmin_glb; apply Rabs_pos).
      intros [-> | ->].
      - apply rmin_zero; [apply Rabs_pos|exact P|left; rewrite Rmult_0_r; apply Rabs_R0].
      - apply rmin_zero; [apply Rabs_pos|exact P|right]. apply rmin_zero; try apply Rabs_pos. left. rewrite Rmult_0_r; apply Rabs_R0. }
    destruct (Rlt_dec 0 a), (Rlt_dec 0 b), (Rlt_dec 0 (- a)), (Rlt_dec 0 (- b)); try (exfalso; lra);
      destruct (Rlt_dec 0 (/ 2 * (a + b))), (Rlt_dec 0 (- (/ 2 * (a + b)))); try (exfalso; lra); try (rewrite ?Z by lra; lra).
Qed.

Lemma mslope_scale : forall l a b th k, tvd_limiter l th -> mslope l (k * a) (k * b) th = k * mslope l a b th.
Proof.
  intros l a b th k Ht. destruct (Rtotal_order k 0) as [N|[->|P]].
  - replace (k * a) with (- ((- k) * a)) by ring. replace (k * b) with (- ((- k) * b)) by ring. rewrite mslope_opp, mslope_pos by (assumption || lra). ring.
  - rewrite !Rmult_0_l. unfold mslope. replace (/ 2 * (0 + 0)) with 0 by ring. apply rslope_zero.
  - apply mslope_pos; assumption.
Qed.

(** ** The density of a cell as a mean of the densities at faces *)
Lemma mass_split2 : forall sl sr x, sl <= 0 <= sr -> sl <= x <= sr -> sl < sr -> exists P Q,
  0 <= P <= sr /\ 0 <= Q <= - sl /\ P = x + Q /\ forall r0 r1, rff sl sr (r0 * x) (r1 * x) r0 r1 = P * r0 - Q * r1.
Proof.
  intros sl sr x H0 Hx H. exists (sr * (x - sl) / (sr - sl)), ((- sl) * (sr - x) / (sr - sl)).
  assert (I : 0 < / (sr - sl)) by (apply Rinv_0_lt_compat; lra).
  assert (E : (sr - sl) * / (sr - sl) = 1) by (field; lra).
  assert (L1 : (x - sl) * / (sr - sl) <= 1) by (rewrite <- E; apply Rmult_le_compat_r; lra).
  assert (L2 : (sr - x) * / (sr - sl) <= 1) by (rewrite <- E; apply Rmult_le_compat_r; lra).
  assert (N1 : 0 <= (x - sl) * / (sr - sl)) by (apply Rmult_le_pos; lra).
  assert (N2 : 0 <= (sr - x) * / (sr - sl)) by (apply Rmult_le_pos; lra).
  assert (E1 : sr * (x - sl) / (sr - sl) = sr * ((x - sl) * / (sr - sl))) by (unfold Rdiv; ring).
  assert (E2 : (- sl) * (sr - x) / (sr - sl) = (- sl) * ((sr - x) * / (sr - sl))) by (unfold Rdiv; ring).
  split; [rewrite E1; split; [apply Rmult_le_pos; lra|]|split; [rewrite E2; split; [apply Rmult_le_pos; lra|]|split]].
  - apply Rle_trans with (sr * 1); [apply Rmult_le_compat_l; lra|lra].
  - apply Rle_trans with (- sl * 1); [apply Rmult_le_compat_l; lra|lra].
  - field. lra.
  - intros r0 r1. unfold rff. field. lra.
Qed.

Lemma mean_faces : forall mu x P0 Q0 P1 Q1 e0 w1 e1 w2 lo hi, 0 <= mu -> 0 <= P0 -> 0 <= Q1 -> P0 = x + Q0 -> P1 = x + Q1 ->
  mu * P1 <= 1 / 2 -> mu * Q0 <= 1 / 2 -> lo <= e0 <= hi -> lo <= w1 <= hi -> lo <= e1 <= hi -> lo <= w2 <= hi ->
  lo <= (w1 + e1) / 2 - mu * ((P1 * e1 - Q1 * w2) - (P0 * e0 - Q0 * w1)) <= hi.
Proof.
  intros mu x P0 Q0 P1 Q1 e0 w1 e1 w2 lo hi Hm Hp Hq E0 E1 H1 H2 B0 B1 B2 B3.
  assert (A0 : 0 <= mu * P0) by (apply Rmult_le_pos; assumption). assert (A3 : 0 <= mu * Q1) by (apply Rmult_le_pos; assumption).
  set (A1 := 1 / 2 - mu * Q0). set (A2 := 1 / 2 - mu * P1). assert (HA1 : 0 <= A1) by (unfold A1; lra). assert (HA2 : 0 <= A2) by (unfold A2; lra).
  assert (Sum : A1 + A2 + mu * P0 + mu * Q1 = 1) by (unfold A1, A2; rewrite E0, E1; field).
  replace ((w1 + e1) / 2 - mu * ((P1 * e1 - Q1 * w2) - (P0 * e0 - Q0 * w1))) with (A1 * w1 + A2 * e1 + mu * P0 * e0 + mu * Q1 * w2) by (unfold A1, A2; field).
  assert (K : forall t, t = A1 * t + A2 * t + mu * P0 * t + mu * Q1 * t) by (intros t; replace (A1 * t + A2 * t + mu * P0 * t + mu * Q1 * t) with ((A1 + A2 + mu * P0 + mu * Q1) * t) by ring; rewrite Sum; ring).
  split; [rewrite (K lo)|rewrite (K hi)]; repeat apply Rplus_le_compat; apply Rmult_le_compat_l; lra.
Qed.

(** A gas of density [r] in the flow. *)
Definition flow_prim (x q r : R) (j : nat) : R := match j with 0%nat => r | 1%nat => x | _ => q end.

Section Step.
Variables (S : nat) (md : mesh_mode) (a b : R) (c : config XRn) (l : limiter_mode XRn) (th g x q : R).
Notation m := (mesh_build (A:=XRn) S (mkMC (A:=XRn) md (Fin a) (Fin b))).
Notation bw := (init_bc (cf_bc_west c) 3).
Notation be := (init_bc (cf_bc_east c) 3).
Notation st := (fun r j => conserved Adiab g (flow_prim x q r) j).
Hypothesis HS : (6 <= S)%nat.
Hypothesis Hab : a < b.
Hypothesis Hg : pc_gamma (cf_physics c) = Fin g.
Hypothesis Hg1 : 1 < g.
Hypothesis Hnf : nc_numflux (cf_numerics c) = CKt l.
Hypothesis Hth : limiter_theta l = Fin th.
Hypothesis Htvd : tvd_limiter l th.

Lemma kt_carry_cons : forall (s s' : sim XRn (Kt XRn)) val fuel dt,
  reached Adiab S c m (fun _ => True) s -> consistent Adiab S bw be m (cent (s_u s)) -> healthy Adiab S (cent (s_u s)) ->
  carried S x q (cent (s_u s)) ->
  solver_next val fuel Adiab S m s = (s', Ok tt) -> ts_dt (s_ts s') = Fin dt ->
  exists (r cs rw re : nat -> R) mu,
    mu = dt * weight_sum (rc_mode (nc_time (cf_numerics c))) * / (powerRZ 2 (-52) + hx S a b) /\
    (forall i, (i < S)%nat -> at2 (n0 XRn) (prim (cent (s_u s))) 0 i = Fin (r i) /\ at1 (n0 XRn) (c_sound (cent (s_u s))) i = Fin (cs i) /\ 0 < r i /\ 0 < cs i /\ cs i = sqrt (g * q / r i)) /\
    0 < q /\
    (forall i, (1 <= i <= S - 2)%nat -> rw i + re i = 2 * r i /\ Rmin (r (i - 1)%nat) (r i) <= rw i <= Rmax (r (i - 1)%nat) (r i) /\ Rmin (r i) (r (i + 1)%nat) <= re i <= Rmax (r i) (r (i + 1)%nat)) /\
    gamma (cent (s_u s')) = Fin g /\ wsv XRn Adiab S (cent (s_u s')) /\ consistent Adiab S bw be m (cent (s_u s')) /\
    let lo := fun i => rlo (x - sqrt (g * q / re i)) (x - sqrt (g * q / rw (i + 1)%nat)) in
    let hi := fun i => rhi (x + sqrt (g * q / re i)) (x + sqrt (g * q / rw (i + 1)%nat)) in
    let fl := fun i => rff (lo i) (hi i) (re i * x) (rw (i + 1)%nat * x) (re i) (rw (i + 1)%nat) in
    forall i, interior S i -> let R0 := r i - mu * (fl i - fl (i - 1)%nat) in
      at2 (n0 XRn) (prim (cent (s_u s'))) 0 i = Fin R0 /\
      (R0 <> 0 -> at2 (n0 XRn) (prim (cent (s_u s'))) 1 i = Fin x /\ at2 (n0 XRn) (prim (cent (s_u s'))) 2 i = Fin q).
Proof.
  intros s s' val fuel dt Hr0 C H Ca E Hd.
  assert (HS5 : (5 <= S)%nat) by lia.
  destruct (reached_kt _ _ _ _ _ Hr0) as (k0 & Hk & Hr). rewrite Hnf in Hk. cbn [nf_new Kt] in Hk.
  pose proof (kt_memoryless XRn Adiab S m k0 HS5 (std_build XRn S _)) as Hm.
  destruct (reached_ok XRn (Kt XRn) Adiab S m _ HS5 Hm c s Hr) as (Hok & Hb & _ & G & Bw & Be). rewrite Hg in G.
  assert (Wss : wss Adiab S (s_u s)) by apply Hok. pose proof Wss as (W & Ww & We).
  assert (Kl : kt_like XRn (r_nf (s_rhs s)) k0) by apply Hok.
  assert (Gf : gamma (west (s_u s)) = Fin g /\ gamma (east (s_u s)) = Fin g).
  { destruct Hr as (u0 & s0 & (_ & _ & G1 & G2) & N0 & _ & Ev). destruct (evolves_faces XRn (Kt XRn) _ _ _ _ _ Ev) as (F1 & F2). rewrite F1, F2.
    unfold solver_new in N0. apply bind_Ok in N0. destruct N0 as (rh & _ & N0). injection N0 as <-. cbn [s_u]. rewrite G1, G2. auto. }
  assert (Hg2 : Adiab = Adiab -> g <> 1) by (intros _; lra).
  destruct (healthy_fun Adiab S bw be m (cent (s_u s)) g H C G (fun _ => Hg1)) as (Q & cs & P & Qc & Sd).
  assert (Q1 : forall i, (i < S)%nat -> Q 1%nat i = x /\ Q 2%nat i = q).
  { intros i Hi. destruct (Ca i Hi) as (C1 & C2). rewrite (P 1%nat i ltac:(cbn; lia) Hi) in C1. rewrite (P 2%nat i ltac:(cbn; lia) Hi) in C2. injection C1 as ->. injection C2 as ->. auto. }
  assert (Hq : 0 < q).
  { destruct H as (H & _). destruct (H 0%nat ltac:(lia)) as (_ & _ & H2 & _). destruct (H2 eq_refl) as (r2 & E2 & P2). destruct (Ca 0%nat ltac:(lia)) as (_ & C2). rewrite C2 in E2. injection E2 as ->. exact P2. }
  destruct (real_cells Adiab S _ _ m (cent (s_u s)) g Q cs HS5 W C G Hg2 P) as (HU0 & v' & Ev & W' & Rc).
  { intros i Hi. destruct (Qc i Hi) as (K1 & _ & K3). split; [lra|exact K3]. }
  set (r := Q 0%nat).
  assert (Cq : forall i, (i < S)%nat -> forall j, (j < 3)%nat -> conserved Adiab g (fun k => Q k i) j = st (r i) j).
  { intros i Hi j Hj. destruct (Q1 i Hi) as (E1 & E2). destruct j as [|[|[|j]]]; [| | |lia]; cbn [conserved flow_prim]; rewrite ?E1, ?E2; reflexivity. }
  assert (HU : forall i j, (i < S)%nat -> (j < 3)%nat -> at2 (n0 XRn) (cons (cent (s_u s))) j i = Fin (st (r i) j)).
  { intros i j Hi Hj. rewrite (HU0 i j Hi Hj). f_equal. apply Cq; assumption. }
  set (u1 := set_cent v' (s_u s)).
  assert (E1 : st_update_from_cons Adiab S (r_bw (s_rhs s)) (r_be (s_rhs s)) m (s_u s) = Ok u1).
  { unfold st_update_from_cons. rewrite Bw, Be. change (nE Adiab) with 3%nat. rewrite Ev. reflexivity. }
  destruct (nf_calc (Kt XRn) false Adiab S (r_nf (s_rhs s)) (r_full (s_rhs s)) u1 m) as [[[nf full] w] o] eqn:E2.
  assert (Eo : o = Ok tt) by (cbn [nf_calc Kt] in E2; unfold kt_calc in E2; apply (f_equal snd) in E2; symmetry; exact E2). subst o.
  assert (ER : exists h, rhs_update false Adiab S (s_rhs s) (s_u s) m = (h, w, Ok tt) /\ r_nf h = nf).
  { unfold rhs_update. rewrite E1, E2. eexists. split; reflexivity. }
  destruct ER as (h & ER & Hn). cbn [nf_calc Kt] in E2.
  assert (Cv : forall j i, (j < 3)%nat -> (i < S)%nat -> at2 (n0 XRn) (cons (cent u1)) j i = Fin (st (r i) j)).
  { intros j i Hj Hi. rewrite <- Cq by assumption. apply (Rc i Hi). exact Hj. }
  assert (Ur : forall i, (i < S)%nat -> 0 < r i) by (intros i Hi; destruct (Qc i Hi) as (K1 & _); exact K1).
  (* the values at the faces *)
  set (sp := fun i => mslope l (r i - r (i - 1)%nat) (r (i + 1)%nat - r i) th).
  set (rw := fun i => r i - sp i / 2). set (re := fun i => r i + sp i / 2).
  assert (Fac : forall j i, (j < 3)%nat -> (1 <= i <= S - 2)%nat ->
     at2 (n0 XRn) (cons (west w)) j i = Fin (st (rw i) j) /\ at2 (n0 XRn) (cons (east w)) j i = Fin (st (re i) j)).
  { intros j i Hj Hi.
    destruct (kt_reconstruction false Adiab S md a b l th k0 _ _ u1 nf full w (Ok tt) j i _ _ _ HS5 Hab Hth Hk Kl E2 Hj ltac:(lia) ltac:(lia)
      (Cv j (i - 1)%nat Hj ltac:(lia)) (Cv j i Hj ltac:(lia)) (Cv j (i + 1)%nat Hj ltac:(lia))) as (X1 & X2).
    { intros ->. contradiction. }
    rewrite X1, X2. clear X1 X2.
    assert (Kj : exists k z, forall t, st t j = k * t + z).
    { destruct j as [|[|[|j]]]; [exists 1, 0|exists x, 0|exists (x * x / 2), (q / (g - 1))|lia]; intros t; cbn [conserved flow_prim]; field; lra. }
    destruct Kj as (k & z & Kj). cbv beta in Kj. rewrite !Kj.
    match goal with |- context [rslope l ?d1 ?d2 ?d3 th] => change (rslope l d1 d2 d3 th) with (mslope l d1 d2 th);
      replace d1 with (k * (r i - r (i - 1)%nat)) by ring; replace d2 with (k * (r (i + 1)%nat - r i)) by ring end.
    rewrite mslope_scale by exact Htvd. fold (sp i). unfold rw, re. split; f_equal; field. }
  assert (Bd : forall i, (1 <= i <= S - 2)%nat -> Rmin (r (i - 1)%nat) (r i) <= rw i <= Rmax (r (i - 1)%nat) (r i) /\ Rmin (r i) (r (i + 1)%nat) <= re i <= Rmax (r i) (r (i + 1)%nat)).
  { intros i Hi.
    destruct (C23_no_new_extrema false Adiab S md a b l th k0 _ _ u1 nf full w (Ok tt) 0%nat i _ _ _ HS5 Hab Hth Htvd Hk Kl E2 ltac:(cbn; lia) ltac:(lia) ltac:(lia)
      (Cv 0%nat (i - 1)%nat ltac:(lia) ltac:(lia)) (Cv 0%nat i ltac:(lia) ltac:(lia)) (Cv 0%nat (i + 1)%nat ltac:(lia) ltac:(lia))) as (x1 & x2 & X1 & X2 & X3 & X4 & _).
    destruct (Fac 0%nat i ltac:(lia) Hi) as (Y1 & Y2). rewrite X1 in Y1. rewrite X2 in Y2. apply (f_equal fpart) in Y1, Y2. cbn [fpart conserved flow_prim] in Y1, Y2, X3, X4. subst x1 x2. auto. }
  assert (Pos : forall i, (1 <= i <= S - 2)%nat -> 0 < rw i /\ 0 < re i).
  { intros i Hi. destruct (Bd i Hi) as ((L1 & _) & (L2 & _)).
    pose proof (Ur (i - 1)%nat ltac:(lia)). pose proof (Ur i ltac:(lia)). pose proof (Ur (i + 1)%nat ltac:(lia)).
    assert (0 < Rmin (r (i - 1)%nat) (r i)) by (apply Rmin_glb_lt; assumption). assert (0 < Rmin (r i) (r (i + 1)%nat)) by (apply Rmin_glb_lt; assumption). lra. }
  (* the fluxes *)
  set (lo := fun i => rlo (x - sqrt (g * q / re i)) (x - sqrt (g * q / rw (i + 1)%nat))).
  set (hi := fun i => rhi (x + sqrt (g * q / re i)) (x + sqrt (g * q / rw (i + 1)%nat))).
  set (fl := fun i => rff (lo i) (hi i) (re i * x) (rw (i + 1)%nat * x) (re i) (rw (i + 1)%nat)).
  assert (Hgq : 0 < g * q) by (apply Rmult_lt_0_compat; lra).
  assert (Sq : forall t, 0 < t -> 0 < sqrt (g * q / t)) by (intros t Ht; apply sqrt_lt_R0, Rdiv_lt_0_compat; assumption).
  assert (Ord : forall i, (1 <= i <= S - 3)%nat -> lo i < hi i).
  { intros i Hi. destruct (Pos i ltac:(lia)) as (_ & P1). pose proof (Sq _ P1).
    pose proof (rlo_le (x - sqrt (g * q / re i)) (x - sqrt (g * q / rw (i + 1)%nat))). pose proof (rhi_ge (x + sqrt (g * q / re i)) (x + sqrt (g * q / rw (i + 1)%nat))). unfold lo, hi. lra. }
  set (F := fun (j i : nat) => match j with 0%nat => fl i | 1%nat => x * fl i + q | _ => (x * x / 2) * fl i + x * (q / (g - 1) + q) end).
  assert (Pr : forall t, 0 < t -> rprim Adiab g (st t) 0 = t /\ rprim Adiab g (st t) 2 = q /\ st t 1%nat / st t 0%nat = x).
  { intros t Ht. cbn [rprim conserved flow_prim]. unfold euler_pressure. cbn [conserved flow_prim]. repeat split; field; lra. }
  assert (HF : forall j i, (j < nE Adiab)%nat -> (1 <= i <= S - 3)%nat -> at2 (n0 XRn) (k_flux_num (r_nf h : kt XRn)) j i = Fin (F j i)).
  { intros j i Hj Hi. rewrite Hn.
    pose proof (kt_num XRn false Adiab S (r_nf (s_rhs s)) (r_full (s_rhs s)) u1 m (std_build XRn S _) Ww We j i Hj ltac:(lia) ltac:(lia) ltac:(lia)) as K.
    rewrite E2 in K. cbn [fst] in K. rewrite K. clear K.
    destruct (Pos i ltac:(lia)) as (_ & P1). destruct (Pos (i + 1)%nat ltac:(lia)) as (P2 & _).
    destruct (Pr _ P1) as (A1 & A2 & A3). destruct (Pr _ P2) as (A4 & A5 & A6).
    pose proof (Ord i Hi) as O. unfold lo, hi in O.
    rewrite (kt_fn_R Adiab S md a b _ u1 g j i 0 0 (st (re i)) (st (rw (i + 1)%nat))); [|exact Hj|lia|apply Gf|apply Gf| | |exact P1|exact P2| |discriminate|].
    - cbn [rsound]. rewrite A1, A2, A3, A4, A5, A6. fold (lo i) (hi i) in O |- *. f_equal.
      unfold F. destruct j as [|[|[|j]]]; [| | |cbn in Hj; lia]; cbn [euler_flux conserved flow_prim]; unfold euler_pressure; cbn [conserved flow_prim]; unfold fl, rff; field; lra.
    - intros k Hk2. destruct (kt_faces XRn _ _ _ _ _ _ _ _ _ _ _ k i E2 Hk2 ltac:(lia) ltac:(lia)) as (_ & K & _). rewrite <- K. apply (Fac k i Hk2). lia.
    - intros k Hk2. destruct (kt_faces XRn _ _ _ _ _ _ _ _ _ _ _ k (i + 1) E2 Hk2 ltac:(lia) ltac:(lia)) as (K & _ & _). rewrite <- K. apply (Fac k (i + 1)%nat Hk2). lia.
    - intros _. rewrite A2, A5. lra.
    - cbn [rsound]. rewrite A1, A2, A3, A4, A5, A6. exact O. }
  (* the step *)
  pose proof (kt_slopes Adiab S md a b HS5 Hab s false h w F Wss ER HF) as Hf.
  pose proof (reached_rhs (Kt XRn) Adiab S m _ c s _ HS5 Hm Hr Hf) as Hv.
  pose proof (next_of_solver _ _ _ _ _ _ _ _ _ E) as E'.
  destruct (euler_step (Kt XRn) Adiab S m _ val fuel _ s s' _ dt HS5 Hm Hok Hb Hv E' Hd) as (v0 & Up & W0 & G0 & _ & Co).
  rewrite weight_high in Co.
  destruct (update_from_cons_view XRn Adiab S _ _ m v0 _ HS5 W0 Up) as (W2 & G' & _ & _ & P' & _). rewrite G0, G in P', G'.
  assert (C' : consistent Adiab S bw be m (cent (s_u s'))).
  { pose proof (next_consistent XRn (Kt XRn) _ _ _ _ _ _ _ HS W E') as K.
    pose proof (rkf_next_cases XRn (Kt XRn) _ _ _ _ _ _ _ _ E') as (_ & (B3 & B4) & _). rewrite B3, B4, Bw, Be in K. exact K. }
  set (mu := dt * weight_sum (rc_mode (nc_time (cf_numerics c))) * / (powerRZ 2 (-52) + hx S a b)).
  exists r, cs, rw, re, mu. split; [reflexivity|]. split.
  { intros i Hi. destruct (Qc i Hi) as (K1 & K2 & K3). split; [apply P; [cbn; lia|exact Hi]|]. split; [exact K3|]. split; [exact K1|]. split; [exact K2|].
    pose proof (cst_sound _ _ _ _ _ _ _ C i eq_refl Hi) as Z. rewrite K3, G, !P in Z by (cbn; lia). destruct (Q1 i Hi) as (_ & Eq).
    cbv zeta in Z. rewrite Eq in Z. rewrite X_mul, X_div in Z by lra. 
    rewrite X_sqrt in Z by (apply Rlt_le, Rdiv_lt_0_compat; assumption). injection Z as ->. reflexivity. }
  split; [exact Hq|]. split.
  { intros i Hi. split; [unfold rw, re; lra|apply Bd; exact Hi]. }
  split; [exact G'|]. split; [exact W2|]. split; [exact C'|]. cbv zeta. intros i Hi. pose proof Hi as Hi'. unfold interior in Hi'.
  set (R0 := r i - mu * (fl i - fl (i - 1)%nat)).
  assert (V : forall k, (k < 3)%nat -> at2 (n0 XRn) (cons v0) k i = Fin (st (r i) k - mu * (F k i - F k (i - 1)%nat))).
  { intros k Hk2. rewrite (Co k i _ Hk2 ltac:(lia) (HU i k ltac:(lia) Hk2)). cbv beta. rewrite inner_true by lia. f_equal. unfold mu, hx. ring. }
  set (U := fun k => st (r i) k - mu * (F k i - F k (i - 1)%nat)) in *.
  assert (U0 : U 0%nat = R0) by (unfold U, R0, F; cbn [conserved flow_prim]; reflexivity).
  assert (U1 : U 1%nat = x * R0) by (unfold U, R0, F; cbn [conserved flow_prim]; ring).
  assert (U2 : U 2%nat = x * x / 2 * R0 + q / (g - 1)) by (unfold U, R0, F; cbn [conserved flow_prim]; field; lra).
  fold (fl i) (fl (i - 1)%nat). change (at2 (n0 XRn) (prim (cent (s_u s'))) 0 i = Fin R0 /\ (R0 <> 0 -> at2 (n0 XRn) (prim (cent (s_u s'))) 1 i = Fin x /\ at2 (n0 XRn) (prim (cent (s_u s'))) 2 i = Fin q)).
  split.
  - rewrite (P' 0%nat i ltac:(cbn; lia) Hi). change (at2 (n0 XRn) (cons v0) 0 i = Fin R0). rewrite V by lia. f_equal; exact U0.
  - intros N0.
    assert (K : forall j, (j < 3)%nat -> at2 (n0 XRn) (prim (cent (s_u s'))) j i = Fin (rprim Adiab g U j)).
    { intros j Hj. rewrite (P' j i Hj Hi). apply c2p_R; [rewrite U0; exact N0|exact Hj|exact V]. }
    rewrite !K by lia. cbn [rprim]. unfold euler_pressure. rewrite U0, U1, U2. split; f_equal; field; try exact N0; lra.
Qed.
(** Velocity and pressure after a step whose densities are not zero. *)
Lemma kt_carry_step : forall (s s' : sim XRn (Kt XRn)) val fuel dt,
  reached Adiab S c m (fun _ => True) s -> consistent Adiab S bw be m (cent (s_u s)) -> healthy Adiab S (cent (s_u s)) ->
  carried S x q (cent (s_u s)) -> copies_flow bw -> copies_flow be ->
  solver_next val fuel Adiab S m s = (s', Ok tt) -> ts_dt (s_ts s') = Fin dt ->
  (forall i, interior S i -> at2 (n0 XRn) (prim (cent (s_u s'))) 0 i <> Fin 0) -> carried S x q (cent (s_u s')).
Proof.
  intros s s' val fuel dt Hr C H Ca Bw Be E Hd Nz.
  destruct (kt_carry_cons s s' val fuel dt Hr C H Ca E Hd) as (r & cs & rw & re & mu & _ & _ & _ & _ & G' & W' & C' & K). cbv zeta in K.
  assert (In1 : forall i, interior S i -> at2 (n0 XRn) (prim (cent (s_u s'))) 1 i = Fin x /\ at2 (n0 XRn) (prim (cent (s_u s'))) 2 i = Fin q).
  { intros i Hi. destruct (K i Hi) as (K0 & K1). apply K1. intros Z. apply (Nz i Hi). rewrite K0, Z. reflexivity. }
  intros i Hi. destruct (cell_cases S i HS Hi) as [Hin|(sd & k & Hk & ->)]; [apply In1; exact Hin|].
  assert (I0 : interior S (inner_cell sd S 0)) by (destruct sd; unfold interior, inner_cell; lia).
  destruct (In1 _ I0) as (J1 & J2).
  destruct sd; [rewrite !(copied_flow_ghost West S m bw)|rewrite !(copied_flow_ghost East S m be)]; auto; try apply C'; apply W'.
Qed.

(** Densities after a Courant limited step. *)
Lemma kt_carry_density : forall (s s' : sim XRn (Kt XRn)) val fuel dt,
  reached Adiab S c m (fun _ => True) s -> consistent Adiab S bw be m (cent (s_u s)) -> healthy Adiab S (cent (s_u s)) ->
  carried S x q (cent (s_u s)) ->
  solver_next val fuel Adiab S m s = (s', Ok tt) -> ts_dt (s_ts s') = Fin dt -> 0 <= dt -> courant_limited S (hx S a b) dt (cent (s_u s)) ->
  no_new_extrema S (cent (s_u s)) (cent (s_u s')).
Proof.
  intros s s' val fuel dt Hr C H Ca E Hd Pd Cfl.
  destruct (kt_carry_cons s s' val fuel dt Hr C H Ca E Hd) as (r & cs & rw & re & mu & Emu & R & Hq & Fa & _ & _ & _ & K). cbv zeta in K.
  intros i r0 r1 r2 Hi E0 E1 E2. pose proof Hi as Hi'. unfold interior in Hi'. destruct (K i Hi) as (K0 & _). eexists. split; [exact K0|]. clear K K0.
  destruct (R (i - 1)%nat ltac:(lia)) as (A0 & _ & D0 & _). destruct (R i ltac:(lia)) as (A1 & _ & D1 & _). destruct (R (i + 1)%nat ltac:(lia)) as (A2 & _ & D2 & _).
  rewrite A0 in E0. rewrite A1 in E1. rewrite A2 in E2. injection E0 as <-. injection E1 as <-. injection E2 as <-.
  assert (Ei : (i - 1 + 1)%nat = i) by lia. rewrite Ei.
  assert (Hgq : 0 < g * q) by (apply Rmult_lt_0_compat; lra).
  (* waves at the faces are not faster than those of the cells *)
  assert (M : forall k, (k < S)%nat -> dt * (x + cs k) <= hx S a b / 2 /\ - (hx S a b / 2) <= dt * (x - cs k)).
  { intros k Hk. destruct (R k Hk) as (_ & Bk & _). destruct (Ca k Hk) as (Ck & _). destruct (Cfl k _ _ Hk Ck Bk) as (C1 & C2).
    pose proof (Rle_abs (x + cs k)) as Z1. pose proof (Rle_abs (- (x - cs k))) as Z2. rewrite Rabs_Ropp in Z2. split; nra. }
  assert (Wv : forall k k' t, (k < S)%nat -> (k' < S)%nat -> Rmin (r k) (r k') <= t ->
    0 < sqrt (g * q / t) /\ dt * (x + sqrt (g * q / t)) <= hx S a b / 2 /\ - (hx S a b / 2) <= dt * (x - sqrt (g * q / t))).
  { intros k k' t Hk Hk' Ht.
    assert (J : exists n, (n < S)%nat /\ r n <= t) by (unfold Rmin in Ht; destruct (Rle_dec (r k) (r k')); eauto).
    destruct J as (n & Hn & Hnt). destruct (R n Hn) as (_ & _ & Rp & _ & Ec). destruct (M n Hn) as (M1 & M2).
    assert (L : sqrt (g * q / t) <= cs n).
    { rewrite Ec. apply sqrt_le_1_alt. unfold Rdiv. apply Rmult_le_compat_l; [lra|]. apply Rinv_le_contravar; assumption. }
    split; [apply sqrt_lt_R0, Rdiv_lt_0_compat; lra|]. split; nra. }
  destruct (Fa (i - 1)%nat ltac:(lia)) as (_ & _ & B0). rewrite Ei in B0. destruct (Fa i ltac:(lia)) as (Sm & B1 & B2).
  destruct (Fa (i + 1)%nat ltac:(lia)) as (_ & B3 & _). replace (i + 1 - 1)%nat with i in B3 by lia.
  destruct (Wv (i - 1)%nat i (re (i - 1)%nat) ltac:(lia) ltac:(lia) (proj1 B0)) as (N1 & N2 & N3).
  destruct (Wv (i - 1)%nat i (rw i) ltac:(lia) ltac:(lia) (proj1 B1)) as (N4 & N5 & N6).
  destruct (Wv i (i + 1)%nat (re i) ltac:(lia) ltac:(lia) (proj1 B2)) as (N7 & N8 & N9).
  destruct (Wv i (i + 1)%nat (rw (i + 1)%nat) ltac:(lia) ltac:(lia) (proj1 B3)) as (N10 & N11 & N12).
  set (c0 := sqrt (g * q / re (i - 1)%nat)) in *. set (c1 := sqrt (g * q / rw i)) in *. set (c2 := sqrt (g * q / re i)) in *. set (c3 := sqrt (g * q / rw (i + 1)%nat)) in *.
  assert (Bx : forall p1 p2, 0 < p1 -> 0 < p2 -> dt * (x + p1) <= hx S a b / 2 -> dt * (x + p2) <= hx S a b / 2 -> - (hx S a b / 2) <= dt * (x - p1) -> - (hx S a b / 2) <= dt * (x - p2) ->
    let sl := rlo (x - p1) (x - p2) in let sr := rhi (x + p1) (x + p2) in
    sl <= 0 <= sr /\ sl <= x <= sr /\ sl < sr /\ dt * sr <= hx S a b / 2 /\ dt * (- sl) <= hx S a b / 2).
  { assert (Hh : 0 < hx S a b) by (apply hx_pos; [lia|exact Hab]).
    intros p1 p2 Z1 Z2 Z3 Z4 Z5 Z6 sl sr. unfold sl, sr, rlo, rhi, Rmin, Rmax. repeat destruct (Rle_dec _ _); repeat split; try lra; nra. }
  destruct (Bx c0 c1 N1 N4 N2 N5 N3 N6) as (O1 & O2 & O3 & O4 & O5). destruct (Bx c2 c3 N7 N10 N8 N11 N9 N12) as (O6 & O7 & O8 & O9 & O10). clear Bx.
  destruct (mass_split2 _ _ _ O1 O2 O3) as (P0 & Q0 & LP0 & LQ0 & EP0 & F0). destruct (mass_split2 _ _ _ O6 O7 O8) as (P1 & Q1 & LP1 & LQ1 & EP1 & F1).
  rewrite F0, F1. replace (r i - mu * (P1 * re i - Q1 * rw (i + 1)%nat - (P0 * re (i - 1)%nat - Q0 * rw i))) with ((rw i + re i) / 2 - mu * (P1 * re i - Q1 * rw (i + 1)%nat - (P0 * re (i - 1)%nat - Q0 * rw i))) by lra.
  assert (Hh : 0 < hx S a b) by (apply hx_pos; [lia|exact Hab]).
  pose proof eps_pos as He. set (ep := powerRZ 2 (-52)) in *.
  assert (HD : 0 < / (ep + hx S a b)) by (apply Rinv_0_lt_compat; lra).
  set (B := weight_sum (rc_mode (nc_time (cf_numerics c)))) in *. assert (HB : 0 < B <= 1) by (unfold B; destruct (rc_mode _); cbn; lra).
  assert (Hmu : 0 <= mu) by (rewrite Emu; apply Rmult_le_pos; [apply Rmult_le_pos; lra|lra]).
  assert (T2 : / (ep + hx S a b) * hx S a b < 1).
  { apply Rmult_lt_reg_l with (ep + hx S a b); [lra|]. rewrite <- Rmult_assoc, Rinv_r, Rmult_1_l, Rmult_1_r by lra. lra. }
  assert (T3 : 0 < / (ep + hx S a b) * hx S a b) by (apply Rmult_lt_0_compat; assumption).
  assert (Half : forall P sp, 0 <= P <= sp -> dt * sp <= hx S a b / 2 -> mu * P <= 1 / 2).
  { intros P sp (LP & LP') Hs. apply Rle_trans with (mu * sp); [apply Rmult_le_compat_l; assumption|].
    replace (mu * sp) with (B * / (ep + hx S a b) * (dt * sp)) by (rewrite Emu; ring).
    apply Rle_trans with (B * / (ep + hx S a b) * (hx S a b / 2)); [apply Rmult_le_compat_l; [apply Rmult_le_pos; lra|exact Hs]|]. nra. }
  apply (mean_faces mu x P0 Q0 P1 Q1); try lra; eauto.
  - unfold Rmin, Rmax in *. repeat destruct (Rle_dec _ _); lra.
  - unfold Rmin, Rmax in *. repeat destruct (Rle_dec _ _); lra.
  - unfold Rmin, Rmax in *. repeat destruct (Rle_dec _ _); lra.
  - unfold Rmin, Rmax in *. repeat destruct (Rle_dec _ _); lra.
Qed.

(** A Courant limited step leaves a healthy gas. *)
Lemma kt_carry_healthy : forall (s s' : sim XRn (Kt XRn)) val fuel dt,
  reached Adiab S c m (fun _ => True) s -> consistent Adiab S bw be m (cent (s_u s)) -> healthy Adiab S (cent (s_u s)) ->
  carried S x q (cent (s_u s)) -> copies_flow bw -> copies_flow be ->
  solver_next val fuel Adiab S m s = (s', Ok tt) -> ts_dt (s_ts s') = Fin dt -> 0 <= dt -> courant_limited S (hx S a b) dt (cent (s_u s)) ->
  healthy Adiab S (cent (s_u s')) /\ consistent Adiab S bw be m (cent (s_u s')) /\ carried S x q (cent (s_u s')).
Proof.
  intros s s' val fuel dt Hr C H Ca Bw Be E Hd Pd Cfl.
  pose proof (kt_carry_density s s' val fuel dt Hr C H Ca E Hd Pd Cfl) as Ne.
  assert (Den : forall i, interior S i -> exists r, at2 (n0 XRn) (prim (cent (s_u s'))) 0 i = Fin r /\ 0 < r).
  { intros i Hi. pose proof Hi as Hi'. unfold interior in Hi'. destruct H as (H & _).
    destruct (H (i - 1)%nat ltac:(lia)) as ((r0 & E0 & P0) & _). destruct (H i ltac:(lia)) as ((r1 & E1 & P1) & _). destruct (H (i + 1)%nat ltac:(lia)) as ((r2 & E2 & P2) & _).
    destruct (Ne i r0 r1 r2 Hi E0 E1 E2) as (r & Er & Lr & _). exists r. split; [exact Er|].
    apply Rlt_le_trans with (Rmin r0 (Rmin r1 r2)); [|exact Lr]. repeat apply Rmin_glb_lt; assumption. }
  assert (Ca' : carried S x q (cent (s_u s'))).
  { apply (kt_carry_step s s' val fuel dt Hr C H Ca Bw Be E Hd). intros i Hi Z. destruct (Den i Hi) as (r & Er & Pr). rewrite Er in Z. injection Z as ->. lra. }
  destruct (kt_carry_cons s s' val fuel dt Hr C H Ca E Hd) as (_ & _ & _ & _ & _ & _ & _ & Hq & _ & G' & W' & C' & _).
  split; [|split; [exact C'|exact Ca']].
  assert (D : forall i, (i < S)%nat -> exists r, at2 (n0 XRn) (prim (cent (s_u s'))) 0 i = Fin r /\ 0 < r).
  { intros i Hi. destruct (cell_cases S i HS Hi) as [Hin|(sd & k & Hk2 & ->)]; [apply Den; exact Hin|].
    assert (Al : forall j i, (j < nE Adiab)%nat -> interior S i -> exists r, at2 (n0 XRn) (prim (cent (s_u s'))) j i = Fin r /\ (j <> 1%nat -> 0 < r)).
    { intros j n Hj Hn. pose proof Hn as Hn'. unfold interior in Hn'. destruct (Ca' n ltac:(lia)) as (K1 & K2).
      destruct j as [|[|[|j]]]; [destruct (Den n Hn) as (r & Er & Pr); eauto|exists x; split; [exact K1|lia]|exists q; auto|cbn in Hj; lia]. }
    assert (X : exists r, at2 (n0 XRn) (prim (cent (s_u s'))) 0 (ghost_cell sd S k) = Fin r /\ (0%nat <> 1%nat -> 0 < r)).
    { destruct sd; [apply (gentle_ghost Adiab West S m bw)|apply (gentle_ghost Adiab East S m be)];
      try assumption; try (apply W'); try (apply C'); try (apply copies_gentle; assumption); try (cbn; lia); intros n Hn; apply Al; (assumption || (cbn; lia)). }
    destruct X as (r & Er & Pr). exists r. split; [exact Er|apply Pr; lia]. }
  split.
  - intros i Hi. destruct (D i Hi) as (r & Er & Pr). destruct (Ca' i Hi) as (K1 & K2). split; [eauto|]. split; [eauto|]. split; [eauto|].
    pose proof (cst_sound _ _ _ _ _ _ _ C' i eq_refl Hi) as Z. rewrite G', Er, K2 in Z. 
    assert (Hgq : 0 < g * q) by (apply Rmult_lt_0_compat; lra).
    rewrite X_mul, X_div in Z by lra. rewrite X_sqrt in Z by (apply Rlt_le, Rdiv_lt_0_compat; assumption). rewrite Z.
    eexists. split; [reflexivity|]. apply sqrt_lt_R0, Rdiv_lt_0_compat; assumption.
  - intros j i Hj Hi. rewrite (cst_cons _ _ _ _ _ _ _ C' j i Hj Hi), G'. destruct (D i Hi) as (r & Er & Pr). destruct (Ca' i Hi) as (K1 & K2).
    exists (conserved Adiab g (flow_prim x q r) j).
    apply (p2c_R Adiab g (flow_prim x q r) (fun k => at2 (n0 XRn) (prim (cent (s_u s'))) k i)); [intros _; lra|exact Hj|].
    intros k Hk. destruct k as [|[|[|k]]]; [exact Er|exact K1|exact K2|cbn in Hk; lia].
Qed.
End Step.
