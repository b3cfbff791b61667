(** Steps of HLL on a density profile in a uniform flow. *)

From Coq Require Import Reals ZArith NArith QArith Qreals List Bool Lia Lra.
From Verif Require Import Base Num XReal Config Mesh State NumFlux Time Spec SpecFlow SpecStep SpecTableau SpecEuler SpecHealthy SpecCarry
  MeshProofs BoundaryProofs PhysicsProofs FluxProofs UpdateProofs FluxReal FluxThms FluxMore StepProofs StepInv StepEq TableauProofs
  TimeProofs TimeMore AscProofs EulerStep RealRun EulerThms LinRun ConsThms PosProofs HealthProofs.
Import ListNotations.
Local Open Scope R_scope.

(** The mass flux as a difference of what leaves the two cells. *)
Lemma mass_split : forall sl sr x, sl <= 0 <= sr -> sl <= x <= sr -> sl < sr -> exists P Q,
  0 <= P <= x - sl /\ 0 <= Q <= sr - x /\ P = x + Q /\ forall r0 r1, rff sl sr (r0 * x) (r1 * x) r0 r1 = P * r0 - Q * r1.
Proof.
  intros sl sr x H0 Hx H. exists (sr * (x - sl) / (sr - sl)), ((- sl) * (sr - x) / (sr - sl)).
  assert (I : 0 < / (sr - sl)) by (apply Rinv_0_lt_compat; lra).
  assert (E : (sr - sl) * / (sr - sl) = 1) by (field; lra).
  assert (L1 : sr * / (sr - sl) <= 1) by (rewrite <- E; apply Rmult_le_compat_r; lra).
  assert (L2 : (- sl) * / (sr - sl) <= 1) by (rewrite <- E; apply Rmult_le_compat_r; lra).
  assert (N1 : 0 <= sr * / (sr - sl)) by (apply Rmult_le_pos; lra).
  assert (N2 : 0 <= (- sl) * / (sr - sl)) by (apply Rmult_le_pos; lra).
  assert (E1 : sr * (x - sl) / (sr - sl) = (sr * / (sr - sl)) * (x - sl)) by (unfold Rdiv; ring).
  assert (E2 : (- sl) * (sr - x) / (sr - sl) = ((- sl) * / (sr - sl)) * (sr - x)) by (unfold Rdiv; ring).
  split; [rewrite E1; split; [apply Rmult_le_pos; lra|]|split; [rewrite E2; split; [apply Rmult_le_pos; lra|]|split]].
  - rewrite <- (Rmult_1_l (x - sl)) at 2. apply Rmult_le_compat_r; lra.
  - rewrite <- (Rmult_1_l (sr - x)) at 2. apply Rmult_le_compat_r; lra.
  - field. lra.
  - intros r0 r1. unfold rff. field. lra.
Qed.

(** The new density is a weighted mean. *)
Lemma mean_density : forall mu x P0 Q0 P1 Q1 r0 r1 r2 lo hi, 0 <= mu ->
  0 <= P0 -> 0 <= Q1 -> P0 = x + Q0 -> P1 = x + Q1 -> mu * (P1 + Q0) <= 1 ->
  lo <= r0 <= hi -> lo <= r1 <= hi -> lo <= r2 <= hi ->
  lo <= r1 - mu * ((P1 * r1 - Q1 * r2) - (P0 * r0 - Q0 * r1)) <= hi.
Proof.
  intros mu x P0 Q0 P1 Q1 r0 r1 r2 lo hi Hm Hp Hq E0 E1 Hc H0 H1 H2.
  assert (A0 : 0 <= mu * P0) by (apply Rmult_le_pos; assumption). assert (A2 : 0 <= mu * Q1) by (apply Rmult_le_pos; assumption).
  set (A1 := 1 - mu * (P1 + Q0)). assert (HA : 0 <= A1) by (unfold A1; lra).
  assert (Sum : A1 + mu * P0 + mu * Q1 = 1) by (unfold A1; rewrite E0, E1; ring).
  replace (r1 - mu * ((P1 * r1 - Q1 * r2) - (P0 * r0 - Q0 * r1))) with (A1 * r1 + mu * P0 * r0 + mu * Q1 * r2) by (unfold A1; ring).
  assert (K : forall t, t = A1 * t + mu * P0 * t + mu * Q1 * t) by (intros t; replace (A1 * t + mu * P0 * t + mu * Q1 * t) with ((A1 + mu * P0 + mu * Q1) * t) by ring; rewrite Sum; ring).
  split; [rewrite (K lo)|rewrite (K hi)]; (apply Rplus_le_compat; [apply Rplus_le_compat|]); apply Rmult_le_compat_l; lra.
Qed.

(** Ghost cells *)
Lemma copied_ghost : forall s S (m : mesh XRn) l (v : vars XRn) j k, (6 <= S)%nat -> shape 3 S (prim v) ->
  In j (map fst l) -> (forall md, In (j, md) l -> md = NoGradients) ->
  bc_apply s Adiab S m l v = Ok v -> (k = 1 \/ k = 2)%nat ->
  at2 (n0 XRn) (prim v) j (ghost_cell s S k) = at2 (n0 XRn) (prim v) j (inner_cell s S 0).
Proof.
  intros s S m l v j k HS Hsh Hall Hg Hb Hk.
  apply bc_apply_Ok in Hb. destruct Hb as (q & Hq & Ev). apply (f_equal prim) in Ev. cbn [prim set_prim] in Ev. subst q.
  destruct (last_entry l j) as [Hn|(l1 & md & l2 & Hl & Hl2)]; [contradiction|].
  assert (Hm : In (j, md) l) by (rewrite Hl; apply in_or_app; right; left; reflexivity).
  rewrite (apply_modes_ghost XRn s 3 S m l (prim v) (prim v) j k l1 md l2 ltac:(lia) Hsh Hq Hl Hl2 Hk).
  rewrite (Hg md Hm). reflexivity.
Qed.

Lemma copied_flow_ghost : forall s S (m : mesh XRn) l (v : vars XRn) j k, (6 <= S)%nat -> shape 3 S (prim v) -> copies_flow l ->
  bc_apply s Adiab S m l v = Ok v -> (j = 1 \/ j = 2)%nat -> (k = 1 \/ k = 2)%nat ->
  at2 (n0 XRn) (prim v) j (ghost_cell s S k) = at2 (n0 XRn) (prim v) j (inner_cell s S 0).
Proof.
  intros s S m l v j k HS Hsh (Hall & Hg) Hb Hj Hk. apply (copied_ghost s S m l); auto; [apply Hall; lia|].
  intros md Hm. destruct (Hg j md Hm) as [->|(-> & _)]; [reflexivity|lia].
Qed.

Lemma copies_gentle : forall l, copies_flow l -> gentle_bc 3 l.
Proof. intros l (H1 & H2). split; [exact H1|]. intros j md H. destruct (H2 j md H) as [->|(_ & ->)]; auto. Qed.

Section Step.
Variables (S : nat) (md : mesh_mode) (a b : R) (c : config XRn) (g x q : R).
Notation m := (mesh_build (A:=XRn) S (mkMC (A:=XRn) md (Fin a) (Fin b))).
Notation bw := (init_bc (cf_bc_west c) 3).
Notation be := (init_bc (cf_bc_east c) 3).
Hypothesis HS : (6 <= S)%nat.
Hypothesis Hab : a < b.
Hypothesis Hg : pc_gamma (cf_physics c) = Fin g.
Hypothesis Hg1 : 1 < g.

(** The conserved variables after a step. *)
Lemma carry_cons : forall (s s' : sim XRn (Hll XRn)) val fuel dt,
  reached Adiab S c m (fun _ => True) s -> consistent Adiab S bw be m (cent (s_u s)) -> healthy Adiab S (cent (s_u s)) ->
  carried S x q (cent (s_u s)) ->
  solver_next val fuel Adiab S m s = (s', Ok tt) -> ts_dt (s_ts s') = Fin dt ->
  exists (r : nat -> R) (cs : nat -> R) mu,
    mu = dt * weight_sum (rc_mode (nc_time (cf_numerics c))) * / (powerRZ 2 (-52) + hx S a b) /\
    (forall i, (i < S)%nat -> at2 (n0 XRn) (prim (cent (s_u s))) 0 i = Fin (r i) /\ at1 (n0 XRn) (c_sound (cent (s_u s))) i = Fin (cs i) /\ 0 < cs i) /\
    gamma (cent (s_u s')) = Fin g /\ shape 3 S (prim (cent (s_u s'))) /\ consistent Adiab S bw be m (cent (s_u s')) /\
    let fl := fun i => rff (face_lo (fun _ => x) cs i) (face_hi (fun _ => x) cs i) (r i * x) (r (i + 1)%nat * x) (r i) (r (i + 1)%nat) in
    forall i, interior S i -> let R0 := r i - mu * (fl i - fl (i - 1)%nat) in
      at2 (n0 XRn) (prim (cent (s_u s'))) 0 i = Fin R0 /\
      (R0 <> 0 -> at2 (n0 XRn) (prim (cent (s_u s'))) 1 i = Fin x /\ at2 (n0 XRn) (prim (cent (s_u s'))) 2 i = Fin q).
Proof.
  intros s s' val fuel dt Hr C H Ca E Hd.
  assert (HS5 : (5 <= S)%nat) by lia.
  pose proof (hll_memoryless XRn Adiab S m HS5 (std_build XRn S _)) as Hm.
  destruct (reached_ok XRn (Hll XRn) Adiab S m _ HS5 Hm c s Hr) as (Hok & Hb & _ & G & Bw & Be). rewrite Hg in G.
  assert (W : wsv XRn Adiab S (cent (s_u s))) by apply Hok.
  assert (Hg2 : Adiab = Adiab -> g <> 1) by (intros _; lra).
  destruct (healthy_fun Adiab S bw be m (cent (s_u s)) g H C G (fun _ => Hg1)) as (Q & cs & P & Qc & Sd).
  assert (Q1 : forall i, (i < S)%nat -> Q 1%nat i = x /\ Q 2%nat i = q).
  { intros i Hi. destruct (Ca i Hi) as (C1 & C2). rewrite (P 1%nat i ltac:(cbn; lia) Hi) in C1. rewrite (P 2%nat i ltac:(cbn; lia) Hi) in C2. injection C1 as ->. injection C2 as ->. auto. }
  destruct (hll_real_all Adiab S md a b s _ _ g Q cs HS5 Hab W Bw Be C G Hg2 P Qc) as (h & w & ER & HF).
  set (F := fun j i => rff (face_lo (Q 1%nat) cs i) (face_hi (Q 1%nat) cs i)
         (euler_flux Adiab g (cs i) (conserved Adiab g (fun k => Q k i)) j) (euler_flux Adiab g (cs (i + 1)%nat) (conserved Adiab g (fun k => Q k (i + 1)%nat)) j)
         (conserved Adiab g (fun k => Q k i) j) (conserved Adiab g (fun k => Q k (i + 1)%nat) j)) in *.
  pose proof (hll_slopes Adiab S md a b HS5 Hab s false h w F ER HF) as Hf.
  pose proof (reached_rhs (Hll XRn) Adiab S m _ c s _ HS5 Hm Hr Hf) as Hv.
  assert (HU : forall j i, (j < 3)%nat -> (i < S)%nat -> at2 (n0 XRn) (cons (cent (s_u s))) j i = Fin (conserved Adiab g (fun k => Q k i) j)).
  { intros j i Hj Hi. refine (proj1 (real_cells Adiab S _ _ m (cent (s_u s)) g Q cs HS5 W C G Hg2 P _) i j Hi Hj). intros k Hk. destruct (Qc k Hk) as (K1 & _ & K3). split; [lra|exact K3]. }
  pose proof (next_of_solver _ _ _ _ _ _ _ _ _ E) as E'.
  destruct (euler_step (Hll XRn) Adiab S m _ val fuel _ s s' _ dt HS5 Hm Hok Hb Hv E' Hd) as (v0 & Up & W0 & G0 & _ & Co).
  rewrite weight_high in Co.
  destruct (update_from_cons_view XRn Adiab S _ _ m v0 _ HS5 W0 Up) as (W' & G' & _ & _ & P' & _). rewrite G0, G in P', G'.
  assert (C' : consistent Adiab S bw be m (cent (s_u s'))).
  { pose proof (next_consistent XRn (Hll XRn) _ _ _ _ _ _ _ HS W E') as K.
    pose proof (rkf_next_cases XRn (Hll XRn) _ _ _ _ _ _ _ _ E') as (_ & (B3 & B4) & _). rewrite B3, B4, Bw, Be in K. exact K. }
  set (mu := dt * weight_sum (rc_mode (nc_time (cf_numerics c))) * / (powerRZ 2 (-52) + hx S a b)).
  exists (Q 0%nat), cs, mu. split; [reflexivity|]. split.
  { intros i Hi. destruct (Qc i Hi) as (_ & K2 & K3). split; [apply P; [cbn; lia|exact Hi]|auto]. }
  split; [exact G'|]. split; [apply W'|]. split; [exact C'|]. cbv zeta. intros i Hi. pose proof Hi as Hi'. unfold interior in Hi'.
  (* fluxes *)
  set (fl := fun i => rff (face_lo (fun _ => x) cs i) (face_hi (fun _ => x) cs i) (Q 0%nat i * x) (Q 0%nat (i + 1)%nat * x) (Q 0%nat i) (Q 0%nat (i + 1)%nat)).
  assert (Fl : forall k, (1 <= k <= S - 3)%nat -> F 0%nat k = fl k /\ F 1%nat k = x * fl k + q /\ F 2%nat k = (x * x / 2) * fl k + x * (q / (g - 1) + q)).
  { intros k Hk. destruct (Qc k ltac:(lia)) as (Pk & Pc & _). destruct (Qc (k + 1)%nat ltac:(lia)) as (Pk1 & _ & _).
    destruct (Q1 k ltac:(lia)) as (Ex & Eq). destruct (Q1 (k + 1)%nat ltac:(lia)) as (Ex1 & Eq1).
    assert (L : face_lo (Q 1%nat) cs k = face_lo (fun _ => x) cs k) by (unfold face_lo; rewrite Ex, Ex1; reflexivity).
    assert (L' : face_hi (Q 1%nat) cs k = face_hi (fun _ => x) cs k) by (unfold face_hi; rewrite Ex, Ex1; reflexivity).
    pose proof (face_order (fun _ => x) cs k Pc) as O.
    unfold F, fl. rewrite L, L'. cbn [conserved euler_flux]. unfold euler_pressure. cbn [conserved]. rewrite Ex, Ex1, Eq, Eq1.
    unfold rff. repeat split; field; lra. }
  destruct (Fl i ltac:(lia)) as (F0 & F1 & F2). destruct (Fl (i - 1)%nat ltac:(lia)) as (F0' & F1' & F2').
  destruct (Q1 i ltac:(lia)) as (Ex & Eq).
  set (R0 := Q 0%nat i - mu * (fl i - fl (i - 1)%nat)).
  assert (V : forall l, (l < 3)%nat -> at2 (n0 XRn) (cons v0) l i = Fin (conserved Adiab g (fun k => Q k i) l - mu * (F l i - F l (i - 1)%nat))).
  { intros l Hl. rewrite (Co l i _ Hl ltac:(lia) (HU l i Hl ltac:(lia))). cbv beta. rewrite inner_true by lia. f_equal. unfold mu, hx. ring. }
  set (U := fun l => conserved Adiab g (fun k => Q k i) l - mu * (F l i - F l (i - 1)%nat)) in *.
  assert (U0 : U 0%nat = R0) by (unfold U, R0; cbn [conserved]; rewrite F0, F0'; reflexivity).
  assert (U1 : U 1%nat = x * R0) by (unfold U, R0; cbn [conserved]; rewrite F1, F1', Ex; ring).
  assert (U2 : U 2%nat = x * x / 2 * R0 + q / (g - 1)) by (unfold U, R0; cbn [conserved]; rewrite F2, F2', Ex, Eq; field; lra).
  fold fl. fold R0. split.
  - rewrite (P' 0%nat i ltac:(cbn; lia) Hi). change (at2 (n0 XRn) (cons v0) 0 i = Fin R0). rewrite V by lia. f_equal. exact U0.
  - intros N0.
    assert (K : forall j, (j < 3)%nat -> at2 (n0 XRn) (prim (cent (s_u s'))) j i = Fin (rprim Adiab g U j)).
    { intros j Hj. rewrite (P' j i Hj Hi). apply c2p_R; [rewrite U0; exact N0|exact Hj|exact V]. }
    rewrite !K by lia. cbn [rprim]. unfold euler_pressure. rewrite U0, U1, U2. split; f_equal; field; try exact N0; lra.
Qed.

(** Velocity and pressure after a step whose densities are not zero. *)
Lemma carry_step : forall (s s' : sim XRn (Hll XRn)) val fuel dt,
  reached Adiab S c m (fun _ => True) s -> consistent Adiab S bw be m (cent (s_u s)) -> healthy Adiab S (cent (s_u s)) ->
  carried S x q (cent (s_u s)) -> copies_flow bw -> copies_flow be ->
  solver_next val fuel Adiab S m s = (s', Ok tt) -> ts_dt (s_ts s') = Fin dt ->
  (forall i, interior S i -> at2 (n0 XRn) (prim (cent (s_u s'))) 0 i <> Fin 0) -> carried S x q (cent (s_u s')).
Proof.
  intros s s' val fuel dt Hr C H Ca Bw Be E Hd Nz.
  destruct (carry_cons s s' val fuel dt Hr C H Ca E Hd) as (r & cs & mu & _ & _ & G' & Sh & C' & K). cbv zeta in K.
  assert (In1 : forall i, interior S i -> at2 (n0 XRn) (prim (cent (s_u s'))) 1 i = Fin x /\ at2 (n0 XRn) (prim (cent (s_u s'))) 2 i = Fin q).
  { intros i Hi. destruct (K i Hi) as (K0 & K1). apply K1. intros Z. apply (Nz i Hi). rewrite K0, Z. reflexivity. }
  intros i Hi. destruct (cell_cases S i HS Hi) as [Hin|(sd & k & Hk & ->)]; [apply In1; exact Hin|].
  assert (I0 : interior S (inner_cell sd S 0)) by (destruct sd; unfold interior, inner_cell; lia).
  destruct (In1 _ I0) as (J1 & J2).
  destruct sd; [rewrite !(copied_flow_ghost West S m bw)|rewrite !(copied_flow_ghost East S m be)]; auto; apply C'.
Qed.

(** Densities after a Courant limited step. *)
Lemma carry_density : forall (s s' : sim XRn (Hll XRn)) val fuel dt,
  reached Adiab S c m (fun _ => True) s -> consistent Adiab S bw be m (cent (s_u s)) -> healthy Adiab S (cent (s_u s)) ->
  carried S x q (cent (s_u s)) ->
  solver_next val fuel Adiab S m s = (s', Ok tt) -> ts_dt (s_ts s') = Fin dt -> 0 <= dt -> courant_limited S (hx S a b) dt (cent (s_u s)) ->
  no_new_extrema S (cent (s_u s)) (cent (s_u s')).
Proof.
  intros s s' val fuel dt Hr C H Ca E Hd Pd Cfl.
  destruct (carry_cons s s' val fuel dt Hr C H Ca E Hd) as (r & cs & mu & Emu & R & _ & _ & _ & K). cbv zeta in K.
  intros i r0 r1 r2 Hi E0 E1 E2. pose proof Hi as Hi'. unfold interior in Hi'. destruct (K i Hi) as (K0 & _). eexists. split; [exact K0|]. clear K K0.
  destruct (R (i - 1)%nat ltac:(lia)) as (A0 & B0 & D0). destruct (R i ltac:(lia)) as (A1 & B1 & D1). destruct (R (i + 1)%nat ltac:(lia)) as (A2 & B2 & D2).
  rewrite A0 in E0. rewrite A1 in E1. rewrite A2 in E2. injection E0 as <-. injection E1 as <-. injection E2 as <-.
  replace (i - 1 + 1)%nat with i by lia.
  assert (Ei : (i - 1 + 1)%nat = i) by lia.
  assert (O : forall k, (k < S)%nat -> (k + 1 < S)%nat -> face_lo (fun _ => x) cs k <= 0 <= face_hi (fun _ => x) cs k /\ face_lo (fun _ => x) cs k <= x <= face_hi (fun _ => x) cs k /\ face_lo (fun _ => x) cs k < face_hi (fun _ => x) cs k).
  { intros k Hk Hk1. destruct (R k Hk) as (_ & _ & Dk). pose proof (face_order (fun _ => x) cs k Dk) as L.
    unfold face_lo, face_hi in *. pose proof (rlo_le (x - cs k) (x - cs (k + 1)%nat)). pose proof (rhi_ge (x + cs k) (x + cs (k + 1)%nat)). lra. }
  destruct (O (i - 1)%nat ltac:(lia) ltac:(lia)) as (O1 & O2 & O3). destruct (O i ltac:(lia) ltac:(lia)) as (O4 & O5 & O6).
  destruct (mass_split _ _ _ O1 O2 O3) as (P0 & Q0 & LP0 & LQ0 & EP0 & F0). destruct (mass_split _ _ _ O4 O5 O6) as (P1 & Q1 & LP1 & LQ1 & EP1 & F1).
  rewrite F0, F1.
  assert (Hh : 0 < hx S a b) by (apply hx_pos; [lia|exact Hab]).
  pose proof eps_pos as He. set (ep := powerRZ 2 (-52)) in *.
  assert (HD : 0 < / (ep + hx S a b)) by (apply Rinv_0_lt_compat; lra).
  set (B := weight_sum (rc_mode (nc_time (cf_numerics c)))) in *. assert (HB : 0 < B <= 1) by (unfold B; destruct (rc_mode _); cbn; lra).
  assert (Hmu : 0 <= mu) by (rewrite Emu; apply Rmult_le_pos; [apply Rmult_le_pos; lra|lra]).
  apply (mean_density mu x P0 Q0 P1 Q1); try lra.
  - assert (M : forall k, (k < S)%nat -> dt * (x + cs k) <= hx S a b / 2 /\ - (hx S a b / 2) <= dt * (x - cs k)).
    { intros k Hk. destruct (R k Hk) as (_ & Bk & _). destruct (Ca k Hk) as (Ck & _). destruct (Cfl k _ _ Hk Ck Bk) as (C1 & C2).
      pose proof (Rle_abs (x + cs k)) as Z1. pose proof (Rle_abs (- (x - cs k))) as Z2. rewrite Rabs_Ropp in Z2. split; nra. }
    destruct (M (i - 1)%nat ltac:(lia)) as (M1 & _). destruct (M i ltac:(lia)) as (M2 & M3). destruct (M (i + 1)%nat ltac:(lia)) as (_ & M4).
    assert (U1 : dt * face_hi (fun _ => x) cs (i - 1) <= hx S a b / 2).
    { unfold face_hi, rhi, Rmax. rewrite Ei. repeat destruct (Rle_dec _ _); nra. }
    assert (U2 : - (hx S a b / 2) <= dt * face_lo (fun _ => x) cs i).
    { unfold face_lo, rlo, Rmin. repeat destruct (Rle_dec _ _); nra. }
    set (hi := face_hi _ _ _) in *. set (lo := face_lo _ _ i) in *.
    assert (T0 : mu * (P1 + Q0) <= mu * (hi - lo)) by (apply Rmult_le_compat_l; lra).
    assert (T1 : mu * (hi - lo) <= B * / (ep + hx S a b) * hx S a b).
    { replace (mu * (hi - lo)) with (B * / (ep + hx S a b) * (dt * hi - dt * lo)) by (rewrite Emu; ring). apply Rmult_le_compat_l; [apply Rmult_le_pos; lra|lra]. }
    assert (T2 : / (ep + hx S a b) * hx S a b < 1).
    { apply Rmult_lt_reg_l with (ep + hx S a b); [lra|]. rewrite <- Rmult_assoc, Rinv_r, Rmult_1_l, Rmult_1_r by lra. lra. }
    assert (0 < / (ep + hx S a b) * hx S a b) by (apply Rmult_lt_0_compat; assumption). nra.
  - split; [apply Rmin_l|apply Rmax_l].
  - split; [eapply Rle_trans; [apply Rmin_r|apply Rmin_l]|eapply Rle_trans; [|apply Rmax_r]; apply Rmax_l].
  - split; [eapply Rle_trans; [apply Rmin_r|apply Rmin_r]|eapply Rle_trans; [|apply Rmax_r]; apply Rmax_r].
Qed.
End Step.
