(** Steps of KT on healthy isothermal gas. *)

From Coq Require Import Reals ZArith NArith QArith Qreals List Bool Lia Lra.
From Verif Require Import Base Num XReal Config Mesh State NumFlux Time Writer Runner Spec SpecFlow SpecStep SpecTableau SpecEuler SpecInit SpecWall SpecHealthy SpecKtHealthy
  MeshProofs BoundaryProofs PhysicsProofs FluxProofs UpdateProofs FluxReal FluxThms FluxMore StepProofs StepInv StepEq TableauProofs
  TimeProofs TimeMore AscProofs EulerStep RealRun EulerThms LinRun ConsThms PosProofs HealthProofs WallProofs P_Flux P_Positive.
Import ListNotations.
Local Open Scope R_scope.

(** ** Quotients of values between those of two cells *)
Lemma between_abs : forall x a b, Rmin a b <= x <= Rmax a b -> Rabs x <= Rabs a \/ Rabs x <= Rabs b.
Proof.
  intros x a b (H1 & H2). destruct (Rle_lt_dec 0 x) as [P|P].
  - rewrite (Rabs_pos_eq x P). pose proof (Rle_abs a). pose proof (Rle_abs b). unfold Rmax in H2. destruct (Rle_dec a b); [right|left]; lra.
  - rewrite (Rabs_left x P). pose proof (Rle_abs (- a)) as A. pose proof (Rle_abs (- b)) as B. rewrite Rabs_Ropp in A, B. unfold Rmin in H1. destruct (Rle_dec a b); [left|right]; lra.
Qed.

Lemma between_low : forall x a b, Rmin a b <= x -> a <= x \/ b <= x.
Proof. intros x a b H. unfold Rmin in H. destruct (Rle_dec a b); auto. Qed.

(** A wave of a reconstructed value is not faster than one of the mixed values. *)
Lemma mixed_wave : forall dt B m r c M0 M1 R0 R1, 0 <= dt -> 0 < c -> 0 < R0 -> 0 < R1 ->
  Rmin M0 M1 <= m <= Rmax M0 M1 -> Rmin R0 R1 <= r ->
  (forall M R, M = M0 \/ M = M1 -> R = R0 \/ R = R1 -> dt * (Rabs M / R + c) <= B) ->
  dt * Rabs (m / r - c) <= B /\ dt * Rabs (m / r + c) <= B.
Proof.
  intros dt B m r c M0 M1 R0 R1 Hd Hc P0 P1 Hm Hr H.
  assert (K : exists M R, (M = M0 \/ M = M1) /\ (R = R0 \/ R = R1) /\ Rabs m <= Rabs M /\ R <= r /\ 0 < R).
  { destruct (between_abs _ _ _ Hm) as [A|A]; destruct (between_low _ _ _ Hr) as [L|L];
      [exists M0, R0|exists M0, R1|exists M1, R0|exists M1, R1]; auto 10. }
  destruct K as (M & R & EM & ER & HM & HR & PR). specialize (H M R EM ER).
  assert (V : Rabs (m / r) <= Rabs M / R).
  { unfold Rdiv. rewrite Rabs_mult, (Rabs_pos_eq (/ r)) by (apply Rlt_le, Rinv_0_lt_compat; lra).
    apply Rmult_le_compat; [apply Rabs_pos|apply Rlt_le, Rinv_0_lt_compat; lra|exact HM|apply Rinv_le_contravar; lra]. }
  assert (A1 : Rabs (m / r - c) <= Rabs (m / r) + c).
  { pose proof (Rabs_triang (m / r) (- c)) as T. rewrite Rabs_Ropp, (Rabs_pos_eq c) in T by lra. exact T. }
  assert (A2 : Rabs (m / r + c) <= Rabs (m / r) + c).
  { pose proof (Rabs_triang (m / r) c) as T. rewrite (Rabs_pos_eq c) in T by lra. exact T. }
  split; (eapply Rle_trans; [|exact H]); apply Rmult_le_compat_l; lra.
Qed.

(** ** One step *)
Lemma kt_healthy_step : forall S md a b (c : config XRn) l th (s s' : sim XRn (Kt XRn)) val fuel dt g,
  let m := mesh_build (A:=XRn) S (mkMC (A:=XRn) md (Fin a) (Fin b)) in
  let bw := init_bc (cf_bc_west c) 2 in let be := init_bc (cf_bc_east c) 2 in
  (6 <= S)%nat -> cf_mesh c = mkMC (A:=XRn) md (Fin a) (Fin b) -> a < b ->
  nc_numflux (cf_numerics c) = CKt l -> limiter_theta l = Fin th -> tvd_limiter l th ->
  reached Isot S c m (fun _ => True) s ->
  gentle_bc 2 bw -> gentle_bc 2 be ->
  same_sound (s_u s) -> consistent Isot S bw be m (cent (s_u s)) -> healthy Isot S (cent (s_u s)) ->
  pc_gamma (cf_physics c) = Fin g ->
  solver_next val fuel Isot S m s = (s', Ok tt) -> ts_dt (s_ts s') = Fin dt -> 0 <= dt ->
  mixed_limited S (hx S a b) dt (cent (s_u s)) ->
  healthy Isot S (cent (s_u s')) /\ same_sound (s_u s') /\ consistent Isot S bw be m (cent (s_u s')).
Proof.
  intros S md a b c l th s s' val fuel dt g m bw be HS Hc Hab Hnf Hth Htvd Hr0 Gw Ge (Sw & Se) C H Hg E Hd Pd Cfl.
  assert (HS5 : (5 <= S)%nat) by lia.
  destruct (reached_kt _ _ _ _ _ Hr0) as (k0 & Hk & Hr). pose proof Hk as Hk'. rewrite Hnf in Hk. cbn [nf_new Kt] in Hk.
  pose proof (kt_memoryless XRn Isot S m k0 HS5 (std_build XRn S _)) as Hm.
  destruct (reached_ok XRn (Kt XRn) Isot S m _ HS5 Hm c s Hr) as (Hok & Hb & _ & G & Bw & Be). rewrite Hg in G.
  assert (Wss : wss Isot S (s_u s)) by apply Hok. pose proof Wss as (W & Ww & We).
  assert (Kl : kt_like XRn (r_nf (s_rhs s)) k0) by apply Hok.
  assert (Gf : gamma (west (s_u s)) = Fin g /\ gamma (east (s_u s)) = Fin g).
  { destruct Hr as (u0 & s0 & (_ & _ & G1 & G2) & N0 & _ & Ev). destruct (evolves_faces XRn (Kt XRn) _ _ _ _ _ Ev) as (F1 & F2). rewrite F1, F2.
    unfold solver_new in N0. apply bind_Ok in N0. destruct N0 as (rh & _ & N0). injection N0 as <-. cbn [s_u]. rewrite G1, G2. auto. }
  destruct (healthy_fun Isot S _ _ m (cent (s_u s)) g H C G ltac:(discriminate)) as (q & cs & P & Q & _).
  destruct (real_cells Isot S _ _ m (cent (s_u s)) g q cs HS5 W C G ltac:(discriminate) P) as (HU & v' & Ev & W' & Rc).
  { intros i Hi. destruct (Q i Hi) as (Q1 & _ & Q3). split; [lra|exact Q3]. }
  set (U := fun j i => conserved Isot g (fun k => q k i) j) in *.
  set (u1 := set_cent v' (s_u s)).
  assert (E1 : st_update_from_cons Isot S (r_bw (s_rhs s)) (r_be (s_rhs s)) m (s_u s) = Ok u1).
  { unfold st_update_from_cons. rewrite Bw, Be. change (nE Isot) with 2%nat. fold bw be. rewrite Ev. reflexivity. }
  destruct (nf_calc (Kt XRn) false Isot S (r_nf (s_rhs s)) (r_full (s_rhs s)) u1 m) as [[[nf full] w] o] eqn:E2.
  assert (Eo : o = Ok tt) by (cbn [nf_calc Kt] in E2; unfold kt_calc in E2; apply (f_equal snd) in E2; symmetry; exact E2). subst o.
  assert (ER : exists h, rhs_update false Isot S (s_rhs s) (s_u s) m = (h, w, Ok tt) /\ r_nf h = nf).
  { unfold rhs_update. rewrite E1, E2. eexists. split; reflexivity. }
  destruct ER as (h & ER & Hn). cbn [nf_calc Kt] in E2.
  assert (Cv : forall j i, (j < 2)%nat -> (i < S)%nat -> at2 (n0 XRn) (cons (cent u1)) j i = Fin (U j i)) by (intros j i Hj Hi; apply (Rc i Hi); exact Hj).
  assert (Ur : forall i, (i < S)%nat -> 0 < U 0%nat i) by (intros i Hi; destruct (Q i Hi) as (Q1 & _); exact Q1).
  (* the values at the faces *)
  assert (Rec : exists (rw re : nat -> nat -> R), forall j i, (j < 2)%nat -> (1 <= i <= S - 2)%nat ->
     at2 (n0 XRn) (cons (west w)) j i = Fin (rw j i) /\ at2 (n0 XRn) (cons (east w)) j i = Fin (re j i) /\
     Rmin (U j (i - 1)%nat) (U j i) <= rw j i <= Rmax (U j (i - 1)%nat) (U j i) /\ Rmin (U j i) (U j (i + 1)%nat) <= re j i <= Rmax (U j i) (U j (i + 1)%nat)).
  { exists (fun j i => fpart (at2 (n0 XRn) (cons (west w)) j i)), (fun j i => fpart (at2 (n0 XRn) (cons (east w)) j i)). intros j i Hj Hi.
    destruct (C23_no_new_extrema false Isot S md a b l th k0 _ _ u1 nf full w (Ok tt) j i _ _ _ HS5 Hab Hth Htvd Hk Kl E2 Hj ltac:(lia) ltac:(lia)
      (Cv j (i - 1)%nat Hj ltac:(lia)) (Cv j i Hj ltac:(lia)) (Cv j (i + 1)%nat Hj ltac:(lia))) as (x & y & X1 & X2 & X3 & X4 & _).
    rewrite X1, X2. cbn [fpart]. auto. }
  destruct Rec as (rw & re & Rec).
  assert (Pos : forall i, (1 <= i <= S - 2)%nat -> 0 < rw 0%nat i /\ 0 < re 0%nat i).
  { intros i Hi. destruct (Rec 0%nat i ltac:(lia) Hi) as (_ & _ & (L1 & _) & (L2 & _)).
    pose proof (Ur (i - 1)%nat ltac:(lia)). pose proof (Ur i ltac:(lia)). pose proof (Ur (i + 1)%nat ltac:(lia)).
    assert (0 < Rmin (U 0%nat (i - 1)%nat) (U 0%nat i)) by (apply Rmin_glb_lt; assumption). assert (0 < Rmin (U 0%nat i) (U 0%nat (i + 1)%nat)) by (apply Rmin_glb_lt; assumption). lra. }
  assert (Snd : forall i, (i < S)%nat -> at1 (n0 XRn) (c_sound (west (s_u s))) i = Fin (cs i) /\ at1 (n0 XRn) (c_sound (east (s_u s))) i = Fin (cs i)).
  { intros i Hi. rewrite Sw, Se. destruct (Q i Hi) as (_ & _ & Q3). auto. }
  pose proof (kt_state XRn false Isot S (r_nf (s_rhs s)) (r_full (s_rhs s)) u1 m) as Su. rewrite E2 in Su. cbn [fst snd] in Su. cbv zeta in Su.
  set (u2 := kt_reconstruct (r_nf (s_rhs s)) (nE Isot) S u1) in Su.
  assert (Hw2 : wsv XRn Isot S (west u2)) by (apply wsv_set_cons; [exact Ww|apply FluxProofs.shape_upd_range2]).
  assert (He2 : wsv XRn Isot S (east u2)) by (apply wsv_set_cons; [exact We|apply FluxProofs.shape_upd_range2]).
  assert (Wv : west w = kt_face Isot S (west u2) /\ east w = kt_face Isot S (east u2)) by (rewrite Su; split; reflexivity). destruct Wv as (Wv & Evv).
  assert (Vf : forall i, (1 <= i <= S - 2)%nat ->
     at2 (n0 XRn) (prim (west w)) 1 i = Fin (rw 1%nat i / rw 0%nat i) /\ at1 (n0 XRn) (c_sound (west w)) i = Fin (cs i) /\ 0 < cs i /\
     at2 (n0 XRn) (prim (east w)) 1 i = Fin (re 1%nat i / re 0%nat i) /\ at1 (n0 XRn) (c_sound (east w)) i = Fin (cs i) /\ 0 < cs i).
  { intros i Hi. destruct (Rec 0%nat i ltac:(lia) Hi) as (R1 & R2 & _). destruct (Rec 1%nat i ltac:(lia) Hi) as (R3 & R4 & _). destruct (Pos i Hi) as (P1 & P2).
    destruct (Q i ltac:(lia)) as (_ & Q2 & _). destruct (Snd i ltac:(lia)) as (S1 & S2).
    rewrite Wv, kt_face_cons in R1, R3. rewrite Evv, kt_face_cons in R2, R4. rewrite Wv, Evv.
    rewrite !kt_face_prim, !kt_face_sound by (assumption || (cbn; lia)). cbn [kt_sound].
    unfold c2p, isot_cons_to_prim. cbn [snd fst]. rewrite R1, R2, R3, R4, !X_div by lra. auto 10. }
  (* the fluxes *)
  set (F := fun j i => fpart (at2 (n0 XRn) (k_flux_num (r_nf h : kt XRn)) j i)).
  assert (HF : forall j i, (j < nE Isot)%nat -> (1 <= i <= S - 3)%nat -> at2 (n0 XRn) (k_flux_num (r_nf h : kt XRn)) j i = Fin (F j i)).
  { intros j i Hj Hi. unfold F. rewrite Hn.
    pose proof (kt_num XRn false Isot S (r_nf (s_rhs s)) (r_full (s_rhs s)) u1 m (std_build XRn S _) Ww We j i Hj ltac:(lia) ltac:(lia) ltac:(lia)) as K.
    rewrite E2 in K. cbn [fst] in K. rewrite K. clear K.
    destruct (Pos i ltac:(lia)) as (_ & P1). destruct (Pos (i + 1)%nat ltac:(lia)) as (P2 & _). destruct (Q i ltac:(lia)) as (_ & Q2 & _).
    unfold m. rewrite (kt_fn_R Isot S md a b _ u1 g j i (cs i) (cs (i + 1)%nat) (fun l => re l i) (fun l => rw l (i + 1)%nat)); [reflexivity|exact Hj|lia|apply Gf|apply Gf| | |exact P1|exact P2|discriminate| |].
    - intros k Hk2. destruct (kt_faces XRn _ _ _ _ _ _ _ _ _ _ _ k i E2 Hk2 ltac:(lia) ltac:(lia)) as (_ & K & _). rewrite <- K. apply (Rec k i Hk2). lia.
    - intros k Hk2. destruct (kt_faces XRn _ _ _ _ _ _ _ _ _ _ _ k (i + 1) E2 Hk2 ltac:(lia) ltac:(lia)) as (K & _ & _). rewrite <- K. apply (Rec k (i + 1)%nat Hk2). lia.
    - intros _. split; apply Snd; lia.
    - cbn [rsound]. 
      pose proof (rlo_le (re 1%nat i / re 0%nat i - cs i) (rw 1%nat (i + 1)%nat / rw 0%nat (i + 1)%nat - cs (i + 1)%nat)).
      pose proof (rhi_ge (re 1%nat i / re 0%nat i + cs i) (rw 1%nat (i + 1)%nat / rw 0%nat (i + 1)%nat + cs (i + 1)%nat)). lra. }
  (* the waves *)
  assert (Wave : forall i, (1 <= i <= S - 2)%nat ->
     dt * Rabs (rw 1%nat i / rw 0%nat i - cs i) <= hx S a b / 2 /\ dt * Rabs (rw 1%nat i / rw 0%nat i + cs i) <= hx S a b / 2 /\
     dt * Rabs (re 1%nat i / re 0%nat i - cs i) <= hx S a b / 2 /\ dt * Rabs (re 1%nat i / re 0%nat i + cs i) <= hx S a b / 2).
  { intros i Hi. destruct (Rec 0%nat i ltac:(lia) Hi) as (_ & _ & (L1 & _) & (L2 & _)). destruct (Rec 1%nat i ltac:(lia) Hi) as (_ & _ & L3 & L4).
    destruct (Q i ltac:(lia)) as (_ & Q2 & Q3).
    assert (K : forall k j, (k < S)%nat -> (j < S)%nat -> near k i -> near j i -> dt * (Rabs (U 1%nat k) / U 0%nat j + cs i) <= hx S a b / 2).
    { intros k j Hk2 Hj N1 N2. apply (Cfl i k j (cs i) (U 1%nat k) (U 0%nat j)); auto; try lia; apply HU; assumption || (cbn; lia). }
    destruct (mixed_wave dt (hx S a b / 2) _ _ (cs i) _ _ _ _ Pd Q2 (Ur (i - 1)%nat ltac:(lia)) (Ur i ltac:(lia)) L3 L1) as (A1 & A2).
    { intros M R [-> | ->] [-> | ->]; apply K; unfold near; lia. }
    destruct (mixed_wave dt (hx S a b / 2) _ _ (cs i) _ _ _ _ Pd Q2 (Ur i ltac:(lia)) (Ur (i + 1)%nat ltac:(lia)) L4 L2) as (A3 & A4).
    { intros M R [-> | ->] [-> | ->]; apply K; unfold near; lia. }
    auto. }
  destruct (kt_faces XRn _ _ _ _ _ _ _ _ _ _ _ 0 1 E2 ltac:(cbn; lia) ltac:(lia) ltac:(lia)) as (_ & _ & Ec).
  (* densities of the computational cells *)
  assert (Den : forall i, (2 <= i <= S - 3)%nat -> exists r, at2 (n0 XRn) (cons (cent (s_u s'))) 0 i = Fin r /\ 0 < r).
  { intros i Hi. pose proof (C22_density_positive_kt Isot S c md a b l th s s' false h w val fuel dt g U F (U 0%nat) (fun i => rw 1%nat i / rw 0%nat i) (fun i => re 1%nat i / re 0%nat i) cs cs i HS5 Hc Hab Hnf Hth Htvd) as K.
    rewrite Hc in K. apply K; clear K; try assumption.
    - discriminate.
    - intros j k Hj Hk2. apply HU; [lia|exact Hj].
    - intros k Hk2. rewrite Ec. split; [apply Cv; [lia|exact Hk2]|apply Ur; exact Hk2]. }
  (* the step *)
  pose proof (kt_slopes Isot S md a b HS5 Hab s false h w F Wss ER HF) as Hf. fold m in Hf.
  pose proof (reached_rhs (Kt XRn) Isot S m _ c s _ HS5 Hm Hr Hf) as Hv.
  match type of Hv with rhs_values _ _ _ _ ?f => revert Hv; generalize f; intros f0 Hv end.
  pose proof (next_of_solver _ _ _ _ _ _ _ _ _ E) as E'.
  assert (C' : consistent Isot S bw be m (cent (s_u s'))).
  { pose proof (next_consistent XRn (Kt XRn) _ _ _ _ _ _ _ HS W E') as K.
    pose proof (rkf_next_cases XRn (Kt XRn) _ _ _ _ _ _ _ _ E') as (_ & (B3 & B4) & _). rewrite B3, B4, Bw, Be in K. exact K. }
  assert (Gs : gamma (cent (s_u s')) = Fin g /\ wsv XRn Isot S (cent (s_u s'))).
  { destruct (euler_step (Kt XRn) Isot S m _ val fuel _ s s' f0 dt HS5 Hm Hok Hb Hv E' Hd) as (v0 & Up & W0 & G0 & _).
    destruct (update_from_cons_view XRn Isot S _ _ m v0 _ HS5 W0 Up) as (W2 & G2 & _). rewrite G0, G in G2. auto. }
  destruct Gs as (G' & W2).
  pose proof (next_sound XRn (Kt XRn) _ _ _ _ _ _ _ E') as Ns.
  pose proof (next_faces XRn (Kt XRn) _ _ _ _ _ _ _ _ E') as (Nw & Ne).
  split; [|split; [|exact C']].
  2:{ unfold same_sound. rewrite Nw, Ne, Ns. auto. }
  assert (In2 : forall j i, (j < 2)%nat -> interior S i -> exists r, at2 (n0 XRn) (prim (cent (s_u s'))) j i = Fin r /\ (j <> 1%nat -> 0 < r)).
  { intros j i Hj Hi. pose proof Hi as Hi'. unfold interior in Hi'.
    pose proof (euler_cells (Kt XRn) Isot S m _ val fuel _ s s' f0 dt g i (fun j => U j i) HS5 Hm Hok Hb Hv E Hd G ltac:(discriminate) ltac:(lia) (fun j Hj => HU i j ltac:(lia) Hj)) as (K1 & _ & K2).
    destruct (Den i ltac:(lia)) as (r & K3 & K4). cbv zeta beta in K1, K2. rewrite K1 in K3. apply (f_equal fpart) in K3. cbn [fpart] in K3.
    specialize (K2 ltac:(rewrite K3; lra)). pose proof (K2 0%nat ltac:(cbn; lia)) as T0. pose proof (K2 1%nat ltac:(cbn; lia)) as T1. clear K1 K2.
    rewrite (cst_cons _ _ _ _ _ _ _ C' 0%nat i ltac:(cbn; lia) ltac:(lia)) in T0. rewrite (cst_cons _ _ _ _ _ _ _ C' 1%nat i ltac:(cbn; lia) ltac:(lia)) in T1.
    cbn [cons_of] in T0, T1. rewrite K3 in T0.
    destruct j as [|[|j]]; [| |lia].
    - exists r. split; [exact T0|intros _; exact K4].
    - rewrite T0 in T1. destruct (at2 (n0 XRn) (prim (cent (s_u s'))) 1 i) as [x| | |] eqn:Ex.
      + exists x. split; [reflexivity|]. intros J. contradiction.
      + exfalso. unfold nmul, XRn, xmul, xinf_sgn, xneg in T1. repeat (match type of T1 with context [if ?b then _ else _] => destruct b end); discriminate T1.
      + exfalso. unfold nmul, XRn, xmul, xinf_sgn, xneg in T1. repeat (match type of T1 with context [if ?b then _ else _] => destruct b end); discriminate T1.
      + discriminate T1. }
  assert (All : forall j i, (j < 2)%nat -> (i < S)%nat -> exists r, at2 (n0 XRn) (prim (cent (s_u s'))) j i = Fin r /\ (j <> 1%nat -> 0 < r)).
  { intros j i Hj Hi. destruct (cell_cases S i HS Hi) as [Hin|(sd & k & Hk2 & ->)]; [apply In2; assumption|].
    destruct sd; [apply (gentle_ghost Isot West S m bw); try assumption|apply (gentle_ghost Isot East S m be); try assumption];
      try (apply W2); try (apply C'); intros i Hl; apply In2; assumption. }
  split.
  - intros i Hi. destruct (All 0%nat i ltac:(lia) Hi) as (r0 & E0 & P0). destruct (All 1%nat i ltac:(lia) Hi) as (r1 & E3 & _). specialize (P0 ltac:(lia)).
    split; [eauto|]. split; [eauto|]. split; [discriminate|]. rewrite Ns. apply H. exact Hi.
  - intros j i Hj Hi. rewrite (cst_cons _ _ _ _ _ _ _ C' j i Hj Hi).
    destruct (All 0%nat i ltac:(lia) Hi) as (r0 & E0 & P0). destruct (All 1%nat i ltac:(lia) Hi) as (r1 & E3 & _).
    destruct j as [|[|j]]; [| |cbn in Hj; lia]; cbn [cons_of]; rewrite ?E0, ?E3; eexists; reflexivity.
Qed.

(** ** After init_corries *)
Lemma init_start : forall {N : numflux_impl XRn} meta banner sched init p S c w w' k, (6 <= S)%nat ->
  fills_state p S init ->
  init_corries (A:=XRn) (N:=N) true meta banner sched init p S c w = (w', Ok k) ->
  consistent p S (init_bc (cf_bc_west c) (nE p)) (init_bc (cf_bc_east c) (nE p)) (c_mesh k) (cent (s_u (c_sim k))) /\
  same_sound (s_u (c_sim k)).
Proof.
  intros N meta banner sched init p S c w w' k HS Hi H. unfold init_corries in H.
  destruct (cf_validate c); try discriminate. destruct (mesh_new true S (cf_mesh c)) as [m|e| |]; try discriminate.
  destruct (solver_new N p S c m (state_new p S (cf_physics c))) as [s|e| |] eqn:Es; try discriminate.
  destruct (writer_new meta S c m w) as [w1 r1]. destruct r1 as [wr|e| |]; try discriminate.
  destruct (writer_metadata (wr_meta wr) sched (wr_outputs wr) _) as [w2 r2]. destruct r2 as [[]|e| |]; try discriminate.
  destruct (init s m) as [s1 r3] eqn:Ei. injection H as <- H. apply bind_Ok in H. destruct H as ([] & -> & H).
  apply bind_Ok in H. destruct H as (u & Hu & H). injection H as <-. cbn [c_sim s_rhs s_u c_mesh].
  assert (Ws : wss p S (s_u s) /\ r_bw (s_rhs s) = init_bc (cf_bc_west c) (nE p) /\ r_be (s_rhs s) = init_bc (cf_bc_east c) (nE p)).
  { unfold solver_new in Es. apply bind_Ok in Es. destruct Es as (rh & Er & Es). injection Es as <-. cbn [s_u s_rhs].
    unfold rhs_new in Er. apply bind_Ok in Er. destruct Er as (nf & _ & Er). injection Er as <-. split; [|split; reflexivity]. split; [|split]; apply wsv_new. }
  destruct Ws as (Ws & Bw & Be).
  destruct (Hi _ _ _ Ei) as (_ & Rh & W & _). specialize (W Ws). destruct W as (W1 & _). rewrite <- Bw, <- Be, <- Rh.
  unfold st_update_from_prim in Hu. apply bind_Ok in Hu. destruct Hu as (v & Hv & Hu). injection Hu as <-.
  cbn [cent init_west_east set_cent]. split.
  - eapply prim_consistent; [exact HS|exact W1|exact Hv].
  - split; reflexivity.
Qed.
