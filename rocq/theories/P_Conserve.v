(** C20, C22: what a completed step does to the totals and the densities. *)

From Coq Require Import Reals ZArith NArith QArith Qreals List Bool Lia Lra.
From Verif Require Import Base Num XReal B64 Config Mesh State NumFlux Time Spec SpecFlow SpecStep SpecTableau SpecEuler
  MeshProofs BoundaryProofs PhysicsProofs FluxProofs UpdateProofs FluxReal FluxThms FluxMore StepProofs StepInv StepEq TableauProofs
  TimeProofs TimeMore AscProofs EulerStep RealRun EulerThms LinRun ConsThms Demo.
Import ListNotations.
Local Open Scope R_scope.

(** ** C20: discrete conservation *)

(** [F j i] is the numerical flux of variable [j] through the face between the
    cells [i] and [i+1], evaluated at the state before the step.  The total of
    the computational cells 2 .. S-3 changes by the fluxes through the faces
    between 1|2 and S-3|S-2 only.  The cell width [dx] appears with the offset
    2^-52 that the code adds to every denominator.  Momentum and energy are
    recomputed from the velocity, which is undefined where the new density is
    zero; with the validation feature such a step is an error. *)
Theorem C20_conservation_hll : forall p S (c : config XRn) md a b (s s' : sim XRn (Hll XRn)) vld h w validation fuel dt g U F,
  let m := mesh_build (A:=XRn) S (cf_mesh c) in
  let dx := (b - a) / INR (S - 4) in
  (5 <= S)%nat -> cf_mesh c = mkMC (A:=XRn) md (Fin a) (Fin b) -> a < b ->
  reached p S c m (fun _ => True) s ->
  rhs_update vld p S (s_rhs s) (s_u s) m = (h, w, Ok tt) ->
  (forall j i, (j < nE p)%nat -> (1 <= i <= S - 3)%nat -> at2 (n0 XRn) (h_flux_num (r_nf h)) j i = Fin (F j i)) ->
  pc_gamma (cf_physics c) = Fin g -> (p = Adiab -> g <> 1) ->
  solver_next validation fuel p S m s = (s', Ok tt) -> ts_dt (s_ts s') = Fin dt ->
  (forall j i, (j < nE p)%nat -> (2 <= i <= S - 3)%nat -> at2 (n0 XRn) (cons (cent (s_u s))) j i = Fin (U j i)) ->
  exists U', forall j, (j < nE p)%nat ->
    (j = 0%nat \/ validation = true \/ forall i, (2 <= i <= S - 3)%nat -> at2 (n0 XRn) (cons (cent (s_u s'))) 0 i <> Fin 0) ->
    (forall i, (2 <= i <= S - 3)%nat -> at2 (n0 XRn) (cons (cent (s_u s'))) j i = Fin (U' j i)) /\
    inner_sum S (U' j) = inner_sum S (U j) -
      dt * weight_sum (rc_mode (nc_time (cf_numerics c))) * / (powerRZ 2 (-52) + dx) * (F j (S - 3)%nat - F j 1%nat).
Proof.
  intros p S c md a b s s' vld h w val fuel dt g U F m dx HS Hc Hab Hr ER HF Hg Hg1 E Hd HU.
  unfold m in *. rewrite Hc in *.
  pose proof (hll_slopes p S md a b HS Hab s vld h w F ER HF) as Hf.
  exact (conserve (Hll XRn) p S _ (fun _ => True) c s s' val fuel dt g U F _ HS (hll_memoryless XRn p S _ HS (std_build XRn S _)) Hr Hf Hg Hg1 E Hd HU).
Qed.
Print Assumptions C20_conservation_hll.

Theorem C20_conservation_kt : forall p S (c : config XRn) md a b (s s' : sim XRn (Kt XRn)) vld h w validation fuel dt g U F,
  let m := mesh_build (A:=XRn) S (cf_mesh c) in
  let dx := (b - a) / INR (S - 4) in
  (5 <= S)%nat -> cf_mesh c = mkMC (A:=XRn) md (Fin a) (Fin b) -> a < b ->
  reached p S c m (fun _ => True) s ->
  rhs_update vld p S (s_rhs s) (s_u s) m = (h, w, Ok tt) ->
  (forall j i, (j < nE p)%nat -> (1 <= i <= S - 3)%nat -> at2 (n0 XRn) (k_flux_num (r_nf h)) j i = Fin (F j i)) ->
  pc_gamma (cf_physics c) = Fin g -> (p = Adiab -> g <> 1) ->
  solver_next validation fuel p S m s = (s', Ok tt) -> ts_dt (s_ts s') = Fin dt ->
  (forall j i, (j < nE p)%nat -> (2 <= i <= S - 3)%nat -> at2 (n0 XRn) (cons (cent (s_u s))) j i = Fin (U j i)) ->
  exists U', forall j, (j < nE p)%nat ->
    (j = 0%nat \/ validation = true \/ forall i, (2 <= i <= S - 3)%nat -> at2 (n0 XRn) (cons (cent (s_u s'))) 0 i <> Fin 0) ->
    (forall i, (2 <= i <= S - 3)%nat -> at2 (n0 XRn) (cons (cent (s_u s'))) j i = Fin (U' j i)) /\
    inner_sum S (U' j) = inner_sum S (U j) -
      dt * weight_sum (rc_mode (nc_time (cf_numerics c))) * / (powerRZ 2 (-52) + dx) * (F j (S - 3)%nat - F j 1%nat).
Proof.
  intros p S c md a b s s' vld h w val fuel dt g U F m dx HS Hc Hab Hr0 ER HF Hg Hg1 E Hd HU.
  destruct (reached_kt _ _ _ _ _ Hr0) as (k0 & Hk & Hr).
  pose proof (kt_memoryless XRn p S m k0 HS (std_build XRn S _)) as Hm.
  destruct (reached_ok XRn (Kt XRn) p S m _ HS Hm c s Hr) as (Hok & _).
  unfold m in *. rewrite Hc in *.
  pose proof (kt_slopes p S md a b HS Hab s vld h w F ltac:(apply Hok) ER HF) as Hf.
  exact (conserve (Kt XRn) p S _ _ c s s' val fuel dt g U F _ HS Hm Hr Hf Hg Hg1 E Hd HU).
Qed.
Print Assumptions C20_conservation_kt.

(** A density jump in a moving isothermal gas meets the hypotheses, for every
    mode and both schemes. *)
Definition jump (l r v : R) (j i : nat) : R := match j with 0%nat => if (i <? 3)%nat then l else r | _ => v end.

Lemma jump_clamp : forall l r v j i, (i < 6)%nat -> jump l r v j (clamp 6 i) = jump l r v j i.
Proof. intros l r v j i Hi. do 6 (destruct i; [destruct j; reflexivity|]). lia. Qed.

Lemma jump_flow : forall (N : numflux_impl XRn) nfc md cfl (nf : nf_T N) l r v cs tn fuel,
  (forall self d u, exists a b c, nf_calc N false Isot 6 self d u (rmesh 6) = (a, b, c, Ok tt)) ->
  nf_new N Isot 6 nfc (rmesh 6) = Ok nf -> 0 < cfl -> v + cs <> 0 -> 1 / 1000000 * Rabs (v + cs) * 2 <= cfl -> 0 < tn ->
  exists (s s' : sim XRn N), reached Isot 6 (rcfg nfc md false cfl) (rmesh 6) (fun _ => True) s /\ r_nf (s_rhs s) = nf /\
    cent (s_u s) = west (s_u s) /\ cent (s_u s) = east (s_u s) /\
    consistent Isot 6 (ng Isot) (ng Isot) (rmesh 6) (cent (s_u s)) /\
    (forall j i, (j < 2)%nat -> (i < 6)%nat -> at2 (n0 XRn) (prim (cent (s_u s))) j i = Fin (jump l r v j i)) /\
    (forall i, (i < 6)%nat -> at1 (n0 XRn) (c_sound (cent (s_u s))) i = Fin cs) /\
    ts_cfl (s_ts s) = Fin cfl /\ ts_t (s_ts s) = Fin 0 /\ ts_t_next (s_ts s) = Fin tn /\ ts_dt_max (s_ts s) = Fin 1000 /\
    solver_next false fuel Isot 6 (rmesh 6) s = (s', Ok tt) /\
    ts_dt (s_ts s') = Fin (Rmin (Rmin (cfl / 2 / Rabs (v + cs)) 1000) (tn - 0)).
Proof.
  intros N nfc md cfl nf l r v cs tn fuel Ht Hn Hc Hne Hlo Htn.
  destruct (tube_step N 6 nfc md cfl nf (jump l r v) cs tn fuel ltac:(lia) Ht Hc) as (V & d & W & G & C & P & Q & D & Pd & (i0 & Hi0 & Ed) & s' & E1 & E2).
  { intros i. cbn [jump]. replace (INR (6 - 4)) with 2 by (cbn; ring). exact Hlo. }
  { intros i. exact Hne. }
  eexists _, s'. split; [apply (rsim_reached N Isot 6 nfc md false cfl nf V tn Hn W G)|].
  split; [reflexivity|]. split; [reflexivity|]. split; [reflexivity|]. split; [exact C|]. split.
  { intros j i Hj Hi. rewrite <- jump_clamp by exact Hi. apply P; assumption. }
  split; [exact Q|]. do 4 (split; [reflexivity|]). split; [exact E1|].
  rewrite (plain_dt N Isot 6 (rmesh 6) false fuel (rsim Isot 6 (rcfg nfc md false cfl) nf V tn) s' d 0 tn 1000 ltac:(destruct md; reflexivity) D eq_refl eq_refl eq_refl Htn E2).
  f_equal. f_equal. f_equal. cbn [jump] in Ed. replace (INR (6 - 4)) with 2 in Ed by (cbn; ring).
  assert (Rabs (v + cs) <> 0) by (apply Rabs_no_R0; exact Hne).
  replace d with (d * Rabs (v + cs) / Rabs (v + cs)) by (field; assumption). rewrite Ed. field. assumption.
Qed.

Example C20_hll_nonvacuous : forall md, let c := rcfg CHll md false (1 / 2) in
  exists (s s' : sim XRn (Hll XRn)) h w dt U F, reached Isot 6 c (rmesh 6) (fun _ => True) s /\
    rhs_update false Isot 6 (s_rhs s) (s_u s) (rmesh 6) = (h, w, Ok tt) /\
    (forall j i, (j < 2)%nat -> (1 <= i <= 3)%nat -> at2 (n0 XRn) (h_flux_num (r_nf h : hll XRn)) j i = Fin (F j i)) /\
    solver_next false 1 Isot 6 (rmesh 6) s = (s', Ok tt) /\ ts_dt (s_ts s') = Fin dt /\ dt = 1 / 8 /\
    (forall j i, (j < 2)%nat -> (2 <= i <= 3)%nat -> at2 (n0 XRn) (cons (cent (s_u s))) j i = Fin (U j i)) /\
    U 0%nat 2%nat = 1 /\ U 0%nat 3%nat = 1 / 2 /\ F 0%nat 2%nat <> F 0%nat 3%nat.
Proof.
  intros md c.
  destruct (jump_flow (Hll XRn) CHll md (1 / 2) (mkHll (A:=XRn) (zeros 6) (zeros 6) (zeros 6) (zeros 6) (zeros2 2 6)) 1 (1 / 2) 1 1 10 1 (hll_total XRn Isot 6 (rmesh 6)) eq_refl) as
    (s & s' & Hr & _ & _ & _ & C & P & Q & _ & _ & _ & _ & E & Hd); try lra.
  { rewrite Rabs_pos_eq by lra. lra. }
  destruct (reached_ok XRn (Hll XRn) Isot 6 (rmesh 6) _ ltac:(lia) (hll_memoryless XRn Isot 6 (rmesh 6) ltac:(lia) (std_build XRn 6 _)) _ s Hr) as (Hok & _ & _ & G & Bw & Be).
  assert (W : wsv XRn Isot 6 (cent (s_u s))) by apply Hok.
  destruct (hll_real_eval Isot 6 Cartesian 1 2 s _ _ (14 / 10) (jump 1 (1 / 2) 1) (fun _ => 1) ltac:(lia) ltac:(lra) W Bw Be C G ltac:(discriminate) P) as (h & w & F & ER & HF & HB).
  { intros i Hi. split; [|split; [lra|apply Q; exact Hi]]. cbn [jump]. destruct (i <? 3)%nat; lra. }
  exists s, s', h, w, (1 / 8), (fun j i => conserved Isot (14 / 10) (fun k => jump 1 (1 / 2) 1 k i) j), F.
  split; [exact Hr|]. split; [exact ER|]. split; [exact HF|]. split; [exact E|]. split.
  { rewrite Hd. f_equal. rewrite Rabs_pos_eq by lra. rewrite (Rmin_left _ 1000) by lra. rewrite Rmin_left by lra. lra. }
  split; [reflexivity|]. split.
  { intros j i Hj Hi. refine (proj1 (real_cells Isot 6 _ _ (rmesh 6) (cent (s_u s)) (14 / 10) (jump 1 (1 / 2) 1) (fun _ => 1) ltac:(lia) W C G ltac:(discriminate) P _) i j ltac:(lia) Hj).
    intros k Hk. split; [|apply Q; exact Hk]. cbn [jump]. destruct (k <? 3)%nat; lra. }
  split; [cbn; lra|]. split; [cbn; lra|].
  destruct (HB 2%nat ltac:(lia)) as (_ & _ & B2). destruct (HB 3%nat ltac:(lia)) as (_ & _ & B3). rewrite B2, B3. clear.
  unfold face_lo, face_hi, rlo, rhi, rff, jump. cbn [Nat.ltb Nat.leb Nat.add].
  rewrite !(Rmin_left (1 - 1) (1 - 1)), !(Rmax_left (1 + 1) (1 + 1)) by lra. rewrite !(Rmin_left 0), !(Rmax_right 0) by lra. lra.
Qed.

Lemma rslope_flat : forall a b c th, a * b = 0 -> rslope MinMod a b c th = 0.
Proof.
  intros a b c th H. cbn [rslope]. destruct (Rmult_integral _ _ H) as [-> | ->].
  - destruct (Rlt_dec 0 0); [lra|]. destruct (Rlt_dec 0 b); [reflexivity|]. apply Rmax_left; lra.
  - destruct (Rlt_dec 0 a); destruct (Rlt_dec 0 0); try lra. apply Rmax_right; lra.
Qed.

Example C20_kt_nonvacuous : forall md, let c := rcfg (CKt MinMod) md false (1 / 2) in
  exists (s s' : sim XRn (Kt XRn)) h w dt U F, reached Isot 6 c (rmesh 6) (fun _ => True) s /\
    rhs_update false Isot 6 (s_rhs s) (s_u s) (rmesh 6) = (h, w, Ok tt) /\
    (forall j i, (j < 2)%nat -> (1 <= i <= 3)%nat -> at2 (n0 XRn) (k_flux_num (r_nf h : kt XRn)) j i = Fin (F j i)) /\
    solver_next false 1 Isot 6 (rmesh 6) s = (s', Ok tt) /\ ts_dt (s_ts s') = Fin dt /\ dt = 1 / 8 /\
    (forall j i, (j < 2)%nat -> (2 <= i <= 3)%nat -> at2 (n0 XRn) (cons (cent (s_u s))) j i = Fin (U j i)) /\
    U 0%nat 2%nat = 1 /\ U 0%nat 3%nat = 1 / 2 /\
    (forall i, (i < 6)%nat -> at2 (n0 XRn) (cons (cent w)) 0 i = Fin (jump 1 (1 / 2) 1 0 i)) /\
    (forall i, (1 <= i <= 4)%nat ->
       at2 (n0 XRn) (prim (west w)) 1 i = Fin 1 /\ at1 (n0 XRn) (c_sound (west w)) i = Fin 1 /\
       at2 (n0 XRn) (prim (east w)) 1 i = Fin 1 /\ at1 (n0 XRn) (c_sound (east w)) i = Fin 1).
Proof.
  intros md c. set (q := jump 1 (1 / 2) 1).
  destruct (kt_new (A:=XRn) Isot 6 (CKt MinMod) (rmesh 6)) as [k0|e| |] eqn:Ek; [|discriminate Ek..].
  destruct (jump_flow (Kt XRn) (CKt MinMod) md (1 / 2) k0 1 (1 / 2) 1 1 10 1 (kt_total XRn Isot 6 (rmesh 6)) Ek) as
    (s & s' & Hr & Hnf & Sw & Se & C & P & Q & _ & _ & _ & _ & E & Hd); try lra.
  { rewrite Rabs_pos_eq by lra. lra. }
  destruct (reached_kt _ _ _ _ _ Hr) as (k1 & Hk1 & Hr1).
  destruct (reached_ok XRn (Kt XRn) Isot 6 (rmesh 6) _ ltac:(lia) (kt_memoryless XRn Isot 6 (rmesh 6) k1 ltac:(lia) (std_build XRn 6 _)) _ s Hr1) as (Hok & _ & _ & G & Bw & Be).
  assert (W : wsv XRn Isot 6 (cent (s_u s))) by apply Hok.
  assert (Q0 : forall i, 0 < q 0%nat i) by (intros i; unfold q, jump; destruct (i <? 3)%nat; lra).
  destruct (real_cells Isot 6 _ _ (rmesh 6) (cent (s_u s)) (14 / 10) q (fun _ => 1) ltac:(lia) W C G ltac:(discriminate) P) as (HU & v' & Ev & W' & Rc).
  { intros k Hk. split; [specialize (Q0 k); lra|apply Q; exact Hk]. }
  set (U := fun j i => conserved Isot (14 / 10) (fun k => q k i) j).
  set (u1 := set_cent v' (s_u s)).
  assert (E1 : st_update_from_cons Isot 6 (r_bw (s_rhs s)) (r_be (s_rhs s)) (rmesh 6) (s_u s) = Ok u1).
  { unfold st_update_from_cons. rewrite Bw, Be. change (init_bc _ _) with (ng Isot). rewrite Ev. reflexivity. }
  destruct (nf_calc (Kt XRn) false Isot 6 (r_nf (s_rhs s)) (r_full (s_rhs s)) u1 (rmesh 6)) as [[[nf full] w] o] eqn:E2.
  assert (Eo : o = Ok tt) by (cbn [nf_calc Kt] in E2; unfold kt_calc in E2; apply (f_equal snd) in E2; symmetry; exact E2). subst o.
  assert (ER : exists h, rhs_update false Isot 6 (s_rhs s) (s_u s) (rmesh 6) = (h, w, Ok tt) /\ r_nf h = nf).
  { unfold rhs_update. rewrite E1, E2. eexists. split; reflexivity. }
  destruct ER as (h & ER & Hn).
  rewrite Hnf in E2.
  pose proof (kt_new_params Isot 6 Cartesian 1 2 MinMod 0 k0 ltac:(lia) ltac:(lra) eq_refl Ek) as Kp.
  assert (Hrec : forall j i, (j < 2)%nat -> (1 <= i <= 4)%nat ->
     recon XRn k0 (cons v') (k_dist_west k0) j i = Fin (U j i) /\ recon XRn k0 (cons v') (k_dist_east k0) j i = Fin (U j i)).
  { intros j i Hj Hi.
    assert (Ec : forall i', (i' < 6)%nat -> at2 (n0 XRn) (cons v') j i' = Fin (U j i')) by (intros i' Hi'; apply (Rc i' Hi'); exact Hj).
    destruct (recon_R 6 (hx 6 1 2) MinMod 0 k0 (cons v') j i _ _ _ Kp (hx_pos 6 1 2 ltac:(lia) ltac:(lra)) ltac:(lia) ltac:(lia) (Ec (i - 1)%nat ltac:(lia)) (Ec i ltac:(lia)) (Ec (i + 1)%nat ltac:(lia)) ltac:(discriminate)) as [R1 R2].
    assert (Z : (U j i - U j (i - 1)%nat) * (U j (i + 1)%nat - U j i) = 0).
    { unfold U, q. destruct i as [|[|[|[|[|i]]]]]; try lia; destruct j as [|[|j]]; try lia; unfold jump; cbn [conserved Nat.ltb Nat.leb Nat.add Nat.sub]; lra. }
    rewrite (rslope_flat _ _ _ _ Z) in R1, R2. rewrite R1, R2. split; f_equal; lra. }
  set (F := fun j i => match kt_fn XRn Isot k0 u1 (rmesh 6) j i with Fin r => r | _ => 0 end).
  exists s, s', h, w, (1 / 8), U, F.
  split; [exact Hr|]. split; [exact ER|]. split.
  { intros j i Hj Hi. rewrite Hn.
    pose proof (kt_num XRn false Isot 6 k0 (r_full (s_rhs s)) u1 (rmesh 6) (std_build XRn 6 _)) as K.
    cbn [nf_calc Kt] in E2. rewrite E2 in K. cbn [fst] in K. rewrite K; try (apply Hok); try lia; try exact Hj.
    unfold F. unfold rmesh.
    rewrite (kt_fn_R Isot 6 Cartesian 1 2 k0 u1 (14 / 10) j i 1 1 (fun l => U l i) (fun l => U l (i + 1)%nat)); try lia; try exact Hj.
    - reflexivity.
    - cbn [east u1 set_cent]. rewrite <- Se. exact G.
    - cbn [west u1 set_cent]. rewrite <- Sw. exact G.
    - intros l Hl. apply Hrec; [exact Hl|lia].
    - intros l Hl. apply Hrec; [exact Hl|lia].
    - apply Q0.
    - apply Q0.
    - discriminate.
    - intros _. cbn [east west u1 set_cent]. rewrite <- Se, <- Sw. split; apply Q; lia.
    - cbn [rsound]. pose proof (rlo_le (U 1%nat i / U 0%nat i - 1) (U 1%nat (i + 1)%nat / U 0%nat (i + 1)%nat - 1)).
      pose proof (rhi_ge (U 1%nat i / U 0%nat i + 1) (U 1%nat (i + 1)%nat / U 0%nat (i + 1)%nat + 1)). lra. }
  split; [exact E|]. split.
  { rewrite Hd. f_equal. rewrite Rabs_pos_eq by lra. rewrite (Rmin_left _ 1000) by lra. rewrite Rmin_left by lra. lra. }
  split; [reflexivity|]. split; [intros j i Hj Hi; apply HU; [lia|exact Hj]|]. split; [cbn; lra|]. split; [cbn; lra|].
  cbn [nf_calc Kt] in E2.
  destruct (kt_faces XRn _ _ _ _ _ _ _ _ _ _ _ 0 1 E2 ltac:(cbn; lia) ltac:(lia) ltac:(lia)) as (_ & _ & Ec).
  split.
  { intros i Hi. rewrite Ec. unfold u1. cbn [cent set_cent]. destruct (Rc i Hi) as (_ & _ & R3 & _). rewrite (R3 0%nat) by (cbn; lia). reflexivity. }
  intros i Hi.
  pose proof (kt_state XRn false Isot 6 k0 (r_full (s_rhs s)) u1 (rmesh 6)) as Su. rewrite E2 in Su. cbn [fst snd] in Su. cbv zeta in Su.
  set (u2 := kt_reconstruct k0 (nE Isot) 6 u1) in Su.
  assert (Hw2 : wsv XRn Isot 6 (west u2)) by (apply wsv_set_cons; [apply Hok|apply shape_upd_range2]).
  assert (He2 : wsv XRn Isot 6 (east u2)) by (apply wsv_set_cons; [apply Hok|apply shape_upd_range2]).
  destruct (Hrec 0%nat i ltac:(lia) Hi) as (A1 & A2). destruct (Hrec 1%nat i ltac:(lia) Hi) as (B1 & B2).
  destruct (kt_faces XRn _ _ _ _ _ _ _ _ _ _ _ 0 i E2 ltac:(cbn; lia) ltac:(lia) ltac:(lia)) as (C1 & C2 & _).
  destruct (kt_faces XRn _ _ _ _ _ _ _ _ _ _ _ 1 i E2 ltac:(cbn; lia) ltac:(lia) ltac:(lia)) as (D1 & D2 & _).
  unfold u1 in C1, C2, D1, D2. cbn [cent set_cent] in C1, C2, D1, D2. rewrite A1 in C1. rewrite A2 in C2. rewrite B1 in D1. rewrite B2 in D2.
  rewrite Su in C1, C2, D1, D2 |- *. cbn [west east] in C1, C2, D1, D2 |- *. rewrite kt_face_cons in C1, C2, D1, D2.
  assert (Z : U 1%nat i / U 0%nat i = 1) by (unfold U; cbn [conserved]; specialize (Q0 i); change (q 1%nat i) with 1; field; lra).
  assert (Z0 : U 0%nat i <> 0) by (unfold U; cbn [conserved]; specialize (Q0 i); lra).
  rewrite !kt_face_prim, !kt_face_sound by (auto; cbn; lia). rewrite !c2p_1, C1, C2, D1, D2. cbn [kt_sound].
  rewrite X_div by exact Z0. rewrite Z. change (c_sound (west u2)) with (c_sound (west (s_u s))). change (c_sound (east u2)) with (c_sound (east (s_u s))).
  rewrite <- Sw, <- Se, Q by lia. auto.
Qed.

(** ** C22: HLL and positive densities *)

(** The densities (conserved variable 0) stay positive if the step moves every
    wave, to the left and to the right, by at most half a cell. *)
Theorem C22_density_positive : forall p S (c : config XRn) md a b (s s' : sim XRn (Hll XRn)) validation fuel dt g (q : nat -> nat -> R) cs i,
  let m := mesh_build (A:=XRn) S (cf_mesh c) in
  let dx := (b - a) / INR (S - 4) in
  (5 <= S)%nat -> cf_mesh c = mkMC (A:=XRn) md (Fin a) (Fin b) -> a < b ->
  reached p S c m (fun _ => True) s ->
  consistent p S (init_bc (cf_bc_west c) (nE p)) (init_bc (cf_bc_east c) (nE p)) m (cent (s_u s)) ->
  pc_gamma (cf_physics c) = Fin g -> (p = Adiab -> g <> 1) ->
  (forall j i, (j < nE p)%nat -> (i < S)%nat -> at2 (n0 XRn) (prim (cent (s_u s))) j i = Fin (q j i)) ->
  (forall i, (i < S)%nat -> 0 < q 0%nat i /\ 0 < cs i /\ at1 (n0 XRn) (c_sound (cent (s_u s))) i = Fin (cs i)) ->
  solver_next validation fuel p S m s = (s', Ok tt) -> ts_dt (s_ts s') = Fin dt -> 0 <= dt ->
  (forall i, (i < S)%nat -> dt * Rabs (q 1%nat i - cs i) <= dx / 2 /\ dt * Rabs (q 1%nat i + cs i) <= dx / 2) ->
  (2 <= i <= S - 3)%nat ->
  exists r, at2 (n0 XRn) (cons (cent (s_u s'))) 0 i = Fin r /\ 0 < r.
Proof.
  intros p S c md a b s s' val fuel dt g q cs i m dx HS Hc Hab Hr C Hg Hg1 P Q E Hd Pd Cfl Hi.
  unfold m in *. rewrite Hc in *.
  exact (hll_positive p S md a b c s s' val fuel dt g q cs i HS Hab Hr C Hg Hg1 P Q E Hd Pd Cfl Hi).
Qed.
Print Assumptions C22_density_positive.

(** With the step size the library chooses, this holds for flow to the right:
    no velocity negative, Courant number at most 1/2, no automated step
    control. *)
Theorem C22_right_flow : forall p S (c : config XRn) md a b (s s' : sim XRn (Hll XRn)) validation fuel g (q : nat -> nat -> R) cs i k t tn M,
  let m := mesh_build (A:=XRn) S (cf_mesh c) in
  (5 <= S)%nat -> cf_mesh c = mkMC (A:=XRn) md (Fin a) (Fin b) -> a < b ->
  reached p S c m (fun _ => True) s ->
  consistent p S (init_bc (cf_bc_west c) (nE p)) (init_bc (cf_bc_east c) (nE p)) m (cent (s_u s)) ->
  pc_gamma (cf_physics c) = Fin g -> (p = Adiab -> g <> 1) ->
  (forall j i, (j < nE p)%nat -> (i < S)%nat -> at2 (n0 XRn) (prim (cent (s_u s))) j i = Fin (q j i)) ->
  (forall i, (i < S)%nat -> 0 < q 0%nat i /\ 0 < cs i /\ at1 (n0 XRn) (c_sound (cent (s_u s))) i = Fin (cs i)) ->
  (forall i, (i < S)%nat -> 0 <= q 1%nat i) ->
  rc_asc (nc_time (cf_numerics c)) = false -> ts_cfl (s_ts s) = Fin k -> 0 < k <= 1 / 2 ->
  ts_t (s_ts s) = Fin t -> ts_t_next (s_ts s) = Fin tn -> ts_dt_max (s_ts s) = Fin M -> 0 < tn -> t <= tn -> 0 <= M ->
  solver_next validation fuel p S m s = (s', Ok tt) ->
  (2 <= i <= S - 3)%nat ->
  exists r, at2 (n0 XRn) (cons (cent (s_u s'))) 0 i = Fin r /\ 0 < r.
Proof.
  intros p S c md a b s s' val fuel g q cs i k t tn M m HS Hc Hab Hr C Hg Hg1 P Q V Ha Hk Hk1 Ht Htn HM Ptn Ltn PM E Hi.
  unfold m in *. rewrite Hc in *.
  pose proof (hll_memoryless XRn p S (mesh_build (A:=XRn) S (mkMC (A:=XRn) md (Fin a) (Fin b))) HS (std_build XRn S (mkMC (A:=XRn) md (Fin a) (Fin b)))) as Hm.
  destruct (reached_ok XRn (Hll XRn) p S (mesh_build (A:=XRn) S (mkMC (A:=XRn) md (Fin a) (Fin b))) _ HS Hm c s Hr) as (Hok & Hb & _).
  assert (N2 : (1 < nE p)%nat) by (destruct p; cbn; lia).
  pose proof (cfl_mesh p S md a b k (s_u s) _ _ (q 1%nat) cs HS Hab ltac:(lra) C ltac:(apply Hok)) as K. cbv zeta in K.
  specialize (K ltac:(intros l Hl; split; [apply P; assumption|apply Q; exact Hl])).
  assert (E' : rkf_next val fuel p S (mesh_build (A:=XRn) S (mkMC (A:=XRn) md (Fin a) (Fin b))) s = (s', Ok tt)) by (eapply next_of_solver; exact E).
  destruct (st_calc_dt_cfl p S (s_u s) (Fin k : nF XRn) (mesh_build (A:=XRn) S (mkMC (A:=XRn) md (Fin a) (Fin b)))) as [[d| | |]|e| |] eqn:Ed; try contradiction.
  2:{ exfalso. destruct e; try contradiction. destruct (Q 0%nat ltac:(lia)) as (_ & Q1 & _). specialize (V 0%nat ltac:(lia)). specialize (K 0%nat ltac:(lia)). lra. }
  destruct K as (Pd & K & _).
  assert (Hd : ts_dt (s_ts s') = Fin (Rmin (Rmin d M) (tn - t))).
  { apply (plain_dt (Hll XRn) p S (mesh_build (A:=XRn) S (mkMC (A:=XRn) md (Fin a) (Fin b))) val fuel s s' d t tn M); auto.
    - rewrite Hb. unfold bt_new. destruct (rc_mode _); cbn [bt_asc]; try reflexivity; exact Ha.
    - rewrite Hk. exact Ed. }
  set (dt := Rmin (Rmin d M) (tn - t)) in *.
  assert (D0 : 0 <= dt) by (unfold dt; repeat apply Rmin_glb; lra).
  assert (D1 : dt <= d) by (unfold dt; eapply Rle_trans; [apply Rmin_l|apply Rmin_l]).
  apply (hll_positive p S md a b c s s' val fuel dt g q cs i HS Hab Hr C Hg Hg1 P Q E Hd D0); [|exact Hi].
  pose proof (hx_pos S a b HS Hab) as Hh.
  intros l Hl. specialize (K l Hl). destruct (Q l Hl) as (_ & Q1 & _). specialize (V l Hl).
  rewrite (Rabs_pos_eq (q 1%nat l + cs l)) in * by lra.
  assert (A1 : Rabs (q 1%nat l - cs l) <= q 1%nat l + cs l) by (apply Rabs_le; lra).
  assert (A2 : dt * (q 1%nat l + cs l) <= hx S a b / 2) by nra.
  split; [|exact A2]. pose proof (Rabs_pos (q 1%nat l - cs l)). nra.
Qed.
Print Assumptions C22_right_flow.

Lemma jump_ok : forall l r v, 0 < l -> 0 < r -> forall i, (i < 6)%nat -> 0 < jump l r v 0 i.
Proof. intros l r v Hl Hr i _. unfold jump. destruct (i <? 3)%nat; assumption. Qed.

(** A density jump moving to the right meets the hypotheses of both theorems. *)
Example C22_nonvacuous : forall md, let c := rcfg CHll md false (1 / 2) in
  exists (s s' : sim XRn (Hll XRn)), reached Isot 6 c (rmesh 6) (fun _ => True) s /\
    consistent Isot 6 (init_bc (cf_bc_west c) 2) (init_bc (cf_bc_east c) 2) (rmesh 6) (cent (s_u s)) /\
    (forall j i, (j < 2)%nat -> (i < 6)%nat -> at2 (n0 XRn) (prim (cent (s_u s))) j i = Fin (jump 1 (1 / 10) 1 j i)) /\
    (forall i, (i < 6)%nat -> 0 < jump 1 (1 / 10) 1 0 i /\ at1 (n0 XRn) (c_sound (cent (s_u s))) i = Fin 1) /\
    ts_cfl (s_ts s) = Fin (1 / 2) /\ ts_t (s_ts s) = Fin 0 /\ ts_t_next (s_ts s) = Fin 10 /\ ts_dt_max (s_ts s) = Fin 1000 /\
    solver_next false 1 Isot 6 (rmesh 6) s = (s', Ok tt) /\ ts_dt (s_ts s') = Fin (1 / 8) /\
    (1 / 8) * Rabs (1 - 1) <= (2 - 1) / 2 / 2 /\ (1 / 8) * Rabs (1 + 1) <= (2 - 1) / 2 / 2.
Proof.
  intros md c.
  destruct (jump_flow (Hll XRn) CHll md (1 / 2) (mkHll (A:=XRn) (zeros 6) (zeros 6) (zeros 6) (zeros 6) (zeros2 2 6)) 1 (1 / 10) 1 1 10 1 (hll_total XRn Isot 6 (rmesh 6)) eq_refl) as
    (s & s' & Hr & _ & _ & _ & C & P & Q & T1 & T2 & T3 & T4 & E & Hd); try lra.
  { rewrite Rabs_pos_eq by lra. lra. }
  exists s, s'. split; [exact Hr|]. split; [exact C|]. split; [exact P|]. split.
  { intros i Hi. split; [apply jump_ok; [lra|lra|exact Hi]|apply Q; exact Hi]. }
  do 5 (split; [assumption|]). split.
  { rewrite Hd. f_equal. rewrite Rabs_pos_eq by lra. rewrite (Rmin_left _ 1000) by lra. rewrite Rmin_left by lra. lra. }
  rewrite !Rabs_pos_eq by lra. lra.
Qed.

(** For flow to the left it fails: the step size only looks at v + c, which is
    small for a flow at nearly the speed of sound.  All the other hypotheses
    of [C22_right_flow] hold, the step returns Ok and a density is negative. *)
Theorem C22_left_flow_refuted : forall md, let c := rcfg CHll md false (1 / 2) in
  exists (s s' : sim XRn (Hll XRn)) (q : nat -> nat -> R) r, reached Isot 6 c (rmesh 6) (fun _ => True) s /\
    consistent Isot 6 (init_bc (cf_bc_west c) 2) (init_bc (cf_bc_east c) 2) (rmesh 6) (cent (s_u s)) /\
    (forall j i, (j < 2)%nat -> (i < 6)%nat -> at2 (n0 XRn) (prim (cent (s_u s))) j i = Fin (q j i)) /\
    (forall i, (i < 6)%nat -> 0 < q 0%nat i /\ q 1%nat i < 0 /\ at1 (n0 XRn) (c_sound (cent (s_u s))) i = Fin 1) /\
    ts_cfl (s_ts s) = Fin (1 / 2) /\ ts_t (s_ts s) = Fin 0 /\ ts_t_next (s_ts s) = Fin 10 /\ ts_dt_max (s_ts s) = Fin 1000 /\
    solver_next false 1 Isot 6 (rmesh 6) s = (s', Ok tt) /\
    at2 (n0 XRn) (cons (cent (s_u s'))) 0 2 = Fin r /\ r < 0.
Proof.
  intros md c. set (q := jump 1 (1 / 10) (- (101 / 100))).
  destruct (jump_flow (Hll XRn) CHll md (1 / 2) (mkHll (A:=XRn) (zeros 6) (zeros 6) (zeros 6) (zeros 6) (zeros2 2 6)) 1 (1 / 10) (- (101 / 100)) 1 10 1 (hll_total XRn Isot 6 (rmesh 6)) eq_refl) as
    (s & s' & Hr & _ & _ & _ & C & P & Q & T1 & T2 & T3 & T4 & E & Hd); try lra.
  { replace (- (101 / 100) + 1) with (- (1 / 100)) by lra. rewrite Rabs_Ropp, Rabs_pos_eq by lra. lra. }
  assert (Hdt : ts_dt (s_ts s') = Fin 10).
  { rewrite Hd. f_equal. replace (- (101 / 100) + 1) with (- (1 / 100)) by lra. rewrite Rabs_Ropp, Rabs_pos_eq by lra.
    rewrite (Rmin_left _ 1000) by lra. rewrite Rmin_right by lra. lra. }
  pose proof (hll_memoryless XRn Isot 6 (rmesh 6) ltac:(lia) (std_build XRn 6 _)) as Hm.
  destruct (reached_ok XRn (Hll XRn) Isot 6 (rmesh 6) _ ltac:(lia) Hm _ s Hr) as (Hok & Hb & _ & G & Bw & Be).
  assert (W : wsv XRn Isot 6 (cent (s_u s))) by apply Hok.
  assert (Q0 : forall i, (i < 6)%nat -> 0 < q 0%nat i) by (apply jump_ok; lra).
  destruct (hll_real_eval Isot 6 Cartesian 1 2 s _ _ (14 / 10) q (fun _ => 1) ltac:(lia) ltac:(lra) W Bw Be C G ltac:(discriminate) P) as (h & w & F & ER & HF & HB).
  { intros i Hi. split; [apply Q0; exact Hi|split; [lra|apply Q; exact Hi]]. }
  pose proof (hll_slopes Isot 6 Cartesian 1 2 ltac:(lia) ltac:(lra) s false h w F ER HF) as Hf.
  pose proof (reached_rhs (Hll XRn) Isot 6 (rmesh 6) _ c s _ ltac:(lia) Hm Hr Hf) as Hv.
  assert (HU : forall j, (j < 2)%nat -> at2 (n0 XRn) (cons (cent (s_u s))) j 2 = Fin (conserved Isot (14 / 10) (fun k => q k 2%nat) j)).
  { intros j Hj. refine (proj1 (real_cells Isot 6 _ _ (rmesh 6) (cent (s_u s)) (14 / 10) q (fun _ => 1) ltac:(lia) W C G ltac:(discriminate) P _) 2%nat j ltac:(lia) Hj).
    intros k Hk. split; [specialize (Q0 k Hk); lra|apply Q; exact Hk]. }
  pose proof (euler_cells (Hll XRn) Isot 6 (rmesh 6) _ false 1 _ s s' _ 10 (14 / 10) 2 (conserved Isot (14 / 10) (fun k => q k 2%nat)) ltac:(lia) Hm Hok Hb Hv E Hdt G ltac:(discriminate) ltac:(lia) HU) as K.
  cbv beta in K. rewrite inner_true in K by lia. destruct K as (K & _).
  exists s, s', q. eexists. split; [exact Hr|]. split; [exact C|]. split; [exact P|]. split.
  { intros i Hi. split; [apply Q0; exact Hi|]. split; [cbn; lra|apply Q; exact Hi]. }
  do 5 (split; [assumption|]). split; [exact K|].
  destruct (HB 1%nat ltac:(lia)) as (_ & _ & B1). destruct (HB 2%nat ltac:(lia)) as (_ & _ & B2). change (2 - 1)%nat with 1%nat. rewrite B1, B2. clear.
  unfold q, face_lo, face_hi, rlo, rhi, rff, jump, hx. cbn [Nat.ltb Nat.leb Nat.add Nat.sub conserved].
  replace (INR 2) with 2 by (cbn; ring).
  rewrite !(Rmin_left (- (101 / 100) - 1) (- (101 / 100) - 1)), !(Rmax_left (- (101 / 100) + 1) (- (101 / 100) + 1)) by lra. rewrite !(Rmin_right 0), !(Rmax_left 0) by lra.
  assert (HD : 1 < / (powerRZ 2 (-52) + (2 - 1) / 2)).
  { rewrite <- Rinv_1 at 1. pose proof eps_pos. apply Rinv_lt_contravar; [nra|].
    assert (powerRZ 2 (-52) < 1 / 2); [|lra]. change (powerRZ 2 (-52)) with (/ 2 ^ 52). lra. }
  set (D := / _) in *.
  change (rc_mode _) with md.
  assert (HW : 999995 / 1000000 <= weight_sum md) by (destruct md; cbn; lra).
  set (B := weight_sum _) in *.
  match goal with |- context [D * ?x] => replace x with (909 / 1000) by (replace (0 - (- (101 / 100) - 1)) with (201 / 100) by lra; field) end.
  assert (1 <= B * D * 1001 / 1000) by nra. nra.
Qed.
Print Assumptions C22_left_flow_refuted.

(** The same in binary64, with the validation feature. *)
Example C22_left_flow_b64 : forall bln bexp, let A := B64n bln bexp in
  demo_check (Hll A) true Isot 8 (demo_cfg (A:=A) CHll RK1 false 100 (nQ A (1 # 2)))
    (tube 4 (vals 1 (-101 # 100) 1) (vals (1 # 10) (-101 # 100) 1) bln bexp) 1
    (fun s => nltb A (at2 (n0 A) (prim (cent (s_u s))) 0 3) (n0 A)) = true.
Proof. intros. vm_compute. reflexivity. Qed.
