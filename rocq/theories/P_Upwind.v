(** C21 in terms of the gas on both sides of a face. *)

From Coq Require Import Reals ZArith QArith List Bool Lra Lia.
From Verif Require Import Base Num XReal Config Mesh State NumFlux Time Spec SpecFlow ConfigProofs MeshProofs
  BoundaryProofs PhysicsProofs FluxProofs UpdateProofs FluxReal FluxThms FluxMore P_Flux.
Import ListNotations.
Local Open Scope R_scope.

(** Primitive variables [q] of a gas and its sound speed [c]; [c0] is the
    isothermal sound speed. *)
Definition gas (p : phys) (g : R) (q : nat -> R) (c0 c : R) : Prop :=
  0 < q 0%nat /\ (p = Adiab -> 0 < q 2%nat /\ c = sqrt (g * q 2%nat / q 0%nat)) /\ (p = Isot -> c = c0 /\ 0 < c0).

Lemma gas_sound : forall p g q c0 c, 1 < g -> gas p g q c0 c -> c = rsound p g c0 q /\ 0 < c.
Proof.
  intros p g q c0 c Hg (H0 & HA & HI). destruct p; cbn [rsound].
  - destruct (HI eq_refl) as (-> & H). auto.
  - destruct (HA eq_refl) as (H2 & ->). split; [reflexivity|]. apply sqrt_lt_R0. apply Rdiv_lt_0_compat; [nra|exact H0].
Qed.

(** HLL: after an evaluation of the right-hand side, cells [i] and [i + 1] hold
    the gases [ql] and [qr].  If all waves of both move to the right, the flux
    through their face is the flux of the Euler equations for the left gas, if
    they move to the left, that for the right gas. *)
Theorem C21_supersonic_hll : forall validation p S m (r r' : rhs XRn (Hll XRn)) u u' g i j ql qr c0l c0r cl cr,
  (6 <= S)%nat -> (m_ixi_in m = 2 /\ m_ixi_out m = S - 3)%nat -> wsv XRn p S (cent u) ->
  rhs_update validation p S r u m = (r', u', Ok tt) ->
  gamma (cent u) = Fin g -> 1 < g -> (1 <= i <= S - 3)%nat -> (j < nE p)%nat ->
  (forall l, (l < nE p)%nat -> at2 (n0 XRn) (prim (cent u')) l i = Fin (ql l) /\ at2 (n0 XRn) (prim (cent u')) l (i + 1) = Fin (qr l)) ->
  (p = Isot -> at1 (n0 XRn) (c_sound (cent u)) i = Fin c0l /\ at1 (n0 XRn) (c_sound (cent u)) (i + 1) = Fin c0r) ->
  gas p g ql c0l cl -> gas p g qr c0r cr ->
  (0 <= ql 1%nat - cl -> 0 <= qr 1%nat - cr -> at2 (n0 XRn) (h_flux_num (r_nf r')) j i = Fin (euler_flux p g cl (conserved p g ql) j)) /\
  (ql 1%nat + cl <= 0 -> qr 1%nat + cr <= 0 -> at2 (n0 XRn) (h_flux_num (r_nf r')) j i = Fin (euler_flux p g cr (conserved p g qr) j)).
Proof.
  intros validation p S m r r' u u' g i j ql qr c0l c0r cl cr HS Hm Hw E Hg G1 Hi Hj Hq Hc GL GR.
  destruct (gas_sound p g ql c0l cl G1 GL) as (Ecl & Pcl). destruct (gas_sound p g qr c0r cr G1 GR) as (Ecr & Pcr).
  apply rhs_update_Ok in E. destruct E as [(u1 & nf & full & U & Q & ->)|[(_ & _ & _ & X)|[(e & _ & _ & _ & X)|(_ & _ & _ & X)]]]; try discriminate X.
  unfold st_update_from_cons in U. destruct (update_vars_from_cons p S (r_bw r) (r_be r) m (cent u)) as [v|e| |] eqn:Ev; try discriminate U.
  cbn [bind] in U. apply Ok_inj in U. subst u1. cbn [r_nf].
  destruct (update_from_cons_view XRn p S _ _ m _ v ltac:(lia) Hw Ev) as (V1 & V2 & V3 & V4 & _ & V6).
  pose proof (hll_state XRn validation p S (r_nf r) (r_full r) (set_cent v u) m) as Su.
  cbn [nf_calc Hll] in Q. rewrite Q in Su. cbn [fst snd cent set_cent] in Su. subst u'. cbn [cent set_cent] in Hq.
  destruct (update_flux_fields XRn p S v) as (F1 & _). rewrite F1 in Hq.
  assert (cells : forall k q c0 c, (k < S)%nat -> (forall l, (l < nE p)%nat -> at2 (n0 XRn) (prim v) l k = Fin (q l)) -> (p = Isot -> at1 (n0 XRn) (c_sound (cent u)) k = Fin c0) ->
    gas p g q c0 c -> c = rsound p g c0 q -> rcell p g v k (conserved p g q) c).
  { intros k q c0 c Hk Hp Hcs (H0 & HA & HI) ->. assert (P0 : q 0%nat <> 0) by lra. assert (g <> 1) by lra.
    assert (N1 : (1 < nE p)%nat) by (destruct p; cbn; lia).
    destruct (V6 k Hk) as (C1 & C2 & C3). split; [exact P0|].
    assert (Cs : at1 (n0 XRn) (c_sound v) k = Fin (rsound p g c0 q)).
    { rewrite C2, Hg. unfold cs_of. destruct p; cbn [rsound kt_sound].
      - apply Hcs. reflexivity.
      - destruct (HA eq_refl) as (H2 & _). exact (sound_R Adiab g 0 _ q H0 ltac:(intros _; nra) Hp). }
    assert (Vel : conserved p g q 1 / conserved p g q 0 = q 1%nat) by (cbn; field; exact P0).
    repeat match goal with |- _ /\ _ => split end.
    - intros l Hl. rewrite rprim_conserved; auto.
    - intros l Hl. rewrite C1, Hg by exact Hl. apply p2c_R; auto.
    - exact Cs.
    - rewrite C3 by (destruct p; cbn; lia). unfold eigen_row. cbn [Nat.eqb]. rewrite Cs, Hp, X_sub, Vel by exact N1. reflexivity.
    - rewrite C3 by (destruct p; cbn; lia). unfold eigen_row. replace (nE p - 1 =? 0)%nat with false by (destruct p; reflexivity). rewrite Nat.eqb_refl, Cs, Hp, X_add, Vel by exact N1. reflexivity. }
  pose proof (cells i ql c0l cl ltac:(lia) (fun l Hl => proj1 (Hq l Hl)) (fun e => proj1 (Hc e)) GL Ecl) as RL.
  pose proof (cells (i + 1)%nat qr c0r cr ltac:(lia) (fun l Hl => proj2 (Hq l Hl)) (fun e => proj2 (Hc e)) GR Ecr) as RR.
  pose proof (hll_num XRn validation p S (r_nf r) (r_full r) (set_cent v u) m Hm j i Hj ltac:(lia) ltac:(lia) ltac:(lia)) as Nn. rewrite Q in Nn. cbn [fst snd cent set_cent] in Nn.
  pose proof (hll_fn_R p S g v j i _ cl _ cr Hj ltac:(lia) ltac:(apply V1) RL RR) as Fr. cbv zeta in Fr.
  replace (conserved p g ql 1 / conserved p g ql 0) with (ql 1%nat) in Fr by (cbn; field; destruct GL; lra).
  replace (conserved p g qr 1 / conserved p g qr 0) with (qr 1%nat) in Fr by (cbn; field; destruct GR; lra).
  split; intros A1 A2.
  - assert (L : rlo (ql 1%nat - cl) (qr 1%nat - cr) = 0) by (unfold rlo; apply Rmin_left; apply Rmin_glb; assumption).
    assert (G : 0 < rhi (ql 1%nat + cl) (qr 1%nat + cr)) by (unfold rhi; eapply Rlt_le_trans; [|apply Rmax_r]; eapply Rlt_le_trans; [|apply Rmax_l]; lra).
    rewrite L in Fr. rewrite Nn, Fr, rff_right by assumption. reflexivity.
  - assert (G : rhi (ql 1%nat + cl) (qr 1%nat + cr) = 0) by (unfold rhi; apply Rmax_left; apply Rmax_lub; assumption).
    assert (L : rlo (ql 1%nat - cl) (qr 1%nat - cr) < 0) by (unfold rlo; eapply Rle_lt_trans; [apply Rmin_r|]; eapply Rle_lt_trans; [apply Rmin_l|]; lra).
    rewrite G in Fr. rewrite Nn, Fr, rff_left by assumption. reflexivity.
Qed.
Print Assumptions C21_supersonic_hll.

(** KT: the same for the gases that the reconstruction puts on the two sides of
    the face. *)
Theorem C21_supersonic_kt : forall validation p S md a b k d u k' d' u' o g i j ql qr c0l c0r cl cr,
  let m := mesh_build (A:=XRn) S (mkMC (A:=XRn) md (Fin a) (Fin b)) in
  wsv XRn p S (west u) -> wsv XRn p S (east u) ->
  kt_calc (A:=XRn) validation p S k d u m = (k', d', u', o) ->
  gamma (west u) = Fin g -> gamma (east u) = Fin g -> 1 < g -> (1 <= i <= S - 3)%nat -> (i + 2 < S)%nat -> (j < nE p)%nat ->
  (forall l, (l < nE p)%nat -> at2 (n0 XRn) (cons (east u')) l i = Fin (conserved p g ql l) /\
                               at2 (n0 XRn) (cons (west u')) l (i + 1) = Fin (conserved p g qr l)) ->
  (p = Isot -> at1 (n0 XRn) (c_sound (east u)) i = Fin c0l /\ at1 (n0 XRn) (c_sound (west u)) (i + 1) = Fin c0r) ->
  gas p g ql c0l cl -> gas p g qr c0r cr ->
  (0 <= ql 1%nat - cl -> 0 <= qr 1%nat - cr -> at2 (n0 XRn) (k_flux_num k') j i = Fin (euler_flux p g cl (conserved p g ql) j)) /\
  (ql 1%nat + cl <= 0 -> qr 1%nat + cr <= 0 -> at2 (n0 XRn) (k_flux_num k') j i = Fin (euler_flux p g cr (conserved p g qr) j)).
Proof.
  intros validation p S md a b k d u k' d' u' o g i j ql qr c0l c0r cl cr m Ww We E Gw Ge G1 Hi Hi2 Hj Hq Hc GL GR.
  destruct (gas_sound p g ql c0l cl G1 GL) as (Ecl & Pcl). destruct (gas_sound p g qr c0r cr G1 GR) as (Ecr & Pcr).
  pose proof (kt_upwind validation p S md a b k d u k' d' u' o j i) as Up. cbv zeta in Up. fold m in Up.
  pose proof (kt_state XRn validation p S k d u m) as Su. rewrite E in Su. cbn [fst snd] in Su. cbv zeta in Su.
  set (u1 := kt_reconstruct k (nE p) S u) in Su.
  assert (Hw1 : wsv XRn p S (west u1)) by (apply wsv_set_cons; [exact Ww|apply shape_upd_range2]).
  assert (He1 : wsv XRn p S (east u1)) by (apply wsv_set_cons; [exact We|apply shape_upd_range2]).
  assert (face : forall (v : vars XRn) q c0 c n, wsv XRn p S v -> (n < S)%nat -> gamma v = Fin g -> (forall l, (l < nE p)%nat -> at2 (n0 XRn) (cons (kt_face p S v)) l n = Fin (conserved p g q l)) ->
     (p = Isot -> at1 (n0 XRn) (c_sound v) n = Fin c0) -> gas p g q c0 c -> c = rsound p g c0 q ->
     at2 (n0 XRn) (eigen_vals (kt_face p S v)) 0 n = Fin (q 1%nat - c) /\ at2 (n0 XRn) (eigen_vals (kt_face p S v)) (nE p - 1) n = Fin (q 1%nat + c) /\
     at2 (n0 XRn) (flux (kt_face p S v)) j n = Fin (euler_flux p g c (conserved p g q) j)).
  { intros v q c0 c n Hv Hn Hg HU Hcs (H0 & HA & _) ->. rewrite kt_face_cons in HU. assert (P0 : q 0%nat <> 0) by lra. assert (g <> 1) by lra.
    assert (N1 : (1 < nE p)%nat) by (destruct p; cbn; lia).
    destruct (kt_face_at XRn p S v n Hv Hn) as (K0 & K1 & K2). rewrite Hg in K0, K1, K2.
    set (X := fun l => at2 (n0 XRn) (cons v) l n) in *.
    assert (PQ : forall l, (l < nE p)%nat -> c2p XRn p (Fin g) X l = Fin (rprim p g (conserved p g q) l)) by (intros l Hl; apply c2p_R; auto).
    assert (PQ' : forall l, (l < nE p)%nat -> c2p XRn p (Fin g) X l = Fin (q l)) by (intros l Hl; rewrite PQ, rprim_conserved; auto).
    assert (Cs : kt_sound XRn p (at1 (n0 XRn) (c_sound v) n) (c2p XRn p (Fin g) X) (Fin g) = Fin (rsound p g c0 q)).
    { destruct p; cbn [rsound].
      - rewrite (Hcs eq_refl). reflexivity.
      - destruct (HA eq_refl) as (H2 & _). refine (sound_R Adiab g 0 _ q H0 ltac:(intros _; nra) PQ'). }
    rewrite Cs in K0, K1, K2. rewrite PQ' in K0, K1 by exact N1. split; [exact K0|]. split; [exact K1|].
    rewrite K2 by exact Hj. apply pflux_R; auto. }
  subst u'. cbn [west east] in Hq, Up.
  destruct (face (east u1) ql c0l cl i He1 ltac:(lia) Ge (fun l Hl => proj1 (Hq l Hl)) (fun e => proj1 (Hc e)) GL Ecl) as (L1 & L2 & L3).
  destruct (face (west u1) qr c0r cr (i + 1)%nat Hw1 ltac:(lia) Gw (fun l Hl => proj2 (Hq l Hl)) (fun e => proj2 (Hc e)) GR Ecr) as (R1 & R2 & R3).
  destruct (Up _ _ _ _ _ _ _ _ E Hj Hi ltac:(lia) L1 R1 L2 R2 L3 R3 (proj1 (Hq j Hj)) (proj2 (Hq j Hj))) as (U1 & U2).
  split; intros A1 A2.
  - apply U1; auto. eapply Rlt_le_trans; [|apply Rmax_l]; lra.
  - apply U2; auto. eapply Rle_lt_trans; [apply Rmin_l|]; lra.
Qed.
Print Assumptions C21_supersonic_kt.

(** A density jump in a supersonic flow to the right meets the hypotheses. *)
Definition jump_flow (i j : nat) : R := match j with 0%nat => (if (i <? 4)%nat then 2 else 1) | _ => 5 end.

Example C21_supersonic_example : let m := mesh_build (A:=XRn) 9 (mkMC (A:=XRn) Cartesian (Fin 0) (Fin 1)) in
  gas Isot 2 (jump_flow 3) 1 1 /\ gas Isot 2 (jump_flow 4) 1 1 /\ 0 <= jump_flow 3 1 - 1 /\ 0 <= jump_flow 4 1 - 1 /\
  exists (r r' : rhs XRn (Hll XRn)) u u', rhs_update false Isot 9 r u m = (r', u', Ok tt) /\ wsv XRn Isot 9 (cent u) /\ gamma (cent u) = Fin 2 /\
    at1 (n0 XRn) (c_sound (cent u)) 3 = Fin 1 /\ at1 (n0 XRn) (c_sound (cent u)) 4 = Fin 1 /\
    forall l, (l < 2)%nat -> at2 (n0 XRn) (prim (cent u')) l 3 = Fin (jump_flow 3 l) /\ at2 (n0 XRn) (prim (cent u')) l 4 = Fin (jump_flow 4 l).
Proof.
  intros m. do 2 (split; [unfold gas, jump_flow; cbn; repeat split; try lra; discriminate|]). do 2 (split; [unfold jump_flow; lra|]).
  set (u := flow Isot 9 2 jump_flow (fun _ => 1)).
  destruct (flow_cells Isot 9 2 jump_flow (fun _ => 1) u m) as (v & Hv & W & _ & Hc).
  - lia.
  - split; [lra|]. intros i Hi. split; [|intros _; lra]. intros _. split; [|discriminate]. unfold jump_flow. destruct (i <? 4)%nat; lra.
  - apply flow_is_state.
  - set (h := mkHll (A:=XRn) (zeros (A:=XRn) 9) (zeros (A:=XRn) 9) (zeros (A:=XRn) 9) (zeros (A:=XRn) 9) (zeros2 (A:=XRn) 2 9)).
    exists (mkRhs (N:=Hll XRn) (zeros2 (A:=XRn) 2 9) h (init_bc BNoGradients 2) (init_bc BNoGradients 2)).
    destruct (rhs_update false Isot 9 (mkRhs (N:=Hll XRn) (zeros2 (A:=XRn) 2 9) h (init_bc BNoGradients 2) (init_bc BNoGradients 2)) u m) as [[r' u'] o] eqn:E.
    exists r', u, u'. pose proof E as E'. unfold rhs_update, st_update_from_cons in E'. cbn [r_bw r_be r_nf r_full] in E'.
    change (init_bc BNoGradients (nE Isot)) with (init_bc BNoGradients 2) in Hv. rewrite Hv in E'. cbn [bind] in E'.
    pose proof (hll_state XRn false Isot 9 h (zeros2 (A:=XRn) 2 9) (set_cent v u) m) as Su.
    change (nf_calc (Hll XRn)) with (@hll_calc XRn) in E'.
    assert (So : snd (hll_calc (A:=XRn) false Isot 9 h (zeros2 (A:=XRn) 2 9) (set_cent v u) m) = Ok tt) by reflexivity.
    destruct (hll_calc (A:=XRn) false Isot 9 h (zeros2 (A:=XRn) 2 9) (set_cent v u) m) as [[[h1 d1] u1] o1]. cbn [fst snd] in Su, So. subst u1 o1.
    apply pair_equal_spec in E'. destruct E' as (E' & <-). apply pair_equal_spec in E'. destruct E' as (_ & <-).
    split; [exact E|]. split; [apply flow_vars_wsv|]. split; [reflexivity|]. split; [apply at1_tab; lia|]. split; [apply at1_tab; lia|].
    intros l Hl. cbn [cent set_cent]. destruct (update_flux_fields XRn Isot 9 v) as (F1 & _). rewrite F1.
    destruct (Hc 3%nat ltac:(lia)) as [(_ & A2 & _) _]. destruct (Hc 4%nat ltac:(lia)) as [(_ & B2 & _) _].
    change (clamp 9 3) with 3%nat in *. change (clamp 9 4) with 4%nat in *.
    rewrite A2, B2 by exact Hl. rewrite !rprim_conserved; auto; try (unfold jump_flow; cbn; lra).
Qed.

(** The same jump with KT: the limiter leaves both states as they are. *)
Example C21_supersonic_example_kt : let m := mesh_build (A:=XRn) 9 (mkMC (A:=XRn) Cartesian (Fin 0) (Fin 1)) in
  exists k k' d' u u' o, kt_calc (A:=XRn) false Isot 9 k (zeros2 (A:=XRn) 2 9) u m = (k', d', u', o) /\ wsv XRn Isot 9 (west u) /\ wsv XRn Isot 9 (east u) /\
    gamma (west u) = Fin 2 /\ gamma (east u) = Fin 2 /\ at1 (n0 XRn) (c_sound (east u)) 3 = Fin 1 /\ at1 (n0 XRn) (c_sound (west u)) 4 = Fin 1 /\
    forall l, (l < 2)%nat -> at2 (n0 XRn) (cons (east u')) l 3 = Fin (conserved Isot 2 (jump_flow 3) l) /\ at2 (n0 XRn) (cons (west u')) l 4 = Fin (conserved Isot 2 (jump_flow 4) l).
Proof.
  intros m. destruct (kt_new (A:=XRn) Isot 9 (CKt MinMod) m) as [k| | |] eqn:Ek; [|discriminate..].
  set (u := flow Isot 9 2 jump_flow (fun _ => 1)).
  destruct (kt_calc (A:=XRn) false Isot 9 k (zeros2 (A:=XRn) 2 9) u m) as [[[k' d'] u'] o] eqn:E.
  exists k, k', d', u, u', o. split; [exact E|]. do 2 (split; [apply flow_vars_wsv|]). do 2 (split; [reflexivity|]). do 2 (split; [apply at1_tab; lia|]).
  assert (U : forall i j, (i < 9)%nat -> (j < 2)%nat -> at2 (n0 XRn) (cons (cent u)) j i = Fin (conserved Isot 2 (jump_flow i) j)) by (intros; apply at2_mtab; assumption).
  intros l Hl.
  destruct (C23_no_new_extrema false Isot 9 Cartesian 0 1 MinMod 0 k k _ _ _ _ _ _ l 3 _ _ _ ltac:(lia) ltac:(lra) eq_refl Logic.I Ek ltac:(repeat split; reflexivity) E Hl ltac:(lia) ltac:(lia) (U 2%nat l ltac:(lia) Hl) (U 3%nat l ltac:(lia) Hl) (U 4%nat l ltac:(lia) Hl))
    as (w & e & _ & He & _ & _ & Z & _).
  destruct (C23_no_new_extrema false Isot 9 Cartesian 0 1 MinMod 0 k k _ _ _ _ _ _ l 4 _ _ _ ltac:(lia) ltac:(lra) eq_refl Logic.I Ek ltac:(repeat split; reflexivity) E Hl ltac:(lia) ltac:(lia) (U 3%nat l ltac:(lia) Hl) (U 4%nat l ltac:(lia) Hl) (U 5%nat l ltac:(lia) Hl))
    as (w' & e' & Hw & _ & _ & _ & Z' & _).
  rewrite He, Hw. split; f_equal.
  - apply Z. destruct l as [|[|l]]; [| |lia]; unfold jump_flow; cbn; lra.
  - apply Z'. destruct l as [|[|l]]; [| |lia]; unfold jump_flow; cbn; lra.
Qed.
