(** Steps of HLL on healthy gas. *)

From Coq Require Import Reals ZArith NArith QArith Qreals List Bool Lia Lra.
From Verif Require Import Base Num XReal Config Mesh State NumFlux Time Spec SpecFlow SpecStep SpecTableau SpecEuler SpecHealthy
  MeshProofs BoundaryProofs PhysicsProofs FluxProofs UpdateProofs FluxReal FluxThms FluxMore StepProofs StepInv StepEq TableauProofs
  TimeProofs TimeMore AscProofs EulerStep RealRun EulerThms LinRun ConsThms PosProofs.
Import ListNotations.
Local Open Scope R_scope.

(** ** Values of a healthy gas as functions *)
Definition fpart (x : XR) : R := match x with Fin r => r | _ => 0 end.
Lemma fpart_Fin : forall x r, x = Fin r -> x = Fin (fpart x).
Proof. intros x r ->. reflexivity. Qed.

Lemma healthy_fun : forall p S bw be m v g, healthy p S v -> consistent p S bw be m v -> gamma v = Fin g -> (p = Adiab -> 1 < g) ->
  exists (q : nat -> nat -> R) (cs : nat -> R),
  (forall j i, (j < nE p)%nat -> (i < S)%nat -> at2 (n0 XRn) (prim v) j i = Fin (q j i)) /\
  (forall i, (i < S)%nat -> 0 < q 0%nat i /\ 0 < cs i /\ at1 (n0 XRn) (c_sound v) i = Fin (cs i)) /\
  (forall i, (i < S)%nat -> sound p g (fun j => q j i) (cs i)).
Proof.
  intros p S bw be m v g (H & _) C G Hg.
  exists (fun j i => fpart (at2 (n0 XRn) (prim v) j i)), (fun i => fpart (at1 (n0 XRn) (c_sound v) i)).
  split; [|split].
  - intros j i Hj Hi. destruct (H i Hi) as ((r0 & E0 & _) & (r1 & E1) & H2 & _).
    destruct j as [|[|[|j]]]; [exact (fpart_Fin _ _ E0)|exact (fpart_Fin _ _ E1)| |destruct p; cbn in Hj; lia].
    destruct p; [cbn in Hj; lia|]. destruct (H2 eq_refl) as (r2 & E2 & _). exact (fpart_Fin _ _ E2).
  - intros i Hi. destruct (H i Hi) as ((r0 & E0 & P0) & _ & _ & (c & Ec & Pc)). rewrite E0, Ec. cbn [fpart]. auto.
  - intros i Hi. destruct (H i Hi) as ((r0 & E0 & P0) & _ & H2 & (c & Ec & Pc)). unfold sound. rewrite E0, Ec. cbn [fpart].
    split; [exact P0|]. split; [exact Pc|]. intros Ep. destruct (H2 Ep) as (r2 & E2 & P2). rewrite E2. cbn [fpart]. specialize (Hg Ep).
    split; [exact Hg|]. split; [exact P2|].
    pose proof (cst_sound _ _ _ _ _ _ _ C i Ep Hi) as K. rewrite G, E0, E2, Ec, X_mul, X_div in K by lra.
    assert (P : 0 <= g * r2 / r0) by (apply Rlt_le, Rdiv_lt_0_compat; nra).
    rewrite X_sqrt in K by exact P. injection K as ->. apply sqrt_sqrt. exact P.
Qed.

(** ** The fluxes through all faces, for all equations *)
Lemma hll_real_all : forall p S md a b (s : sim XRn (Hll XRn)) bw be g (q : nat -> nat -> R) cs,
  let m := mesh_build (A:=XRn) S (mkMC (A:=XRn) md (Fin a) (Fin b)) in
  (5 <= S)%nat -> a < b -> wsv XRn p S (cent (s_u s)) ->
  r_bw (s_rhs s) = bw -> r_be (s_rhs s) = be ->
  consistent p S bw be m (cent (s_u s)) -> gamma (cent (s_u s)) = Fin g -> (p = Adiab -> g <> 1) ->
  (forall j i, (j < nE p)%nat -> (i < S)%nat -> at2 (n0 XRn) (prim (cent (s_u s))) j i = Fin (q j i)) ->
  (forall i, (i < S)%nat -> 0 < q 0%nat i /\ 0 < cs i /\ at1 (n0 XRn) (c_sound (cent (s_u s))) i = Fin (cs i)) ->
  exists h w, rhs_update false p S (s_rhs s) (s_u s) m = (h, w, Ok tt) /\
    (forall j i, (j < nE p)%nat -> (1 <= i <= S - 3)%nat -> at2 (n0 XRn) (h_flux_num (r_nf h)) j i =
       Fin (rff (face_lo (q 1%nat) cs i) (face_hi (q 1%nat) cs i)
         (euler_flux p g (cs i) (conserved p g (fun k => q k i)) j) (euler_flux p g (cs (i + 1)%nat) (conserved p g (fun k => q k (i + 1)%nat)) j)
         (conserved p g (fun k => q k i) j) (conserved p g (fun k => q k (i + 1)%nat) j))).
Proof.
  intros p S md a b s bw be g q cs m HS Hab W Hw He C G G1 P Q.
  destruct (real_cells p S bw be m (cent (s_u s)) g q cs HS W C G G1 P) as (_ & v' & Ev & W' & Hr).
  { intros i Hi. destruct (Q i Hi) as (Q1 & Q2 & Q3). split; [lra|exact Q3]. }
  set (u1 := set_cent v' (s_u s)).
  assert (E1 : st_update_from_cons p S (r_bw (s_rhs s)) (r_be (s_rhs s)) m (s_u s) = Ok u1).
  { unfold st_update_from_cons. rewrite Hw, He, Ev. reflexivity. }
  destruct (nf_calc (Hll XRn) false p S (r_nf (s_rhs s)) (r_full (s_rhs s)) u1 m) as [[[nf full] w] o] eqn:E2.
  assert (Eo : o = Ok tt) by (cbn [nf_calc Hll] in E2; unfold hll_calc in E2; inversion E2; reflexivity). subst o.
  assert (ER : exists h, rhs_update false p S (s_rhs s) (s_u s) m = (h, w, Ok tt) /\ r_nf h = nf).
  { unfold rhs_update. rewrite E1, E2. eexists. split; reflexivity. }
  destruct ER as (h & ER & Hn). exists h, w. split; [exact ER|].
  rewrite Hn. intros j i Hj Hi.
  pose proof (hll_num XRn false p S (r_nf (s_rhs s)) (r_full (s_rhs s)) u1 m (std_build XRn S _) j i Hj ltac:(lia) ltac:(lia) ltac:(lia)) as H1.
  cbn [nf_calc Hll] in E2. rewrite E2 in H1. cbn [fst snd] in H1. rewrite H1. unfold u1. cbn [cent set_cent].
  destruct (Q i ltac:(lia)) as (Q1 & Q2 & _). destruct (Q (i + 1)%nat ltac:(lia)) as (Q3 & _).
  pose proof (hll_fn_R p S g v' j i _ _ _ _ Hj ltac:(lia) ltac:(apply W') (Hr i ltac:(lia)) (Hr (i + 1)%nat ltac:(lia))) as K. cbn zeta in K.
  assert (V0 : forall i, 0 < q 0%nat i -> conserved p g (fun j => q j i) 1%nat / conserved p g (fun j => q j i) 0%nat = q 1%nat i) by (intros k Hk; cbn [conserved]; field; lra).
  rewrite !V0 in K by assumption. fold (face_lo (q 1%nat) cs i) (face_hi (q 1%nat) cs i) in K.
  exact (K (face_order (q 1%nat) cs i Q2)).
Qed.

(** ** Ghost cells *)
Lemma cell_cases : forall S i, (6 <= S)%nat -> (i < S)%nat -> interior S i \/ exists s k, (k = 1 \/ k = 2)%nat /\ i = ghost_cell s S k.
Proof.
  intros S i HS Hi. destruct (le_lt_dec i 1) as [H|H].
  - right. exists West, (2 - i)%nat. unfold ghost_cell. split; lia.
  - destruct (le_lt_dec i (S - 3)) as [H1|H1]; [left; unfold interior; lia|]. right. exists East, (i - (S - 3))%nat. unfold ghost_cell. split; lia.
Qed.

Lemma gentle_ghost : forall (p : phys) s S (m : mesh XRn) l (v : vars XRn) j k, (6 <= S)%nat -> shape (nE p) S (prim v) -> gentle_bc (nE p) l ->
  bc_apply s p S m l v = Ok v -> (j < nE p)%nat -> (k = 1 \/ k = 2)%nat ->
  (forall i, interior S i -> exists r, at2 (n0 XRn) (prim v) j i = Fin r /\ (j <> 1%nat -> 0 < r)) ->
  exists r, at2 (n0 XRn) (prim v) j (ghost_cell s S k) = Fin r /\ (j <> 1%nat -> 0 < r).
Proof.
  intros p s S m l v j k HS Hsh (Hall & Hg) Hb Hj Hk Hin.
  apply bc_apply_Ok in Hb. destruct Hb as (q & Hq & Ev). apply (f_equal prim) in Ev. cbn [prim set_prim] in Ev. subst q.
  destruct (last_entry l j) as [Hn|(l1 & md & l2 & Hl & Hl2)]; [exfalso; apply Hn, Hall; exact Hj|].
  assert (Hm : In (j, md) l) by (rewrite Hl; apply in_or_app; right; left; reflexivity).
  rewrite (apply_modes_ghost XRn s (nE p) S m l (prim v) (prim v) j k l1 md l2 ltac:(lia) Hsh Hq Hl Hl2 Hk).
  assert (I0 : interior S (inner_cell s S 0)) by (destruct s; unfold interior, inner_cell; lia).
  assert (I1 : interior S (inner_cell s S (k - 1))) by (destruct s; unfold interior, inner_cell; lia).
  destruct (Hin _ I0) as (r0 & E0 & P0). destruct (Hin _ I1) as (r1 & E1 & P1).
  unfold Gval. destruct (Hg j md Hm) as [->|[->|(-> & [->| ->])]].
  - exists r0. auto.
  - rewrite E0, X_Q, X_mul. eexists. split; [reflexivity|]. intros J. specialize (P0 J). apply Rmult_lt_0_compat; [|exact P0].
    unfold Q2R. cbn [Qnum Qden]. apply Rmult_lt_0_compat; [lra|]. apply Rinv_0_lt_compat. apply IZR_lt. reflexivity.
  - rewrite E1. eexists. split; [reflexivity|]. intros J. contradiction.
  - rewrite E0, E1. match goal with |- context [if ?b then _ else _] => destruct b end; (eexists; split; [reflexivity|]; intros J; contradiction).
Qed.

(** ** One step *)
Lemma all_fin2_true : forall (M : list (list (nF XRn))) E n, shape E n M -> (forall j i, (j < E)%nat -> (i < n)%nat -> exists r, at2 (n0 XRn) M j i = Fin r) -> all_fin2 (A:=XRn) M = true.
Proof.
  intros M E n (H1 & H2) H. unfold all_fin2. apply forallb_forall. intros row Hr. apply forallb_forall. intros x Hx.
  destruct (In_nth M row [] Hr) as (j & Hj & Ej). destruct (In_nth row x (n0 XRn) Hx) as (i & Hi & Ei).
  rewrite H1 in Hj. rewrite <- Ej, (H2 j Hj) in Hi.
  destruct (H j i Hj Hi) as (r & K). unfold at2 in K. rewrite Ej, Ei in K. rewrite K. reflexivity.
Qed.

Lemma healthy_valid : forall p S (v : vars XRn), wsv XRn p S v -> healthy p S v -> vars_validate v = Ok tt.
Proof.
  intros p S v W (H & Hc). unfold vars_validate.
  rewrite (all_fin2_true (prim v) (nE p) S), (all_fin2_true (cons v) (nE p) S); [reflexivity|apply W|exact Hc|apply W|].
  intros j i Hj Hi. destruct (H i Hi) as ((r0 & E0 & _) & H1 & H2 & _).
  destruct j as [|[|[|j]]]; [eauto|exact H1| |destruct p; cbn in Hj; lia].
  destruct p; [cbn in Hj; lia|]. destruct (H2 eq_refl) as (r & E & _). eauto.
Qed.

Lemma healthy_step : forall p S md a b (c : config XRn) (s s' : sim XRn (Hll XRn)) val fuel dt g,
  let m := mesh_build (A:=XRn) S (mkMC (A:=XRn) md (Fin a) (Fin b)) in
  let bw := init_bc (cf_bc_west c) (nE p) in let be := init_bc (cf_bc_east c) (nE p) in
  (6 <= S)%nat -> a < b -> reached p S c m (fun _ => True) s ->
  gentle_bc (nE p) bw -> gentle_bc (nE p) be ->
  consistent p S bw be m (cent (s_u s)) -> healthy p S (cent (s_u s)) ->
  pc_gamma (cf_physics c) = Fin g -> (p = Adiab -> 1 < g) ->
  solver_next val fuel p S m s = (s', Ok tt) -> ts_dt (s_ts s') = Fin dt -> 0 <= dt ->
  courant_limited S (hx S a b) dt (cent (s_u s)) ->
  healthy p S (cent (s_u s')) /\ consistent p S bw be m (cent (s_u s')).
Proof.
  intros p S md a b c s s' val fuel dt g m bw be HS Hab Hr Gw Ge C H Hg Hg1 E Hd Pd Cfl.
  assert (HS5 : (5 <= S)%nat) by lia.
  pose proof (hll_memoryless XRn p S m HS5 (std_build XRn S _)) as Hm.
  destruct (reached_ok XRn (Hll XRn) p S m _ HS5 Hm c s Hr) as (Hok & Hb & _ & G & Bw & Be). rewrite Hg in G.
  assert (W : wsv XRn p S (cent (s_u s))) by apply Hok.
  assert (Hg2 : p = Adiab -> g <> 1) by (intros Ep; specialize (Hg1 Ep); lra).
  destruct (healthy_fun p S bw be m (cent (s_u s)) g H C G Hg1) as (q & cs & P & Q & Sd).
  destruct (hll_real_all p S md a b s _ _ g q cs HS5 Hab W Bw Be C G Hg2 P Q) as (h & w & ER & HF).
  set (F := fun j i => rff (face_lo (q 1%nat) cs i) (face_hi (q 1%nat) cs i)
         (euler_flux p g (cs i) (conserved p g (fun k => q k i)) j) (euler_flux p g (cs (i + 1)%nat) (conserved p g (fun k => q k (i + 1)%nat)) j)
         (conserved p g (fun k => q k i) j) (conserved p g (fun k => q k (i + 1)%nat) j)) in *.
  pose proof (hll_slopes p S md a b HS5 Hab s false h w F ER HF) as Hf. fold m in Hf.
  pose proof (reached_rhs (Hll XRn) p S m _ c s _ HS5 Hm Hr Hf) as Hv.
  assert (HU : forall j i, (j < nE p)%nat -> (i < S)%nat -> at2 (n0 XRn) (cons (cent (s_u s))) j i = Fin (conserved p g (fun k => q k i) j)).
  { intros j i Hj Hi. refine (proj1 (real_cells p S _ _ m (cent (s_u s)) g q cs HS5 W C G Hg2 P _) i j Hi Hj). intros k Hk. destruct (Q k Hk) as (Q1 & _ & Q3). split; [lra|exact Q3]. }
  pose proof (next_of_solver _ _ _ _ _ _ _ _ _ E) as E'.
  destruct (euler_step (Hll XRn) p S m _ val fuel _ s s' _ dt HS5 Hm Hok Hb Hv E' Hd) as (v0 & Up & W0 & G0 & _ & Co).
  rewrite weight_high in Co.
  destruct (update_from_cons_view XRn p S _ _ m v0 _ HS5 W0 Up) as (W' & G' & _ & _ & P' & _). rewrite G0, G in P', G'.
  assert (C' : consistent p S bw be m (cent (s_u s'))).
  { pose proof (next_consistent XRn (Hll XRn) _ _ _ _ _ _ _ HS W E') as K. 
    pose proof (rkf_next_cases XRn (Hll XRn) _ _ _ _ _ _ _ _ E') as (_ & (B3 & B4) & _). rewrite B3, B4, Bw, Be in K. exact K. }
  split; [|exact C'].
  assert (Hh : 0 < hx S a b) by (apply hx_pos; [lia|exact Hab]).
  pose proof eps_pos as He. set (ep := powerRZ 2 (-52)) in *.
  assert (HD : 0 < / (ep + hx S a b)) by (apply Rinv_0_lt_compat; lra).
  set (B := weight_sum (rc_mode (nc_time (cf_numerics c)))) in *. assert (HB : 0 < B <= 1) by (unfold B; destruct (rc_mode _); cbn; lra).
  (* computational cells *)
  assert (In1 : forall i, interior S i -> exists V, adm p V /\ forall j, (j < nE p)%nat -> at2 (n0 XRn) (prim (cent (s_u s'))) j i = Fin (rprim p g V j)).
  { intros i Hi. pose proof Hi as Hi'. unfold interior in Hi'.
    set (mu := dt * B * / (ep + hx S a b)).
    assert (Hmu : 0 <= mu) by (unfold mu; apply Rmult_le_pos; [apply Rmult_le_pos; lra|lra]).
    exists (fun j => conserved p g (fun k => q k i) j - mu * (F j i - F j (i - 1)%nat)). 
    assert (A : adm p (fun j => conserved p g (fun k => q k i) j - mu * (F j i - F j (i - 1)%nat))).
    { unfold F. replace (i - 1 + 1)%nat with i by lia.
      pose proof (adm_update p g (fun j => q j (i - 1)%nat) (fun j => q j i) (fun j => q j (i + 1)%nat) (cs (i - 1)%nat) (cs i) (cs (i + 1)%nat) mu
        (Sd (i - 1)%nat ltac:(lia)) (Sd i ltac:(lia)) (Sd (i + 1)%nat ltac:(lia)) Hmu) as K. cbv zeta in K.
      assert (L : face_lo (q 1%nat) cs (i - 1) = rlo (q 1%nat (i - 1)%nat - cs (i - 1)%nat) (q 1%nat i - cs i)) by (unfold face_lo; replace (i - 1 + 1)%nat with i by lia; reflexivity).
      assert (L' : face_hi (q 1%nat) cs (i - 1) = rhi (q 1%nat (i - 1)%nat + cs (i - 1)%nat) (q 1%nat i + cs i)) by (unfold face_hi; replace (i - 1 + 1)%nat with i by lia; reflexivity).
      rewrite L, L'. unfold face_lo, face_hi. apply K. clear K.
      assert (M : forall k, (k < S)%nat -> dt * (q 1%nat k + cs k) <= hx S a b / 2 /\ - (hx S a b / 2) <= dt * (q 1%nat k - cs k)).
      { intros k Hk. destruct (Q k Hk) as (_ & _ & Qc). destruct (Cfl k _ _ Hk (P 1%nat k ltac:(destruct p; cbn; lia) Hk) Qc) as (C1 & C2).
        pose proof (Rle_abs (q 1%nat k + cs k)) as A1. pose proof (Rle_abs (- (q 1%nat k - cs k))) as A2. rewrite Rabs_Ropp in A2. split; nra. }
      destruct (M (i - 1)%nat ltac:(lia)) as (M1 & _). destruct (M i ltac:(lia)) as (M2 & M3). destruct (M (i + 1)%nat ltac:(lia)) as (_ & M4).
      assert (U1 : dt * rhi (q 1%nat (i - 1)%nat + cs (i - 1)%nat) (q 1%nat i + cs i) <= hx S a b / 2).
      { unfold rhi, Rmax. repeat destruct (Rle_dec _ _); nra. }
      assert (U2 : - (hx S a b / 2) <= dt * rlo (q 1%nat i - cs i) (q 1%nat (i + 1)%nat - cs (i + 1)%nat)).
      { unfold rlo, Rmin. repeat destruct (Rle_dec _ _); nra. }
      clear L L'. cbv beta. set (x := rhi _ _) in *. set (y := rlo _ _) in *.
      replace (mu * x - mu * y) with (B * / (ep + hx S a b) * (dt * x - dt * y)) by (unfold mu; ring).
      assert (T1 : B * / (ep + hx S a b) * (dt * x - dt * y) <= B * / (ep + hx S a b) * hx S a b) by (apply Rmult_le_compat_l; [apply Rmult_le_pos; lra|lra]).
      assert (T2 : / (ep + hx S a b) * hx S a b < 1).
      { apply Rmult_lt_reg_l with (ep + hx S a b); [lra|]. rewrite <- Rmult_assoc, Rinv_r, Rmult_1_l, Rmult_1_r by lra. lra. }
      assert (0 < / (ep + hx S a b) * hx S a b) by (apply Rmult_lt_0_compat; assumption). nra. }
    split; [exact A|]. intros j Hj. rewrite (P' j i Hj Hi). destruct A as (A0 & _). apply c2p_R; [lra|exact Hj|].
    intros l Hl. rewrite (Co l i _ Hl ltac:(lia) (HU l i Hl ltac:(lia))). cbv beta. rewrite inner_true by lia. f_equal. unfold mu, hx. fold ep. ring. }
  assert (In2 : forall j i, (j < nE p)%nat -> interior S i -> exists r, at2 (n0 XRn) (prim (cent (s_u s'))) j i = Fin r /\ (j <> 1%nat -> 0 < r)).
  { intros j i Hj Hi. destruct (In1 i Hi) as (V & A & EV). exists (rprim p g V j). split; [apply EV; exact Hj|].
    intros J. destruct (adm_prim p g V A Hg1) as (A0 & A2). destruct j as [|[|[|j]]]; [exact A0|contradiction| |destruct p; cbn in Hj; lia].
    destruct p; [cbn in Hj; lia|]. apply A2. reflexivity. }
  assert (All : forall j i, (j < nE p)%nat -> (i < S)%nat -> exists r, at2 (n0 XRn) (prim (cent (s_u s'))) j i = Fin r /\ (j <> 1%nat -> 0 < r)).
  { intros j i Hj Hi. destruct (cell_cases S i HS Hi) as [Hin|(sd & k & Hk & ->)]; [apply In2; assumption|].
    destruct sd; [apply (gentle_ghost p West S m bw); try assumption|apply (gentle_ghost p East S m be); try assumption];
      try (apply W'); try (apply C'); intros l Hl; apply In2; assumption. }
  assert (N2 : (0 < nE p)%nat /\ (1 < nE p)%nat) by (destruct p; cbn; lia).
  split.
  - intros i Hi. destruct (All 0%nat i (proj1 N2) Hi) as (r0 & E0 & P0). destruct (All 1%nat i (proj2 N2) Hi) as (r1 & E1 & _). specialize (P0 ltac:(lia)).
    split; [eauto|]. split; [eauto|]. split.
    + intros ->. destruct (All 2%nat i ltac:(cbn; lia) Hi) as (r2 & E2 & P2). exists r2. split; [exact E2|apply P2; lia].
    + destruct p.
      * rewrite (next_sound XRn (Hll XRn) _ _ _ _ _ _ _ E'). apply H. exact Hi.
      * destruct (All 2%nat i ltac:(cbn; lia) Hi) as (r2 & E2 & P2). specialize (P2 ltac:(lia)). specialize (Hg1 eq_refl).
        assert (PP : 0 < g * r2 / r0) by (apply Rdiv_lt_0_compat; nra).
        rewrite (cst_sound _ _ _ _ _ _ _ C' i eq_refl Hi), G', E0, E2, X_mul, X_div, X_sqrt by lra. eexists. split; [reflexivity|]. apply sqrt_lt_R0. exact PP.
  - intros j i Hj Hi. rewrite (cst_cons _ _ _ _ _ _ _ C' j i Hj Hi), G'.
    set (q' := fun k => fpart (at2 (n0 XRn) (prim (cent (s_u s'))) k i)).
    exists (conserved p g q' j). rewrite <- (p2c_R p g q' (fun k => at2 (n0 XRn) (prim (cent (s_u s'))) k i)); auto.
    + destruct p; destruct j as [|[|[|j]]]; cbn [nE] in Hj; try lia; try reflexivity.
    + intros l Hl. destruct (All l i Hl Hi) as (r & El & _). exact (fpart_Fin _ _ El).
Qed.
