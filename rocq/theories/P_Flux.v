(** Properties of the numerical fluxes: C18, C21, C23, C24, C25, C27, C54. *)

From Coq Require Import Reals ZArith QArith List Bool Lra Lia.
From Flocq Require Import Core BinarySingleNaN.
From Verif Require Import Base Num XReal B64 Config Mesh State NumFlux Spec SpecFlow ConfigProofs MeshProofs
  BoundaryProofs PhysicsProofs FluxProofs UpdateProofs FluxReal FluxThms FluxMore VanLeer.
Import ListNotations.
Local Open Scope R_scope.

(** A concrete flow for the examples: cell [i] holds the primitive variables
    [f i], the sound speed is [c i]. *)
Definition flow_vars (p : phys) (S : nat) (g : R) (f : nat -> nat -> R) (c : nat -> R) : vars XRn :=
  mkVars (A:=XRn) (zeros2 (A:=XRn) (nE p) S) (mtab (nE p) S (fun j i => Fin (conserved p g (f i) j)))
         (tab S (fun i => Fin (c i))) (zeros2 (A:=XRn) (nE p) S) (zeros2 (A:=XRn) (nE p) S) (Fin g) (zeros (A:=XRn) S).
Definition flow (p : phys) (S : nat) (g : R) (f : nat -> nat -> R) (c : nat -> R) : state XRn :=
  mkState (flow_vars p S g f c) (flow_vars p S g f c) (flow_vars p S g f c).

Lemma flow_vars_wsv : forall p S g f c, wsv XRn p S (flow_vars p S g f c).
Proof.
  intros. unfold wsv; cbn [prim cons c_sound eigen_vals flux flow_vars].
  split; [apply shape_zeros2|]. split; [apply shape_mtab|]. split; [apply shape_zeros2|]. split; [apply shape_zeros2|apply length_tab].
Qed.
Lemma flow_is_state : forall p S g f c, flow_state p S g f c (flow p S g f c).
Proof.
  intros. split; [apply flow_vars_wsv|]. split; [reflexivity|]. cbn [cent flow c_sound cons flow_vars]. split.
  - intros _ i Hi. apply at1_tab. exact Hi.
  - intros j i Hj Hi. apply at2_mtab; [exact Hj|lia].
Qed.
Lemma flow_is_uniform : forall p S g f c, uniform_state p S g f c (flow p S g (fun _ => f) (fun _ => c)).
Proof.
  intros. split.
  - intros v Hv. assert (v = flow_vars p S g (fun _ => f) (fun _ => c)) as -> by (destruct Hv as [-> | [-> | ->]]; reflexivity).
    split; [apply flow_vars_wsv|]. split; [reflexivity|]. intros _ i Hi. apply at1_tab. exact Hi.
  - intros j i Hj Hi. apply at2_mtab; [exact Hj|lia].
Qed.

(** C18: a uniform flow is a steady state, and the numerical flux is consistent
    with the physical flux.  HLL: *)
Theorem C18_uniform_steady_hll : forall validation S p g f c0 md a b (r r' : rhs XRn (Hll XRn)) u u' o,
  let m := mesh_build (A:=XRn) S (mkMC (A:=XRn) md (Fin a) (Fin b)) in
  (5 <= S)%nat -> a < b -> uniform_ok p g f c0 -> uniform_state p S g f c0 u ->
  r_bw r = init_bc BNoGradients (nE p) -> r_be r = init_bc BNoGradients (nE p) ->
  rhs_update validation p S r u m = (r', u', o) ->
  (forall j i, (j < nE p)%nat -> (2 <= i <= S - 3)%nat -> at2 (n0 XRn) (r_full r') j i = Fin 0) /\
  (forall j i, (j < nE p)%nat -> (1 <= i <= S - 3)%nat ->
     at2 (n0 XRn) (h_flux_num (r_nf r' : hll XRn)) j i = Fin (euler_flux p g (rsound p g c0 f) (conserved p g f) j)).
Proof. exact hll_uniform. Qed.
Print Assumptions C18_uniform_steady_hll.

(** KT, for every limiter ([th] is the parameter of Monocent): *)
Theorem C18_uniform_steady_kt : forall validation S p g f c0 md a b l th k0 (r r' : rhs XRn (Kt XRn)) u u' o,
  let m := mesh_build (A:=XRn) S (mkMC (A:=XRn) md (Fin a) (Fin b)) in
  (5 <= S)%nat -> a < b -> uniform_ok p g f c0 -> uniform_state p S g f c0 u ->
  r_bw r = init_bc BNoGradients (nE p) -> r_be r = init_bc BNoGradients (nE p) ->
  limiter_theta l = Fin th -> kt_new (A:=XRn) p S (CKt l) m = Ok k0 -> kt_like XRn (r_nf r) k0 ->
  rhs_update validation p S r u m = (r', u', o) ->
  (forall j i, (j < nE p)%nat -> (2 <= i <= S - 3)%nat -> at2 (n0 XRn) (r_full r') j i = Fin 0) /\
  (forall j i, (j < nE p)%nat -> (1 <= i <= S - 3)%nat ->
     at2 (n0 XRn) (k_flux_num (r_nf r' : kt XRn)) j i = Fin (euler_flux p g (rsound p g c0 f) (conserved p g f) j)).
Proof.
  intros validation S p g f c0 md a b l th k0 r r' u u' o m HS Hab Hok Hun Bw Be Ht Hk Hl H.
  exact (kt_uniform validation S p g f c0 md a b l th r r' u u' o HS Hab Hok Hun Bw Be (kt_like_params p S md a b l th k0 _ HS Hab Ht Hk Hl) H).
Qed.
Print Assumptions C18_uniform_steady_kt.

Example C18_example : uniform_ok Adiab (7 / 5) (fun j => match j with 0%nat => 2 | 1%nat => -3 | _ => 1 end) 0 /\
  uniform_state Adiab 9 (7 / 5) (fun j => match j with 0%nat => 2 | 1%nat => -3 | _ => 1 end) 0
    (flow Adiab 9 (7 / 5) (fun _ j => match j with 0%nat => 2 | 1%nat => -3 | _ => 1 end) (fun _ => 0)) /\
  exists k0, kt_new (A:=XRn) Adiab 9 (CKt Superbee) (mesh_build (A:=XRn) 9 (mkMC (A:=XRn) Cartesian (Fin 0) (Fin 1))) = Ok k0.
Proof.
  split; [repeat split; try lra; discriminate|]. split; [apply flow_is_uniform|]. eexists. reflexivity.
Qed.

(** C21: upwinding.  [el], [er] are the smallest and [xl], [xr] the largest
    wave speeds on the two sides of face [i], [fl] and [fr] the physical
    fluxes. *)
Theorem C21_upwind_hll : forall validation p S h d u m h' d' u' o j i el er xl xr fl fr ul ur,
  (m_ixi_in m = 2 /\ m_ixi_out m = S - 3)%nat ->
  hll_calc (A:=XRn) validation p S h d u m = (h', d', u', o) ->
  (j < nE p)%nat -> (1 <= i <= S - 3)%nat -> (i < S)%nat ->
  at2 (n0 XRn) (eigen_vals (cent u')) 0 i = Fin el -> at2 (n0 XRn) (eigen_vals (cent u')) 0 (i + 1) = Fin er ->
  at2 (n0 XRn) (eigen_vals (cent u')) (nE p - 1) i = Fin xl -> at2 (n0 XRn) (eigen_vals (cent u')) (nE p - 1) (i + 1) = Fin xr ->
  at2 (n0 XRn) (flux (cent u')) j i = Fin fl -> at2 (n0 XRn) (flux (cent u')) j (i + 1) = Fin fr ->
  at2 (n0 XRn) (cons (cent u')) j i = Fin ul -> at2 (n0 XRn) (cons (cent u')) j (i + 1) = Fin ur ->
  (0 <= el -> 0 <= er -> 0 < Rmax xl xr -> at2 (n0 XRn) (h_flux_num h') j i = Fin fl) /\
  (xl <= 0 -> xr <= 0 -> Rmin el er < 0 -> at2 (n0 XRn) (h_flux_num h') j i = Fin fr).
Proof. exact hll_upwind. Qed.
Print Assumptions C21_upwind_hll.

(** For KT the left state of face [i] is the east value of cell [i], the right
    state the west value of cell [i + 1]. *)
Theorem C21_upwind_kt : forall validation p S md a b k d u k' d' u' o j i el er xl xr fl fr ul ur,
  let m := mesh_build (A:=XRn) S (mkMC (A:=XRn) md (Fin a) (Fin b)) in
  kt_calc (A:=XRn) validation p S k d u m = (k', d', u', o) ->
  (j < nE p)%nat -> (1 <= i <= S - 3)%nat -> (i < S)%nat ->
  at2 (n0 XRn) (eigen_vals (east u')) 0 i = Fin el -> at2 (n0 XRn) (eigen_vals (west u')) 0 (i + 1) = Fin er ->
  at2 (n0 XRn) (eigen_vals (east u')) (nE p - 1) i = Fin xl -> at2 (n0 XRn) (eigen_vals (west u')) (nE p - 1) (i + 1) = Fin xr ->
  at2 (n0 XRn) (flux (east u')) j i = Fin fl -> at2 (n0 XRn) (flux (west u')) j (i + 1) = Fin fr ->
  at2 (n0 XRn) (cons (east u')) j i = Fin ul -> at2 (n0 XRn) (cons (west u')) j (i + 1) = Fin ur ->
  (0 <= el -> 0 <= er -> 0 < Rmax xl xr -> at2 (n0 XRn) (k_flux_num k') j i = Fin fl) /\
  (xl <= 0 -> xr <= 0 -> Rmin el er < 0 -> at2 (n0 XRn) (k_flux_num k') j i = Fin fr).
Proof. exact kt_upwind. Qed.
Print Assumptions C21_upwind_kt.

(** Supersonic flow to the right with a jump, through the complete update. *)
Example C21_example : exists (v : vars XRn),
  let f i j := match j with 0%nat => (if (i <? 4)%nat then 2 else 1) | _ => 5 end in
  update_vars_from_cons Isot 9 (init_bc BNoGradients 2) (init_bc BNoGradients 2)
    (mesh_build (A:=XRn) 9 (mkMC (A:=XRn) Cartesian (Fin 0) (Fin 1))) (flow_vars Isot 9 2 f (fun _ => 1)) = Ok v /\
  at2 (n0 XRn) (eigen_vals v) 0 3 = Fin 4 /\ at2 (n0 XRn) (eigen_vals v) 0 4 = Fin 4 /\
  at2 (n0 XRn) (eigen_vals v) 1 3 = Fin 6 /\ at2 (n0 XRn) (eigen_vals v) 1 4 = Fin 6 /\
  at2 (n0 XRn) (cons v) 0 3 = Fin 2 /\ at2 (n0 XRn) (cons v) 0 4 = Fin 1.
Proof.
  set (f := fun (i j : nat) => match j with 0%nat => (if (i <? 4)%nat then 2 else 1) | _ => 5 end).
  set (m := mesh_build (A:=XRn) 9 (mkMC (A:=XRn) Cartesian (Fin 0) (Fin 1))).
  destruct (flow_cells Isot 9 2 f (fun _ => 1) (flow Isot 9 2 f (fun _ => 1)) m) as (v & Hv & _ & _ & Hc).
  - lia.
  - split; [lra|]. intros i Hi. split; [|intros _; lra]. intros _. split; [|discriminate]. unfold f. destruct (i <? 4)%nat; lra.
  - apply flow_is_state.
  - exists v. split; [exact Hv|].
    destruct (Hc 3%nat ltac:(lia)) as [(A1 & A2 & A3 & A4 & A5 & A6) _]. destruct (Hc 4%nat ltac:(lia)) as [(B1 & B2 & B3 & B4 & B5 & B6) _].
    change (clamp 9 3) with 3%nat in *. change (clamp 9 4) with 4%nat in *. cbn [rsound conserved f Nat.ltb Nat.leb nE Nat.sub] in *.
    rewrite A5, A6, B5, B6, (A3 0%nat), (B3 0%nat) by lia. repeat match goal with |- _ /\ _ => split end; f_equal; cbn; field.
Qed.

(** C23: the reconstruction of the KT scheme creates no new extrema.  [cm],
    [c0], [cp] are the values of cells [i - 1], [i], [i + 1]; [w] and [e] the
    reconstructed values at the faces of cell [i]. *)
Theorem C23_no_new_extrema : forall validation p S md a b l th k0 k d u k' d' u' o j i cm c0 cp,
  let m := mesh_build (A:=XRn) S (mkMC (A:=XRn) md (Fin a) (Fin b)) in
  (5 <= S)%nat -> a < b -> limiter_theta l = Fin th -> tvd_limiter l th ->
  kt_new (A:=XRn) p S (CKt l) m = Ok k0 -> kt_like XRn k k0 ->
  kt_calc (A:=XRn) validation p S k d u m = (k', d', u', o) ->
  (j < nE p)%nat -> (1 <= i)%nat -> (i + 1 < S)%nat ->
  at2 (n0 XRn) (cons (cent u)) j (i - 1) = Fin cm -> at2 (n0 XRn) (cons (cent u)) j i = Fin c0 ->
  at2 (n0 XRn) (cons (cent u)) j (i + 1) = Fin cp ->
  exists w e, at2 (n0 XRn) (cons (west u')) j i = Fin w /\ at2 (n0 XRn) (cons (east u')) j i = Fin e /\
    Rmin cm c0 <= w <= Rmax cm c0 /\ Rmin c0 cp <= e <= Rmax c0 cp /\
    ((c0 - cm) * (cp - c0) <= 0 -> w = c0 /\ e = c0) /\
    (cm < c0 < cp -> w < c0 < e) /\ (cp < c0 < cm -> e < c0 < w).
Proof.
  intros validation p S md a b l th k0 k d u k' d' u' o j i cm c0 cp m HS Hab Ht Htvd Hk Hl E Hj Hi1 Hi2 Em E0 Ep.
  destruct (kt_reconstruction validation p S md a b l th k0 k d u k' d' u' o j i cm c0 cp HS Hab Ht Hk Hl E Hj Hi1 Hi2 Em E0 Ep) as [Hw He].
  { intros ->. contradiction. }
  set (s := rslope l (c0 - cm) (cp - c0) (/ 2 * (c0 - cm + (cp - c0))) th) in *.
  pose proof (rslope_tame l (c0 - cm) (cp - c0) (/ 2 * (c0 - cm + (cp - c0))) th Htvd) as Hs. fold s in Hs.
  pose proof (tame_between s cm c0 cp Hs) as [B1 B2].
  destruct (rslope_strict l (c0 - cm) (cp - c0) th Htvd) as [S1 S2]. fold s in S1, S2.
  exists (c0 - s / 2), (c0 + s / 2). repeat match goal with |- _ /\ _ => split end; auto; try apply B1; try apply B2.
  - intros Hx. rewrite (tame_extremum s _ _ Hs Hx). lra.
  - intros Hx. specialize (S1 ltac:(lra) ltac:(lra)). lra.
  - intros Hx. specialize (S2 ltac:(lra) ltac:(lra)). lra.
Qed.
Print Assumptions C23_no_new_extrema.

(** With a Monocent parameter above 2, which configuration validation accepts,
    the reconstructed value leaves the range of the neighbouring cells. *)
Theorem C23_monocent_above_two_refuted :
  exists (u : state XRn) (k : kt XRn),
  let m := mesh_build (A:=XRn) 7 (mkMC (A:=XRn) Cartesian (Fin 0) (Fin 1)) in
  nfc_validate (A:=XRn) (CKt (Monocent (A:=XRn) (Fin 3))) = Ok tt /\
  kt_new (A:=XRn) Isot 7 (CKt (Monocent (A:=XRn) (Fin 3))) m = Ok k /\
  at2 (n0 XRn) (cons (cent u)) 0 2 = Fin 1 /\ at2 (n0 XRn) (cons (cent u)) 0 3 = Fin 11 /\
  at2 (n0 XRn) (cons (cent u)) 0 4 = Fin 12 /\
  at2 (n0 XRn) (cons (east (snd (fst (kt_calc (A:=XRn) true Isot 7 k (zeros2 (A:=XRn) 2 7) u m))))) 0 3 = Fin (25 / 2).
Proof.
  set (f := fun (i j : nat) => match j, i with 0%nat, 2%nat => 1 | 0%nat, 3%nat => 11 | 0%nat, _ => 12 | _, _ => 0 end).
  exists (flow Isot 7 2 f (fun _ => 1)).
  set (m := mesh_build (A:=XRn) 7 (mkMC (A:=XRn) Cartesian (Fin 0) (Fin 1))).
  destruct (kt_new (A:=XRn) Isot 7 (CKt (Monocent (A:=XRn) (Fin 3))) m) as [k| | |] eqn:Ek; [|discriminate..].
  exists k. split; [|split; [exact Ek|]].
  { unfold nfc_validate, lm_validate, ensure. rewrite X_n1, X_ltb. destruct (Rlt_dec 1 3); [reflexivity|lra]. }
  assert (E2 : at2 (n0 XRn) (cons (cent (flow Isot 7 2 f (fun _ => 1)))) 0 2 = Fin 1) by reflexivity.
  assert (E3 : at2 (n0 XRn) (cons (cent (flow Isot 7 2 f (fun _ => 1)))) 0 3 = Fin 11) by reflexivity.
  assert (E4 : at2 (n0 XRn) (cons (cent (flow Isot 7 2 f (fun _ => 1)))) 0 4 = Fin 12) by reflexivity.
  split; [exact E2|]. split; [exact E3|]. split; [exact E4|].
  destruct (kt_calc (A:=XRn) true Isot 7 k (zeros2 (A:=XRn) 2 7) (flow Isot 7 2 f (fun _ => 1)) m) as [[[k' d'] u'] o] eqn:E.
  cbn [fst snd].
  destruct (kt_reconstruction true Isot 7 Cartesian 0 1 (Monocent (A:=XRn) (Fin 3)) 3 k k _ _ _ _ _ _ 0 3 1 11 12
    ltac:(lia) ltac:(lra) eq_refl Ek ltac:(repeat split; reflexivity) E ltac:(cbn; lia) ltac:(lia) ltac:(lia) E2 E3 E4 ltac:(discriminate)) as [_ He].
  rewrite He. f_equal. cbn [rslope].
    destruct (Rlt_dec 0 (11 - 1)); [|lra]. destruct (Rlt_dec 0 (12 - 11)); [|lra].
    destruct (Rlt_dec 0 (/ 2 * (11 - 1 + (12 - 11)))); [|lra].
    rewrite !Rabs_pos_eq by lra. rewrite (Rmin_left (3 * (12 - 11))) by lra. rewrite Rmin_right by lra. lra.
Qed.
Print Assumptions C23_monocent_above_two_refuted.

Example C23_example : exists k0,
  limiter_theta (Monocent (A:=XRn) (Fin 2)) = Fin 2 /\ tvd_limiter (Monocent (A:=XRn) (Fin 2)) 2 /\
  kt_new (A:=XRn) Isot 9 (CKt (Monocent (A:=XRn) (Fin 2))) (mesh_build (A:=XRn) 9 (mkMC (A:=XRn) Cartesian (Fin 0) (Fin 1))) = Ok k0 /\
  kt_like XRn k0 k0 /\
  at2 (n0 XRn) (cons (cent (flow Isot 9 2 (fun i _ => INR i) (fun _ => 1)))) 0 4 = Fin (INR 4).
Proof.
  eexists. split; [reflexivity|]. split; [cbn; lra|]. split; [reflexivity|]. split; [repeat split; reflexivity|].
  cbn [cent flow cons flow_vars]. rewrite at2_mtab by (cbn; lia). reflexivity.
Qed.

(** C24: the VanLeer slope the code computes is negligible. *)
Theorem C24_vanleer_negligible : forall bln bexp (a b c th : b64), is_finite a = true -> is_finite b = true ->
  Rabs (B2R a) <= bpow radix2 200 -> Rabs (B2R b) <= bpow radix2 200 ->
  let s := slope_fn (A:=B64n bln bexp) VanLeer a b c th in
  is_finite (s : b64) = true /\ Rabs (B2R (s : b64)) < bpow radix2 (-600).
Proof. exact vanleer_tiny. Qed.
Print Assumptions C24_vanleer_negligible.

(** It is smaller than the documented slope by a factor 2^-100 at least,
    whenever the documented slope is not zero and the differences are of
    ordinary size. *)
Theorem C24_documented_slope_refuted : forall bln bexp (a b c th : b64), is_finite a = true -> is_finite b = true ->
  bpow radix2 (-500) <= Rabs (B2R a) <= bpow radix2 200 -> bpow radix2 (-500) <= Rabs (B2R b) <= bpow radix2 200 ->
  0 < B2R a * B2R b ->
  let s := slope_fn (A:=B64n bln bexp) VanLeer a b c th in
  let documented := (B2R a * Rabs (B2R b) + B2R b * Rabs (B2R a)) / (Rabs (B2R a) + Rabs (B2R b)) in
  Rabs (B2R (s : b64)) < bpow radix2 (-100) * Rabs documented.
Proof. exact vanleer_refuted. Qed.
Print Assumptions C24_documented_slope_refuted.

Example C24_example : let a := b_ofZ 3 in let b := b_ofZ 1 in
  is_finite a = true /\ is_finite b = true /\
  bpow radix2 (-500) <= Rabs (B2R a) <= bpow radix2 200 /\ bpow radix2 (-500) <= Rabs (B2R b) <= bpow radix2 200 /\
  0 < B2R a * B2R b.
Proof.
  intros a b. assert (Ea : B2R a = 3) by (vm_compute; lra). assert (Eb : B2R b = 1) by (vm_compute; lra).
  rewrite Ea, Eb. rewrite !Rabs_pos_eq by lra.
  assert (L : bpow radix2 (-500) <= bpow radix2 0) by (apply bpow_le; lia).
  assert (G : bpow radix2 2 <= bpow radix2 200) by (apply bpow_le; lia).
  change (bpow radix2 0) with 1 in L. change (bpow radix2 2) with 4 in G.
  split; [reflexivity|]. split; [reflexivity|]. lra.
Qed.

(** C25: reconstruction preserves cell averages. *)
Theorem C25_average_preserved : forall validation p S md a b l th k0 k d u k' d' u' o j i cm c0 cp,
  let m := mesh_build (A:=XRn) S (mkMC (A:=XRn) md (Fin a) (Fin b)) in
  (5 <= S)%nat -> a < b -> limiter_theta l = Fin th ->
  kt_new (A:=XRn) p S (CKt l) m = Ok k0 -> kt_like XRn k k0 ->
  kt_calc (A:=XRn) validation p S k d u m = (k', d', u', o) ->
  (j < nE p)%nat -> (1 <= i)%nat -> (i + 1 < S)%nat ->
  at2 (n0 XRn) (cons (cent u)) j (i - 1) = Fin cm -> at2 (n0 XRn) (cons (cent u)) j i = Fin c0 ->
  at2 (n0 XRn) (cons (cent u)) j (i + 1) = Fin cp ->
  (* VanLeer divides by |a| + |b| minus the largest double *)
  (l = VanLeer -> Rabs (c0 - cm) + Rabs (cp - c0) <> (2 - powerRZ 2 (-52)) * powerRZ 2 1023) ->
  exists w e, at2 (n0 XRn) (cons (west u')) j i = Fin w /\ at2 (n0 XRn) (cons (east u')) j i = Fin e /\ (w + e) / 2 = c0.
Proof.
  intros validation p S md a b l th k0 k d u k' d' u' o j i cm c0 cp m HS Hab Ht Hk Hl E Hj Hi1 Hi2 Em E0 Ep HV.
  destruct (kt_reconstruction validation p S md a b l th k0 k d u k' d' u' o j i cm c0 cp HS Hab Ht Hk Hl E Hj Hi1 Hi2 Em E0 Ep HV) as [Hw He].
  do 2 eexists. split; [exact Hw|]. split; [exact He|]. field.
Qed.
Print Assumptions C25_average_preserved.

(** C27: domain of dependence.  HLL: cells [i - 1], [i], [i + 1]. *)
Theorem C27_local_hll : forall (A : Num) val val' p S (h1 h2 : hll A) d1 d2 u1 u2 m h1' d1' u1' o1 h2' d2' u2' o2 j i,
  (m_ixi_in m = 2 /\ m_ixi_out m = S - 3)%nat ->
  wsv A p S (cent u1) -> wsv A p S (cent u2) ->
  hll_calc val p S h1 d1 u1 m = (h1', d1', u1', o1) -> hll_calc val' p S h2 d2 u2 m = (h2', d2', u2', o2) ->
  (j < nE p)%nat -> (2 <= i <= S - 3)%nat ->
  (forall k, (i - 1 <= k <= i + 1)%nat -> same_cell A p (cent u1) (cent u2) k) ->
  at2 (n0 A) d1' j i = at2 (n0 A) d2' j i.
Proof.
  intros A val val' p S h1 h2 d1 d2 u1 u2 m h1' d1' u1' o1 h2' d2' u2' o2 j i Hm W1 W2 E1 E2 Hj Hi Hs.
  pose proof (hll_dflux A val p S h1 d1 u1 m Hm j i Hj ltac:(lia)) as Q1. rewrite E1 in Q1. cbn [fst snd] in Q1.
  pose proof (hll_dflux A val' p S h2 d2 u2 m Hm j i Hj ltac:(lia)) as Q2. rewrite E2 in Q2. cbn [fst snd] in Q2.
  rewrite Q1, Q2. replace ((2 <=? i) && (i <=? S - 3))%nat with true by (symmetry; apply andb_true_intro; split; apply Nat.leb_le; lia).
  f_equal. f_equal; apply hll_fn_local; try apply W1; try apply W2; try assumption; try lia; apply Hs; lia.
Qed.
Print Assumptions C27_local_hll.

(** KT: cells [i - 2] to [i + 2] (and the constant isothermal sound speed
    stored with the faces). *)
Theorem C27_local_kt : forall (A : Num) val val' p S (k1 k2 : kt A) d1 d2 u1 u2 m k1' d1' u1' o1 k2' d2' u2' o2 j i,
  (m_ixi_in m = 2 /\ m_ixi_out m = S - 3)%nat ->
  wsv A p S (west u1) -> wsv A p S (east u1) -> wsv A p S (west u2) -> wsv A p S (east u2) ->
  kt_like A k1 k2 ->
  gamma (west u1) = gamma (west u2) -> gamma (east u1) = gamma (east u2) ->
  kt_calc val p S k1 d1 u1 m = (k1', d1', u1', o1) -> kt_calc val' p S k2 d2 u2 m = (k2', d2', u2', o2) ->
  (j < nE p)%nat -> (2 <= i <= S - 3)%nat ->
  (forall l k, (l < nE p)%nat -> (i - 2 <= k <= i + 2)%nat ->
     at2 (n0 A) (cons (cent u1)) l k = at2 (n0 A) (cons (cent u2)) l k) ->
  (p = Isot -> forall k, (i - 1 <= k <= i + 1)%nat ->
     at1 (n0 A) (c_sound (west u1)) k = at1 (n0 A) (c_sound (west u2)) k /\
     at1 (n0 A) (c_sound (east u1)) k = at1 (n0 A) (c_sound (east u2)) k) ->
  at2 (n0 A) d1' j i = at2 (n0 A) d2' j i.
Proof.
  intros A val val' p S k1 k2 d1 d2 u1 u2 m k1' d1' u1' o1 k2' d2' u2' o2 j i Hm W1 W1' W2 W2' (L1 & L2 & L3 & L4 & L5) G1 G2 E1 E2 Hj Hi Hs Hc.
  pose proof (kt_dflux A val p S k1 d1 u1 m Hm W1 W1' j i Hj ltac:(lia)) as Q1. rewrite E1 in Q1. cbn [fst snd] in Q1.
  pose proof (kt_dflux A val' p S k2 d2 u2 m Hm W2 W2' j i Hj ltac:(lia)) as Q2. rewrite E2 in Q2. cbn [fst snd] in Q2.
  rewrite Q1, Q2. replace ((2 <=? i) && (i <=? S - 3))%nat with true by (symmetry; apply andb_true_intro; split; apply Nat.leb_le; lia).
  f_equal. f_equal; apply kt_fn_local; auto; try lia.
  - intros Hp. split; apply (Hc Hp); lia.
  - intros l i' Hl Hi'. apply Hs; [assumption|lia].
  - intros Hp. split; apply (Hc Hp); lia.
  - intros l i' Hl Hi'. apply Hs; [assumption|lia].
Qed.
Print Assumptions C27_local_kt.

(** Ghost cells of the right-hand side are never written. *)
Theorem C27_ghost_untouched : forall (A : Num) val p S m j i, (m_ixi_in m = 2 /\ m_ixi_out m = S - 3)%nat ->
  (j < nE p)%nat -> (i < S)%nat -> (i < 2 \/ S - 3 < i)%nat ->
  (forall (h : hll A) d u h' d' u' o, hll_calc val p S h d u m = (h', d', u', o) -> at2 (n0 A) d' j i = at2 (n0 A) d j i) /\
  (forall (k : kt A) d u k' d' u' o, wsv A p S (west u) -> wsv A p S (east u) ->
     kt_calc val p S k d u m = (k', d', u', o) -> at2 (n0 A) d' j i = at2 (n0 A) d j i).
Proof.
  intros A val p S m j i Hm Hj Hi Hg.
  assert (Hb : ((2 <=? i) && (i <=? S - 3))%nat = false).
  { apply andb_false_iff. destruct Hg; [left|right]; apply Nat.leb_gt; lia. }
  split.
  - intros h d u h' d' u' o E. pose proof (hll_dflux A val p S h d u m Hm j i Hj Hi) as Q. rewrite E in Q. cbn [fst snd] in Q.
    rewrite Hb in Q. exact Q.
  - intros k d u k' d' u' o W1 W2 E. pose proof (kt_dflux A val p S k d u m Hm W1 W2 j i Hj Hi) as Q. rewrite E in Q. cbn [fst snd] in Q.
    rewrite Hb in Q. exact Q.
Qed.
Print Assumptions C27_ghost_untouched.

(** Two different flows that agree around cell 3. *)
Example C27_example : let u1 := flow Adiab 12 (7/5) (fun i _ => INR (i + 1)) (fun _ => 0) in
  let u2 := flow Adiab 12 (7/5) (fun i _ => if (i <=? 5)%nat then INR (i + 1) else 7) (fun _ => 0) in
  (forall l k, (l < 3)%nat -> (3 - 2 <= k <= 3 + 2)%nat ->
     at2 (n0 XRn) (cons (cent u1)) l k = at2 (n0 XRn) (cons (cent u2)) l k) /\
  at2 (n0 XRn) (cons (cent u1)) 0 9 <> at2 (n0 XRn) (cons (cent u2)) 0 9.
Proof.
  intros u1 u2. unfold u1, u2. cbn [cent flow cons flow_vars nE]. split.
  - intros l k Hl Hk. rewrite !at2_mtab by lia. cbv beta. replace (k <=? 5)%nat with true by (symmetry; apply Nat.leb_le; lia). reflexivity.
  - rewrite !at2_mtab by lia. cbn. intros H. injection H as H. lra.
Qed.

(** C54: mirror symmetry of the right-hand side computed with HLL. *)
Theorem C54_mirror_symmetry : forall validation S p g f c md a b (r r' s s' : rhs XRn (Hll XRn)) u u' w w' o o',
  let m := mesh_build (A:=XRn) S (mkMC (A:=XRn) md (Fin a) (Fin b)) in
  (5 <= S)%nat -> a < b -> flow_ok p S g f c ->
  flow_state p S g f c u ->
  flow_state p S g (fun i => mirrored (f (S - 1 - i)%nat)) (fun i => c (S - 1 - i)%nat) w ->
  r_bw r = init_bc BNoGradients (nE p) -> r_be r = init_bc BNoGradients (nE p) ->
  r_bw s = init_bc BNoGradients (nE p) -> r_be s = init_bc BNoGradients (nE p) ->
  rhs_update validation p S r u m = (r', u', o) -> rhs_update validation p S s w m = (s', w', o') ->
  forall j i, (j < nE p)%nat -> (2 <= i <= S - 3)%nat ->
  exists x, at2 (n0 XRn) (r_full r') j (S - 1 - i) = Fin x /\ at2 (n0 XRn) (r_full s') j i = Fin (mirror_sign j * x).
Proof. exact hll_mirror. Qed.
Print Assumptions C54_mirror_symmetry.

Example C54_example : let f := fun i j : nat => match j with 1%nat => INR i - 3 | _ => 1 + INR i end in
  flow_ok Adiab 8 (7 / 5) f (fun _ => 0) /\
  flow_state Adiab 8 (7 / 5) f (fun _ => 0) (flow Adiab 8 (7 / 5) f (fun _ => 0)) /\
  flow_state Adiab 8 (7 / 5) (fun i => mirrored (f (8 - 1 - i)%nat)) (fun _ => 0)
    (flow Adiab 8 (7 / 5) (fun i => mirrored (f (8 - 1 - i)%nat)) (fun _ => 0)).
Proof.
  intros f. split; [|split; apply flow_is_state]. split; [lra|]. intros i Hi. split; [|discriminate].
  intros _. pose proof (pos_INR i). cbn. split; [lra|intros _; lra].
Qed.
