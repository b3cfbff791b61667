(** Locality, mirror symmetry and the VanLeer limiter (stated in P_Flux.v). *)

From Coq Require Import Reals ZArith QArith Qreals List Bool Lra Lia.
From Flocq Require Import Core BinarySingleNaN.
From Verif Require Import Base Num XReal B64 Config Mesh State NumFlux Spec SpecFlow ConfigProofs MeshProofs BoundaryProofs PhysicsProofs FluxProofs UpdateProofs FluxReal FluxThms.
Import ListNotations.
Local Open Scope R_scope.

(** ** Domain of dependence *)
Section Local.
Variable A : Num.

Lemma hll_fn_local : forall p S (v w : vars A) j i, (j < nE p)%nat -> (i + 1 < S)%nat ->
  shape (nE p) S (flux v) -> shape (nE p) S (flux w) -> 
  same_cell A p v w i -> same_cell A p v w (i + 1) -> hll_fn A p S v j i = hll_fn A p S w j i.
Proof.
  intros p S v w j i Hj Hi Fv Fw [C1 C2] [D1 D2]. unfold hll_fn.
  rewrite !update_flux_at by (auto; lia).
  destruct (C1 j Hj) as (_ & -> & _). destruct (D1 j Hj) as (_ & -> & _).
  destruct (C1 0%nat ltac:(destruct p; cbn; lia)) as (_ & _ & ->).
  destruct (D1 0%nat ltac:(destruct p; cbn; lia)) as (_ & _ & ->).
  destruct (C1 (nE p - 1)%nat ltac:(destruct p; cbn; lia)) as (_ & _ & ->).
  destruct (D1 (nE p - 1)%nat ltac:(destruct p; cbn; lia)) as (_ & _ & ->).
  rewrite C2, D2. f_equal; apply pflux_ext; intros l Hl; first [apply C1|apply D1]; exact Hl.
Qed.

Lemma recon_local : forall (k k' : kt A) c c' dw dw' j i,
  k_limiter k = k_limiter k' -> k_inv_dxi k = k_inv_dxi k' -> k_theta k = k_theta k' ->
  at1 (n0 A) dw i = at1 (n0 A) dw' i ->
  (forall i', (i' = i - 1 \/ i' = i \/ i' = i + 1)%nat -> at2 (n0 A) c j i' = at2 (n0 A) c' j i') ->
  recon A k c dw j i = recon A k' c' dw' j i.
Proof.
  intros k k' c c' dw dw' j i E1 E2 E3 E4 H. unfold recon, kt_slope.
  rewrite E1, E2, E3, E4, !H by lia. reflexivity.
Qed.

Lemma kt_fn_local : forall p (k k' : kt A) (u w : state A) m j i, (j < nE p)%nat -> (1 <= i)%nat ->
  k_limiter k = k_limiter k' -> k_inv_dxi k = k_inv_dxi k' -> k_theta k = k_theta k' ->
  k_dist_west k = k_dist_west k' -> k_dist_east k = k_dist_east k' ->
  gamma (west u) = gamma (west w) -> gamma (east u) = gamma (east w) ->
  (p = Isot -> at1 (n0 A) (c_sound (east u)) i = at1 (n0 A) (c_sound (east w)) i /\
               at1 (n0 A) (c_sound (west u)) (i + 1) = at1 (n0 A) (c_sound (west w)) (i + 1)) ->
  (forall l i', (l < nE p)%nat -> (i - 1 <= i' <= i + 2)%nat ->
     at2 (n0 A) (cons (cent u)) l i' = at2 (n0 A) (cons (cent w)) l i') ->
  kt_fn A p k u m j i = kt_fn A p k' w m j i.
Proof.
  intros p k k' u w m j i Hj Hi E1 E2 E3 E4 E5 Gw Ge Hc H.
  assert (RL : forall l, (l < nE p)%nat -> recon A k (cons (cent u)) (k_dist_east k) l i = recon A k' (cons (cent w)) (k_dist_east k') l i).
  { intros l Hl. apply recon_local; auto; [congruence|]. intros i' Hi'. apply H; [assumption|lia]. }
  assert (RR : forall l, (l < nE p)%nat -> recon A k (cons (cent u)) (k_dist_west k) l (i + 1) = recon A k' (cons (cent w)) (k_dist_west k') l (i + 1)).
  { intros l Hl. apply recon_local; auto; [congruence|]. intros i' Hi'. apply H; [assumption|lia]. }
  unfold kt_fn. rewrite Gw, Ge.
  set (XL := fun l => recon A k (cons (cent u)) (k_dist_east k) l i).
  set (XR := fun l => recon A k (cons (cent u)) (k_dist_west k) l (i + 1)).
  set (YL := fun l => recon A k' (cons (cent w)) (k_dist_east k') l i).
  set (YR := fun l => recon A k' (cons (cent w)) (k_dist_west k') l (i + 1)).
  assert (QL : forall l, (l < nE p)%nat -> c2p A p (gamma (east w)) XL l = c2p A p (gamma (east w)) YL l)
    by (intros l Hl; apply c2p_ext; exact RL).
  assert (QR : forall l, (l < nE p)%nat -> c2p A p (gamma (west w)) XR l = c2p A p (gamma (west w)) YR l)
    by (intros l Hl; apply c2p_ext; exact RR).
  assert (CL : kt_sound A p (at1 (n0 A) (c_sound (east u)) i) (c2p A p (gamma (east w)) XL) (gamma (east w)) =
               kt_sound A p (at1 (n0 A) (c_sound (east w)) i) (c2p A p (gamma (east w)) YL) (gamma (east w))).
  { destruct p; cbn [kt_sound]; [apply Hc; reflexivity|]. rewrite !QL by (cbn; lia). reflexivity. }
  assert (CR : kt_sound A p (at1 (n0 A) (c_sound (west u)) (i + 1)) (c2p A p (gamma (west w)) XR) (gamma (west w)) =
               kt_sound A p (at1 (n0 A) (c_sound (west w)) (i + 1)) (c2p A p (gamma (west w)) YR) (gamma (west w))).
  { destruct p; cbn [kt_sound]; [apply Hc; reflexivity|]. rewrite !QR by (cbn; lia). reflexivity. }
  rewrite CL, CR, !QL, !QR, (RL j), (RR j) by (try exact Hj; destruct p; cbn; lia).
  f_equal; apply pflux_ext; intros l Hl; first [apply QL|apply QR|apply RL|apply RR]; exact Hl.
Qed.
End Local.

(** ** Mirror symmetry *)

Lemma rlo_neg : forall x y, rlo (- x) (- y) = - rhi x y.
Proof. intros. unfold rlo, rhi. rewrite <- Ropp_Rmax. replace 0 with (- 0) at 1 by lra. symmetry. apply Ropp_Rmax. Qed.
Lemma rhi_neg : forall x y, rhi (- x) (- y) = - rlo x y.
Proof. intros. unfold rlo, rhi. rewrite <- Ropp_Rmin. replace 0 with (- 0) at 1 by lra. symmetry. apply Ropp_Rmin. Qed.
Lemma rhi_sym : forall x y, rhi x y = rhi y x.
Proof. intros. unfold rhi. rewrite (Rmax_comm x y). reflexivity. Qed.
Lemma rlo_sym : forall x y, rlo x y = rlo y x.
Proof. intros. unfold rlo. rewrite (Rmin_comm x y). reflexivity. Qed.

Lemma rff_mirror : forall sl sr fl fr ul ur s, sl < sr ->
  rff (- sr) (- sl) (- (s * fr)) (- (s * fl)) (s * ur) (s * ul) = - (s * rff sl sr fl fr ul ur).
Proof. intros. unfold rff. field. lra. Qed.

Lemma conserved_mirror : forall p g q j, conserved p g (mirrored q) j = mirror_sign j * conserved p g q j.
Proof.
  intros p g q j. unfold mirror_sign, mirrored.
  destruct p, j as [|[|[|j]]]; cbn [conserved Nat.eqb]; try lra.
Qed.
Lemma flux_mirror : forall p g cs q j, (j < nE p)%nat -> q 0%nat <> 0 -> g <> 1 ->
  euler_flux p g cs (conserved p g (mirrored q)) j = - (mirror_sign j * euler_flux p g cs (conserved p g q) j).
Proof.
  intros p g cs q j Hj H0 Hg. unfold mirror_sign.
  destruct p, j as [|[|[|j]]]; cbn [nE] in Hj; try lia; cbn [euler_flux]; unfold euler_pressure; cbn [conserved mirrored Nat.eqb]; unfold mirrored; cbn [Nat.eqb]; field; auto; split; auto; lra.
Qed.
Lemma rsound_mirror : forall p g c q, rsound p g c (mirrored q) = rsound p g c q.
Proof. intros p g c q. destruct p; reflexivity. Qed.

Lemma flow_cells : forall p S g f c u m, (5 <= S)%nat -> flow_ok p S g f c -> flow_state p S g f c u ->
  exists v, update_vars_from_cons p S (init_bc BNoGradients (nE p)) (init_bc BNoGradients (nE p)) m (cent u) = Ok v /\
  wsv XRn p S v /\ gamma v = Fin g /\
  forall i, (i < S)%nat -> rcell p g v i (conserved p g (f (clamp S i))) (rsound p g (c i) (f (clamp S i))) /\
                           0 < rsound p g (c i) (f (clamp S i)).
Proof.
  intros p S g f c u m HS (Hg & Hpos) (Hw & Gu & Cu & Hu).
  destruct (ng_cons XRn p S m (cent u) HS Hw) as (v & Hv & Pv).
  destruct (update_from_cons_view XRn p S _ _ m _ v HS Hw Hv) as (V1 & V2 & V3 & V4 & V5 & V6).
  exists v. split; [exact Hv|]. split; [exact V1|]. split; [rewrite V2; exact Gu|].
  intros i Hi. pose proof (clamp_interior S i HS) as Hci. pose proof (interior_lt S _ HS Hci) as Hcl.
  destruct (Hpos (clamp S i) Hcl) as (Hfc & _). destruct (Hfc Hci) as (H0 & H2).
  destruct (Hpos i Hi) as (_ & Hc).
  assert (Hprim : forall j, (j < nE p)%nat -> at2 (n0 XRn) (prim v) j i = Fin (f (clamp S i) j)).
  { intros j Hj. rewrite Pv by assumption. rewrite Gu.
    rewrite (c2p_R p g (conserved p g (f (clamp S i)))); [|cbn; lra|assumption|].
    - f_equal. apply rprim_conserved; [lra|intros _; lra|assumption].
    - intros l Hl. apply Hu; assumption. }
  destruct (V6 i Hi) as (W1 & W2 & W3). rewrite Gu in W1, W2.
  assert (Hcs : at1 (n0 XRn) (c_sound v) i = cs_of XRn p (Fin g) (Fin (c i)) (fun k => at2 (n0 XRn) (prim v) k i)).
  { rewrite W2. unfold cs_of. destruct p; cbn [kt_sound]; [|reflexivity]. apply Cu; [reflexivity|assumption]. }
  split.
  - apply rcell_intro with (S := S); auto.
    + rewrite V2; exact Gu.
    + intros _; lra.
    + intros ->. specialize (H2 eq_refl). nra.
  - apply rsound_pos; auto. intros ->. specialize (H2 eq_refl). nra.
Qed.

Lemma clamp_mirror : forall S i, (5 <= S)%nat -> (i < S)%nat -> clamp S (S - 1 - i) = (S - 1 - clamp S i)%nat.
Proof.
  intros S i HS Hi. unfold clamp.
  destruct (Nat.ltb_spec i 2); destruct (Nat.ltb_spec (S - 1 - i) 2); destruct (Nat.ltb_spec (S - 3) i); destruct (Nat.ltb_spec (S - 3) (S - 1 - i)); lia.
Qed.

Lemma rcell_ext : forall p g v i U U' cs, (2 <= nE p)%nat -> (forall j, (j < nE p)%nat -> U j = U' j) -> rcell p g v i U cs -> rcell p g v i U' cs.
Proof.
  intros p g v i U U' cs H2 E (C1 & C2 & C3 & C4 & C5 & C6). unfold rcell.
  rewrite <- !E by lia. repeat match goal with |- _ /\ _ => split end; auto.
  - intros j Hj. rewrite C2 by assumption. f_equal.
    destruct p; cbn [nE] in *; destruct j as [|[|[|j]]]; cbn [rprim]; unfold euler_pressure; rewrite <- ?E by lia; try reflexivity; lia.
  - intros j Hj. rewrite <- E by assumption. auto.
Qed.

Lemma hll_mirror : forall validation S p g f c md a b (r r' s s' : rhs XRn (Hll XRn)) u u' w w' o o',
  let m := mesh_build (A:=XRn) S (mkMC (A:=XRn) md (Fin a) (Fin b)) in
  (5 <= S)%nat -> a < b -> flow_ok p S g f c ->
  flow_state p S g f c u ->
  flow_state p S g (fun i => mirrored (f (S - 1 - i)%nat)) (fun i => c (S - 1 - i)%nat) w ->
  r_bw r = init_bc BNoGradients (nE p) -> r_be r = init_bc BNoGradients (nE p) ->
  r_bw s = init_bc BNoGradients (nE p) -> r_be s = init_bc BNoGradients (nE p) ->
  rhs_update validation p S r u m = (r', u', o) -> rhs_update validation p S s w m = (s', w', o') ->
  forall j i, (j < nE p)%nat -> (2 <= i <= S - 3)%nat ->
  exists x, at2 (n0 XRn) (r_full r') j (S - 1 - i) = Fin x /\ at2 (n0 XRn) (r_full s') j i = Fin (mirror_sign j * x).
Proof.
  intros validation S p g f c md a b r r' s s' u u' w w' o o' m HS Hab Hok Hu Hw Bw Be Bw' Be' H H' j i Hj Hi.
  assert (Hok' : flow_ok p S g (fun i => mirrored (f (S - 1 - i)%nat)) (fun i => c (S - 1 - i)%nat)).
  { destruct Hok as (Hg & Hpos). split; [exact Hg|]. intros i0 Hi0. 
    destruct (Hpos (S - 1 - i0)%nat ltac:(lia)) as (P1 & P2). split; [|exact P2]. intros Hin. apply P1. lia. }
  destruct (flow_cells p S g f c u m HS Hok Hu) as (v & Hv & Wv & Gv & Cv).
  destruct (flow_cells p S g _ _ w m HS Hok' Hw) as (v' & Hv' & Wv' & Gv' & Cv').
  destruct Hok as (Hg & Hpos).
  destruct (rhs_update_Ok _ _ _ _ _ _ _ _ _ _ _ H) as [(u1 & nf & full & E1 & E2 & ->)|Hbad].
  2:{ exfalso. unfold st_update_from_cons in Hbad. rewrite Bw, Be, Hv in Hbad.
      destruct Hbad as [(Q & _)|[(e & Q & _)|(Q & _)]]; discriminate. }
  rewrite Bw, Be in E1. destruct (st_update_Ok _ _ _ _ _ _ _ _ E1) as (v1 & Hv1 & ->).
  rewrite Hv in Hv1. apply Ok_inj in Hv1. subst v1.
  destruct (rhs_update_Ok _ _ _ _ _ _ _ _ _ _ _ H') as [(u1 & nf' & full' & E1' & E2' & ->)|Hbad].
  2:{ exfalso. unfold st_update_from_cons in Hbad. rewrite Bw', Be', Hv' in Hbad.
      destruct Hbad as [(Q & _)|[(e & Q & _)|(Q & _)]]; discriminate. }
  rewrite Bw', Be' in E1'. destruct (st_update_Ok _ _ _ _ _ _ _ _ E1') as (v1 & Hv1 & ->).
  rewrite Hv' in Hv1. apply Ok_inj in Hv1. subst v1.
  set (q := fun i => f (clamp S i)). set (cs := fun i => rsound p g (c i) (q i)).
  assert (Hn2 : (2 <= nE p)%nat) by (destruct p; cbn; lia).
  (* both face fluxes in real numbers *)
  set (face := fun k => 
      rff (rlo (q k 1%nat - cs k) (q (k + 1)%nat 1%nat - cs (k + 1)%nat)) (rhi (q k 1%nat + cs k) (q (k + 1)%nat 1%nat + cs (k + 1)%nat))
          (euler_flux p g (cs k) (conserved p g (q k)) j) (euler_flux p g (cs (k + 1)%nat) (conserved p g (q (k + 1)%nat)) j)
          (conserved p g (q k) j) (conserved p g (q (k + 1)%nat) j)).
  assert (Q0 : forall k, (k < S)%nat -> 0 < q k 0%nat).
  { intros k Hk. pose proof (clamp_interior S k HS) as Hci. apply (Hpos (clamp S k) (interior_lt S _ HS Hci)). exact Hci. }
  assert (Vel : forall k, (k < S)%nat -> conserved p g (q k) 1%nat / conserved p g (q k) 0%nat = q k 1%nat).
  { intros k Hk. specialize (Q0 k Hk). cbn [conserved]. field. lra. }
  assert (Lt : forall k, (k + 1 < S)%nat -> rlo (q k 1%nat - cs k) (q (k + 1)%nat 1%nat - cs (k + 1)%nat) < rhi (q k 1%nat + cs k) (q (k + 1)%nat 1%nat + cs (k + 1)%nat)).
  { intros k Hk. destruct (Cv k ltac:(lia)) as [_ Cp]. fold (q k) in Cp. fold (cs k) in Cp.
    pose proof (rlo_le (q k 1%nat - cs k) (q (k + 1)%nat 1%nat - cs (k + 1)%nat)).
    pose proof (rhi_ge (q k 1%nat + cs k) (q (k + 1)%nat 1%nat + cs (k + 1)%nat)). lra. }
  assert (Fu : forall k, (k + 1 < S)%nat -> hll_fn XRn p S v j k = Fin (face k)).
  { intros k Hk. 
    rewrite (hll_fn_R p S g v j k _ _ _ _ Hj Hk (proj1 (proj2 (proj2 (proj2 Wv)))) (proj1 (Cv k ltac:(lia))) (proj1 (Cv (k + 1)%nat Hk)));
    fold (q k) (q (k + 1)%nat); fold (cs k) (cs (k + 1)%nat); rewrite !Vel by lia; [reflexivity|auto]. }
  assert (Cm : forall k, (k < S)%nat -> rcell p g v' k (fun l => mirror_sign l * conserved p g (q (S - 1 - k)%nat) l) (cs (S - 1 - k)%nat)).
  { intros k Hk. destruct (Cv' k Hk) as [Cc _]. rewrite rsound_mirror in Cc.
    rewrite <- (clamp_mirror S k HS Hk) in Cc. fold (q (S - 1 - k)%nat) in Cc. fold (cs (S - 1 - k)%nat) in Cc.
    eapply rcell_ext; [exact Hn2| |exact Cc]. intros l Hl. apply conserved_mirror. }
  assert (Fw : forall k, (k + 1 < S)%nat -> hll_fn XRn p S v' j k = Fin (- (mirror_sign j * face (S - 2 - k)%nat))).
  { intros k Hk.
    assert (Ek : (S - 1 - k = S - 2 - k + 1)%nat) by lia. assert (Ek' : (S - 1 - (k + 1) = S - 2 - k)%nat) by lia.
    pose proof (Cm k ltac:(lia)) as Ca. pose proof (Cm (k + 1)%nat Hk) as Cb. rewrite Ek' in Cb. rewrite Ek in Ca.
    set (k' := (S - 2 - k)%nat) in *.
    assert (Hk' : (k' + 1 < S)%nat) by (unfold k'; lia).
    assert (Va : forall k0, (k0 < S)%nat -> mirror_sign 1 * conserved p g (q k0) 1%nat / (mirror_sign 0 * conserved p g (q k0) 0%nat) = - q k0 1%nat).
    { intros k0 Hk0. specialize (Q0 k0 Hk0). unfold mirror_sign; cbn [conserved Nat.eqb]. field. lra. }
    assert (S1 : rlo (- q (k' + 1)%nat 1%nat - cs (k' + 1)%nat) (- q k' 1%nat - cs k') = - rhi (q k' 1%nat + cs k') (q (k' + 1)%nat 1%nat + cs (k' + 1)%nat)).
    { rewrite rhi_sym, <- rlo_neg. f_equal; lra. }
    assert (S2 : rhi (- q (k' + 1)%nat 1%nat + cs (k' + 1)%nat) (- q k' 1%nat + cs k') = - rlo (q k' 1%nat - cs k') (q (k' + 1)%nat 1%nat - cs (k' + 1)%nat)).
    { rewrite rlo_sym, <- rhi_neg. f_equal; lra. }
    rewrite (hll_fn_R p S g v' j k _ _ _ _ Hj Hk (proj1 (proj2 (proj2 (proj2 Wv')))) Ca Cb); cbv beta; rewrite !Va by lia; rewrite S1, S2.
    - f_equal. 
      assert (EF : forall k0, (k0 < S)%nat -> euler_flux p g (cs k0) (fun l => mirror_sign l * conserved p g (q k0) l) j = - (mirror_sign j * euler_flux p g (cs k0) (conserved p g (q k0)) j)).
      { intros k0 Hk0. rewrite <- flux_mirror by (auto; try (apply Rgt_not_eq; apply Q0; assumption); lra).
        destruct p; cbn [nE] in *; destruct j as [|[|[|j]]]; cbn [euler_flux]; unfold euler_pressure; rewrite ?conserved_mirror; try reflexivity; lia. }
      rewrite !EF by lia. apply rff_mirror. auto.
    - specialize (Lt k' Hk'). lra. }
  cbn [nf_calc Hll] in E2, E2'. cbn [r_full r_nf].
  assert (Hh : 0 < hx S a b) by (apply hx_pos; auto).
  pose proof (hll_dflux XRn validation p S (r_nf r) (r_full r) (set_cent v u) m (std_build XRn S _) j (S - 1 - i) Hj ltac:(lia)) as Q.
  rewrite E2 in Q. cbn [fst snd cent set_cent] in Q. rewrite Q.
  pose proof (hll_dflux XRn validation p S (r_nf s) (r_full s) (set_cent v' w) m (std_build XRn S _) j i Hj ltac:(lia)) as Q'.
  rewrite E2' in Q'. cbn [fst snd cent set_cent] in Q'. rewrite Q'.
  replace ((2 <=? S - 1 - i) && (S - 1 - i <=? S - 3))%nat with true by (symmetry; apply andb_true_intro; split; apply Nat.leb_le; lia).
  replace ((2 <=? i) && (i <=? S - 3))%nat with true by (symmetry; apply andb_true_intro; split; apply Nat.leb_le; lia).
  unfold m. rewrite !mesh_dddv_R by (auto; lia). rewrite !Fu, !Fw by lia. rewrite !X_sub, !X_mul.
  eexists. split; [reflexivity|]. f_equal.
  replace (S - 2 - (i - 1))%nat with (S - 1 - i)%nat by lia. replace (S - 1 - i - 1)%nat with (S - 2 - i)%nat by lia. ring.
Qed.

(** ** Reconstruction *)
Lemma kt_like_params : forall p S md a b l th k0 k, (5 <= S)%nat -> a < b -> limiter_theta l = Fin th ->
  kt_new (A:=XRn) p S (CKt l) (mesh_build (A:=XRn) S (mkMC (A:=XRn) md (Fin a) (Fin b))) = Ok k0 ->
  kt_like XRn k k0 -> kt_params S (hx S a b) l th k.
Proof.
  intros p S md a b l th k0 k HS Hab Ht Hk (E1 & E2 & E3 & E4 & E5).
  pose proof (kt_new_params p S md a b l th k0 HS Hab Ht Hk) as Q.
  unfold kt_params in *. rewrite E1, E2, E3, E4, E5. exact Q.
Qed.

Lemma kt_calc_like : forall A validation p S (k k0 : kt A) d u m k' d' u' o,
  kt_like A k k0 -> kt_calc validation p S k d u m = (k', d', u', o) -> kt_like A k' k0.
Proof.
  intros A validation p S k k0 d u m k' d' u' o (E1 & E2 & E3 & E4 & E5) E.
  destruct (kt_calc_static A _ _ _ _ _ _ _ _ _ _ _ E) as (F1 & F2 & F3 & F4 & F5).
  unfold kt_like. rewrite F1, F2, F3, F4, F5. auto.
Qed.

Lemma rslope_strict : forall l a b th, tvd_limiter l th ->
  (0 < a -> 0 < b -> 0 < rslope l a b (/ 2 * (a + b)) th) /\ (a < 0 -> b < 0 -> rslope l a b (/ 2 * (a + b)) th < 0).
Proof.
  intros l a b th Ht. destruct l; cbn [tvd_limiter] in Ht; try contradiction; cbn [rslope].
  - destruct (Rlt_dec 0 a), (Rlt_dec 0 b); split; intros; try lra.
    + apply Rmin_glb_lt; assumption.
    + apply Rmax_lub_lt; assumption.
  - assert (P : a <> 0 -> b <> 0 -> 0 < Rmin (Rmin (Rabs a) (Rabs b)) (/ 2 * Rmax (Rabs a) (Rabs b))).
    { intros Na Nb. pose proof (Rabs_pos_lt a Na). pose proof (Rabs_pos_lt b Nb). pose proof (Rmax_l (Rabs a) (Rabs b)).
      repeat apply Rmin_glb_lt; lra. }
    split; intros Ha Hb; specialize (P ltac:(lra) ltac:(lra)); destruct (Rlt_dec 0 (a * b)) as [Q|Q]; try nra;
      destruct (Rlt_dec 0 a); lra.
  - assert (P : a <> 0 -> b <> 0 -> a + b <> 0 -> 0 < Rmin (Rabs (th * a)) (Rmin (Rabs (th * b)) (Rabs (/ 2 * (a + b))))).
    { intros Na Nb Nc. apply Rmin_glb_lt; [|apply Rmin_glb_lt]; apply Rabs_pos_lt; intros Q; nra. }
    split; intros Ha Hb; specialize (P ltac:(lra) ltac:(lra) ltac:(lra));
      destruct (Rlt_dec 0 a), (Rlt_dec 0 b), (Rlt_dec 0 (/ 2 * (a + b))); lra.
Qed.

Lemma kt_reconstruction : forall validation p S md a b l th k0 k d u k' d' u' o j i cm c0 cp,
  let m := mesh_build (A:=XRn) S (mkMC (A:=XRn) md (Fin a) (Fin b)) in
  (5 <= S)%nat -> a < b -> limiter_theta l = Fin th ->
  kt_new (A:=XRn) p S (CKt l) m = Ok k0 -> kt_like XRn k k0 ->
  kt_calc (A:=XRn) validation p S k d u m = (k', d', u', o) ->
  (j < nE p)%nat -> (1 <= i)%nat -> (i + 1 < S)%nat ->
  at2 (n0 XRn) (cons (cent u)) j (i - 1) = Fin cm -> at2 (n0 XRn) (cons (cent u)) j i = Fin c0 ->
  at2 (n0 XRn) (cons (cent u)) j (i + 1) = Fin cp ->
  (l = VanLeer -> Rabs (c0 - cm) + Rabs (cp - c0) <> (2 - powerRZ 2 (-52)) * powerRZ 2 1023) ->
  let s := rslope l (c0 - cm) (cp - c0) (/ 2 * (c0 - cm + (cp - c0))) th in
  at2 (n0 XRn) (cons (west u')) j i = Fin (c0 - s / 2) /\ at2 (n0 XRn) (cons (east u')) j i = Fin (c0 + s / 2).
Proof.
  intros validation p S md a b l th k0 k d u k' d' u' o j i cm c0 cp m HS Hab Ht Hk Hl E Hj Hi1 Hi2 Em E0 Ep HV s.
  pose proof (kt_like_params p S md a b l th k0 k HS Hab Ht Hk Hl) as Hp.
  destruct (kt_faces XRn _ _ _ _ _ _ _ _ _ _ _ j i E Hj Hi1 Hi2) as (F1 & F2 & _).
  destruct (recon_R S (hx S a b) l th k _ j i cm c0 cp Hp (hx_pos S a b HS Hab) Hi1 Hi2 Em E0 Ep HV) as [R1 R2].
  rewrite F1, F2, R1, R2. unfold s. replace (c0 - cm + (cp - c0)) with (cp - cm) by lra. auto.
Qed.
