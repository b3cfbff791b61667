(** Closed boxes: proofs. *)

From Coq Require Import Reals ZArith NArith QArith Qreals List Bool Lia Lra.
From Verif Require Import Base Num XReal Config Mesh State NumFlux Time Writer Runner Spec SpecFlow SpecStep SpecTableau SpecEuler SpecWall
  MeshProofs BoundaryProofs PhysicsProofs FluxProofs UpdateProofs FluxReal FluxThms FluxMore StepProofs StepInv StepEq TableauProofs
  TimeProofs TimeMore AscProofs EulerStep RealRun EulerThms LinRun ConsThms.
Import ListNotations.
Local Open Scope R_scope.

(** ** Finite results have finite operands *)
Lemma sgn_nofin : forall a r, xinf_sgn a <> Fin r /\ xneg (xinf_sgn a) <> Fin r.
Proof. intros a r. unfold xinf_sgn. destruct (Rlt_dec 0 a); [|destruct (Rlt_dec a 0)]; split; discriminate. Qed.
Lemma mul_fin : forall (x y : XR) r, nmul XRn x y = Fin r -> exists a b, x = Fin a /\ y = Fin b /\ a * b = r.
Proof.
  intros [a| | |] [b| | |] r H; cbn in H; try discriminate;
    try (exfalso; first [exact (proj1 (sgn_nofin _ _) H) | exact (proj2 (sgn_nofin _ _) H)]).
  injection H as H. exists a, b. auto.
Qed.
Lemma add_fin : forall (x y : XR) r, nadd XRn x y = Fin r -> exists a b, x = Fin a /\ y = Fin b /\ a + b = r.
Proof. intros [a| | |] [b| | |] r H; cbn in H; try discriminate. injection H as H. exists a, b. auto. Qed.
Lemma sub_fin : forall (x y : XR) r, nsub XRn x y = Fin r -> exists a b, x = Fin a /\ y = Fin b /\ a - b = r.
Proof. intros [a| | |] [b| | |] r H; cbn in H; try discriminate. injection H as H. exists a, b. auto. Qed.
Lemma recip_fin : forall b r, ndiv XRn (Fin 1 : XR) (Fin b) = Fin r -> b <> 0.
Proof. intros b r H Z. cbn in H. destruct (Req_EM_T b 0); [|contradiction]. exact (proj1 (sgn_nofin _ _) H). Qed.
Lemma fin_of : forall x : XR, nfin XRn x = true -> exists r, x = Fin r.
Proof. intros [a| | |] H; try discriminate. eauto. Qed.

(** ** The flux through a mirror *)
Lemma face_fin : forall sl sr fl fr ul ur x, face_flux XRn (Fin 1) sl sr fl fr ul ur = Fin x ->
  exists l r a b c d, sl = Fin l /\ sr = Fin r /\ r - l <> 0 /\ fl = Fin a /\ fr = Fin b /\ ul = Fin c /\ ur = Fin d.
Proof.
  intros sl sr fl fr ul ur x H. unfold face_flux in H.
  apply mul_fin in H. destruct H as (i & y & Hi & Hy & _).
  apply add_fin in Hy. destruct Hy as (y1 & y2 & H1 & H2 & _).
  apply sub_fin in H1. destruct H1 as (y3 & y4 & H3 & H4 & _).
  apply mul_fin in H3. destruct H3 as (r & a & -> & -> & _).
  apply mul_fin in H4. destruct H4 as (l & b & -> & -> & _).
  apply mul_fin in H2. destruct H2 as (_ & y5 & _ & H5 & _).
  apply sub_fin in H5. destruct H5 as (d & c & -> & -> & _).
  rewrite X_sub in Hi. apply recip_fin in Hi. exists l, r, a, b, c, d. auto 10.
Qed.

Lemma mirror_speed : forall v (c : XR) l r, 
  lo_h XRn (nsub XRn (Fin (- v) : XR) c) (nsub XRn (Fin v : XR) c) = Fin l ->
  hi_h XRn (nadd XRn (Fin (- v) : XR) c) (nadd XRn (Fin v : XR) c) = Fin r -> r - l <> 0 ->
  (exists k, c = Fin k) /\ l = - r.
Proof.
  intros v c l r Hl Hr Hn. destruct c as [k| | |].
  - split; [eauto|]. rewrite X_sub, X_sub, lo_h_R in Hl. rewrite X_add, X_add, hi_h_R in Hr. injection Hl as Hl. injection Hr as Hr.
    assert (E1 : - v - k = - (v + k)) by ring. assert (E2 : v - k = - (- v + k)) by ring. rewrite E1, E2, rlo_neg, rhi_sym in Hl. lra.
  - exfalso. unfold hi_h in Hr. cbn in Hr. discriminate.
  - exfalso. unfold lo_h in Hl. unfold hi_h in Hr. cbn in Hl, Hr. injection Hl as Hl. injection Hr as Hr. lra.
  - exfalso. unfold lo_h in Hl. unfold hi_h in Hr. cbn in Hl, Hr. injection Hl as Hl. injection Hr as Hr. lra.
Qed.

Lemma mirror_flux : forall r f u x, - r - r <> 0 \/ r - - r <> 0 ->
  face_flux XRn (Fin 1) (Fin (- r)) (Fin r) (Fin (- f)) (Fin f) (Fin u) (Fin u) = Fin x -> x = 0.
Proof.
  intros r f u x Hn H. unfold face_flux in H. rewrite !X_mul, !X_sub, X_div in H by lra. rewrite !X_mul, X_add, X_mul in H.
  injection H as H. rewrite <- H. field. lra.
Qed.

(** the cells [i], [i + 1] mirror each other *)
Lemma mirror_face : forall p S v (g : XR) i x (q0 q2 cs wa wb : XR), (i + 1 < S)%nat -> shape (nE p) S (flux v) ->
  at2 (n0 XRn) (prim v) 1 i = wa -> at2 (n0 XRn) (prim v) 1 (i + 1) = wb ->
  (wa = nmul XRn (Fin (-1) : XR) wb \/ wb = nmul XRn (Fin (-1) : XR) wa) ->
  (forall k, k = i \/ k = (i + 1)%nat -> at2 (n0 XRn) (prim v) 0 k = q0 /\ (p = Adiab -> at2 (n0 XRn) (prim v) 2 k = q2) /\
     at1 (n0 XRn) (c_sound v) k = cs /\
     (forall j, (j < nE p)%nat -> at2 (n0 XRn) (cons v) j k = p2c XRn p g (fun l => at2 (n0 XRn) (prim v) l k) j) /\
     (forall j, (j < nE p)%nat -> at2 (n0 XRn) (eigen_vals v) j k = eigen_row XRn p (at2 (n0 XRn) (prim v) 1 k) (at1 (n0 XRn) (c_sound v) k) j)) ->
  (forall j, (j < nE p)%nat -> hll_fn XRn p S v j i = Fin (x j)) ->
  forall j, kept p j -> x j = 0.
Proof.
  intros p S v g i x q0 q2 cs wa wb Hi Hs Hwa Hwb Hm Hc Hx.
  destruct (Hc i (or_introl eq_refl)) as (A0 & A2 & As & Ac & Ae). destruct (Hc (i + 1)%nat (or_intror eq_refl)) as (B0 & B2 & Bs & Bc & Be).
  assert (N2 : (0 < nE p)%nat /\ (1 < nE p)%nat) by (destruct p; cbn; lia). destruct N2 as (N0 & N1).
  assert (P1 : forall f, p2c XRn p g f 1 = nmul XRn (f 1%nat) (f 0%nat)) by (intros; destruct p; reflexivity).
  assert (F0 : forall q c s, pflux XRn p q c s 0 = c 1%nat) by (intros; destruct p; reflexivity).
  assert (E0 : forall a c, eigen_row XRn p a c 0 = nsub XRn a c) by reflexivity.
  assert (E1 : forall a c, eigen_row XRn p a c (nE p - 1) = nadd XRn a c) by (intros; destruct p; reflexivity).
  (* the velocities are finite and opposite *)
  pose proof (Hx 0%nat N0) as H0. unfold hll_fn in H0. rewrite !update_flux_at in H0 by (auto; lia).
  rewrite !Ae, !Be, !F0 in H0 by (destruct p; cbn; lia). rewrite !E0, !E1, !As, !Bs, !Hwa, !Hwb in H0.
  rewrite !Ac, !Bc in H0 by assumption. rewrite !P1, Hwa, Hwb, A0, B0 in H0. rewrite !p2c_0, A0, B0 in H0.
  pose proof (face_fin _ _ _ _ _ _ _ H0) as (l & r & fa & fb & ua & ub & Hl & Hr & Hn & Hfa & Hfb & Hua & Hub).
  apply mul_fin in Hfa. destruct Hfa as (w' & r0 & Ewa & Er0 & Efa). apply mul_fin in Hfb. destruct Hfb as (w & r1 & Ewb & Er1 & Efb).
  assert (Ew : w' = - w).
  { destruct Hm as [Hm|Hm]; rewrite Ewa, Ewb, X_mul in Hm; injection Hm as Hm; lra. }
  subst w'. rewrite Er0 in *. subst wa wb. rewrite Ewa, Ewb in *.
  destruct (mirror_speed w cs l r Hl Hr Hn) as ((k & ->) & ->).
  assert (Hn' : - r - r <> 0 \/ r - - r <> 0) by (right; exact Hn).
  rewrite Hl, Hr in H0. rewrite !X_mul in H0. replace (- w * r0) with (- (w * r0)) in H0 by ring.
  intros j [->|[-> ->]].
  - exact (mirror_flux r (w * r0) r0 (x 0%nat) Hn' H0).
  - cbn [nE] in *. specialize (A2 eq_refl). specialize (B2 eq_refl).
    pose proof (Hx 2%nat ltac:(lia)) as H2. unfold hll_fn in H2. rewrite !update_flux_at in H2 by (auto; cbn; lia).
    cbn [nE] in H2. rewrite !Ae, !Be in H2 by lia. rewrite !E0 in H2. change (Init.Nat.sub 3 1) with 2%nat in H2.
    change (eigen_row XRn Adiab) with (eigen_row XRn Adiab) in H2.
    assert (E2 : forall a c, eigen_row XRn Adiab a c 2 = nadd XRn a c) by reflexivity.
    rewrite !E2, !As, !Bs in H2. rewrite Hl, Hr in H2. rewrite !Ac, !Bc in H2 by lia.
    cbn [pflux p2c adiab_flux adiab_prim_to_cons isot_prim_to_cons fst snd] in H2. rewrite !Ac, !Bc in H2 by lia.
    cbn [p2c adiab_prim_to_cons isot_prim_to_cons fst snd] in H2. rewrite Ewa, Ewb, A0, B0, A2, B2 in H2.
    pose proof (face_fin _ _ _ _ _ _ _ H2) as (_ & _ & ga & gb & ea & eb & _ & _ & _ & Hga & Hgb & Hea & Heb).
    apply mul_fin in Hgb. destruct Hgb as (y1 & _ & Hy1 & _ & _). apply add_fin in Hy1. destruct Hy1 as (_ & pr & _ & Epr & _).
    pose proof Heb as Heb'. apply add_fin in Heb'. destruct Heb' as (y2 & _ & Hy2 & _ & _). 
    pose proof Hy2 as Hy2'. apply mul_fin in Hy2'. destruct Hy2' as (_ & gi & _ & Egi & _).
    rewrite Epr, Egi, X_Q, !X_mul, !X_add, !X_mul in H2.
    assert (EE : pr * gi + Q2R (1 # 2) * r0 * - w * - w = pr * gi + Q2R (1 # 2) * r0 * w * w) by ring. rewrite EE in H2.
    set (en := pr * gi + Q2R (1 # 2) * r0 * w * w) in *. replace ((en + pr) * - w) with (- ((en + pr) * w)) in H2 by ring.
    exact (mirror_flux r ((en + pr) * w) en (x 2%nat) Hn' H2).
Qed.

(** ** The ghost cells next to the walls *)
Definition wall_list (p : phys) : list (nat * cbmode) := init_bc (walls p) (nE p).

Lemma walls_west : forall p S (m : mesh XRn) (q q' : list (list (nF XRn))), (5 <= S)%nat -> shape (nE p) S q ->
  apply_modes West (nE p) S m (wall_list p) q = Ok q' ->
  at2 (n0 XRn) q' 0 1 = at2 (n0 XRn) q 0 2 /\ at2 (n0 XRn) q' 1 1 = nmul XRn (Fin (-1) : XR) (at2 (n0 XRn) q 1 2) /\
  (p = Adiab -> at2 (n0 XRn) q' 2 1 = at2 (n0 XRn) q 2 2).
Proof.
  intros p S m q q' HS Hq H.
  assert (Sh : forall md j x, shape (nE p) S x -> shape (nE p) S (apply_mode West S m md j x)) by (intros; apply apply_mode_shape; assumption).
  assert (Gh : forall md j x, shape (nE p) S x -> (j < nE p)%nat ->
    at2 (n0 XRn) (apply_mode West S m md j x) j (ghost_cell West S 1) = Gval XRn West S m md 1 (fun i => at2 (n0 XRn) x j i)).
  { intros md j x Hx Hj. apply apply_mode_ghost with (E := nE p); auto. lia. }
  assert (Ot : forall md j x j' i', j' <> j \/ i' = 2%nat -> at2 (n0 XRn) (apply_mode West S m md j x) j' i' = at2 (n0 XRn) x j' i').
  { intros md j x j' i' [Hj| ->]; (apply apply_mode_other; [lia|]); [left; exact Hj|right; cbn; lia]. }
  cbn [ghost_cell] in Gh. change (2 - 1)%nat with 1%nat in Gh.
  unfold wall_list, walls, init_bc in H. destruct p; cbn [app nE apply_modes Nat.ltb Nat.leb] in *; apply Ok_inj in H; subst q'.
  - split; [rewrite Ot by lia; rewrite Gh by (auto; lia); reflexivity|]. split; [|discriminate].
    rewrite Gh by (auto; lia). cbn [Gval inner_cell]. rewrite Ot by lia. reflexivity.
  - split; [rewrite !Ot by lia; rewrite Gh by (auto; lia); reflexivity|]. split.
    + rewrite Ot by lia. rewrite Gh by (auto; lia). cbn [Gval inner_cell]. rewrite Ot by lia. reflexivity.
    + intros _. rewrite Gh by (auto; lia). cbn [Gval inner_cell]. rewrite !Ot by lia. reflexivity.
Qed.

Lemma walls_east : forall p S (m : mesh XRn) (q q' : list (list (nF XRn))), (5 <= S)%nat -> shape (nE p) S q ->
  apply_modes East (nE p) S m (wall_list p) q = Ok q' ->
  at2 (n0 XRn) q' 0 (S - 2) = at2 (n0 XRn) q 0 (S - 3) /\
  at2 (n0 XRn) q' 1 (S - 2) = nmul XRn (Fin (-1) : XR) (at2 (n0 XRn) q 1 (S - 3)) /\
  (p = Adiab -> at2 (n0 XRn) q' 2 (S - 2) = at2 (n0 XRn) q 2 (S - 3)).
Proof.
  intros p S m q q' HS Hq H.
  assert (Sh : forall md j x, shape (nE p) S x -> shape (nE p) S (apply_mode East S m md j x)) by (intros; apply apply_mode_shape; assumption).
  assert (Gh : forall md j x, shape (nE p) S x -> (j < nE p)%nat ->
    at2 (n0 XRn) (apply_mode East S m md j x) j (S - 2) = Gval XRn East S m md 1 (fun i => at2 (n0 XRn) x j i)).
  { intros md j x Hx Hj. replace (S - 2)%nat with (ghost_cell East S 1) by (cbn; lia). apply apply_mode_ghost with (E := nE p); auto. lia. }
  assert (Ot : forall md j x j' i', j' <> j \/ i' = (S - 3)%nat -> at2 (n0 XRn) (apply_mode East S m md j x) j' i' = at2 (n0 XRn) x j' i').
  { intros md j x j' i' [Hj| ->]; (apply apply_mode_other; [lia|]); [left; exact Hj|right; cbn; lia]. }
  assert (GN : forall f, Gval XRn East S m NoGradients 1 f = f (S - 3)%nat) by (intros f; unfold Gval; cbn [inner_cell]; f_equal; lia).
  assert (GR : forall f, Gval XRn East S m Reflecting 1 f = nmul XRn (Fin (-1) : XR) (f (S - 3)%nat)).
  { intros f. unfold Gval. cbn [inner_cell]. change (1 - 1)%nat with 0%nat. rewrite Nat.sub_0_r. reflexivity. }
  unfold wall_list, walls, init_bc in H. destruct p; cbn [app nE apply_modes Nat.ltb Nat.leb] in *; apply Ok_inj in H; subst q'.
  - split; [rewrite Ot by lia; rewrite Gh by (auto; lia); rewrite GN; reflexivity|]. split; [|discriminate].
    rewrite Gh by (auto; lia). rewrite ?GN, ?GR. rewrite Ot by lia. reflexivity.
  - split; [rewrite !Ot by lia; rewrite Gh by (auto; lia); rewrite GN; reflexivity|]. split.
    + rewrite Ot by lia. rewrite Gh by (auto; lia). rewrite ?GN, ?GR. rewrite Ot by lia. reflexivity.
    + intros _. rewrite Gh by (auto; lia). rewrite GN. rewrite !Ot by lia. reflexivity.
Qed.

Lemma wall_flux : forall p S (m : mesh XRn) v v' i x, (5 <= S)%nat -> wsv XRn p S v -> level_sound p S v ->
  update_vars_from_cons p S (wall_list p) (wall_list p) m v = Ok v' ->
  (i = 1 \/ i = S - 3)%nat ->
  (forall j, (j < nE p)%nat -> hll_fn XRn p S v' j i = Fin (x j)) ->
  forall j, kept p j -> x j = 0.
Proof.
  intros p S m v v' i x HS W L E Hi Hx.
  destruct (update_from_cons_view XRn p S _ _ m v v' HS W E) as (V1 & V2 & V3 & V4 & V5 & V6).
  assert (Pr : exists q0 q1, shape (nE p) S q0 /\ shape (nE p) S q1 /\ apply_modes West (nE p) S m (wall_list p) q0 = Ok q1 /\
    apply_modes East (nE p) S m (wall_list p) q1 = Ok (prim v')).
  { unfold update_vars_from_cons, update_vars_from_prim in E. apply bind_Ok in E. destruct E as (a & Ha & E).
    apply bind_Ok in E. destruct E as (b & Hb & E). apply Ok_inj in E.
    apply bc_apply_Ok in Ha. destruct Ha as (q & Hq & ->). apply bc_apply_Ok in Hb. destruct Hb as (q' & Hq' & ->).
    assert (Sq : shape (nE p) S (prim (update_prim p S v))) by (apply update_prim_shape; apply W).
    exists (prim (update_prim p S v)), q. split; [exact Sq|]. split; [eapply apply_modes_shape; [exact Sq|exact Hq]|]. split; [exact Hq|].
    cbn [prim set_prim] in Hq'. rewrite Hq'. f_equal. rewrite <- E.
    match goal with |- _ = prim (update_derived_variables p S ?a) => destruct (derived_fields XRn p S a) as (D1 & _) end.
    rewrite D1. unfold update_cons. destruct p; reflexivity. }
  destruct Pr as (q0 & q1 & S0 & S1 & Pw & Pe).
  destruct (walls_west p S m q0 q1 HS S0 Pw) as (X0 & X1 & X2). destruct (walls_east p S m q1 (prim v') HS S1 Pe) as (Y0 & Y1 & Y2).
  assert (K1 : forall j k, (k <= 2 \/ k = S - 3)%nat -> at2 (n0 XRn) (prim v') j k = at2 (n0 XRn) q1 j k).
  { intros j k Hk. apply (apply_modes_other XRn East (nE p) S m (wall_list p) q1 (prim v') j k ltac:(lia) Pe). right. cbn. lia. }
  assert (K0 : forall j, at2 (n0 XRn) q1 j 2 = at2 (n0 XRn) q0 j 2).
  { intros j. apply (apply_modes_other XRn West (nE p) S m (wall_list p) q0 q1 j 2 ltac:(lia) Pw). right. cbn. lia. }
  assert (Cs : forall a b, (a < S)%nat -> (b < S)%nat -> (p = Isot -> at1 (n0 XRn) (c_sound v) a = at1 (n0 XRn) (c_sound v) b) ->
    at2 (n0 XRn) (prim v') 0 a = at2 (n0 XRn) (prim v') 0 b -> (p = Adiab -> at2 (n0 XRn) (prim v') 2 a = at2 (n0 XRn) (prim v') 2 b) ->
    at1 (n0 XRn) (c_sound v') a = at1 (n0 XRn) (c_sound v') b).
  { intros a b Ha Hb Hc H0 H2. destruct (V6 a Ha) as (_ & -> & _). destruct (V6 b Hb) as (_ & -> & _). unfold cs_of.
    destruct p; cbn [kt_sound]; [apply Hc; reflexivity|]. rewrite H0, H2 by reflexivity. reflexivity. }
  destruct Hi as [-> | ->].
  - assert (P0 : at2 (n0 XRn) (prim v') 0 1 = at2 (n0 XRn) (prim v') 0 2) by (rewrite !K1, X0, K0 by lia; reflexivity).
    assert (P1 : at2 (n0 XRn) (prim v') 1 1 = nmul XRn (Fin (-1) : XR) (at2 (n0 XRn) (prim v') 1 2)) by (rewrite !K1, X1, K0 by lia; reflexivity).
    assert (P2 : p = Adiab -> at2 (n0 XRn) (prim v') 2 1 = at2 (n0 XRn) (prim v') 2 2) by (intros Hp; rewrite !K1, X2, K0 by (lia || exact Hp); reflexivity).
    assert (Pc : at1 (n0 XRn) (c_sound v') 1 = at1 (n0 XRn) (c_sound v') 2) by (apply Cs; auto; try lia; intros Hp; apply (L Hp)).
    apply (mirror_face p S v' (gamma v) 1 x (at2 (n0 XRn) (prim v') 0 2) (at2 (n0 XRn) (prim v') 2 2) (at1 (n0 XRn) (c_sound v') 2)
             (at2 (n0 XRn) (prim v') 1 1) (at2 (n0 XRn) (prim v') 1 2)); auto; try lia; [apply V1|].
    intros k Hk. destruct (V6 k ltac:(lia)) as (W1 & W2 & W3).
    destruct Hk as [-> | ->]; change (1 + 1)%nat with 2%nat in *; auto 10.
  - replace (S - 3 + 1)%nat with (S - 2)%nat in * by lia.
    assert (P0 : at2 (n0 XRn) (prim v') 0 (S - 2) = at2 (n0 XRn) (prim v') 0 (S - 3)) by (rewrite (K1 0%nat (S - 3)%nat), Y0 by lia; reflexivity).
    assert (P1 : at2 (n0 XRn) (prim v') 1 (S - 2) = nmul XRn (Fin (-1) : XR) (at2 (n0 XRn) (prim v') 1 (S - 3))) by (rewrite (K1 1%nat (S - 3)%nat), Y1 by lia; reflexivity).
    assert (P2 : p = Adiab -> at2 (n0 XRn) (prim v') 2 (S - 2) = at2 (n0 XRn) (prim v') 2 (S - 3)) by (intros Hp; rewrite (K1 2%nat (S - 3)%nat), Y2 by (lia || exact Hp); reflexivity).
    assert (Pc : at1 (n0 XRn) (c_sound v') (S - 2) = at1 (n0 XRn) (c_sound v') (S - 3)) by (apply Cs; auto; try lia; intros Hp; apply (L Hp)).
    assert (E2 : (S - 3 + 1 = S - 2)%nat) by lia.
    apply (mirror_face p S v' (gamma v) (S - 3) x (at2 (n0 XRn) (prim v') 0 (S - 3)) (at2 (n0 XRn) (prim v') 2 (S - 3)) (at1 (n0 XRn) (c_sound v') (S - 3))
             (at2 (n0 XRn) (prim v') 1 (S - 3)) (at2 (n0 XRn) (prim v') 1 (S - 2))); rewrite ?E2; auto; try lia; [apply V1|].
    intros k Hk. destruct (V6 k ltac:(lia)) as (W1 & W2 & W3).
    destruct Hk as [-> | ->]; auto 10.
Qed.

(** ** A successful step evaluated the right-hand side at its start *)
Section First.
Variable A : Num.
Variable N : numflux_impl A.
Variables (p : phys) (S : nat) (m : mesh A) (good : nf_T N -> Prop).
Hypothesis HS : (5 <= S)%nat.
Hypothesis Hmem : memoryless N p S m good.

Lemma calc_first : forall val dt u (k : rkf A) (h : rhs A N) k' h' x, (0 < bt_order (rk_bt k))%nat ->
  calc_rkf_solution val p S dt u k h m = (k', h', Ok x) ->
  exists g w, rhs_update val p S h (stage_state A (cons (cent u)) (rk_utilde k) u) m = (g, w, Ok tt).
Proof.
  intros val dt u k h k' h' x Ho E. unfold calc_rkf_solution in E.
  destruct (bt_order (rk_bt k)) as [|n] eqn:Eo; [lia|]. clear Ho.
  destruct (rkf_stages val p S m dt u (seq 0 (Datatypes.S n)) (rk_set_k (repeat (zeros2 (nE p) S) (Datatypes.S n)) k) h) as [[l g] o1] eqn:R.
  destruct o1 as [[]|e| |]; try discriminate.
  cbn [seq rkf_stages] in R. cbn [cent state_assign] in R. cbn [cons vars_assign set_c_sound set_cons set_prim seq fold_left rk_utilde rk_set_k] in R.
  match type of R with context [rhs_update val p S h ?a m] => change a with (stage_state A (cons (cent u)) (rk_utilde k) u) in R end.
  destruct (rhs_update val p S h (stage_state A (cons (cent u)) (rk_utilde k) u) m) as [[g' w] o] eqn:Q.
  destruct o as [[]|e| |]; try discriminate. eauto.
Qed.

Lemma next_first : forall val fuel (s s' : sim A N), solver_ok p S good s -> (0 < bt_order (rk_bt (s_rk s)))%nat ->
  rkf_next val fuel p S m s = (s', Ok tt) ->
  exists k h, same_setup p S good (rk_set_utilde (s_u s) (s_rk s)) (s_rhs s) k h /\
    (exists g w, rhs_update val p S h (stage_state A (cons (cent (s_u s))) (rk_utilde k) (s_u s)) m = (g, w, Ok tt)) /\
    exists k3 h3 x, calc_rkf_solution val p S (ts_dt (s_ts s')) (s_u s) k h m = (k3, h3, Ok x).
Proof.
  intros val fuel s s' (Hu & Hg & SS) Ho E.
  pose proof (same_setup_utilde A N p S good (s_rk s) (s_rhs s) (s_u s) Hu Hg SS) as SU.
  unfold rkf_next in E.
  destruct (calc_dt_expl p S (ts_set_iter (ts_iter (s_ts s) + 1)%N (s_ts s)) (s_u s) m) as [ts1 p1].
  destruct p1 as [[]|e| |]; try discriminate.
  destruct (rkf_asc val fuel p S (cap_dt ts1) (s_u s) (s_rk s) (s_rhs s) m) as [[[ts2 k] h] o2] eqn:E2.
  pose proof (rkf_asc_keep A N p S m good HS Hmem val (s_u s) fuel (cap_dt ts1) (s_rk s) (s_rhs s) ts2 k h o2 Hu SS E2) as K2.
  destruct o2 as [[]|e| |]; try discriminate.
  destruct (calc_rkf_solution val p S (ts_dt ts2) (s_u s) k h m) as [[k3 h3] o3] eqn:E3.
  destruct o3 as [x|e| |]; try discriminate.
  match type of E with context [st_update_from_cons ?a ?b ?c ?d ?e ?f] => destruct (st_update_from_cons a b c d e f) as [u2| | |] end; try discriminate.
  destruct (if val then state_validate u2 else Ok tt) as [[]|e1| |]; try discriminate.
  apply (f_equal fst) in E. cbn [fst] in E. subst s'. cbn [s_ts ts_dt ts_set_t].
  exists k, h. split; [eapply same_setup_trans; [apply same_setup_sym; exact SU|exact K2]|]. split; [|eauto].
  eapply calc_first; [|exact E3]. destruct K2; congruence.
Qed.
End First.

Lemma order_pos : forall A (c : rkf_config A), (0 < bt_order (bt_new c))%nat.
Proof. intros A c. unfold bt_new. destruct (rc_mode c); cbn; lia. Qed.

(** with validation the step is finite *)
Lemma calc_dt_fin : forall (N : numflux_impl XRn) p S (m : mesh XRn) dt u (k : rkf XRn) (h : rhs XRn N) k' h' x,
  (5 <= S)%nat -> (0 < bt_order (rk_bt k))%nat -> shape (nE p) S (cons (cent u)) ->
  calc_rkf_solution true p S dt u k h m = (k', h', Ok x) -> exists d, dt = Fin d.
Proof.
  intros N p S m dt u k h k' h' x HS Ho Hc E.
  pose proof (calc_static _ _ _ _ _ _ _ _ _ _ _ _ _ E) as (_ & _ & _ & Hr). specialize (Hr x eq_refl).
  assert (Hv : state_validate (rk_utilde k') = Ok tt).
  { unfold calc_rkf_solution in E. destruct (rkf_stages _ _ _ _ _ _ _ _ _) as [[l g] o1]. destruct o1 as [[]|e| |]; try discriminate.
    cbn [rk_accepted rk_set_utilde] in E.
    destruct (rk_accepted l); match type of E with context [rkf_validate ?r] => destruct (rkf_validate r) as [[]|e1| |] eqn:V end; try discriminate;
    (apply (f_equal fst) in E; cbn [fst] in E; apply (f_equal fst) in E; cbn [fst] in E; subst k'; unfold rkf_validate in V; apply bind_Ok in V; destruct V as (_ & _ & V); exact V). }
  assert (Hf : all_fin2 (cons (cent (rk_utilde k'))) = true).
  { unfold state_validate, vars_validate, ensure in Hv. destruct (all_fin2 (prim (cent (rk_utilde k')))); cbn [bind] in Hv; try discriminate.
    destruct (all_fin2 (cons (cent (rk_utilde k')))); [reflexivity|discriminate]. }
  rewrite Hr in Hf.
  assert (N0 : (0 < nE p)%nat) by (destruct p; cbn; lia).
  pose proof (all_fin2_at _ (nE p) S 0 0 (shape_combine _ _ _ _ _ _ _ _ Hc) N0 ltac:(lia) Hf) as F.
  apply fin_of in F. destruct F as (r & F).
  destruct (bt_order (rk_bt k)) as [|n]; [lia|]. unfold rkf_combine in F. rewrite seq_S, fold_left_app in F. cbn [fold_left Nat.add] in F.
  unfold sub_scaled at 1 in F. rewrite at2_mtab in F by lia.
  apply sub_fin in F. destruct F as (_ & b & _ & F & _). apply mul_fin in F. destruct F as (c & _ & F & _ & _). apply mul_fin in F. destruct F as (d & _ & F & _ & _).
  exists d. exact F.
Qed.

(** A successful validated step with HLL: at the state before it the
    right-hand side evaluates, with finite fluxes, and the step is finite. *)
Lemma hll_step_finite : forall p S (m : mesh XRn) (c : config XRn) (s s' : sim XRn (Hll XRn)) fuel,
  (5 <= S)%nat -> std_ix XRn S m -> reached p S c m (fun _ => True) s ->
  solver_next true fuel p S m s = (s', Ok tt) ->
  exists v h w F dt, update_vars_from_cons p S (init_bc (cf_bc_west c) (nE p)) (init_bc (cf_bc_east c) (nE p)) m (cent (s_u s)) = Ok v /\
    rhs_update false p S (s_rhs s) (s_u s) m = (h, w, Ok tt) /\ ts_dt (s_ts s') = Fin dt /\
    forall j i, (j < nE p)%nat -> (1 <= i <= S - 3)%nat ->
      at2 (n0 XRn) (h_flux_num (r_nf h)) j i = Fin (F j i) /\ hll_fn XRn p S v j i = Fin (F j i).
Proof.
  intros p S m c s s' fuel HS Hix Hr E.
  pose proof (hll_memoryless XRn p S m HS Hix) as Hm.
  destruct (reached_ok XRn (Hll XRn) p S m _ HS Hm c s Hr) as (Hok & Hb & _ & G & Bw & Be).
  apply next_of_solver in E.
  assert (Ho : (0 < bt_order (rk_bt (s_rk s)))%nat) by (rewrite Hb; apply order_pos).
  destruct (next_first XRn (Hll XRn) p S m _ HS Hm true fuel s s' Hok Ho E) as (k & h & SS & (g & w & R) & k3 & h3 & x & C).
  assert (Wc : shape (nE p) S (cons (cent (s_u s)))) by apply Hok.
  assert (Ho' : (0 < bt_order (rk_bt k))%nat) by (destruct SS as [Sb _ _ _ _ _ _ _ _ _ _]; cbn [rk_bt rk_set_utilde] in Sb; rewrite <- Sb; exact Ho).
  destruct (calc_dt_fin (Hll XRn) p S m _ _ _ _ _ _ _ HS Ho' Wc C) as (d & Hd).
  destruct (rhs_update_Ok _ _ _ _ _ _ _ _ _ _ _ R) as [(u1 & nf & full & E1 & E2 & ->)|[(_ & _ & _ & X)|[(e & _ & _ & _ & X)|(_ & _ & _ & X)]]]; try discriminate X.
  destruct (st_update_Ok _ _ _ _ _ _ _ _ E1) as (v1 & Hv1 & ->).
  destruct SS as [Sb S1 S2 Sg _ _ _ _ _ Sw Se]. cbn [rk_utilde rk_set_utilde] in S1, Sg.
  destruct (same_stage XRn p S (cons (cent (s_u s))) (s_u s) (rk_utilde k) (s_u s) ltac:(apply Hok) S1 S2 Sg Wc) as (X1 & _ & _).
  rewrite state_eta in X1. rewrite <- Sw, <- Se, Bw, Be in Hv1.
  pose proof (same_update XRn p S (init_bc (cf_bc_west c) (nE p)) (init_bc (cf_bc_east c) (nE p)) m _ _ HS X1) as SU. rewrite Hv1 in SU.
  destruct (update_vars_from_cons p S (init_bc (cf_bc_west c) (nE p)) (init_bc (cf_bc_east c) (nE p)) m (cent (s_u s))) as [v| | |] eqn:Ev; try contradiction.
  destruct SU as (SV & Ee & _).
  assert (Hf : forall j i, (j < nE p)%nat -> (1 <= i <= S - 3)%nat -> exists r, hll_fn XRn p S v j i = Fin r).
  { intros j i Hj Hi.
    rewrite (hll_fn_local XRn p S v v1 j i Hj ltac:(lia) ltac:(apply SV) ltac:(apply SV)) by (eapply same_cell_of_state; eauto).
    pose proof (hll_num XRn true p S (r_nf h) (r_full h) (set_cent v1 (stage_state XRn (cons (cent (s_u s))) (rk_utilde k) (s_u s))) m Hix j i Hj ltac:(lia) ltac:(lia) ltac:(lia)) as H1.
    cbn [nf_calc Hll] in E2. rewrite E2 in H1. cbn [fst snd cent set_cent] in H1. rewrite <- H1. apply fin_of.
    apply all_fin2_at with (E := nE p) (n := S); try assumption; try lia.
    - assert (Hn : nf = fst (fst (fst (hll_calc true p S (r_nf h) (r_full h) (set_cent v1 (stage_state XRn (cons (cent (s_u s))) (rk_utilde k) (s_u s))) m)))) by (rewrite E2; reflexivity).
      rewrite Hn. cbn [hll_calc fst snd h_flux_num]. apply FluxProofs.shape_upd_range2.
    - assert (Hv : hll_validate nf = Ok tt).
      { unfold hll_calc in E2. apply pair_equal_spec in E2. destruct E2 as (E2a & E2b). apply pair_equal_spec in E2a. destruct E2a as (E2a & _).
        apply pair_equal_spec in E2a. destruct E2a as (E2a & _). rewrite <- E2a. exact E2b. }
      unfold hll_validate, ensure in Hv. destruct (all_fin (h_sl nf)); cbn [bind] in Hv; try discriminate.
      destruct (all_fin (h_sr nf)); cbn [bind] in Hv; try discriminate. destruct (all_fin (h_inv nf)); cbn [bind] in Hv; try discriminate.
      destruct (all_fin2 (h_flux_num nf)); [reflexivity|discriminate]. }
  set (u2 := set_cent v (s_u s)).
  assert (E3 : st_update_from_cons p S (r_bw (s_rhs s)) (r_be (s_rhs s)) m (s_u s) = Ok u2) by (unfold st_update_from_cons; rewrite Bw, Be, Ev; reflexivity).
  destruct (nf_calc (Hll XRn) false p S (r_nf (s_rhs s)) (r_full (s_rhs s)) u2 m) as [[[nf2 full2] w2] o] eqn:E4.
  assert (Eo : o = Ok tt) by (cbn [nf_calc Hll] in E4; unfold hll_calc in E4; inversion E4; reflexivity). subst o.
  exists v, (mkRhs full2 nf2 (r_bw (s_rhs s)) (r_be (s_rhs s))), w2, (fun j i => match hll_fn XRn p S v j i with Fin r => r | _ => 0 end), d.
  split; [reflexivity|]. split; [unfold rhs_update; rewrite E3, E4; reflexivity|]. split; [exact Hd|].
  intros j i Hj Hi. destruct (Hf j i Hj Hi) as (r & Er). rewrite Er. split; [|reflexivity].
  pose proof (hll_num XRn false p S (r_nf (s_rhs s)) (r_full (s_rhs s)) u2 m Hix j i Hj ltac:(lia) ltac:(lia) ltac:(lia)) as H1.
  cbn [nf_calc Hll] in E4. rewrite E4 in H1. cbn [fst snd] in H1. cbn [r_nf]. rewrite H1. exact Er.
Qed.

(** ** One step in a closed box *)
Lemma wall_step : forall p S md a b (c : config XRn) (s s' : sim XRn (Hll XRn)) fuel g j t,
  let m := mesh_build (A:=XRn) S (mkMC (A:=XRn) md (Fin a) (Fin b)) in
  (5 <= S)%nat -> a < b -> closed_box p c -> reached p S c m (fun _ => True) s -> level_sound p S (cent (s_u s)) ->
  pc_gamma (cf_physics c) = Fin g -> (p = Adiab -> g <> 1) ->
  solver_next true fuel p S m s = (s', Ok tt) -> kept p j ->
  total p S (cent (s_u s)) j t -> total p S (cent (s_u s')) j t.
Proof.
  intros p S md a b c s s' fuel g j t m HS Hab (Cw & Ce) Hr L Hg Hg1 E Hj (U & HU & Ht).
  pose proof (std_build XRn S (mkMC (A:=XRn) md (Fin a) (Fin b))) as Hix. fold m in Hix.
  pose proof (hll_memoryless XRn p S m HS Hix) as Hm.
  destruct (hll_step_finite p S m c s s' fuel HS Hix Hr E) as (v & h & w & F & dt & Ev & ER & Hd & HF).
  assert (W : wsv XRn p S (cent (s_u s))) by (destruct (reached_ok XRn (Hll XRn) p S m _ HS Hm c s Hr) as (Hok & _); apply Hok).
  rewrite Cw, Ce in Ev. change (init_bc (walls p) (nE p)) with (wall_list p) in Ev.
  assert (Z1 : F j 1%nat = 0).
  { apply (wall_flux p S m _ v 1 (fun k => F k 1%nat) HS W L Ev); [lia| |exact Hj]. intros k Hk. apply HF; [exact Hk|lia]. }
  assert (Z2 : F j (S - 3)%nat = 0).
  { apply (wall_flux p S m _ v (S - 3) (fun k => F k (S - 3)%nat) HS W L Ev); [lia| |exact Hj]. intros k Hk. apply HF; [exact Hk|lia]. }
  pose proof (hll_slopes p S md a b HS Hab s false h w F ER (fun j i Hj Hi => proj1 (HF j i Hj Hi))) as Hs.
  destruct (conserve (Hll XRn) p S m _ c s s' true fuel dt g U F _ HS Hm Hr Hs Hg Hg1 E Hd HU) as (U' & HU').
  exists U'. split.
  - intros k i Hk Hi. apply (proj1 (HU' k Hk (or_intror (or_introl eq_refl)))). exact Hi.
  - assert (Jn : (j < nE p)%nat) by (destruct Hj as [->|[-> ->]]; [destruct p|]; cbn; lia).
    destruct (HU' j Jn (or_intror (or_introl eq_refl))) as (_ & ->). rewrite Z1, Z2, Ht. ring.
Qed.

(** ** A validated step of a concrete box *)
Lemma walls_side : forall p s S (m : mesh XRn) (q q' : list (list (nF XRn))) k, (5 <= S)%nat -> (k = 1 \/ k = 2)%nat -> shape (nE p) S q ->
  apply_modes s (nE p) S m (wall_list p) q = Ok q' ->
  at2 (n0 XRn) q' 0 (ghost_cell s S k) = at2 (n0 XRn) q 0 (inner_cell s S 0) /\
  at2 (n0 XRn) q' 1 (ghost_cell s S k) = nmul XRn (Fin (-1) : XR) (at2 (n0 XRn) q 1 (inner_cell s S (k - 1))) /\
  (p = Adiab -> at2 (n0 XRn) q' 2 (ghost_cell s S k) = at2 (n0 XRn) q 2 (inner_cell s S 0)).
Proof.
  intros p s S m q q' k HS Hk Hq H.
  assert (Sh : forall md j x, shape (nE p) S x -> shape (nE p) S (apply_mode s S m md j x)) by (intros; apply apply_mode_shape; assumption).
  assert (Gh : forall md j x, shape (nE p) S x -> (j < nE p)%nat ->
    at2 (n0 XRn) (apply_mode s S m md j x) j (ghost_cell s S k) = Gval XRn s S m md k (fun i => at2 (n0 XRn) x j i)).
  { intros md j x Hx Hj. apply apply_mode_ghost with (E := nE p); auto. lia. }
  assert (Ot : forall md j x j' i', j' <> j -> at2 (n0 XRn) (apply_mode s S m md j x) j' i' = at2 (n0 XRn) x j' i').
  { intros md j x j' i' Hj; apply apply_mode_other; [lia|]; left; exact Hj. }
  unfold wall_list, walls, init_bc in H. destruct p; cbn [app nE apply_modes Nat.ltb Nat.leb] in *; apply Ok_inj in H; subst q'.
  - split; [rewrite Ot by lia; rewrite Gh by (auto; lia); reflexivity|]. split; [|discriminate].
    rewrite Gh by (auto; lia). unfold Gval. rewrite Ot by lia. reflexivity.
  - split; [rewrite !Ot by lia; rewrite Gh by (auto; lia); reflexivity|]. split.
    + rewrite Ot by lia. rewrite Gh by (auto; lia). unfold Gval. rewrite Ot by lia. reflexivity.
    + intros _. rewrite Gh by (auto; lia). unfold Gval. rewrite !Ot by lia. reflexivity.
Qed.

Lemma fin_all2 : forall (M : list (list (nF XRn))) E n, shape E n M ->
  (forall j i, (j < E)%nat -> (i < n)%nat -> exists r, at2 (n0 XRn) M j i = Fin r) -> all_fin2 M = true.
Proof.
  intros M E n (L & Sh) H. unfold all_fin2. apply forallb_forall. intros row Hr. apply (In_nth _ _ []) in Hr. destruct Hr as (j & Hj & <-).
  unfold all_fin. apply forallb_forall. intros x Hx. apply (In_nth _ _ (n0 XRn)) in Hx. destruct Hx as (i & Hi & <-).
  rewrite Sh in Hi by lia. destruct (H j i ltac:(lia) Hi) as (r & Er). unfold at2 in Er. rewrite Er. reflexivity.
Qed.
Lemma fin_all1 : forall (M : list (nF XRn)) n, length M = n -> (forall i, (i < n)%nat -> exists r, at1 (n0 XRn) M i = Fin r) -> all_fin M = true.
Proof.
  intros M n L H. unfold all_fin. apply forallb_forall. intros x Hx. apply (In_nth _ _ (n0 XRn)) in Hx. destruct Hx as (i & Hi & <-).
  destruct (H i ltac:(lia)) as (r & Er). unfold at1 in Er. rewrite Er. reflexivity.
Qed.

(** ** Whole runs of a closed box *)
Section Runs.
Variables (p : phys) (S : nat) (md : mesh_mode) (a b g : R) (c : config XRn).
Let m := mesh_build (A:=XRn) S (mkMC (A:=XRn) md (Fin a) (Fin b)).
Hypothesis HS : (5 <= S)%nat.
Hypothesis Hab : a < b.
Hypothesis Hbox : closed_box p c.
Hypothesis Hg : pc_gamma (cf_physics c) = Fin g.
Hypothesis Hg1 : p = Adiab -> g <> 1.

Definition box_ok (s : sim XRn (Hll XRn)) : Prop := reached p S c m (fun _ => True) s /\ level_sound p S (cent (s_u s)).

Lemma box_time : forall s ts, box_ok s -> box_ok (mkSim ts (s_u s) (s_rk s) (s_rhs s)).
Proof.
  intros s ts ((u0 & s0 & P & N0 & G & Ev) & L). split; [|exact L]. exists u0, s0. repeat match goal with |- _ /\ _ => split end; auto.
  apply ev_time. exact Ev.
Qed.
Lemma box_next : forall s s' val fuel o, box_ok s -> solver_next val fuel p S m s = (s', o) -> box_ok s'.
Proof.
  intros s s' val fuel o ((u0 & s0 & P & N0 & G & Ev) & L) H. split.
  - exists u0, s0. repeat match goal with |- _ /\ _ => split end; auto. eapply ev_step; eauto.
  - intros Ep. specialize (L Ep).
    assert (E1 : evolves p S m s s') by (eapply ev_step; [apply ev_refl|exact H]).
    revert E1. rewrite Ep. intros E1. rewrite (evolves_sound XRn (Hll XRn) S m s s' E1). exact L.
Qed.

Lemma box_steps : forall fuel n s s' j t, box_ok s -> kept p j -> next_n true fuel p S m n s = (s', Ok tt) ->
  total p S (cent (s_u s)) j t -> total p S (cent (s_u s')) j t.
Proof.
  intros fuel n. induction n as [|n IH]; intros s s' j t B Hj H T; cbn [next_n] in H.
  - injection H as <-. exact T.
  - destruct (solver_next true fuel p S m s) as [s1 o] eqn:E. destruct o as [[]|e| |]; try discriminate H.
    apply (IH s1 s' j t); auto; [eapply box_next; eauto|].
    destruct B as (R & L). exact (wall_step p S md a b c s s1 fuel g j t HS Hab Hbox R L Hg Hg1 E Hj T).
Qed.

Lemma box_run : forall fmt sched afuel fuel s wr w e o j t, box_ok s -> kept p j ->
  run_loop (A:=XRn) (N:=Hll XRn) fmt true sched afuel fuel p S m s wr w = (e, o) ->
  total p S (cent (s_u s)) j t ->
  (forall ts v, In (ts, v) (e_trace e) -> ts_kind ts <> KErrorDump -> total p S v j t) /\
  (o = Ok tt -> total p S (cent (s_u (e_sim e))) j t /\ forall ts v, In (ts, v) (e_trace e) -> total p S v j t).
Proof.
  intros fmt sched afuel fuel. induction fuel as [|fuel IH]; intros s wr w e o j t B Hj H T; cbn [run_loop] in H.
  - injection H as <- <-. cbn [e_trace]. split; [intros ts v []|discriminate].
  - destruct (run_output fmt sched m s wr w) as [[[[s1 wr1] w1] tr] r] eqn:E.
    assert (E1 : box_ok s1 /\ s_u s1 = s_u s /\ forall ts v, In (ts, v) tr -> v = cent (s_u s)).
    { unfold run_output in E. destruct (nleb XRn _ _) in E.
      - destruct (do_output fmt sched m _ wr w) as [[wr2 w2] r2] in E. injection E as <- <- <- <- <-.
        split; [apply box_time; exact B|]. split; [reflexivity|]. intros ts v [X|[]]. injection X as <- <-. reflexivity.
      - injection E as <- <- <- <- <-. split; [exact B|]. split; [reflexivity|]. intros ts v []. }
    destruct E1 as (B1 & U1 & Tr).
    assert (Tt : forall ts v, In (ts, v) tr -> total p S v j t) by (intros ts v X; rewrite (Tr ts v X); exact T).
    assert (T1 : total p S (cent (s_u s1)) j t) by (rewrite U1; exact T).
    destruct r as [[]|er| |]; try (injection H as <- <-; cbn [e_trace]; split; [intros ts v X _; eauto|discriminate]).
    destruct (nleb XRn _ _) in H; [injection H as <- <-; cbn [e_trace e_sim]; split; [intros ts v X _; eauto|intros _; split; [exact T1|exact Tt]]|].
    destruct (solver_next true afuel p S m s1) as [s2 r2] eqn:E2.
    destruct r2 as [[]|er| |].
    + destruct (run_loop fmt true sched afuel fuel p S m s2 wr1 w1) as [e' r'] eqn:E4. injection H as <- <-.
      assert (T2 : total p S (cent (s_u s2)) j t) by (destruct B1 as (R & L); exact (wall_step p S md a b c s1 s2 afuel g j t HS Hab Hbox R L Hg Hg1 E2 Hj T1)).
      destruct (IH s2 wr1 w1 e' r' j t (box_next _ _ _ _ _ B1 E2) Hj E4 T2) as (I1 & I2). cbn [e_trace e_sim]. split.
      * intros ts v X K. apply in_app_or in X. destruct X as [X|X]; eauto.
      * intros O. destruct (I2 O) as (I3 & I4). split; [exact I3|]. intros ts v X. apply in_app_or in X. destruct X as [X|X]; eauto.
    + destruct (do_output fmt sched m _ wr1 w1) as [[wr2 w2] r2] in H. injection H as <- <-. cbn [e_trace]. split.
      * intros ts v X K. apply in_app_or in X. destruct X as [X|[X|[]]]; eauto. injection X as <- <-. exfalso. apply K. reflexivity.
      * intros O. destruct r2; discriminate O.
    + injection H as <- <-. cbn [e_trace]. split; [intros ts v X _; eauto|discriminate].
    + injection H as <- <-. cbn [e_trace]. split; [intros ts v X _; eauto|discriminate].
Qed.
End Runs.

(** What a successful init_corries says about the configuration and the
    components. *)
Lemma init_box : forall {N : numflux_impl XRn} meta banner sched init p S md a b c w w' k, (5 <= S)%nat ->
  cf_mesh c = mkMC (A:=XRn) md (Fin a) (Fin b) -> fills_state p S init ->
  init_corries (A:=XRn) (N:=N) true meta banner sched init p S c w = (w', Ok k) ->
  a < b /\ (exists g, pc_gamma (cf_physics c) = Fin g /\ 1 < g < 2) /\
  c_mesh k = mesh_build (A:=XRn) S (mkMC (A:=XRn) md (Fin a) (Fin b)) /\
  reached p S c (c_mesh k) (fun _ => True) (c_sim k).
Proof.
  intros N meta banner sched init p S md a b c w w' k HS Hm Hi H. unfold init_corries in H.
  destruct (cf_validate c) as [[]|e| |] eqn:Ec; try discriminate.
  destruct (mesh_new true S (cf_mesh c)) as [m|e| |] eqn:Em; try discriminate.
  destruct (solver_new N p S c m (state_new p S (cf_physics c))) as [s|e| |] eqn:Es; try discriminate.
  destruct (writer_new meta S c m w) as [w1 r1]. destruct r1 as [wr|e| |]; try discriminate.
  destruct (writer_metadata (wr_meta wr) sched (wr_outputs wr) _) as [w2 r2]. destruct r2 as [[]|e| |]; try discriminate.
  destruct (init s m) as [s1 r3] eqn:Ei. apply pair_equal_spec in H. destruct H as (_ & H).
  destruct r3 as [[]|e| |]; try discriminate. cbn [bind] in H. apply bind_Ok in H. destruct H as (u1 & Hu & H). injection H as <-.
  cbn [c_mesh c_sim].
  unfold cf_validate in Ec. apply bind_Ok in Ec. destruct Ec as ([] & E1 & Ec). apply bind_Ok in Ec. destruct Ec as ([] & E2 & _).
  split; [|split; [|split]].
  - rewrite Hm in E1. unfold mc_validate, ensure in E1. cbn [mc_xi_in mc_xi_out] in E1.
    destruct (nltb XRn (Fin a : XR) (Fin b)) eqn:L; [|discriminate]. cbn in L. destruct (Rlt_dec a b); [assumption|discriminate].
  - unfold pc_validate, ensure in E2. destruct (nltb XRn (n1 XRn) (pc_gamma (cf_physics c))) eqn:L1; [|discriminate].
    destruct (nltb XRn (pc_gamma (cf_physics c)) (nZ XRn 2)) eqn:L2; [|discriminate].
    destruct (pc_gamma (cf_physics c)) as [g| | |]; try discriminate. exists g. split; [reflexivity|].
    cbn in L1, L2. destruct (Rlt_dec 1 g); [|discriminate]. destruct (Rlt_dec g _) in L2; [|discriminate]. split; [assumption|].
    cbn in *. lra.
  - unfold mesh_new in Em. destruct (S <? 4)%nat; [discriminate|]. apply bind_Ok in Em. destruct Em as (_ & _ & Em). injection Em as <-.
    rewrite Hm. reflexivity.
  - destruct (Hi s m s1 Ei) as (Rk & Rh & Ws & Gs).
    unfold solver_new in Es. apply bind_Ok in Es. destruct Es as (rh & Enf & Es). injection Es as <-. cbn [s_u s_rk s_rhs] in *.
    assert (P0 : prepared p S c (state_new p S (cf_physics c))).
    { split; [|repeat split]. split; [|split]; apply wsv_new. }
    destruct P0 as (W0 & G0). specialize (Ws W0). destruct Ws as (W1 & W2 & W3). destruct G0 as (G1 & G2 & G3). destruct Gs as (H1 & H2 & H3).
    unfold st_update_from_prim in Hu. apply bind_Ok in Hu. destruct Hu as (v & Hv & Hu). injection Hu as <-.
    destruct (update_from_prim_view XRn p S _ _ m _ v ltac:(lia) W1 Hv) as (W & G & _).
    exists (init_west_east (set_cent v (s_u s1))). eexists (mkSim (ts_new (cf_numerics c) (cf_output_max c)) _ (rkf_new p S c) rh).
    split; [|split; [|split]].
    + unfold prepared, wss. cbn [init_west_east set_cent cent west east gamma vars_assign set_prim set_cons set_c_sound].
      split; [|split; [congruence|split; congruence]].
      split; [exact W|]. split; apply wsv_assign; assumption.
    + unfold solver_new. rewrite Enf. reflexivity.
    + exact Logic.I.
    + rewrite Rk, Rh. apply (ev_time _ _ _ _ _ _ (mkSim (ts_new (cf_numerics c) (cf_output_max c)) (init_west_east (set_cent v (s_u s1))) (rkf_new p S c) rh)).
      apply ev_refl.
Qed.
