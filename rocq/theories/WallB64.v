(** No flux of mass or energy through a wall, in any arithmetic in which
    negation commutes with the operations. *)

From Coq Require Import Reals ZArith NArith QArith Qreals List Bool Lia Lra Setoid Morphisms.
From Flocq Require Import Core BinarySingleNaN.
From Verif Require Import Base Num XReal B64 Config Mesh State NumFlux Time Spec SpecFlow SpecStep SpecEuler SpecWall SpecMirror SpecMass
  MeshProofs BoundaryProofs PhysicsProofs FluxProofs UpdateProofs FluxThms FluxMore StepProofs StepInv StepEq MirrorProofs MirrorNum WallProofs.
Import ListNotations.
Local Open Scope nat_scope.

(** ** The ghost cells next to the walls *)
Section Walls.
Variable A : Num.

Lemma walls_west : forall p S (m : mesh A) (q q' : list (list (nF A))), (5 <= S) -> shape (nE p) S q ->
  apply_modes West (nE p) S m (wall_list p) q = Ok q' ->
  at2 (n0 A) q' 0 1 = at2 (n0 A) q 0 2 /\ at2 (n0 A) q' 1 1 = nmul A (nZ A (-1)) (at2 (n0 A) q 1 2) /\
  (p = Adiab -> at2 (n0 A) q' 2 1 = at2 (n0 A) q 2 2).
Proof.
  intros p S m q q' HS Hq H.
  assert (Sh : forall md j x, shape (nE p) S x -> shape (nE p) S (apply_mode West S m md j x)) by (intros; apply apply_mode_shape; assumption).
  assert (Gh : forall md j x, shape (nE p) S x -> (j < nE p) ->
    at2 (n0 A) (apply_mode West S m md j x) j (ghost_cell West S 1) = Gval A West S m md 1 (fun i => at2 (n0 A) x j i)).
  { intros md j x Hx Hj. apply apply_mode_ghost with (E := nE p); auto. lia. }
  assert (Ot : forall md j x j' i', j' <> j \/ i' = 2 -> at2 (n0 A) (apply_mode West S m md j x) j' i' = at2 (n0 A) x j' i').
  { intros md j x j' i' [Hj| ->]; (apply apply_mode_other; [lia|]); [left; exact Hj|right; cbn; lia]. }
  cbn [ghost_cell] in Gh. change (2 - 1) with 1 in Gh.
  unfold wall_list, walls, init_bc in H. destruct p; cbn [app nE apply_modes Nat.ltb Nat.leb] in *; apply Ok_inj in H; subst q'.
  - split; [rewrite Ot by lia; rewrite Gh by (auto; lia); reflexivity|]. split; [|discriminate].
    rewrite Gh by (auto; lia). cbn [Gval inner_cell]. rewrite Ot by lia. reflexivity.
  - split; [rewrite !Ot by lia; rewrite Gh by (auto; lia); reflexivity|]. split.
    + rewrite Ot by lia. rewrite Gh by (auto; lia). cbn [Gval inner_cell]. rewrite Ot by lia. reflexivity.
    + intros _. rewrite Gh by (auto; lia). cbn [Gval inner_cell]. rewrite !Ot by lia. reflexivity.
Qed.

Lemma walls_east : forall p S (m : mesh A) (q q' : list (list (nF A))), (5 <= S) -> shape (nE p) S q ->
  apply_modes East (nE p) S m (wall_list p) q = Ok q' ->
  at2 (n0 A) q' 0 (S - 2) = at2 (n0 A) q 0 (S - 3) /\
  at2 (n0 A) q' 1 (S - 2) = nmul A (nZ A (-1)) (at2 (n0 A) q 1 (S - 3)) /\
  (p = Adiab -> at2 (n0 A) q' 2 (S - 2) = at2 (n0 A) q 2 (S - 3)).
Proof.
  intros p S m q q' HS Hq H.
  assert (Sh : forall md j x, shape (nE p) S x -> shape (nE p) S (apply_mode East S m md j x)) by (intros; apply apply_mode_shape; assumption).
  assert (Gh : forall md j x, shape (nE p) S x -> (j < nE p) ->
    at2 (n0 A) (apply_mode East S m md j x) j (S - 2) = Gval A East S m md 1 (fun i => at2 (n0 A) x j i)).
  { intros md j x Hx Hj. replace (S - 2) with (ghost_cell East S 1) by (cbn; lia). apply apply_mode_ghost with (E := nE p); auto. lia. }
  assert (Ot : forall md j x j' i', j' <> j \/ i' = (S - 3) -> at2 (n0 A) (apply_mode East S m md j x) j' i' = at2 (n0 A) x j' i').
  { intros md j x j' i' [Hj| ->]; (apply apply_mode_other; [lia|]); [left; exact Hj|right; cbn; lia]. }
  assert (GN : forall f, Gval A East S m NoGradients 1 f = f (S - 3)) by (intros f; unfold Gval; cbn [inner_cell]; f_equal; lia).
  assert (GR : forall f, Gval A East S m Reflecting 1 f = nmul A (nZ A (-1)) (f (S - 3))).
  { intros f. unfold Gval. cbn [inner_cell]. change (1 - 1) with 0. rewrite Nat.sub_0_r. reflexivity. }
  unfold wall_list, walls, init_bc in H. destruct p; cbn [app nE apply_modes Nat.ltb Nat.leb] in *; apply Ok_inj in H; subst q'.
  - split; [rewrite Ot by lia; rewrite Gh by (auto; lia); rewrite GN; reflexivity|]. split; [|discriminate].
    rewrite Gh by (auto; lia). rewrite ?GN, ?GR. rewrite Ot by lia. reflexivity.
  - split; [rewrite !Ot by lia; rewrite Gh by (auto; lia); rewrite GN; reflexivity|]. split.
    + rewrite Ot by lia. rewrite Gh by (auto; lia). rewrite ?GN, ?GR. rewrite Ot by lia. reflexivity.
    + intros _. rewrite Gh by (auto; lia). rewrite GN. rewrite !Ot by lia. reflexivity.
Qed.


(** the pairs of cells at the walls hold mirrored primitive variables *)
Lemma wall_cells : forall p S (m : mesh A) v v', 5 <= S -> wsv A p S v -> level_at_walls p S v ->
  update_vars_from_cons p S (wall_list p) (wall_list p) m v = Ok v' ->
  forall a b, (a = 1 /\ b = 2) \/ (a = S - 2 /\ b = S - 3) ->
  at2 (n0 A) (prim v') 0 a = at2 (n0 A) (prim v') 0 b /\ at2 (n0 A) (prim v') 1 a = nmul A (nZ A (-1)) (at2 (n0 A) (prim v') 1 b) /\
  (p = Adiab -> at2 (n0 A) (prim v') 2 a = at2 (n0 A) (prim v') 2 b) /\ at1 (n0 A) (c_sound v') a = at1 (n0 A) (c_sound v') b.
Proof.
  intros p S m v v' HS W L E ca cb Hab.
  destruct (update_from_cons_view A p S _ _ m v v' HS W E) as (V1 & V2 & V3 & V4 & V5 & V6).
  assert (Pr : exists q0 q1, shape (nE p) S q0 /\ shape (nE p) S q1 /\ apply_modes West (nE p) S m (wall_list p) q0 = Ok q1 /\
    apply_modes East (nE p) S m (wall_list p) q1 = Ok (prim v')).
  { unfold update_vars_from_cons, update_vars_from_prim in E. apply bind_Ok in E. destruct E as (a & Ha & E).
    apply bind_Ok in E. destruct E as (b & Hb & E). apply Ok_inj in E.
    apply bc_apply_Ok in Ha. destruct Ha as (q & Hq & ->). apply bc_apply_Ok in Hb. destruct Hb as (q' & Hq' & ->).
    assert (Sq : shape (nE p) S (prim (update_prim p S v))) by (apply update_prim_shape; apply W).
    exists (prim (update_prim p S v)), q. split; [exact Sq|]. split; [eapply apply_modes_shape; [exact Sq|exact Hq]|]. split; [exact Hq|].
    cbn [prim set_prim] in Hq'. rewrite Hq'. f_equal. rewrite <- E.
    match goal with |- _ = prim (update_derived_variables p S ?a) => destruct (derived_fields A p S a) as (D1 & _) end.
    rewrite D1. unfold update_cons. destruct p; reflexivity. }
  destruct Pr as (q0 & q1 & S0 & S1 & Pw & Pe).
  destruct (walls_west p S m q0 q1 HS S0 Pw) as (X0 & X1 & X2). destruct (walls_east p S m q1 (prim v') HS S1 Pe) as (Y0 & Y1 & Y2).
  assert (K1 : forall j k, (k <= 2 \/ k = S - 3) -> at2 (n0 A) (prim v') j k = at2 (n0 A) q1 j k).
  { intros j k Hk. apply (apply_modes_other A East (nE p) S m (wall_list p) q1 (prim v') j k ltac:(lia) Pe). right. cbn. lia. }
  assert (K0 : forall j, at2 (n0 A) q1 j 2 = at2 (n0 A) q0 j 2).
  { intros j. apply (apply_modes_other A West (nE p) S m (wall_list p) q0 q1 j 2 ltac:(lia) Pw). right. cbn. lia. }
  assert (Cs : forall a b, (a < S) -> (b < S) -> (p = Isot -> at1 (n0 A) (c_sound v) a = at1 (n0 A) (c_sound v) b) ->
    at2 (n0 A) (prim v') 0 a = at2 (n0 A) (prim v') 0 b -> (p = Adiab -> at2 (n0 A) (prim v') 2 a = at2 (n0 A) (prim v') 2 b) ->
    at1 (n0 A) (c_sound v') a = at1 (n0 A) (c_sound v') b).
  { intros a b Ha Hb Hc H0 H2. destruct (V6 a Ha) as (_ & -> & _). destruct (V6 b Hb) as (_ & -> & _). unfold cs_of.
    destruct p; cbn [kt_sound]; [apply Hc; reflexivity|]. rewrite H0, H2 by reflexivity. reflexivity. }
  assert (G : forall x y, (x = 1 /\ y = 2) \/ (x = S - 2 /\ y = S - 3) -> p = Isot -> at1 (n0 A) (c_sound v) x = at1 (n0 A) (c_sound v) y).
  { intros x y [(-> & ->)|(-> & ->)] Hp; apply (L Hp). }
  assert (Q : at2 (n0 A) (prim v') 0 ca = at2 (n0 A) (prim v') 0 cb /\ at2 (n0 A) (prim v') 1 ca = nmul A (nZ A (-1)) (at2 (n0 A) (prim v') 1 cb) /\
    (p = Adiab -> at2 (n0 A) (prim v') 2 ca = at2 (n0 A) (prim v') 2 cb)).
  { destruct Hab as [(-> & ->)|(-> & ->)].
    - repeat split; [rewrite !K1, X0, K0 by lia; reflexivity|rewrite !K1, X1, K0 by lia; reflexivity|].
      intros Hp; rewrite !K1, X2, K0 by (lia || exact Hp); reflexivity.
    - repeat split; [rewrite (K1 0 (S - 3)), Y0 by lia; reflexivity|rewrite (K1 1 (S - 3)), Y1 by lia; reflexivity|].
      intros Hp; rewrite (K1 2 (S - 3)), Y2 by (lia || exact Hp); reflexivity. }
  destruct Q as (Q0 & Q1 & Q2). repeat match goal with |- _ /\ _ => split end; auto.
  apply Cs; auto; lia.
Qed.

(** ** The flux through a mirror is its own negative *)
Variable eqv : nF A -> nF A -> Prop.
Variable nz : nF A -> Prop.
Hypothesis L : sign_laws A eqv nz.
Hypothesis Hneg : forall x, eqv (nmul A (nZ A (-1)) x) (nneg A x).
Notation "x ~ y" := (eqv x y) (at level 70).
Let Lequiv : Equivalence eqv := l_equiv _ _ _ L.
Local Existing Instance Lequiv.

Lemma wall_face : forall p S v g i, i + 1 < S -> shape (nE p) S (flux v) ->
  at2 (n0 A) (prim v) 0 i ~ at2 (n0 A) (prim v) 0 (i + 1) -> at2 (n0 A) (prim v) 1 i ~ nneg A (at2 (n0 A) (prim v) 1 (i + 1)) ->
  (p = Adiab -> at2 (n0 A) (prim v) 2 i ~ at2 (n0 A) (prim v) 2 (i + 1)) -> at1 (n0 A) (c_sound v) i ~ at1 (n0 A) (c_sound v) (i + 1) ->
  (forall k, k = i \/ k = i + 1 ->
     (forall j, j < nE p -> at2 (n0 A) (cons v) j k = p2c A p g (fun l => at2 (n0 A) (prim v) l k) j) /\
     (forall j, j < nE p -> at2 (n0 A) (eigen_vals v) j k = eigen_row A p (at2 (n0 A) (prim v) 1 k) (at1 (n0 A) (c_sound v) k) j)) ->
  forall j, kept p j -> nfin A (hll_fn A p S v j i) = true -> hll_fn A p S v j i ~ nneg A (hll_fn A p S v j i).
Proof.
  intros p S v g i Hi Hs P0 P1 P2 Pc Hc j Hk Hf.
  assert (Hj : j < nE p) by (destruct Hk as [->|(-> & ->)]; [destruct p|]; cbn; lia).
  assert (Hfl : flop A j (hll_fn A p S v j i) = nneg A (hll_fn A p S v j i)) by (destruct Hk as [->|(_ & ->)]; reflexivity).
  assert (Pm : forall k, k < nE p -> at2 (n0 A) (prim v) k i ~ flip k (at2 (n0 A) (prim v) k (i + 1))).
  { intros k Hk'. destruct k as [|[|[|k]]]; unfold flip; cbn [Nat.eqb]; [exact P0|exact P1| |destruct p; cbn in Hk'; lia].
    destruct p; [cbn in Hk'; lia|apply P2; reflexivity]. }
  assert (Pm' : forall k, k < nE p -> at2 (n0 A) (prim v) k (i + 1) ~ flip k (at2 (n0 A) (prim v) k i)).
  { intros k Hk'. symmetry. eapply (Equivalence_Transitive (R:=eqv)); [apply (flip_eqv A eqv nz L); apply Pm; exact Hk'|apply (flip2 A eqv nz L)]. }
  destruct (Hc i (or_introl eq_refl)) as (Ci & Ei). destruct (Hc (i + 1) (or_intror eq_refl)) as (Cj & Ej).
  assert (Cm : forall k, k < nE p -> at2 (n0 A) (cons v) k i ~ flip k (at2 (n0 A) (cons v) k (i + 1))).
  { intros k Hk'. rewrite Ci, Cj by exact Hk'. apply (p2c_flip A eqv nz L); assumption. }
  assert (Cm' : forall k, k < nE p -> at2 (n0 A) (cons v) k (i + 1) ~ flip k (at2 (n0 A) (cons v) k i)).
  { intros k Hk'. rewrite Ci, Cj by exact Hk'. apply (p2c_flip A eqv nz L); assumption. }
  assert (E0 : forall a c, eigen_row A p a c 0 = nsub A a c) by reflexivity.
  assert (E1 : forall a c, eigen_row A p a c (nE p - 1) = nadd A a c) by (intros; destruct p; reflexivity).
  assert (Nn : forall a b c c', a ~ nneg A b -> c ~ c' -> nsub A a c ~ nneg A (nadd A b c')).
  { intros a b c c' H1 H2. eapply (Equivalence_Transitive (R:=eqv)); [apply (l_sub _ _ _ L); eassumption|apply (l_negsub _ _ _ L)]. }
  assert (Nn' : forall a b c c', a ~ nneg A b -> c ~ c' -> nadd A a c ~ nneg A (nsub A b c')).
  { intros a b c c' H1 H2. eapply (Equivalence_Transitive (R:=eqv)); [apply (l_add _ _ _ L); eassumption|apply (l_negadd _ _ _ L)]. }
  assert (P1' : at2 (n0 A) (prim v) 1 (i + 1) ~ nneg A (at2 (n0 A) (prim v) 1 i)) by (apply (Pm' 1); destruct p; cbn; lia).
  assert (Pc' : at1 (n0 A) (c_sound v) (i + 1) ~ at1 (n0 A) (c_sound v) i) by (symmetry; exact Pc).
  rewrite <- Hfl.
  pose proof (proj1 (hll_fn_nz A eqv nz L p S v j i Hf)) as Z.
  assert (N0 : 0 < nE p) by (destruct p; cbn; lia). assert (N1 : nE p - 1 < nE p) by lia.
  unfold hll_fn in *. cbn zeta in *. rewrite !update_flux_at in * by (assumption || lia).
  rewrite !Ei, !Ej in * by assumption. rewrite !E0, !E1 in *.
  apply (face_mirror A eqv nz L); try exact Z.
  - apply (lo_mirror A eqv nz L); apply Nn; assumption.
  - apply (hi_mirror A eqv nz L); apply Nn'; assumption.
  - apply (pflux_flop A eqv nz L); assumption.
  - apply (pflux_flop A eqv nz L); assumption.
  - apply Cm. exact Hj.
  - apply Cm'. exact Hj.
Qed.

Lemma wall_flux_gen : forall p S (m : mesh A) v v' i, 5 <= S -> wsv A p S v -> level_at_walls p S v ->
  update_vars_from_cons p S (wall_list p) (wall_list p) m v = Ok v' -> i = 1 \/ i = S - 3 ->
  forall j, kept p j -> nfin A (hll_fn A p S v' j i) = true -> hll_fn A p S v' j i ~ nneg A (hll_fn A p S v' j i).
Proof.
  intros p S m v v' i HS W Lv E Hi.
  destruct (update_from_cons_view A p S _ _ m v v' HS W E) as (V1 & _ & _ & _ & _ & V6).
  pose proof (wall_cells p S m v v' HS W Lv E) as C.
  assert (Rf : forall x y : nF A, x = y -> x ~ y) by (intros x y ->; reflexivity).
  assert (Sw : forall x y, x = nmul A (nZ A (-1)) y -> y ~ nneg A x).
  { intros x y ->. symmetry. eapply (Equivalence_Transitive (R:=eqv)); [apply (l_neg _ _ _ L); apply Hneg|apply (l_negneg _ _ _ L)]. }
  apply (wall_face p S v' (gamma v) i); [lia|apply V1|..].
  5: { intros k Hk. destruct (V6 k ltac:(lia)) as (W1 & W2 & W3). auto. }
  - destruct Hi as [->| ->]; [apply Rf; apply (C 1 2); auto|replace (S - 3 + 1) with (S - 2) by lia; apply Rf; symmetry; apply (C (S - 2) (S - 3)); auto].
  - destruct Hi as [->| ->].
    + destruct (C 1 2 ltac:(auto)) as (_ & C1 & _). change (1 + 1) with 2. rewrite C1. apply Hneg.
    + replace (S - 3 + 1) with (S - 2) by lia. apply Sw. apply (C (S - 2) (S - 3)); auto.
  - intros Hp. destruct Hi as [->| ->]; [apply Rf; apply (C 1 2); auto|replace (S - 3 + 1) with (S - 2) by lia; apply Rf; symmetry; apply (C (S - 2) (S - 3)); auto].
  - destruct Hi as [->| ->]; [apply Rf; apply (C 1 2); auto|replace (S - 3 + 1) with (S - 2) by lia; apply Rf; symmetry; apply (C (S - 2) (S - 3)); auto].
Qed.
End Walls.

(** ** In binary64 *)
Lemma neg1_64 : forall x, same_number (b_mul (b_ofZ (-1)) x) (Bopp x).
Proof.
  intros x. destruct (fin_dec x) as [Fx|Fx]; [|destruct x as [[]|[]| |[] ? ? ?]; try discriminate; left; reflexivity].
  apply (isround_same (- B2R x)).
  - replace (- B2R x)%R with (B2R (b_ofZ (-1)) * B2R x)%R; [apply mul_round; [reflexivity|exact Fx]|].
    replace (B2R (b_ofZ (-1))) with (-1)%R; [ring|]. unfold b_ofZ, B2R, F2R. cbn. lra.
  - apply isround_opp. left. assert (Q : rnd (B2R x) = B2R x) by (apply round_generic; [apply valid_rnd_round_mode|apply generic_format_B2R]).
    rewrite Q. split; [apply abs_B2R_lt_emax|auto].
Qed.
Lemma own_negative : forall x : b64, is_finite x = true -> same_number x (Bopp x) -> B2R x = 0%R.
Proof.
  intros x F [E|(_ & _ & E)].
  - pose proof (f_equal B2R E) as K. rewrite B2R_Bopp in K. lra.
  - rewrite B2R_Bopp in E. lra.
Qed.
Lemma wall_flux_64 : forall bln bexp p S (m : mesh (B64n bln bexp)) v v' i, 5 <= S -> wsv (B64n bln bexp) p S v -> level_at_walls p S v ->
  update_vars_from_cons p S (wall_list p) (wall_list p) m v = Ok v' -> i = 1 \/ i = S - 3 ->
  forall j, kept p j -> is_finite (hll_fn (B64n bln bexp) p S v' j i : b64) = true -> B2R (hll_fn (B64n bln bexp) p S v' j i : b64) = 0%R.
Proof.
  intros bln bexp p S m v v' i HS W Lv E Hi j Hk F. apply own_negative; [exact F|].
  exact (wall_flux_gen (B64n bln bexp) same_number nonzero (b64_laws bln bexp) neg1_64 p S m v v' i HS W Lv E Hi j Hk F).
Qed.
