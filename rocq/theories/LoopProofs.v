(** The checked loops compute the element formulas: physics, boundary
    conditions and fluxes. *)

From Coq Require Import List ZArith NArith QArith Bool Lia Permutation.
From Verif Require Import Base Num Config Mesh State NumFlux Time Writer Runner Spec SpecFlow SpecStep PhysicsProofs BoundaryProofs FluxProofs PanicProofs Loops LoopBase.
Import ListNotations.
Local Open Scope nat_scope.

Section Phys.
Variable A : Num.
Notation F := (nF A).

Lemma two_rows : forall S (q : list (list F)) g0 g1, shape 2 S q -> upd 1 (tab S g1) (upd 0 (tab S g0) q) = [tab S g0; tab S g1].
Proof. intros S q g0 g1 [H _]. destruct q as [|a [|b [|c q]]]; try discriminate. reflexivity. Qed.
Lemma three_rows : forall S (q : list (list F)) g0 g1 g2, shape 3 S q -> upd 2 (tab S g2) (upd 1 (tab S g1) (upd 0 (tab S g0) q)) = [tab S g0; tab S g1; tab S g2].
Proof. intros S q g0 g1 g2 [H _]. destruct q as [|a [|b [|c [|d q]]]]; try discriminate. reflexivity. Qed.

Lemma range_lt : forall S i, In i (range 0 S) -> i < S.
Proof. intros S i H. apply in_seq in H. lia. Qed.

(** loops that fill two or three rows *)
Lemma loop2 : forall S (q : list (list F)) f g0 g1, shape 2 S q ->
  (forall i q, i < S -> shape 2 S q -> f i q = Ok (upd2 1 i (g1 i) (upd2 0 i (g0 i) q))) ->
  for_in (range 0 S) f q = Ok [tab S g0; tab S g1].
Proof.
  intros S q f g0 g1 Hq Hf.
  rewrite (loop_cols _ (n0 A) 2 S [0; 1] (fun j i => match j with 0 => g0 i | _ => g1 i end) f (range 0 S) q Hq).
  - f_equal. unfold range. cbn. f_equal; [|f_equal]; apply tab_ext; intros i Hi; rewrite mem_seq; destruct (Nat.leb_spec 0 i); destruct (Nat.ltb_spec i (0 + (S - 0))); cbn; try reflexivity; lia.
  - intros j [<-|[<-|[]]]; lia.
  - apply range_lt.
  - intros i x Hi Hx. rewrite Hf by (auto using range_lt). reflexivity.
Qed.
Lemma loop3 : forall S (q : list (list F)) f g0 g1 g2, shape 3 S q ->
  (forall i q, i < S -> shape 3 S q -> f i q = Ok (upd2 2 i (g2 i) (upd2 1 i (g1 i) (upd2 0 i (g0 i) q)))) ->
  for_in (range 0 S) f q = Ok [tab S g0; tab S g1; tab S g2].
Proof.
  intros S q f g0 g1 g2 Hq Hf.
  rewrite (loop_cols _ (n0 A) 3 S [0; 1; 2] (fun j i => match j with 0 => g0 i | 1 => g1 i | _ => g2 i end) f (range 0 S) q Hq).
  - f_equal. unfold range. cbn. f_equal; [|f_equal; [|f_equal]]; apply tab_ext; intros i Hi; rewrite mem_seq; destruct (Nat.leb_spec 0 i); destruct (Nat.ltb_spec i (0 + (S - 0))); cbn; try reflexivity; lia.
  - intros j [<-|[<-|[<-|[]]]]; lia.
  - apply range_lt.
  - intros i x Hi Hx. rewrite Hf by (auto using range_lt). reflexivity.
Qed.

Ltac rd e S := repeat first
  [ rewrite (rd2_ok _ (n0 A) e S) by (assumption || lia); cbn [bind]
  | rewrite (rd1_at _ (n0 A) _ _ S) by (assumption || lia); cbn [bind] ].

Lemma update_primL_ok : forall p S v, wsv A p S v -> update_primL p S v = Ok (update_prim p S v).
Proof.
  intros p S v (H1 & H2 & H3 & H4 & H5). unfold update_primL, update_prim. destruct p; cbn [nE] in *.
  - rewrite two_rows by exact H1.
    rewrite (loop2 S (prim v) _ (fun i => fst (isot_cons_to_prim (at2 (n0 A) (cons v) JRHO i) (at2 (n0 A) (cons v) JXI i)))
      (fun i => snd (isot_cons_to_prim (at2 (n0 A) (cons v) JRHO i) (at2 (n0 A) (cons v) JXI i)))); [reflexivity|exact H1|].
    intros i q Hi Hq. unfold JRHO, JXI. rd 2 S. unfold isot_cons_to_prim. cbn [fst snd].
    rewrite (wr2_ok _ 2 S) by (auto; lia). cbn [bind]. rewrite (wr2_ok _ 2 S) by (try apply shape_upd2; auto; lia). reflexivity.
  - rewrite three_rows by exact H1.
    set (f := fun i => adiab_cons_to_prim (at2 (n0 A) (cons v) JRHO i) (at2 (n0 A) (cons v) JXI i) (at2 (n0 A) (cons v) 2 i) (gamma v)).
    rewrite (loop3 S (prim v) _ (fun i => fst (fst (f i))) (fun i => snd (fst (f i))) (fun i => snd (f i))); [reflexivity|exact H1|].
    intros i q Hi Hq. unfold JRHO, JXI in *. rd 3 S. subst f. unfold adiab_cons_to_prim, isot_cons_to_prim. cbn [fst snd].
    do 3 (rewrite (wr2_ok _ 3 S) by (repeat apply shape_upd2; auto; lia); cbn [bind]). reflexivity.
Qed.

Lemma update_consL_ok : forall p S v, wsv A p S v -> update_consL p S v = Ok (update_cons p S v).
Proof.
  intros p S v (H1 & H2 & H3 & H4 & H5). unfold update_consL, update_cons. destruct p; cbn [nE] in *.
  - rewrite two_rows by exact H2.
    rewrite (loop2 S (cons v) _ (fun i => fst (isot_prim_to_cons (at2 (n0 A) (prim v) JRHO i) (at2 (n0 A) (prim v) JXI i)))
      (fun i => snd (isot_prim_to_cons (at2 (n0 A) (prim v) JRHO i) (at2 (n0 A) (prim v) JXI i)))); [reflexivity|exact H2|].
    intros i q Hi Hq. unfold JRHO, JXI. rd 2 S. unfold isot_prim_to_cons. cbn [fst snd].
    rewrite (wr2_ok _ 2 S) by (auto; lia). cbn [bind]. rewrite (wr2_ok _ 2 S) by (try apply shape_upd2; auto; lia). reflexivity.
  - rewrite three_rows by exact H2.
    set (f := fun i => adiab_prim_to_cons (at2 (n0 A) (prim v) JRHO i) (at2 (n0 A) (prim v) JXI i) (at2 (n0 A) (prim v) 2 i) (gamma v)).
    rewrite (loop3 S (cons v) _ (fun i => fst (fst (f i))) (fun i => snd (fst (f i))) (fun i => snd (f i))); [reflexivity|exact H2|].
    intros i q Hi Hq. unfold JRHO, JXI in *. rd 3 S. subst f. unfold adiab_prim_to_cons, isot_prim_to_cons. cbn [fst snd].
    do 3 (rewrite (wr2_ok _ 3 S) by (repeat apply shape_upd2; auto; lia); cbn [bind]). reflexivity.
Qed.

Lemma update_fluxL_ok : forall p S v, wsv A p S v -> update_fluxL p S v = Ok (update_flux p S v).
Proof.
  intros p S v (H1 & H2 & H3 & H4 & H5). unfold update_fluxL, update_flux. destruct p; cbn [nE] in *.
  - rewrite two_rows by exact H4.
    set (f := fun i => isot_flux (at2 (n0 A) (cons v) JRHO i) (at2 (n0 A) (prim v) JXI i) (at2 (n0 A) (cons v) JXI i) (at1 (n0 A) (c_sound v) i)).
    rewrite (loop2 S (flux v) _ (fun i => fst (f i)) (fun i => snd (f i))); [reflexivity|exact H4|].
    intros i q Hi Hq. unfold JRHO, JXI in *. rd 2 S. subst f. unfold isot_flux. cbn [fst snd].
    do 2 (rewrite (wr2_ok _ 2 S) by (repeat apply shape_upd2; auto; lia); cbn [bind]). reflexivity.
  - rewrite three_rows by exact H4.
    set (f := fun i => adiab_flux (at2 (n0 A) (prim v) JXI i) (at2 (n0 A) (cons v) JXI i) (at2 (n0 A) (prim v) 2 i) (at2 (n0 A) (cons v) 2 i)).
    rewrite (loop3 S (flux v) _ (fun i => fst (fst (f i))) (fun i => snd (fst (f i))) (fun i => snd (f i))); [reflexivity|exact H4|].
    intros i q Hi Hq. unfold JRHO, JXI in *. rd 3 S. subst f. unfold adiab_flux. cbn [fst snd].
    do 3 (rewrite (wr2_ok _ 3 S) by (repeat apply shape_upd2; auto; lia); cbn [bind]). reflexivity.
Qed.

Lemma update_c_soundL_ok : forall p S v, wsv A p S v -> update_c_soundL p S v = Ok (update_c_sound p S v).
Proof.
  intros p S v (H1 & H2 & H3 & H4 & H5). unfold update_c_soundL, update_c_sound. destruct p; cbn [nE is_adiabatic] in *; [reflexivity|].
  rewrite (loop_vec _ (n0 A) S 0 (fun i => nsqrt A (ndiv A (nmul A (gamma v) (at1 (n0 A) (pressure Adiab v) i)) (at1 (n0 A) (rho_prim v) i)))).
  - cbn [bind]. do 2 f_equal. apply tab_ext. intros i Hi. rewrite Nat.sub_0_r. unfold range. rewrite mem_seq.
    destruct (Nat.leb_spec 0 i); destruct (Nat.ltb_spec i (0 + (S - 0))); cbn; try reflexivity; lia.
  - exact H5.
  - intros k Hk. apply range_lt in Hk. lia.
  - intros i c Hi Hc. apply range_lt in Hi. cbn [JPRESSURE]. rewrite (rd1_row _ 3 S) by (auto; lia). cbn [bind].
    rewrite (rd1_row _ 3 S) by (auto; unfold JRHO; lia). cbn [bind].
    rewrite (rd1_at _ (n0 A) _ i S) by (try apply (shape_row _ 3); auto; lia). cbn [bind].
    rewrite (rd1_at _ (n0 A) _ i S) by (try apply (shape_row _ 3); auto; unfold JRHO; lia). cbn [bind].
    rewrite wr1_ok by lia. reflexivity.
Qed.

Lemma zip_row : forall S (f : F -> F -> F) p (q : list (list F)) (c : list F), shape (nE p) S q -> length c = S ->
  zip2 f (nth 1 q []) c = Ok (tab S (fun i => f (at2 (n0 A) q 1 i) (at1 (n0 A) c i))).
Proof.
  intros S f p q c Hq Hc. rewrite (zip2_ok _ _ _ (n0 A) (n0 A) f S); [reflexivity| |exact Hc].
  apply (shape_row _ (nE p)); [exact Hq|]. destruct p; cbn; lia.
Qed.

Lemma eigen_minL_ok : forall p S v, wsv A p S v -> update_eigen_vals_minL v = Ok (update_eigen_vals_min S v).
Proof.
  intros p S v (H1 & H2 & H3 & H4 & H5). assert (E2 : 1 < nE p) by (destruct p; cbn; lia). unfold update_eigen_vals_minL, update_eigen_vals_min, JXI.
  rewrite (rd1_row _ (nE p) S) by auto. cbn [bind]. rewrite (zip_row S _ p) by auto. cbn [bind].
  rewrite (on_row_ok _ (nE p) S _ 0 _ (tab S (fun i => nsub A (at2 (n0 A) (prim v) 1 i) (at1 (n0 A) (c_sound v) i)))); [reflexivity|exact H3|lia|].
  apply assign1_ok. rewrite length_tab. apply (shape_row _ (nE p)); [exact H3|lia].
Qed.

Lemma eigen_maxL_ok : forall p S v, wsv A p S v -> update_eigen_vals_maxL p v = Ok (update_eigen_vals_max p S v).
Proof.
  intros p S v (H1 & H2 & H3 & H4 & H5). assert (E2 : 1 < nE p) by (destruct p; cbn; lia). unfold update_eigen_vals_maxL, update_eigen_vals_max, JXI.
  rewrite (rd1_row _ (nE p) S) by auto. cbn [bind]. rewrite (zip_row S _ p) by auto. cbn [bind]. rewrite usub_ok by lia. cbn [bind].
  rewrite (on_row_ok _ (nE p) S _ (nE p - 1) _ (tab S (fun i => nadd A (at2 (n0 A) (prim v) 1 i) (at1 (n0 A) (c_sound v) i)))); [reflexivity|exact H3|lia|].
  apply assign1_ok. rewrite length_tab. apply (shape_row _ (nE p)); [exact H3|lia].
Qed.

Lemma wsv_eigen_min : forall p S v, wsv A p S v -> wsv A p S (update_eigen_vals_min S v).
Proof. intros p S v (H1 & H2 & H3 & H4 & H5). split; [exact H1|]. split; [exact H2|]. split; [apply shape_upd_row; [exact H3|apply length_tab]|]. auto. Qed.
Lemma wsv_eigen_max : forall p S v, wsv A p S v -> wsv A p S (update_eigen_vals_max p S v).
Proof. intros p S v (H1 & H2 & H3 & H4 & H5). split; [exact H1|]. split; [exact H2|]. split; [apply shape_upd_row; [exact H3|apply length_tab]|]. auto. Qed.
Lemma wsv_c_sound : forall p S v, wsv A p S v -> wsv A p S (update_c_sound p S v).
Proof. intros p S v (H1 & H2 & H3 & H4 & H5). unfold wsv, update_c_sound. destruct (is_adiabatic p); cbn; auto 8 using length_tab. Qed.

Lemma eigenL_ok : forall p S v, wsv A p S v -> update_eigen_valsL p v = Ok (update_eigen_vals p S v).
Proof.
  intros p S v Hv. pose proof Hv as (H1 & H2 & H3 & H4 & H5). unfold update_eigen_valsL, update_eigen_vals.
  rewrite (eigen_minL_ok p S v Hv). cbn [bind]. pose proof (wsv_eigen_min p S v Hv) as Hm. destruct p; cbn [nE]; (rewrite usub_ok by lia); cbn [bind].
  - cbn [range seq Nat.sub for_in bind fold_left]. apply eigen_maxL_ok. exact Hm.
  - cbn [range seq Nat.sub for_in bind fold_left]. unfold JXI.
    rewrite (rd1_row _ 3 S) by (try exact H1; lia). cbn [bind].
    rewrite (on_row_ok _ 3 S _ 1 _ (nth 1 (prim (update_eigen_vals_min S v)) [])); [|apply Hm|lia|].
    + cbn [bind]. apply eigen_maxL_ok. destruct Hm as (M1 & M2 & M3 & M4 & M5). split; [exact M1|]. split; [exact M2|].
      split; [apply shape_upd_row; [exact M3|apply (shape_row _ 3); [exact H1|lia]]|]. split; [exact M4|exact M5].
    + apply assign1_ok. rewrite (shape_row _ 3 S) by (try apply Hm; lia). symmetry. apply (shape_row _ 3); [exact H1|lia].
Qed.

Lemma derivedL_ok : forall p S v, wsv A p S v -> update_derivedL p S v = Ok (update_derived_variables p S v).
Proof.
  intros p S v Hv. unfold update_derivedL, update_derived_variables. destruct p; cbn [is_adiabatic].
  - cbn [bind]. apply eigenL_ok. exact Hv.
  - rewrite update_c_soundL_ok by exact Hv. cbn [bind]. apply eigenL_ok. apply wsv_c_sound. exact Hv.
Qed.

Lemma fold_left_map : forall X Y Z (f : Z -> Y -> Z) (g : X -> Y) l z, fold_left f (map g l) z = fold_left (fun z x => f z (g x)) l z.
Proof. intros X Y Z f g l. induction l as [|x l IH]; intros z; cbn; auto. Qed.

Lemma dt_cflL_ok : forall S ev c (m : mesh A), length ev = S -> length (m_cell_width_inv m) = S -> calc_dt_cflL ev c m = calc_dt_cfl S ev c m.
Proof.
  intros S ev c m H1 H2. unfold calc_dt_cflL, calc_dt_cfl. rewrite (zip2_ok _ _ _ (n0 A) (n0 A) _ S) by assumption. cbn [bind].
  unfold tab. rewrite fold_left_map. reflexivity.
Qed.

(** ** Boundary conditions *)
Definition mesh_rows (S : nat) (m : mesh A) : Prop :=
  m_ixi_in m = 2 /\ m_ixi_out m = S - 3 /\ length (m_xi_cent m) = S /\ length (m_xi_west m) = S /\ length (m_xi_east m) = S /\ length (m_xi_cent_inv m) = S /\
  length (m_cell_width_inv m) = S /\ length (m_deta_dphi_d_volume m) = S /\ length (m_d_area_east m) = S.

Ltac stp e S := repeat first
  [ rewrite (rd2_ok _ (n0 A) e S) by (repeat apply shape_upd2; assumption || lia); cbn [bind]
  | rewrite (wr2_ok _ e S) by (repeat apply shape_upd2; assumption || lia); cbn [bind]
  | rewrite usub_ok by lia; cbn [bind] ].

Lemma range_two : forall a b, b = a + 1 -> range_incl a b = [a; b].
Proof. intros a b ->. unfold range_incl. replace (a + 1 + 1 - a) with 2 by lia. cbn. f_equal. f_equal. lia. Qed.

Lemma apply_modeL_ok : forall sd e S m md j q, 4 <= S -> mesh_rows S m -> shape e S q -> j < e ->
  apply_modeL sd S m md j q = Ok (apply_mode sd S m md j q).
Proof.
  intros sd e S m md j q HS (_ & _ & M1 & _ & _ & M2 & _) Hq Hj.
  assert (RW : reflecting_westL j q = Ok (reflecting_west j q)).
  { unfold reflecting_westL, reflecting_west. rewrite range_two by lia. cbn [for_in]. stp e S. reflexivity. }
  assert (RE : reflecting_eastL S j q = Ok (reflecting_east S j q)).
  { unfold reflecting_eastL, reflecting_east. rewrite range_two by lia. cbn [for_in]. stp e S. reflexivity. }
  assert (GW : no_gradients_westL j q = Ok (no_gradients_west j q)).
  { unfold no_gradients_westL, no_gradients_west. rewrite range_two by lia. cbn [for_in]. stp e S. reflexivity. }
  assert (GE : no_gradients_eastL S j q = Ok (no_gradients_east S j q)).
  { unfold no_gradients_eastL, no_gradients_east. stp e S. rewrite range_two by lia. cbn [for_in]. stp e S. reflexivity. }
  assert (XW : extrapolate_westL m j q = Ok (extrapolate_west S m j q)).
  { unfold extrapolate_westL, extrapolate_west. destruct (m_is_logarithmic m).
    - stp e S. destruct (nfin A (ndiv A (n1 A) (at2 (n0 A) q j 2))); cbn [negb orb bind].
      + stp e S. destruct (nfin A (ndiv A (n1 A) (at2 (n0 A) q j 3))); cbn [negb]; rewrite range_two by lia; cbn [for_in]; stp e S; reflexivity.
      + rewrite range_two by lia. cbn [for_in]. stp e S. reflexivity.
    - rewrite range_two by lia. cbn [for_in]. stp e S. reflexivity. }
  assert (XE : extrapolate_eastL S m j q = Ok (extrapolate_east S m j q)).
  { unfold extrapolate_eastL, extrapolate_east. stp e S. destruct (m_is_logarithmic m).
    - stp e S. destruct (nfin A (ndiv A (n1 A) (at2 (n0 A) q j (S - 3)))); cbn [negb orb bind].
      + stp e S. destruct (nfin A (ndiv A (n1 A) (at2 (n0 A) q j (S - 4)))); cbn [negb]; rewrite range_two by lia; cbn [for_in]; stp e S; reflexivity.
      + rewrite range_two by lia. cbn [for_in]. stp e S. reflexivity.
    - rewrite range_two by lia. cbn [for_in]. stp e S. reflexivity. }
  assert (KW : kepler_westL m j q = Ok (kepler_west m j q)).
  { unfold kepler_westL, kepler_west. rewrite range_two by lia. cbn [for_in rev app].
    repeat (stp e S; rewrite ?(rd1_at _ (n0 A) (m_xi_cent m) _ S) by (assumption || lia); cbn [bind]; rewrite ?(rd1_at _ (n0 A) (m_xi_cent_inv m) _ S) by (assumption || lia); cbn [bind]). reflexivity. }
  assert (KE : kepler_eastL S m j q = Ok (kepler_east S m j q)).
  { unfold kepler_eastL, kepler_east. stp e S. rewrite range_two by lia. cbn [for_in].
    repeat (stp e S; rewrite ?(rd1_at _ (n0 A) (m_xi_cent m) _ S) by (assumption || lia); cbn [bind]; rewrite ?(rd1_at _ (n0 A) (m_xi_cent_inv m) _ S) by (assumption || lia); cbn [bind]). reflexivity. }
  destruct sd, md; cbn [apply_modeL apply_mode]; auto.
  - unfold near_zero_westL, near_zero_west. rewrite range_two by lia. cbn [for_in]. stp e S. reflexivity.
  - unfold outflow_no_gradients_westL, outflow_no_gradients_west. stp e S. match goal with |- context [npos A ?x] => destruct (npos A x) end; auto.
  - unfold outflow_extrapolate_westL, outflow_extrapolate_west. stp e S. match goal with |- context [npos A ?x] => destruct (npos A x) end; auto.
  - unfold near_zero_eastL, near_zero_east. stp e S. rewrite range_two by lia. cbn [for_in]. stp e S. reflexivity.
  - unfold outflow_no_gradients_eastL, outflow_no_gradients_east. stp e S. match goal with |- context [npos A ?x] => destruct (npos A x) end; cbn [negb]; auto.
  - unfold outflow_extrapolate_eastL, outflow_extrapolate_east. stp e S. match goal with |- context [npos A ?x] => destruct (npos A x) end; cbn [negb]; auto.
Qed.

Lemma shape_apply_mode : forall sd e S m md j (q : list (list F)), shape e S q -> shape e S (apply_mode sd S m md j q).
Proof.
  intros sd e S m md j q H.
  destruct sd, md; cbn [apply_mode]; unfold extrapolate_west, extrapolate_east, kepler_west, kepler_east, near_zero_west, near_zero_east,
    no_gradients_west, no_gradients_east, reflecting_west, reflecting_east, outflow_extrapolate_west, outflow_extrapolate_east, outflow_no_gradients_west, outflow_no_gradients_east,
    reflecting_west, reflecting_east, no_gradients_west, no_gradients_east, extrapolate_west, extrapolate_east;
  repeat match goal with |- context [if ?b then _ else _] => destruct b end; repeat apply shape_upd2; exact H.
Qed.

(** Out of range equations panic in both models; in range both agree. *)
Lemma bcL_ok : forall sd p S m l v, 4 <= S -> mesh_rows S m -> wsv A p S v -> bc_applyL sd S m l v = bc_apply sd p S m l v.
Proof.
  intros sd p S m l v HS Hm (H1 & _). unfold bc_applyL, bc_apply.
  enough (G : for_in l (fun x q => apply_modeL sd S m (snd x) (fst x) q) (prim v) = apply_modes sd (nE p) S m l (prim v)) by (rewrite G; reflexivity).
  revert H1. generalize (prim v). induction l as [|[j md] l IH]; intros q Hq; cbn [for_in apply_modes fst snd]; [reflexivity|].
  destruct (Nat.ltb_spec j (nE p)).
  - rewrite (apply_modeL_ok sd (nE p)) by assumption. cbn [bind]. apply IH. apply shape_apply_mode. exact Hq.
  - enough (G : apply_modeL sd S m md j q = Panic) by (rewrite G; reflexivity).
    assert (R : forall i, rd2 q j i = Panic).
    { intros i. unfold rd2, rd1. destruct Hq as [L _]. replace (nth_error q j) with (@None (list F)) by (symmetry; apply nth_error_None; lia). reflexivity. }
    assert (Wr : forall i x, wr2 q j i x = Panic).
    { intros i x. unfold wr2, rd1. destruct Hq as [L _]. replace (nth_error q j) with (@None (list F)) by (symmetry; apply nth_error_None; lia). reflexivity. }
    destruct sd, md; cbn [apply_modeL];
    unfold extrapolate_westL, extrapolate_eastL, kepler_westL, kepler_eastL, near_zero_westL, near_zero_eastL,
      no_gradients_westL, no_gradients_eastL, reflecting_westL, reflecting_eastL, outflow_extrapolate_westL, outflow_extrapolate_eastL, outflow_no_gradients_westL, outflow_no_gradients_eastL;
    repeat (rewrite usub_ok by lia; cbn [bind]); repeat (rewrite range_two by lia; cbn [for_in rev app bind]);
    repeat (rewrite usub_ok by lia; cbn [bind]); rewrite ?R, ?Wr; cbn [bind]; try reflexivity;
    destruct (m_is_logarithmic m); rewrite ?R; cbn [bind]; reflexivity.
Qed.

Lemma bc_wsv : forall sd p S m l (v v' : vars A), wsv A p S v -> bc_apply sd p S m l v = Ok v' -> wsv A p S v'.
Proof.
  intros sd p S m l v v' (H1 & H2) H. unfold bc_apply in H. apply bind_Ok in H. destruct H as (q & Hq & H). injection H as <-.
  split; [|exact H2]. cbn [prim set_prim]. revert H1 Hq. generalize (prim v). induction l as [|[j md] l IH]; intros x Hx Hq; cbn [apply_modes] in Hq; [injection Hq as <-; exact Hx|].
  destruct (j <? nE p); [|discriminate]. eapply IH; [|exact Hq]. apply shape_apply_mode. exact Hx.
Qed.

Lemma from_primL_ok : forall p S bw be m v, 4 <= S -> mesh_rows S m -> wsv A p S v ->
  update_vars_from_primL p S bw be m v = update_vars_from_prim p S bw be m v.
Proof.
  intros p S bw be m v HS Hm Hv. unfold update_vars_from_primL, update_vars_from_prim. rewrite (bcL_ok West p) by assumption.
  destruct (bc_apply West p S m bw v) as [v1| | |] eqn:E1; cbn [bind]; try reflexivity. apply bc_wsv in E1; [|exact Hv].
  rewrite (bcL_ok East p) by assumption. destruct (bc_apply East p S m be v1) as [v2| | |] eqn:E2; cbn [bind]; try reflexivity. apply bc_wsv in E2; [|exact E1].
  rewrite update_consL_ok by exact E2. cbn [bind]. apply derivedL_ok. apply wsv_update_cons. exact E2.
Qed.

Lemma from_consL_ok : forall p S bw be m v, 4 <= S -> mesh_rows S m -> wsv A p S v ->
  update_vars_from_consL p S bw be m v = update_vars_from_cons p S bw be m v.
Proof.
  intros p S bw be m v HS Hm Hv. unfold update_vars_from_consL, update_vars_from_cons. rewrite update_primL_ok by exact Hv. cbn [bind].
  apply from_primL_ok; try assumption. apply wsv_update_prim. exact Hv.
Qed.

Lemma from_prim_wsv : forall p S bw be m (v v' : vars A), wsv A p S v -> update_vars_from_prim p S bw be m v = Ok v' -> wsv A p S v'.
Proof.
  intros p S bw be m v v' Hv H. unfold update_vars_from_prim in H. apply bind_Ok in H. destruct H as (v1 & E1 & H). apply bind_Ok in H. destruct H as (v2 & E2 & H). injection H as <-.
  apply wsv_derived. apply wsv_update_cons. eapply bc_wsv; [|exact E2]. eapply bc_wsv; [exact Hv|exact E1].
Qed.
Lemma from_cons_wsv : forall p S bw be m (v v' : vars A), wsv A p S v -> update_vars_from_cons p S bw be m v = Ok v' -> wsv A p S v'.
Proof. intros p S bw be m v v' Hv H. eapply from_prim_wsv; [|exact H]. apply wsv_update_prim. exact Hv. Qed.

Lemma assign_okL : forall p S (a b : vars A), wsv A p S a -> wsv A p S b -> vars_assignL a b = Ok (vars_assign a b).
Proof.
  intros p S a b (H1 & H2 & H3 & H4 & H5) (K1 & K2 & K3 & K4 & K5). unfold vars_assignL, vars_assign.
  rewrite (assign2_ok _ (nE p) S) by assumption. cbn [bind]. rewrite (assign2_ok _ (nE p) S) by assumption. cbn [bind]. rewrite assign1_ok by congruence. reflexivity.
Qed.
Lemma state_assign_okL : forall p S (a b : state A), wss p S a -> wss p S b -> state_assignL a b = Ok (state_assign a b).
Proof.
  intros p S a b (H1 & H2 & H3) (K1 & K2 & K3). unfold state_assignL, state_assign.
  rewrite (assign_okL p S) by assumption. cbn [bind]. rewrite (assign_okL p S) by assumption. cbn [bind]. rewrite (assign_okL p S) by assumption. reflexivity.
Qed.
Lemma wss_assign : forall p S (a b : state A), wss p S a -> wss p S b -> wss p S (state_assign a b).
Proof. intros p S a b (H1 & H2 & H3) (K1 & K2 & K3). unfold wss, state_assign; cbn. auto using wsv_assign. Qed.
End Phys.
