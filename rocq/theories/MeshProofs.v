(** Proofs about mesh construction. *)

From Coq Require Import Reals ZArith QArith Qreals List Lia Bool Lra.
From Flocq Require Import Core BinarySingleNaN.
From Verif Require Import Base Num XReal B64 Config Mesh Spec ConfigProofs.
Import ListNotations.
Local Open Scope nat_scope.

Lemma at1_map : forall X Y (f : X -> Y) (v : list X) dx dy i, i < length v -> at1 dy (map f v) i = f (at1 dx v i).
Proof.
  intros X Y f v dx dy i H. unfold at1. rewrite nth_indep with (d' := f dx) by (rewrite map_length; exact H).
  apply map_nth.
Qed.

Section Gen.
Variable A : Num.
Variables (S : nat) (c : mesh_config A).
Notation m := (mesh_build S c).

Lemma length_zipw : forall f (a b : list (nF A)), length a = length b -> length (zipw A f a b) = length a.
Proof. intros. unfold zipw. rewrite map_length, combine_length. lia. Qed.

Lemma at1_zipw : forall f (a b : list (nF A)) d i, length a = length b -> i < length a ->
  at1 d (zipw A f a b) i = f (at1 d a i) (at1 d b i).
Proof.
  intros f a b d i Hl Hi. unfold zipw.
  rewrite at1_map with (dx := (d, d)) by (rewrite combine_length; lia).
  unfold at1. rewrite combine_nth by assumption. reflexivity.
Qed.

Lemma mesh_west_at : forall i, i < S ->
  at1 (n0 A) (m_xi_west m) i =
  nadd A (mc_xi_in c) (nmul A (m_dxi m) (nZ A (Z.of_nat i - 2))).
Proof. intros i Hi. cbn [m_xi_west m_dxi mesh_build]. rewrite at1_tab by assumption. reflexivity. Qed.

Lemma mesh_cent_at : forall i, i < S ->
  at1 (n0 A) (m_xi_cent m) i =
  nadd A (at1 (n0 A) (m_xi_west m) i) (nmul A (nQ A (1 # 2)) (m_dxi m)).
Proof.
  intros i Hi. cbn [m_xi_west m_xi_cent m_dxi mesh_build].
  rewrite at1_map with (dx := n0 A) by (rewrite length_tab; assumption). reflexivity.
Qed.

Lemma mesh_east_at : forall i, i < S ->
  at1 (n0 A) (m_xi_east m) i = nadd A (at1 (n0 A) (m_xi_west m) i) (m_dxi m).
Proof.
  intros i Hi. cbn [m_xi_west m_xi_east m_dxi mesh_build].
  rewrite at1_map with (dx := n0 A) by (rewrite length_tab; assumption). reflexivity.
Qed.

Lemma mesh_cent_inv_at : forall i, i < S ->
  at1 (n0 A) (m_xi_cent_inv m) i = nrecip A (at1 (n0 A) (m_xi_cent m) i).
Proof.
  intros i Hi. cbn [m_xi_cent_inv m_xi_cent mesh_build].
  rewrite at1_map with (dx := n0 A) by (rewrite map_length, length_tab; assumption). reflexivity.
Qed.

Lemma mesh_west_inv_at : forall i, i < S ->
  at1 (n0 A) (m_xi_west_inv m) i = nrecip A (at1 (n0 A) (m_xi_west m) i).
Proof.
  intros i Hi. cbn [m_xi_west_inv m_xi_west mesh_build].
  rewrite at1_map with (dx := n0 A) by (rewrite length_tab; assumption). reflexivity.
Qed.

Lemma mesh_width_at : forall i, i < S ->
  at1 (n0 A) (m_cell_width m) i = nsub A (at1 (n0 A) (m_xi_east m) i) (at1 (n0 A) (m_xi_west m) i).
Proof.
  intros i Hi. cbn [m_cell_width m_xi_east m_xi_west mesh_build].
  apply at1_zipw; rewrite !map_length, !length_tab; [reflexivity|assumption].
Qed.

Lemma mesh_width_inv_at : forall i, i < S ->
  at1 (n0 A) (m_cell_width_inv m) i = nrecip A (at1 (n0 A) (m_cell_width m) i).
Proof.
  intros i Hi. cbn [m_cell_width_inv m_cell_width mesh_build].
  rewrite at1_map with (dx := n0 A); [reflexivity|].
  rewrite length_zipw; rewrite !map_length, !length_tab; [assumption|reflexivity].
Qed.

Lemma mesh_lengths :
  length (m_xi_cent m) = S /\ length (m_xi_west m) = S /\ length (m_xi_east m) = S /\
  length (m_xi_cent_inv m) = S /\ length (m_xi_west_inv m) = S /\ length (m_xi_east_inv m) = S.
Proof. cbn [m_xi_cent m_xi_west m_xi_east m_xi_cent_inv m_xi_west_inv m_xi_east_inv mesh_build].
  rewrite !map_length, !length_tab. auto 8. Qed.

Lemma mesh_sqrt_g_at : forall i, i < S ->
  at1 (n0 A) (m_sqrt_g m) i = nmul A (nmul A (n1 A) (n1 A)) (n1 A).
Proof.
  intros i Hi. cbn [m_sqrt_g mesh_build].
  assert (L : forall (v : list (nF A)), length v = S -> length (map (fun _ => n1 A) v) = S)
    by (intros; rewrite map_length; auto).
  assert (O : forall (v : list (nF A)), length v = S -> at1 (n0 A) (map (fun _ => n1 A) v) i = n1 A).
  { intros v Hv. rewrite at1_map with (dx := n0 A) by (rewrite Hv; assumption). reflexivity. }
  rewrite at1_zipw.
  - rewrite at1_zipw; [|rewrite !map_length; reflexivity|rewrite !map_length, length_tab; assumption].
    rewrite !O; rewrite ?map_length, ?length_tab; reflexivity.
  - rewrite length_zipw; rewrite !map_length; reflexivity.
  - rewrite length_zipw; rewrite !map_length, ?length_tab; [assumption|reflexivity].
Qed.

Lemma mesh_volume_at : forall i, i < S ->
  at1 (n0 A) (m_volume m) i =
  nmul A (nmul A (nmul A (nmul A (nmul A (n1 A) (n1 A)) (n1 A)) (m_dxi m)) (n1 A)) (n1 A).
Proof.
  intros i Hi. rewrite <- (mesh_sqrt_g_at i Hi).
  cbn [m_volume m_sqrt_g m_dxi mesh_build].
  rewrite at1_map with (dx := n0 A); [reflexivity|].
  rewrite length_zipw.
  - rewrite length_zipw; rewrite !map_length, ?length_tab; [assumption|reflexivity].
  - rewrite length_zipw; rewrite !map_length; reflexivity.
Qed.

Lemma mesh_dddv_at : forall i, i < S ->
  at1 (n0 A) (m_deta_dphi_d_volume m) i =
  ndiv A (nmul A (n1 A) (n1 A)) (nadd A (nEPS A) (at1 (n0 A) (m_volume m) i)).
Proof.
  intros i Hi. cbn [m_deta_dphi_d_volume m_volume mesh_build].
  rewrite at1_map with (dx := n0 A); [reflexivity|].
  rewrite map_length, length_zipw.
  - rewrite length_zipw; rewrite !map_length, ?length_tab; [assumption|reflexivity].
  - rewrite length_zipw; rewrite !map_length; reflexivity.
Qed.

Lemma mesh_area_east_at : forall i, i < S -> at1 (n0 A) (m_d_area_east m) i = nmul A (n1 A) (n1 A).
Proof.
  intros i Hi. cbn [m_d_area_east mesh_build].
  rewrite at1_zipw; rewrite ?map_length, ?length_tab; try reflexivity; [|assumption].
  rewrite !at1_map with (dx := n0 A); rewrite ?map_length, ?length_tab; try assumption; reflexivity.
Qed.

Lemma mesh_area_west_at : forall i, i < S -> at1 (n0 A) (m_d_area_west m) i = nmul A (n1 A) (n1 A).
Proof.
  intros i Hi. cbn [m_d_area_west mesh_build].
  rewrite at1_zipw; rewrite ?map_length, ?length_tab; try reflexivity; [|assumption].
  rewrite !at1_map with (dx := n0 A); rewrite ?map_length, ?length_tab; try assumption; reflexivity.
Qed.

(** ** Validation *)
Lemma mesh_validate_ok : forall mm : mesh A, mesh_validate mm = Ok tt <->
  nfin A (m_dxi mm) = true /\ nfin A (m_deta mm) = true /\ nfin A (m_dphi mm) = true /\
  forall v, In v (mesh_arrays mm) -> forall x, In x v -> nfin A x = true.
Proof.
  intros mm. unfold mesh_validate. rewrite !bind_tt, !ensure_Ok, forallb_forall.
  assert (H : (forall x, In x (mesh_arrays mm) -> all_fin x = true) <->
              (forall v, In v (mesh_arrays mm) -> forall x, In x v -> nfin A x = true)).
  { unfold all_fin. split; intros H v Hv; [|exact (proj2 (forallb_forall (nfin A) v) (H v Hv))].
    exact (proj1 (forallb_forall (nfin A) v) (H v Hv)). }
  tauto.
Qed.

Lemma mesh_new_Ok : forall validation mm, mesh_new validation S c = Ok mm ->
  4 <= S /\ mm = mesh_build S c /\ (validation = true -> mesh_validate mm = Ok tt).
Proof.
  intros val mm H. unfold mesh_new in H. destruct (Nat.ltb_spec S 4); [discriminate|].
  destruct val; cbn [bind] in H.
  - destruct (mesh_validate (mesh_build S c)) as [[]| | |] eqn:E; try discriminate.
    injection H as <-. auto.
  - injection H as <-. repeat split; auto. discriminate.
Qed.
End Gen.

(** ** Exact arithmetic *)
Section Real.
Variables (S : nat) (a b : R) (md : mesh_mode).
Hypothesis HS : 5 <= S.
Notation m := (mesh_build (A:=XRn) S (mkMC (A:=XRn) md (Fin a) (Fin b))).
Definition hx : R := ((b - a) / INR (S - 4))%R.

Lemma INR_pos : (0 < INR (S - 4))%R.
Proof. apply lt_0_INR. lia. Qed.

Lemma mesh_dxi_R : m_dxi m = Fin hx.
Proof.
  cbn [m_dxi mesh_build mc_xi_in mc_xi_out]. rewrite X_sub, X_Z.
  replace (S - 2 * 2) with (S - 4) by lia. rewrite <- INR_IZR_INZ.
  apply X_div. pose proof INR_pos. lra.
Qed.

Lemma mesh_west_R : forall i, i < S -> at1 (n0 XRn) (m_xi_west m) i = Fin (a + hx * (INR i - 2)).
Proof.
  intros i Hi. rewrite mesh_west_at by assumption. rewrite mesh_dxi_R.
  rewrite X_Z, X_mul. cbn [mc_xi_in]. rewrite X_add, minus_IZR, <- INR_IZR_INZ. reflexivity.
Qed.

Lemma mesh_cent_R : forall i, i < S -> at1 (n0 XRn) (m_xi_cent m) i = Fin (a + hx * (INR i - 2 + 1 / 2)).
Proof.
  intros i Hi. rewrite mesh_cent_at by assumption.
  rewrite mesh_west_R, mesh_dxi_R by assumption.
  rewrite X_Q, X_mul, X_add. f_equal. unfold Q2R; cbn [Qnum Qden]. lra.
Qed.

Lemma mesh_east_R : forall i, i < S -> at1 (n0 XRn) (m_xi_east m) i = Fin (a + hx * (INR i - 2 + 1)).
Proof.
  intros i Hi. rewrite mesh_east_at by assumption.
  rewrite mesh_west_R, mesh_dxi_R by assumption.
  rewrite X_add. f_equal. lra.
Qed.

Lemma mesh_width_R : forall i, i < S -> at1 (n0 XRn) (m_cell_width m) i = Fin hx.
Proof.
  intros i Hi. rewrite mesh_width_at by assumption.
  rewrite mesh_west_R, mesh_east_R by assumption.
  rewrite X_sub. f_equal. lra.
Qed.

Lemma mesh_volume_R : forall i, i < S -> at1 (n0 XRn) (m_volume m) i = Fin hx.
Proof.
  intros i Hi. rewrite mesh_volume_at by assumption.
  rewrite mesh_dxi_R. rewrite X_n1, !X_mul. f_equal. lra.
Qed.

Lemma eps_pos : (0 < powerRZ 2 (-52))%R.
Proof. apply powerRZ_lt. lra. Qed.

Hypothesis Hab : (a < b)%R.
Lemma hx_pos : (0 < hx)%R.
Proof. unfold hx. apply Rdiv_lt_0_compat; [lra|apply INR_pos]. Qed.

Lemma mesh_width_inv_R : forall i, i < S -> at1 (n0 XRn) (m_cell_width_inv m) i = Fin (/ hx).
Proof.
  intros i Hi. rewrite mesh_width_inv_at by assumption.
  rewrite mesh_width_R by assumption.
  apply X_recip. pose proof hx_pos; lra.
Qed.

(** The factor the code divides by is [1 / (EPSILON + dx)]. *)
Lemma mesh_dddv_R : forall i, i < S ->
  at1 (n0 XRn) (m_deta_dphi_d_volume m) i = Fin (/ (powerRZ 2 (-52) + hx)).
Proof.
  intros i Hi. rewrite mesh_dddv_at by assumption.
  rewrite mesh_volume_R by assumption.
  rewrite X_n1, X_mul. cbn [nEPS XRn]. rewrite X_add. pose proof hx_pos. pose proof eps_pos.
  rewrite X_div by lra. f_equal. unfold Rdiv. lra.
Qed.

Lemma mesh_area_east_R : forall i, i < S -> at1 (n0 XRn) (m_d_area_east m) i = Fin 1.
Proof.
  intros i Hi. rewrite mesh_area_east_at by assumption.
  rewrite X_n1, X_mul. f_equal; lra.
Qed.
End Real.

Lemma mesh_tiles : forall validation S md a b m, 5 <= S -> (a < b)%R ->
  mesh_new (A:=XRn) validation S (mkMC (A:=XRn) md (Fin a) (Fin b)) = Ok m ->
  m_n_all m = S /\ m_n_comp m = S - 4 /\ m_ixi_in m = 2 /\ m_ixi_out m = S - 3 /\
  length (m_xi_west m) = S /\ length (m_xi_cent m) = S /\ length (m_xi_east m) = S /\
  exists x : nat -> R,
    (forall i, i < S ->
       nth i (m_xi_west m) XNaN = Fin (x i) /\ nth i (m_xi_east m) XNaN = Fin (x (i + 1)%nat) /\
       nth i (m_xi_cent m) XNaN = Fin ((x i + x (i + 1)%nat) / 2) /\
       nth i (m_cell_width m) XNaN = Fin (x (i + 1)%nat - x i)) /\
    x 2 = a /\ x (S - 2) = b /\
    (forall i, x i < x (i + 1)%nat)%R /\ (forall i k, x (i + 1)%nat - x i = x (k + 1)%nat - x k)%R.
Proof.
  intros val S md a b m HS Hab H. destruct (mesh_new_Ok _ _ _ _ _ H) as (_ & -> & _). clear H.
  set (mm := mesh_build S _).
  pose proof (mesh_lengths XRn S (mkMC (A:=XRn) md (Fin a) (Fin b))) as (L1 & L2 & L3 & _). fold mm in L1, L2, L3.
  assert (L4 : length (m_cell_width mm) = S).
  { subst mm. cbn [m_cell_width mesh_build]. rewrite length_zipw; rewrite !map_length, !length_tab; reflexivity. }
  repeat match goal with |- _ /\ _ => split end; auto.
  { subst mm. cbn [m_ixi_out mesh_build]. lia. }
  exists (fun i => a + hx S a b * (INR i - 2))%R.
  pose proof (hx_pos S a b HS Hab) as Hh.
  assert (HN : (INR (S - 2) = INR (S - 4) + 2)%R).
  { replace (S - 2) with (S - 4 + 2) by lia. rewrite plus_INR. cbn. lra. }
  split; [|split; [|split; [|split]]].
  - intros i Hi. rewrite !plus_INR. cbn [INR].
    rewrite (nth_indep (m_xi_west mm) XNaN (n0 XRn) (eq_ind_r (lt i) Hi L2)).
    rewrite (nth_indep (m_xi_east mm) XNaN (n0 XRn) (eq_ind_r (lt i) Hi L3)).
    rewrite (nth_indep (m_xi_cent mm) XNaN (n0 XRn) (eq_ind_r (lt i) Hi L1)).
    rewrite (nth_indep (m_cell_width mm) XNaN (n0 XRn) (eq_ind_r (lt i) Hi L4)).
    change (nth i ?l (n0 XRn)) with (at1 (n0 XRn) l i).
    subst mm. rewrite mesh_west_R, mesh_east_R, mesh_cent_R, mesh_width_R by assumption.
    repeat split; f_equal; lra.
  - cbn. lra.
  - rewrite HN. unfold hx. field. pose proof (INR_pos S HS). lra.
  - intros i. rewrite plus_INR. cbn [INR]. nra.
  - intros i k. rewrite !plus_INR. cbn [INR]. lra.
Qed.

(** ** IEEE doubles *)
Section Dbl.
Variables bln bexp : b64 -> b64.
Notation B := (B64n bln bexp).

Lemma b_mul_zero : forall x : b64, is_finite x = true -> exists s, b_mul x (B754_zero false) = B754_zero s.
Proof. intros [s|s| |s mm e He] H; try discriminate; cbn; eauto. Qed.

Lemma b_add_zero_r : forall (x : b64) s, is_finite x = true ->
  b_add x (B754_zero s) = x \/ (x = B754_zero true /\ b_add x (B754_zero s) = B754_zero false).
Proof.
  intros [s'|s'| |s' mm e He] s H; try discriminate; cbn.
  - destruct s', s; cbn; auto.
  - auto.
Qed.

Lemma b_sub_finite : forall x y : b64, is_finite (b_sub x y) = true -> is_finite x = true /\ is_finite y = true.
Proof. intros [sx|sx| |sx mx ex Hx] [sy|sy| |sy my ey Hy] H; try (split; reflexivity); try destruct sx; try destruct sy; discriminate H. Qed.

Lemma b_div_finite_l : forall x y : b64, is_finite (b_div x y) = true -> is_finite x = true.
Proof. intros [s|s| |s mm e He] [s'|s'| |s' m' e' He'] H; try reflexivity; discriminate H. Qed.

Lemma dxi_finite_bounds : forall S c, is_finite (m_dxi (mesh_build (A:=B) S c)) = true ->
  is_finite (mc_xi_in c) = true /\ is_finite (mc_xi_out c) = true.
Proof.
  intros S c H. cbn [m_dxi mesh_build B64n ndiv nsub] in H.
  apply b_div_finite_l, b_sub_finite in H. tauto.
Qed.

Lemma west_edge_exact : forall S c, 3 <= S -> is_finite (m_dxi (mesh_build (A:=B) S c)) = true ->
  nth 2 (m_xi_west (mesh_build (A:=B) S c)) B754_nan = mc_xi_in c \/
  (mc_xi_in c = B754_zero true /\ nth 2 (m_xi_west (mesh_build (A:=B) S c)) B754_nan = B754_zero false).
Proof.
  intros S c HS H.
  destruct (mesh_lengths B S c) as (_ & L & _).
  rewrite (@nth_indep (nF B) _ 2 B754_nan (n0 B) (eq_ind_r (lt 2) HS L)).
  change (nth 2 ?l (n0 B)) with (at1 (n0 B) l 2). rewrite mesh_west_at by lia.
  change (nZ B (Z.of_nat 2 - 2)) with (B754_zero false : b64).
  cbn [nmul nadd B64n].
  destruct (b_mul_zero _ H) as [s Hs]. rewrite Hs. apply b_add_zero_r.
  apply (dxi_finite_bounds S c H).
Qed.

Lemma b_recip_zero : forall s, is_finite (nrecip B (B754_zero s)) = false.
Proof. intros []; reflexivity. Qed.

Lemma mesh_arrays_zero : forall S c i s, 4 <= S -> i < S ->
  (at1 (n0 B) (m_xi_west (mesh_build S c)) i = B754_zero s \/
   at1 (n0 B) (m_xi_cent (mesh_build S c)) i = B754_zero s \/
   at1 (n0 B) (m_xi_east (mesh_build S c)) i = B754_zero s) ->
  mesh_new (A:=B) true S c = Err ENonFinite.
Proof.
  intros S c i s HS Hi H. unfold mesh_new. destruct (Nat.ltb_spec S 4); [lia|].
  assert (HV : mesh_validate (mesh_build (A:=B) S c) <> Ok tt).
  { intros HV. apply mesh_validate_ok in HV. destruct HV as (_ & _ & _ & HV).
    destruct (mesh_lengths B S c) as (L1 & L2 & L3 & L4 & L5 & L6).
    assert (Hx : exists v, (v = m_xi_west_inv (mesh_build (A:=B) S c) \/ v = m_xi_cent_inv (mesh_build (A:=B) S c)
               \/ v = m_xi_east_inv (mesh_build (A:=B) S c)) /\ is_finite (at1 (n0 B) v i) = false /\ length v = S).
    { destruct H as [H|[H|H]].
      - exists (m_xi_west_inv (mesh_build (A:=B) S c)). split; [auto|]. split; [|assumption].
        rewrite mesh_west_inv_at by assumption. rewrite H. apply b_recip_zero.
      - exists (m_xi_cent_inv (mesh_build (A:=B) S c)). split; [auto|]. split; [|assumption].
        rewrite mesh_cent_inv_at by assumption. rewrite H. apply b_recip_zero.
      - exists (m_xi_east_inv (mesh_build (A:=B) S c)). split; [auto|]. split; [|assumption].
        cbn [m_xi_east_inv m_xi_east mesh_build] in *.
        rewrite at1_map with (dx := n0 B) by (rewrite map_length, length_tab; assumption).
        rewrite H. apply b_recip_zero. }
    destruct Hx as (v & Hv & Hf & Hl).
    assert (Ha : In (at1 (n0 B) v i) v) by (apply nth_In; lia).
    assert (Hm : In v (mesh_arrays (mesh_build (A:=B) S c))).
    { destruct Hv as [-> | [-> | ->]]; unfold mesh_arrays; cbn [In]; repeat (first [left; reflexivity|right]). }
    specialize (HV v Hm _ Ha). cbn [nfin B64n] in HV. congruence. }
  unfold mesh_validate in *.
  repeat match goal with
  | |- context [ensure ?b _] => destruct b; cbn [ensure bind] in *; try reflexivity
  end.
  contradiction HV. reflexivity.
Qed.

Lemma dxi_not_finite_err : forall S c, 4 <= S -> is_finite (m_dxi (mesh_build (A:=B) S c)) = false ->
  mesh_new (A:=B) true S c = Err ENonFinite.
Proof.
  intros S c HS H. unfold mesh_new. destruct (Nat.ltb_spec S 4); [lia|].
  unfold mesh_validate. cbn [nfin B64n] in *. rewrite H. reflexivity.
Qed.

Lemma origin_rejected : forall S (c : mesh_config B) s, 4 <= S -> mc_xi_in c = B754_zero s ->
  mesh_new (A:=B) true S c = Err ENonFinite.
Proof.
  intros S c s HS H. destruct (is_finite (m_dxi (mesh_build (A:=B) S c))) eqn:E.
  - destruct (west_edge_exact S c ltac:(lia) E) as [Hw|[_ Hw]].
    + apply (mesh_arrays_zero S c 2 s); [assumption|lia|]. left. rewrite H in Hw.
      destruct (mesh_lengths B S c) as (_ & L & _).
      rewrite (@nth_indep (nF B) _ 2 B754_nan (n0 B) (eq_ind_r (lt 2) (Nat.lt_le_trans 2 4 S ltac:(lia) HS) L)) in Hw. exact Hw.
    + apply (mesh_arrays_zero S c 2 false); [assumption|lia|]. left.
      destruct (mesh_lengths B S c) as (_ & L & _).
      rewrite (@nth_indep (nF B) _ 2 B754_nan (n0 B) (eq_ind_r (lt 2) (Nat.lt_le_trans 2 4 S ltac:(lia) HS) L)) in Hw. exact Hw.
  - apply dxi_not_finite_err; assumption.
Qed.

Lemma no_cells_rejected : forall c, mesh_new (A:=B) true 4 c = Err ENonFinite.
Proof.
  intros c. apply dxi_not_finite_err; [lia|].
  cbn [m_dxi mesh_build B64n ndiv nsub]. change (nZ _ (Z.of_nat (4 - 2 * 2))) with (B754_zero false : b64).
  destruct (b_sub (mc_xi_out c) (mc_xi_in c)); reflexivity.
Qed.
End Dbl.

Lemma accepted_mesh_finite : forall A S c (m : mesh A), mesh_new true S c = Ok m ->
  nfin A (m_dxi m) = true /\ Forall (Forall (fun x => nfin A x = true)) (mesh_geometry m).
Proof.
  intros A S c m H. apply mesh_new_Ok in H. destruct H as (_ & _ & H). specialize (H eq_refl).
  apply mesh_validate_ok in H. destruct H as (H1 & _ & _ & H4). split; [assumption|].
  apply Forall_forall. intros v Hv. apply Forall_forall. apply H4. exact Hv.
Qed.

(** ** Helpers for concrete computations: values are compared without their
    proofs of boundedness. *)
Lemma b_eq_by : forall x y : b64, B2SF x = B2SF y -> x = y.
Proof. intros x y H. apply B2SF_inj. exact H. Qed.
Lemma b_ne_by : forall x y : b64, B2SF x <> B2SF y -> x <> y.
Proof. intros x y H Heq. apply H. rewrite Heq. reflexivity. Qed.
Lemma mesh_new_by : forall A S (c : mesh_config A), 4 <= S -> mesh_validate (mesh_build S c) = Ok tt ->
  mesh_new true S c = Ok (mesh_build S c).
Proof. intros A S c HS H. unfold mesh_new. destruct (Nat.ltb_spec S 4); [lia|]. rewrite H. reflexivity. Qed.
