(** The mesh in binary64: order of the coordinates. *)

From Coq Require Import Reals ZArith QArith List Lia Bool Lra.
From Flocq Require Import Core BinarySingleNaN.
From Verif Require Import Base Num XReal B64 Config Mesh Spec ConfigProofs MeshProofs.
Import ListNotations.
Local Open Scope R_scope.

Notation rnd := (round radix2 (SpecFloat.fexp 53 1024) (round_mode mode_NE)).

Lemma rnd_le : forall x y, x <= y -> rnd x <= rnd y.
Proof. intros x y H. apply round_le; [apply fexp_correct; reflexivity|apply valid_rnd_round_mode|exact H]. Qed.
Lemma rnd_0 : rnd 0 = 0.
Proof. apply round_0. apply valid_rnd_round_mode. Qed.
Lemma rnd_id : forall x : b64, rnd (B2R x) = B2R x.
Proof. intros x. apply round_generic; [apply valid_rnd_round_mode|apply generic_format_B2R]. Qed.

Lemma SF_inf : forall (z : b64) s, B2SF z = binary_overflow 53 1024 mode_NE s -> is_finite z = false.
Proof. intros z s H. destruct z, s; cbn in H; try discriminate; reflexivity. Qed.

Lemma b_add_val : forall x y : b64, is_finite (b_add x y) = true ->
  is_finite x = true /\ is_finite y = true /\ B2R (b_add x y) = rnd (B2R x + B2R y).
Proof.
  intros x y H. assert (Fx : is_finite x = true /\ is_finite y = true) by (unfold b_add in H; destruct x as [[]|[]| |[]], y as [[]|[]| |[]]; cbn in H; try discriminate; auto).
  destruct Fx as (Fx & Fy). repeat split; try assumption.
  pose proof (Bplus_correct 53 1024 Hp64 He64 mode_NE x y Fx Fy) as C.
  destruct (Rlt_bool _ _); [apply C|]. destruct C as (C & _). apply SF_inf in C. unfold b_add in H. congruence.
Qed.
Lemma b_sub_val : forall x y : b64, is_finite (b_sub x y) = true ->
  is_finite x = true /\ is_finite y = true /\ B2R (b_sub x y) = rnd (B2R x - B2R y).
Proof.
  intros x y H. destruct (b_sub_finite x y H) as (Fx & Fy). repeat split; try assumption.
  pose proof (Bminus_correct 53 1024 Hp64 He64 mode_NE x y Fx Fy) as C.
  destruct (Rlt_bool _ _); [apply C|]. destruct C as (C & _). apply SF_inf in C. unfold b_sub in H. congruence.
Qed.
Lemma b_mul_val : forall x y : b64, is_finite (b_mul x y) = true ->
  is_finite x = true /\ is_finite y = true /\ B2R (b_mul x y) = rnd (B2R x * B2R y).
Proof.
  intros x y H. assert (Fx : is_finite x = true /\ is_finite y = true) by (unfold b_mul in H; destruct x as [[]|[]| |[]], y as [[]|[]| |[]]; cbn in H; try discriminate; auto).
  destruct Fx as (Fx & Fy). repeat split; try assumption.
  pose proof (Bmult_correct 53 1024 Hp64 He64 mode_NE x y) as C.
  destruct (Rlt_bool _ _); [apply C|]. apply SF_inf in C. unfold b_mul in H. congruence.
Qed.
Lemma b_div_val : forall x y : b64, is_finite (b_div x y) = true -> is_finite y = true ->
  is_finite x = true /\ B2R y <> 0 /\ B2R (b_div x y) = rnd (B2R x / B2R y).
Proof.
  intros x y H Fy. pose proof (b_div_finite_l x y H) as Fx.
  assert (Ny : B2R y <> 0).
  { destruct y as [[]|[]| |s m e B]; try discriminate Fy; try (destruct x as [[]|[]| |[]]; discriminate H). intro E. apply eq_0_F2R in E. destruct s; discriminate E. }
  repeat split; try assumption.
  pose proof (Bdiv_correct 53 1024 Hp64 He64 mode_NE x y Ny) as C.
  destruct (Rlt_bool _ _); [apply C|]. apply SF_inf in C. unfold b_div in H. congruence.
Qed.
Lemma b_ofZ_val : forall z, is_finite (b_ofZ z) = true -> B2R (b_ofZ z) = rnd (IZR z).
Proof.
  intros z H. pose proof (binary_normalize_correct 53 1024 Hp64 He64 mode_NE z 0 false) as C.
  unfold F2R in C. cbn [Fnum Fexp bpow] in C. rewrite Rmult_1_r in C.
  destruct (Rlt_bool _ _); [apply C|]. apply SF_inf in C. unfold b_ofZ in H. congruence.
Qed.
Lemma b_div_inf : forall (x y : b64), is_finite (b_div x y) = true -> is_finite y = false -> B2R (b_div x y) = 0.
Proof. intros [[]|[]| |[]] [[]|[]| |[]] H F; try discriminate H; try discriminate F; reflexivity. Qed.

(** a width computed from a domain in the right order is not negative *)
Lemma dxi_nonneg : forall (a b : b64) n, is_finite (b_div (b_sub b a) (b_ofZ (Z.of_nat n))) = true -> B2R a <= B2R b ->
  0 <= B2R (b_div (b_sub b a) (b_ofZ (Z.of_nat n))).
Proof.
  intros a b n H L. destruct (is_finite (b_ofZ (Z.of_nat n))) eqn:F; [|rewrite b_div_inf by assumption; lra].
  destruct (b_div_val _ _ H F) as (Fs & N0 & E). rewrite E. destruct (b_sub_val _ _ Fs) as (_ & _ & Es). rewrite Es.
  rewrite b_ofZ_val in * by assumption. rewrite <- rnd_0. apply rnd_le.
  assert (0 <= rnd (IZR (Z.of_nat n))) by (rewrite <- rnd_0 at 1; apply rnd_le; apply (IZR_le 0); lia).
  assert (0 <= rnd (B2R b - B2R a)) by (rewrite <- rnd_0 at 1; apply rnd_le; lra).
  apply Rmult_le_pos; [assumption|]. apply Rlt_le, Rinv_0_lt_compat. lra.
Qed.

Section Order.
Variables bln bexp : b64 -> b64.
Notation B := (B64n bln bexp).
Variables (S : nat) (c : mesh_config B) (m : mesh B).
Hypothesis Hm : mesh_new true S c = Ok m.
Hypothesis Hc : B2R (mc_xi_in c : b64) <= B2R (mc_xi_out c : b64).

Notation W i := (at1 (n0 B) (m_xi_west m) i : b64).
Notation C i := (at1 (n0 B) (m_xi_cent m) i : b64).
Notation E i := (at1 (n0 B) (m_xi_east m) i : b64).
Notation D i := (at1 (n0 B) (m_cell_width m) i : b64).

Lemma acc_fin : forall v i, In v (mesh_geometry m) -> (i < length v)%nat -> is_finite (at1 (n0 B) v i : b64) = true.
Proof.
  intros v i Hv Hi. destruct (accepted_mesh_finite _ _ _ _ Hm) as (_ & F). rewrite Forall_forall in F. specialize (F v Hv).
  rewrite Forall_forall in F. apply F. apply nth_In. exact Hi.
Qed.

Lemma acc_eq : (4 <= S)%nat /\ m = mesh_build S c.
Proof. destruct (mesh_new_Ok _ _ _ _ _ Hm) as (H1 & H2 & _). auto. Qed.

Lemma half_val : B2R (b_div (b_ofZ 1) (b_ofZ 2)) = 1 / 2.
Proof. assert (X : b_div (b_ofZ 1) (b_ofZ 2) = Bldexp mode_NE Bone (-1)) by (apply b_eq_by; vm_compute; reflexivity). rewrite X. vm_compute. lra. Qed.

Lemma order_gen : 0 <= B2R (m_dxi m : b64) /\ 0 <= B2R (b_mul (b_div (b_ofZ 1) (b_ofZ 2)) (m_dxi m)) <= B2R (m_dxi m : b64).
Proof.
  destruct acc_eq as (HS & Em). destruct (accepted_mesh_finite _ _ _ _ Hm) as (F & _).
  assert (N : 0 <= B2R (m_dxi m : b64)) by (rewrite Em in *; cbn [m_dxi mesh_build B64n ndiv nsub nZ] in *; apply dxi_nonneg; assumption).
  split; [exact N|].
  assert (Fh : is_finite (b_mul (b_div (b_ofZ 1) (b_ofZ 2)) (m_dxi m)) = true).
  { assert (L : (0 < length (m_xi_cent m))%nat) by (rewrite Em; destruct (mesh_lengths B S c) as (L1 & _); rewrite L1; lia).
    pose proof (acc_fin (m_xi_cent m) 0%nat ltac:(left; reflexivity) L) as F0. rewrite Em in F0. rewrite mesh_cent_at in F0 by lia. rewrite <- Em in F0.
    apply b_add_val in F0. apply F0. }
  destruct (b_mul_val _ _ Fh) as (_ & _ & Eh). rewrite Eh, half_val.
  rewrite <- rnd_0 at 1. rewrite <- (rnd_id (m_dxi m)) at 3. split; apply rnd_le; lra.
Qed.

Lemma lens : length (m_xi_west m) = S /\ length (m_xi_cent m) = S /\ length (m_xi_east m) = S /\ length (m_cell_width m) = S /\ length (m_cell_width_inv m) = S.
Proof.
  destruct acc_eq as (HS & ->). cbn [mesh_build m_xi_west m_xi_cent m_xi_east m_cell_width m_cell_width_inv].
  repeat split; rewrite ?map_length; try (rewrite length_zipw); rewrite ?map_length; rewrite ?length_tab; reflexivity.
Qed.

Lemma fins : forall i, (i < S)%nat -> is_finite (W i) = true /\ is_finite (C i) = true /\ is_finite (E i) = true /\ is_finite (D i) = true /\
  is_finite (at1 (n0 B) (m_cell_width_inv m) i : b64) = true.
Proof.
  intros i Hi. destruct lens as (L1 & L2 & L3 & L4 & L5).
  repeat match goal with |- _ /\ _ => split end; apply acc_fin; try (unfold mesh_geometry, In; tauto);
    [rewrite L1|rewrite L2|rewrite L3|rewrite L4|rewrite L5]; exact Hi.
Qed.

Lemma order_cell : forall i, (i < S)%nat ->
  is_finite (W i) = true /\ is_finite (C i) = true /\ is_finite (E i) = true /\ is_finite (D i) = true /\
  B2R (W i) <= B2R (C i) <= B2R (E i) /\ B2R (W i) < B2R (E i) /\ 0 < B2R (D i).
Proof.
  intros i Hi. destruct (fins i Hi) as (F1 & F2 & F3 & F4 & F5). destruct order_gen as (N & H1 & H2). destruct acc_eq as (HS & Em).
  assert (EC : C i = b_add (W i) (b_mul (b_div (b_ofZ 1) (b_ofZ 2)) (m_dxi m))) by (rewrite Em; exact (mesh_cent_at B S c _ Hi)).
  assert (EE : E i = b_add (W i) (m_dxi m)) by (rewrite Em; exact (mesh_east_at B S c _ Hi)).
  assert (ED : D i = b_sub (E i) (W i)) by (rewrite Em; exact (mesh_width_at B S c _ Hi)).
  assert (EI : at1 (n0 B) (m_cell_width_inv m) i = nrecip B (D i)) by (rewrite Em; exact (mesh_width_inv_at B S c _ Hi)).
  assert (VC : B2R (C i) = rnd (B2R (W i) + B2R (b_mul (b_div (b_ofZ 1) (b_ofZ 2)) (m_dxi m)))) by (rewrite EC in *; apply b_add_val; assumption).
  assert (VE : B2R (E i) = rnd (B2R (W i) + B2R (m_dxi m : b64))) by (rewrite EE in *; apply b_add_val; assumption).
  assert (VD : B2R (D i) = rnd (B2R (E i) - B2R (W i))) by (rewrite ED in *; apply b_sub_val; assumption).
  assert (LW : B2R (W i) <= B2R (C i)) by (rewrite VC; rewrite <- (rnd_id (W i)) at 1; apply rnd_le; lra).
  assert (LC : B2R (C i) <= B2R (E i)) by (rewrite VC, VE; apply rnd_le; lra).
  assert (PD : 0 < B2R (D i)).
  { assert (0 <= B2R (D i)) by (rewrite VD; rewrite <- rnd_0 at 1; apply rnd_le; lra).
    destruct (Req_dec (B2R (D i)) 0) as [Z|]; [exfalso|lra].
    rewrite EI in F5. destruct (b_div_val _ _ F5 F4) as (_ & K & _). contradiction. }
  repeat split; try assumption. apply Rnot_le_lt. intros L. assert (X : rnd (B2R (E i) - B2R (W i)) <= rnd 0) by (apply rnd_le; lra). rewrite rnd_0 in X. lra.
Qed.

Lemma order_next : forall i k, (i <= k)%nat -> (k < S)%nat ->
  B2R (W i) <= B2R (W k) /\ B2R (C i) <= B2R (C k) /\ B2R (E i) <= B2R (E k).
Proof.
  intros i k Hik Hk. destruct (fins i ltac:(lia)) as (F1 & F2 & F3 & _). destruct (fins k Hk) as (G1 & G2 & G3 & _). destruct order_gen as (N & _). destruct acc_eq as (HS & Em).
  assert (EW : forall j, (j < S)%nat -> W j = b_add (mc_xi_in c) (b_mul (m_dxi m) (b_ofZ (Z.of_nat j - 2)))) by (intros j Hj; rewrite Em; exact (mesh_west_at B S c _ Hj)).
  assert (EC : forall j, (j < S)%nat -> C j = b_add (W j) (b_mul (b_div (b_ofZ 1) (b_ofZ 2)) (m_dxi m))) by (intros j Hj; rewrite Em; exact (mesh_cent_at B S c _ Hj)).
  assert (EE : forall j, (j < S)%nat -> E j = b_add (W j) (m_dxi m)) by (intros j Hj; rewrite Em; exact (mesh_east_at B S c _ Hj)).
  assert (LW : B2R (W i) <= B2R (W k)).
  { rewrite EW in F1, G1 |- * by lia. rewrite EW by lia.
    destruct (b_add_val _ _ F1) as (_ & Fi & ->). destruct (b_add_val _ _ G1) as (_ & Fk & ->). apply rnd_le, Rplus_le_compat_l.
    destruct (b_mul_val _ _ Fi) as (_ & Zi & ->). destruct (b_mul_val _ _ Fk) as (_ & Zk & ->). apply rnd_le, Rmult_le_compat_l; [exact N|].
    rewrite !b_ofZ_val by assumption. apply rnd_le, IZR_le. lia. }
  split; [exact LW|]. split.
  - rewrite EC in F2, G2 |- * by lia. rewrite (EC k) by lia. destruct (b_add_val _ _ F2) as (_ & _ & ->). destruct (b_add_val _ _ G2) as (_ & _ & ->). apply rnd_le. lra.
  - rewrite EE in F3, G3 |- * by lia. rewrite (EE k) by lia. destruct (b_add_val _ _ F3) as (_ & _ & ->). destruct (b_add_val _ _ G3) as (_ & _ & ->). apply rnd_le. lra.
Qed.
End Order.
