(** Properties C04, C05 and C06: the mesh. *)

From Coq Require Import Reals ZArith QArith List Lra Lia.
From Flocq Require Import Core BinarySingleNaN.
From Verif Require Import Base Num XReal B64 Config Mesh Spec ConfigProofs MeshProofs MeshAccept MeshB64.
Import ListNotations.
Local Open Scope R_scope.

(** C04: [x i] is the position of face [i]; cell [i] lies between the faces
    [i] and [i + 1]. *)
Theorem C04_mesh_tiles_domain : forall validation S md a b m, (5 <= S)%nat -> a < b ->
  mesh_new (A:=XRn) validation S (mkMC (A:=XRn) md (Fin a) (Fin b)) = Ok m ->
  m_n_all m = S /\ m_n_comp m = (S - 4)%nat /\ m_ixi_in m = 2%nat /\ m_ixi_out m = (S - 3)%nat /\
  length (m_xi_west m) = S /\ length (m_xi_cent m) = S /\ length (m_xi_east m) = S /\
  exists x : nat -> R,
    (forall i, (i < S)%nat ->
       nth i (m_xi_west m) XNaN = Fin (x i) /\ nth i (m_xi_east m) XNaN = Fin (x (i + 1)%nat) /\
       nth i (m_xi_cent m) XNaN = Fin ((x i + x (i + 1)%nat) / 2) /\
       nth i (m_cell_width m) XNaN = Fin (x (i + 1)%nat - x i)) /\
    x 2%nat = a /\ x (S - 2)%nat = b /\
    (forall i, x i < x (i + 1)%nat) /\ (forall i k, x (i + 1)%nat - x i = x (k + 1)%nat - x k).
Proof. exact mesh_tiles. Qed.
Print Assumptions C04_mesh_tiles_domain.

(** Without the validation feature a mesh is always returned, so C04 covers
    every domain; with the feature the domain [1,2] is accepted, too. *)
Theorem C04_mesh_total : forall A S (c : mesh_config A), (5 <= S)%nat -> exists m, mesh_new false S c = Ok m.
Proof.
  intros A S c HS. unfold mesh_new. destruct (Nat.ltb_spec S 4); [lia|]. eexists; reflexivity.
Qed.
Print Assumptions C04_mesh_total.

(** C05: the west face of the first computational cell is the double [xi_in]
    itself (only the sign of a negative zero is lost). *)
Theorem C05_west_edge_exact : forall bln bexp validation S c m,
  mesh_new (A:=B64n bln bexp) validation S c = Ok m -> is_finite (m_dxi m : b64) = true ->
  nth 2 (m_xi_west m) B754_nan = mc_xi_in c \/
  (mc_xi_in c = B754_zero true /\ nth 2 (m_xi_west m) B754_nan = B754_zero false).
Proof.
  intros bln bexp validation S c m H Hf.
  destruct (mesh_new_Ok _ _ _ _ _ H) as (HS & -> & _).
  apply west_edge_exact; [lia|exact Hf].
Qed.
Print Assumptions C05_west_edge_exact.

(** Non-vacuity of C04 and C05: 0.1 and 0.7 are not binary fractions; the
    mesh with 6 cells between them passes validation. *)
Definition dom_b (bln bexp : b64 -> b64) : mesh_config (B64n bln bexp) :=
  mkMC (A:=B64n bln bexp) Cartesian (b_div (b_ofZ 1) (b_ofZ 10)) (b_div (b_ofZ 7) (b_ofZ 10)).
Example C05_example : forall bln bexp,
  mc_validate (dom_b bln bexp) = Ok tt /\
  mesh_new true 10 (dom_b bln bexp) = Ok (mesh_build 10 (dom_b bln bexp)) /\
  is_finite (m_dxi (mesh_build 10 (dom_b bln bexp)) : b64) = true.
Proof.
  intros bln bexp. split; [vm_compute; reflexivity|]. split; [|vm_compute; reflexivity].
  apply mesh_new_by; [lia|vm_compute; reflexivity].
Qed.

(** C06 *)
Theorem C06_accepted_is_finite : forall A S c (m : mesh A), mesh_new true S c = Ok m ->
  nfin A (m_dxi m) = true /\ Forall (Forall (fun x => nfin A x = true)) (mesh_geometry m).
Proof. exact accepted_mesh_finite. Qed.
Print Assumptions C06_accepted_is_finite.

Theorem C06_origin_rejected : forall bln bexp S (c : mesh_config (B64n bln bexp)) s, (5 <= S)%nat -> mc_xi_in c = B754_zero s ->
  mesh_new (A:=B64n bln bexp) true S c = Err ENonFinite.
Proof. intros. eapply origin_rejected; eauto. lia. Qed.
Print Assumptions C06_origin_rejected.

(** more generally: no face and no centre may be at the origin *)
Theorem C06_zero_coordinate_rejected : forall bln bexp S c i s, (4 <= S)%nat -> (i < S)%nat ->
  (at1 (n0 (B64n bln bexp)) (m_xi_west (mesh_build S c)) i = B754_zero s \/
   at1 (n0 (B64n bln bexp)) (m_xi_cent (mesh_build S c)) i = B754_zero s \/
   at1 (n0 (B64n bln bexp)) (m_xi_east (mesh_build S c)) i = B754_zero s) ->
  mesh_new (A:=B64n bln bexp) true S c = Err ENonFinite.
Proof. exact mesh_arrays_zero. Qed.
Print Assumptions C06_zero_coordinate_rejected.

(** a mesh without computational cells is rejected, too *)
Theorem C06_no_cells_rejected : forall bln bexp c, mesh_new (A:=B64n bln bexp) true 4 c = Err ENonFinite.
Proof. exact no_cells_rejected. Qed.
Print Assumptions C06_no_cells_rejected.

(** In exact arithmetic this is the only obstacle: a domain passes exactly if
    no face ([k] even) and no centre ([k] odd) of a cell, ghost cells included,
    has the coordinate zero. *)
Theorem C06_accepted_exactly : forall S md a b, (5 <= S)%nat -> (a < b)%R ->
  ((exists m, mesh_new (A:=XRn) true S (mkMC (A:=XRn) md (Fin a) (Fin b)) = Ok m) <->
   (forall k, (k <= 2 * S)%nat -> (a + (b - a) / INR (S - 4) * (INR k / 2 - 2) <> 0)%R)).
Proof.
  intros S md a b HS Hab. split.
  - intros (m & H) k Hk. destruct (accept_only S md a b HS m H) as (_ & Z). unfold hx in Z.
    destruct (Nat.Even_or_Odd k) as [(n & ->)|(n & ->)]; [destruct (Nat.eq_dec n S) as [->|Hn]|].
    + destruct (Z (S - 1)%nat ltac:(lia)) as (_ & _ & Z1). assert (E1 : INR (S - 1) = INR S - 1) by (rewrite minus_INR by lia; reflexivity). rewrite E1 in Z1. rewrite mult_INR. cbn [INR].
      intro E. apply Z1. rewrite <- E. f_equal. f_equal. lra.
    + destruct (Z n ltac:(lia)) as (Z1 & _). rewrite mult_INR. cbn [INR]. intro E. apply Z1. rewrite <- E. f_equal. f_equal. lra.
    + destruct (Z n ltac:(lia)) as (_ & Z1 & _). rewrite plus_INR, mult_INR. cbn [INR]. intro E. apply Z1. rewrite <- E. f_equal. f_equal. lra.
  - intros Z. exists (mesh_build (A:=XRn) S (mkMC (A:=XRn) md (Fin a) (Fin b))). apply accept_if; [exact HS|exact Hab|]. intros i Hi. unfold hx.
    split; [|split].
    + pose proof (Z (2 * i)%nat ltac:(lia)) as Z1. rewrite mult_INR in Z1. cbn [INR] in Z1. intro E. apply Z1. rewrite <- E. f_equal. f_equal. lra.
    + pose proof (Z (2 * i + 1)%nat ltac:(lia)) as Z1. rewrite plus_INR, mult_INR in Z1. cbn [INR] in Z1. intro E. apply Z1. rewrite <- E. f_equal. f_equal. lra.
    + pose proof (Z (2 * (i + 1))%nat ltac:(lia)) as Z1. rewrite mult_INR, plus_INR in Z1. cbn [INR] in Z1. intro E. apply Z1. rewrite <- E. f_equal. f_equal. lra.
Qed.
Print Assumptions C06_accepted_exactly.
(** The default domain from 1 to 2 passes with 7 cells and fails with 6, whose
    westernmost face is at zero. *)
Example C06_accepted_example :
  (exists m, mesh_new (A:=XRn) true 7 (mkMC (A:=XRn) Cartesian (Fin 1) (Fin 2)) = Ok m) /\
  (~ exists m, mesh_new (A:=XRn) true 6 (mkMC (A:=XRn) Cartesian (Fin 1) (Fin 2)) = Ok m).
Proof.
  split.
  - apply C06_accepted_exactly; [lia|lra|]. intros k _ E. cbn [INR Nat.sub] in E.
    assert (E2 : (INR k * 1 = -2)%R) by lra. pose proof (pos_INR k). lra.
  - intros H. apply (proj1 (C06_accepted_exactly 6 Cartesian 1 2 ltac:(lia) ltac:(lra)) H 0%nat); [lia|]. cbn. lra.
Qed.

(** The rejected domain [0,1] passes configuration validation. *)
Example C06_example : forall bln bexp,
  let c := mkMC (A:=B64n bln bexp) Cartesian (b_ofZ 0) (b_ofZ 1) in
  mc_validate c = Ok tt /\ mc_xi_in c = B754_zero false /\
  exists m, mesh_new true 10 (dom_b bln bexp) = Ok m.
Proof.
  intros bln bexp c. split; [vm_compute; reflexivity|]. split; [vm_compute; reflexivity|].
  exists (mesh_build 10 (dom_b bln bexp)). exact (proj1 (proj2 (C05_example bln bexp))).
Qed.

(** C61: the coordinates of an accepted mesh in binary64 are in order: within a
    cell, the west face is before the east face and the centre is not outside;
    from cell to cell no coordinate decreases; every width is positive. *)
Theorem C61_order_b64 : forall bln bexp S c m, let B := B64n bln bexp in
  mc_validate c = Ok tt -> mesh_new (A:=B) true S c = Ok m ->
  let W i := B2R (at1 (n0 B) (m_xi_west m) i : b64) in
  let C i := B2R (at1 (n0 B) (m_xi_cent m) i : b64) in
  let E i := B2R (at1 (n0 B) (m_xi_east m) i : b64) in
  let D i := B2R (at1 (n0 B) (m_cell_width m) i : b64) in
  (forall i, (i < S)%nat -> W i <= C i <= E i /\ W i < E i /\ 0 < D i) /\
  (forall i k, (i <= k)%nat -> (k < S)%nat -> W i <= W k /\ C i <= C k /\ E i <= E k).
Proof.
  intros bln bexp S c m B V M W C E D.
  assert (L : B2R (mc_xi_in c : b64) <= B2R (mc_xi_out c : b64)).
  { destruct (mesh_new_Ok _ _ _ _ _ M) as (_ & -> & _). destruct (accepted_mesh_finite _ _ _ _ M) as (F & _).
    destruct (dxi_finite_bounds bln bexp S c F) as (F1 & F2). unfold mc_validate in V. cbn [nltb B64n B] in V.
    destruct (Bltb (mc_xi_in c) (mc_xi_out c)) eqn:Lb; [|discriminate V]. rewrite (Bltb_correct 53 1024) in Lb by assumption.
    destruct (Rlt_bool_spec (B2R (mc_xi_in c : b64)) (B2R (mc_xi_out c : b64))); [lra|discriminate Lb]. }
  split.
  - intros i Hi. apply (order_cell bln bexp S c m M L i Hi).
  - intros i k Hik Hk. apply (order_next bln bexp S c m M L i k Hik Hk).
Qed.
Print Assumptions C61_order_b64.

(** The faces of neighbouring cells, however, are computed separately and can
    differ, by a gap or an overlap: with the domain from 1 to 2 and 100 cells,
    the east face of cell 14 is not the west face of cell 15. *)
Theorem C61_shared_faces_refuted : forall bln bexp, let B := B64n bln bexp in
  let c := mkMC (A:=B) Cartesian (b_ofZ 1) (b_ofZ 2) in
  exists m, mc_validate c = Ok tt /\ mesh_new (A:=B) true 104 c = Ok m /\
    at1 (n0 B) (m_xi_east m) 14 <> at1 (n0 B) (m_xi_west m) 15.
Proof.
  intros bln bexp B c. exists (mesh_build 104 c). split; [vm_compute; reflexivity|]. split; [apply mesh_new_by; [lia|vm_compute; reflexivity]|].
  intros E. assert (X : Beqb (at1 (n0 B) (m_xi_east (mesh_build 104 c)) 14 : b64) (at1 (n0 B) (m_xi_west (mesh_build 104 c)) 15 : b64) = false) by (vm_compute; reflexivity).
  rewrite E in X. revert X. vm_compute. discriminate.
Qed.
Print Assumptions C61_shared_faces_refuted.
