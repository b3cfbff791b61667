(** Properties C13 - C17: boundary conditions. *)

From Coq Require Import Reals ZArith QArith List String Lra Lia.
From Flocq Require Import Core BinarySingleNaN.
From Verif Require Import Base Num XReal B64 Config Mesh State Spec ConfigProofs MeshProofs BoundaryProofs.
Import ListNotations.
Local Open Scope nat_scope.

(** C13: in every arithmetic, whatever changes is a ghost cell of the own side
    in a listed row of [prim]. *)
Theorem C13_only_ghost_cells : forall A s p S (m : mesh A) l v v', 5 <= S ->
  bc_apply s p S m l v = Ok v' ->
  cons v' = cons v /\ c_sound v' = c_sound v /\ eigen_vals v' = eigen_vals v /\ flux v' = flux v /\
  gamma v' = gamma v /\ zero_vec v' = zero_vec v /\
  (shape (nE p) S (prim v) -> shape (nE p) S (prim v')) /\
  forall j i, at2 (n0 A) (prim v') j i <> at2 (n0 A) (prim v) j i ->
    (exists md, In (j, md) l) /\ (i = ghost_cell s S 1 \/ i = ghost_cell s S 2).
Proof. exact bc_frame_changed. Qed.
Print Assumptions C13_only_ghost_cells.

(** Example: a list with a duplicate and an omission; the call succeeds and
    changes a ghost cell. *)
Example C13_example : forall bln bexp, let A := B64n bln bexp in
  exists v', bc_apply East Adiab 8 (mesh_build 8 (dom34 A)) [(2, Extrapolate); (0, Reflecting); (2, NoGradients)] (ramp A Adiab 8) = Ok v' /\
  at2 (n0 A) (prim v') 2 7 = at2 (n0 A) (prim v') 2 5 /\
  at2 (n0 A) (prim v') 2 7 <> at2 (n0 A) (prim (ramp A Adiab 8)) 2 7.
Proof.
  intros bln bexp A. eexists. split; [unfold bc_apply; cbn [apply_modes nE Nat.ltb Nat.leb bind]; reflexivity|].
  split; [apply b_eq_by; vm_compute; reflexivity|]. apply b_ne_by. vm_compute. discriminate.
Qed.

(** C14: the value of both ghost cells for every mode, decided by the last
    entry for the equation ([l2] has no entry for [j]).  The Kepler modes need
    positive coordinates. *)
Theorem C14_ghost_values : forall S md0 a b validation m s p l v v' j md l1 l2 k a0 a1 x0 xk,
  6 <= S -> mesh_new (A:=XRn) validation S (mkMC (A:=XRn) md0 (Fin a) (Fin b)) = Ok m ->
  shape (nE p) S (prim v) ->
  bc_apply s p S m l v = Ok v' ->
  l = l1 ++ (j, md) :: l2 -> ~ In j (map fst l2) -> k = 1 \/ k = 2 ->
  at2 (n0 XRn) (prim v) j (inner_cell s S 0) = Fin a0 ->
  at2 (n0 XRn) (prim v) j (inner_cell s S 1) = Fin a1 ->
  at1 (n0 XRn) (m_xi_cent m) (inner_cell s S 0) = Fin x0 ->
  at1 (n0 XRn) (m_xi_cent m) (ghost_cell s S k) = Fin xk ->
  (md = ExtrapolateDensityKepler \/ md = ExtrapolateEtaVelocityKepler ->
     forall i, i < S -> exists x, at1 (n0 XRn) (m_xi_cent m) i = Fin x /\ (0 < x)%R) ->
  at2 (n0 XRn) (prim v') j (ghost_cell s S k) = Fin (ghost_value s md k a0 a1 x0 xk).
Proof. exact bc_ghost_values. Qed.
Print Assumptions C14_ghost_values.

(** Example: the hypotheses hold for the ramp on 8 cells of the domain [1,2]
    (cell width 1/4), where even the ghost cells have positive coordinates. *)
Example C14_example : let S := 8 in let m := mesh_build (A:=XRn) S (mkMC (A:=XRn) Cartesian (Fin 1) (Fin 2)) in
  mesh_new (A:=XRn) false S (mkMC (A:=XRn) Cartesian (Fin 1) (Fin 2)) = Ok m /\
  shape (nE Adiab) S (prim (ramp XRn Adiab S)) /\
  (exists v', bc_apply West Adiab S m [(0, ExtrapolateDensityKepler); (1, Reflecting); (2, NearZero)] (ramp XRn Adiab S) = Ok v') /\
  at2 (n0 XRn) (prim (ramp XRn Adiab S)) 0 (inner_cell West S 0) = Fin 3 /\
  at2 (n0 XRn) (prim (ramp XRn Adiab S)) 0 (inner_cell West S 1) = Fin 4 /\
  (forall i, i < S -> exists x, at1 (n0 XRn) (m_xi_cent m) i = Fin x /\ (0 < x)%R).
Proof.
  intros S m. split; [reflexivity|]. split; [apply shape_mtab|].
  split; [eexists; reflexivity|]. split; [reflexivity|]. split; [reflexivity|].
  intros i Hi. eexists. split.
  - apply mesh_cent_R; subst S; lia.
  - pose proof (pos_INR i). unfold hx. subst S. cbn [Nat.sub INR]. lra.
Qed.

(** C15 *)
Theorem C15_idempotent : forall A s p S (m : mesh A) l v v', 6 <= S -> shape (nE p) S (prim v) ->
  bc_apply s p S m l v = Ok v' -> bc_apply s p S m l v' = Ok v'.
Proof. intros. eapply bc_idempotent; eauto; lia. Qed.
Print Assumptions C15_idempotent.

Theorem C15_order_irrelevant : forall A p S (m : mesh A) lw le v vw ve, 6 <= S -> shape (nE p) S (prim v) ->
  bc_apply West p S m lw v = Ok vw -> bc_apply East p S m le v = Ok ve ->
  bc_apply East p S m le vw = bc_apply West p S m lw ve.
Proof. exact bc_commute. Qed.
Print Assumptions C15_order_irrelevant.

(** With one computational cell the order matters. *)
Theorem C15_one_cell_refuted : forall bln bexp, let A := B64n bln bexp in
  exists (m : mesh A) lw le v vw ve vwe vew,
    mesh_new true 5 (dom34 A) = Ok m /\ shape (nE Isot) 5 (prim v) /\
    bc_apply West Isot 5 m lw v = Ok vw /\ bc_apply East Isot 5 m le v = Ok ve /\
    bc_apply East Isot 5 m le vw = Ok vwe /\ bc_apply West Isot 5 m lw ve = Ok vew /\
    at2 (n0 A) (prim vwe) 0 1 <> at2 (n0 A) (prim vew) 0 1.
Proof.
  intros bln bexp A.
  exists (mesh_build 5 (dom34 A)), [(0, Extrapolate)], [(0, NoGradients)], (ramp A Isot 5).
  do 4 eexists. split; [apply mesh_new_by; [lia|vm_compute; reflexivity]|]. split; [apply shape_mtab|].
  split; [unfold bc_apply; cbn [apply_modes nE Nat.ltb Nat.leb bind]; reflexivity|].
  split; [unfold bc_apply; cbn [apply_modes nE Nat.ltb Nat.leb bind]; reflexivity|].
  split; [unfold bc_apply; cbn [apply_modes nE Nat.ltb Nat.leb bind]; reflexivity|].
  split; [unfold bc_apply; cbn [apply_modes nE Nat.ltb Nat.leb bind]; reflexivity|].
  apply b_ne_by. vm_compute. discriminate.
Qed.
Print Assumptions C15_one_cell_refuted.

Example C15_example : forall bln bexp, let A := B64n bln bexp in
  shape (nE Adiab) 6 (prim (ramp A Adiab 6)) /\
  (exists v', bc_apply West Adiab 6 (mesh_build 6 (dom34 A)) [(1, Extrapolate); (0, NearZero)] (ramp A Adiab 6) = Ok v') /\
  (exists v', bc_apply East Adiab 6 (mesh_build 6 (dom34 A)) [(1, Extrapolate); (2, Reflecting)] (ramp A Adiab 6) = Ok v').
Proof.
  intros bln bexp A. split; [apply shape_mtab|].
  split; eexists; unfold bc_apply; cbn [apply_modes nE Nat.ltb Nat.leb bind]; reflexivity.
Qed.

(** C16: inward flow meets a wall, outward flow an open boundary. *)
Theorem C16_outflow : forall s p S (m : mesh XRn) v j a0, 5 <= S ->
  at2 (n0 XRn) (prim v) j (inner_cell s S 0) = Fin a0 ->
  (points_inward s a0 ->
     bc_apply s p S m [(j, OutflowNoGradients)] v = bc_apply s p S m [(j, Reflecting)] v /\
     bc_apply s p S m [(j, OutFlowExtrapolate)] v = bc_apply s p S m [(j, Reflecting)] v) /\
  (~ points_inward s a0 ->
     bc_apply s p S m [(j, OutflowNoGradients)] v = bc_apply s p S m [(j, NoGradients)] v /\
     bc_apply s p S m [(j, OutFlowExtrapolate)] v = bc_apply s p S m [(j, Extrapolate)] v).
Proof. exact outflow_modes. Qed.
Print Assumptions C16_outflow.

(** The same for doubles, where the sign bit decides (so negative zero counts
    as flow to the left). *)
Theorem C16_outflow_b64 : forall bln bexp s p S (m : mesh (B64n bln bexp)) v j, 5 <= S ->
  let sign := Bsign (at2 (n0 (B64n bln bexp)) (prim v) j (inner_cell s S 0) : b64) in
  let inward := match s with West => sign = false | East => sign = true end in
  (inward ->
     bc_apply s p S m [(j, OutflowNoGradients)] v = bc_apply s p S m [(j, Reflecting)] v /\
     bc_apply s p S m [(j, OutFlowExtrapolate)] v = bc_apply s p S m [(j, Reflecting)] v) /\
  (~ inward ->
     bc_apply s p S m [(j, OutflowNoGradients)] v = bc_apply s p S m [(j, NoGradients)] v /\
     bc_apply s p S m [(j, OutFlowExtrapolate)] v = bc_apply s p S m [(j, Extrapolate)] v).
Proof. exact outflow_modes_b64. Qed.
Print Assumptions C16_outflow_b64.

(** The documentation says "Reflects outgoing flow, and applies NoGradients to
    incoming flow".  Both halves are false for every non-zero value. *)
Theorem C16_documented_refuted : forall s S (m : mesh XRn) p v v' j a0 md0 a b,
  6 <= S -> m = mesh_build (A:=XRn) S (mkMC (A:=XRn) md0 (Fin a) (Fin b)) ->
  shape (nE p) S (prim v) -> a0 <> 0%R ->
  at2 (n0 XRn) (prim v) j (inner_cell s S 0) = Fin a0 ->
  bc_apply s p S m [(j, OutflowNoGradients)] v = Ok v' ->
  (~ points_inward s a0 -> at2 (n0 XRn) (prim v') j (ghost_cell s S 1) <> Fin (- a0)) /\
  (points_inward s a0 -> at2 (n0 XRn) (prim v') j (ghost_cell s S 1) <> Fin a0).
Proof.
  intros s S m p v v' j a0 md0 a b HS Hm Hsh Hne H0 H.
  apply bc_apply_Ok in H. destruct H as (q & Hq & ->). cbn [prim set_prim].
  assert (HS5 : 5 <= S) by lia.
  rewrite (apply_modes_ghost _ _ _ _ _ _ _ _ j 1 [] OutflowNoGradients [] HS5 Hsh Hq eq_refl ltac:(cbn; tauto) ltac:(auto)).
  unfold Gval. rewrite H0. cbn [Nat.sub Nat.eqb]. rewrite H0.
  destruct s; cbn [npos XRn xpos points_inward]; destruct (Rle_dec 0 a0); cbn [negb];
    split; intros Hi HF; try lra; try (rewrite X_Z, X_mul in HF); injection HF; lra.
Qed.
Print Assumptions C16_documented_refuted.

Example C16_example :
  ~ points_inward East 3 /\ points_inward West 3 /\
  at2 (n0 XRn) (prim (ramp XRn Adiab 8)) 1 (inner_cell West 8 0) = Fin 3 /\
  shape (nE Adiab) 8 (prim (ramp XRn Adiab 8)) /\
  exists v', bc_apply West Adiab 8 (mesh_build (A:=XRn) 8 (mkMC (A:=XRn) Cartesian (Fin 1) (Fin 2)))
               [(1, OutflowNoGradients)] (ramp XRn Adiab 8) = Ok v'.
Proof.
  split; [cbn; lra|]. split; [cbn; lra|]. split; [reflexivity|]. split; [apply shape_mtab|].
  eexists; reflexivity.
Qed.

(** C17 *)
Theorem C17_panic_iff : forall A s p S (m : mesh A) l v,
  (bc_apply s p S m l v = Panic <-> exists j md, In (j, md) l /\ nE p <= j) /\
  ((exists v', bc_apply s p S m l v = Ok v') <-> forall j md, In (j, md) l -> j < nE p).
Proof. exact bc_panic_iff. Qed.
Print Assumptions C17_panic_iff.

Theorem C17_no_gradients_total : forall A s p S (m : mesh A) v,
  exists v', bc_apply s p S m (init_bc BNoGradients (nE p)) v = Ok v' /\
  (forall j md, In (j, md) (init_bc BNoGradients (nE p)) <-> md = NoGradients /\ j < nE p).
Proof.
  intros A s p S m v.
  destruct (proj2 (proj2 (bc_panic_iff A s p S m (init_bc BNoGradients (nE p)) v))) as [v' Hv'].
  - intros j md H. apply init_bc_no_gradients in H. tauto.
  - exists v'. split; [assumption|]. intros; apply init_bc_no_gradients.
Qed.
Print Assumptions C17_no_gradients_total.

(** Validation accepts a configuration whose boundary list panics. *)
Theorem C17_not_validated : forall bln bexp, let A := B64n bln bexp in
  exists c : config A, cf_validate c = Ok tt /\
    forall S (m : mesh A) v, bc_apply West Adiab S m (init_bc (cf_bc_west c) (nE Adiab)) v = Panic.
Proof.
  intros bln bexp A.
  set (d := default_riemann_test A THll 3 (b_ofZ 1) "out"%string "sod"%string).
  exists (mkCfg (A:=A) false (cf_mesh d) (cf_physics d) (BCustom [(0, NoGradients); (3, Reflecting)]) BNoGradients
                (cf_numerics d) 1%N []).
  split; [vm_compute; reflexivity|].
  intros S m v. apply bc_panic_iff. exists 3, Reflecting. cbn. auto.
Qed.
Print Assumptions C17_not_validated.
