(** C19: a uniform flow stays uniform, whatever the arithmetic does. *)

From Coq Require Import Reals ZArith NArith QArith List Bool Lia Lra.
From Flocq Require Import Core BinarySingleNaN.
From Verif Require Import Base Num XReal B64 Config Mesh State NumFlux Time Spec SpecFlow SpecStep SpecEuler SpecFlat
  PhysicsProofs FluxProofs UpdateProofs FluxThms StepInv StepEq EulerStep EulerThms FlatProofs Demo.
Import ListNotations.

(** HLL, both sides without gradients: after any number of calls of
    [next_solution], successful or not, with or without validation, the
    variables are the same in all cells if they were before.  This holds for
    every arithmetic, binary64 in particular. *)
Theorem C19_uniform_stays_uniform : forall (A : Num) p S (c : config A) (s s' : sim A (Hll A)),
  let m := mesh_build S (cf_mesh c) in
  (5 <= S)%nat -> cf_bc_west c = BNoGradients -> cf_bc_east c = BNoGradients ->
  reached p S c m (fun _ => True) s -> uniform_vars p S (cent (s_u s)) ->
  evolves p S m s s' -> uniform_vars p S (cent (s_u s')).
Proof.
  intros A p S c s s' m HS Bw Be Hr U He.
  pose proof (hll_memoryless A p S m HS (std_build A S (cf_mesh c))) as Hm.
  induction He as [s|s s1 s2 val fuel o He IH Hn|s s1 ts He IH]; [exact U| |exact (IH Hr U)].
  assert (R1 : reached p S c m (fun _ => True) s1).
  { destruct Hr as (u0 & s0 & P1 & P2 & P3 & P4). exists u0, s0. repeat match goal with |- _ /\ _ => split end; auto. eapply evolves_trans; [exact P4|exact He]. }
  destruct (reached_ok A (Hll A) p S m _ HS Hm c s1 R1) as (Hok & _ & _ & _ & B1 & B2). rewrite Bw in B1. rewrite Be in B2.
  apply solver_next_rkf in Hn. destruct Hn as (o' & Hn & _).
  eapply (flat_next A p S (cf_mesh c) HS); [exact Hok|exact B1|exact B2|exact (IH Hr U)|exact Hn].
Qed.
Print Assumptions C19_uniform_stays_uniform.

(** A uniform adiabatic flow in binary64 takes ten steps and is uniform (checked
    on the pressure of the first and last cell). *)
Example C19_example : forall bln bexp, let A := B64n bln bexp in
  demo_check (Hll A) true Adiab 8 (demo_cfg (A:=A) CHll SSPRK3 false 100 (nQ A (4 # 100)))
    (tube 4 (vals 1 (1 # 3) (7 # 10)) (vals 1 (1 # 3) (7 # 10)) bln bexp) 10
    (fun s => let q := prim (cent (s_u s)) in
       nleb A (at2 (n0 A) q 2 0) (at2 (n0 A) q 2 7) && nleb A (at2 (n0 A) q 2 7) (at2 (n0 A) q 2 0) &&
       nltb A (n0 A) (ts_t (s_ts s)))%bool = true.
Proof. intros. vm_compute. reflexivity. Qed.

(** ** Binary64: no spurious gradients *)
Lemma b_sub_self : forall x : b64, is_finite x = true -> exists sg, b_sub x x = B754_zero sg.
Proof.
  intros x Hx. pose proof (Bminus_correct 53 1024 Hp64 He64 mode_NE x x Hx Hx) as H.
  rewrite Rminus_diag_eq, round_0, Rabs_R0, Rlt_bool_true in H; [|apply bpow_gt_0|apply valid_rnd_round_mode|reflexivity].
  destruct H as (H1 & H2 & _). unfold b_sub. destruct (Bminus mode_NE x x) as [sg|sg| |sg mm e B]; try discriminate.
  - eauto.
  - exfalso. cbn in H1. apply eq_0_F2R in H1. destruct sg; discriminate.
Qed.

Lemma b_mul_zero : forall (x : b64) sg, is_finite x = true -> exists sg', b_mul x (B754_zero sg) = B754_zero sg'.
Proof. intros x sg Hx. destruct x as [s|s| |s mm e B]; try discriminate; cbn; eauto. Qed.

(** In binary64 the flux differences of a uniform state are exactly zero in
    every computational cell where the numerical flux and the mesh's inverse
    volume are finite. *)
Theorem C19_zero_flux_difference : forall bln bexp p S (c : mesh_config (B64n bln bexp)) validation
    (r r' : rhs (B64n bln bexp) (Hll (B64n bln bexp))) u u' o j i,
  let A := B64n bln bexp in
  let m := mesh_build (A:=A) S c in
  (5 <= S)%nat -> wss p S u -> uniform_vars p S (cent u) ->
  r_bw r = init_bc BNoGradients (nE p) -> r_be r = init_bc BNoGradients (nE p) ->
  rhs_update validation p S r u m = (r', u', o) ->
  (j < nE p)%nat -> (2 <= i <= S - 3)%nat ->
  nfin A (at2 (n0 A) (h_flux_num (r_nf r')) j i) = true -> nfin A (at1 (n0 A) (m_deta_dphi_d_volume m) i) = true ->
  exists sg, at2 (n0 A) (r_full r') j i = (B754_zero sg : b64).
Proof.
  intros bln bexp p S c val r r' u u' o j i A m HS Wu U Bw Be E Hj Hi Ff Fm.
  pose proof (flat_value A p S c HS val r u r' u' o j i Wu U Bw Be E Hj Hi) as Q.
  destruct (b_sub_self _ Ff) as (sg & Es). destruct (b_mul_zero _ sg Fm) as (sg' & Em).
  exists sg'. rewrite <- Em, <- Es. exact Q.
Qed.
Print Assumptions C19_zero_flux_difference.

(** The mesh and the fluxes of the example above are finite. *)
Example C19_zero_example : forall bln bexp, let A := B64n bln bexp in
  match demo (A:=A) (Hll A) Adiab 8 (demo_cfg (A:=A) CHll SSPRK3 false 100 (nQ A (4 # 100)))
     (tube 4 (vals 1 (1 # 3) (7 # 10)) (vals 1 (1 # 3) (7 # 10)) bln bexp) with
  | Ok s => match rhs_update false Adiab 8 (s_rhs s) (s_u s) (demo_mesh A 8) with
            | (r', _, Ok _) => all_fin2 (h_flux_num (r_nf r')) && all_fin (m_deta_dphi_d_volume (demo_mesh A 8))
            | _ => false end
  | _ => false end = true.
Proof. intros. vm_compute. reflexivity. Qed.
