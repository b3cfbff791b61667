(** C77: conversion between primitive and conservative variables in
    binary64 arithmetic. *)

From Coq Require Import Reals ZArith NArith QArith Qreals List Bool Lia Lra String.
From Flocq Require Import Core BinarySingleNaN.
From Verif Require Import Base Num XReal B64 Config Mesh State NumFlux Time Writer Runner Spec SpecConv MeshProofs PhysicsProofs ConvB64 P_KtHealthy.
Import ListNotations.
Local Open Scope R_scope.

(** The density comes back as it was, the velocity with two roundings. *)
Theorem C77_density_velocity : forall bln bexp p S (v : vars (B64n bln bexp)) i,
  let A := B64n bln bexp in
  let q := at2 (n0 A) (prim v) in
  let q' := at2 (n0 A) (prim (update_prim p S (update_cons p S v))) in
  shape (nE p) S (prim v) -> shape (nE p) S (cons v) -> (i < S)%nat ->
  moderate (q 0%nat i) -> moderate0 (q 1%nat i) ->
  q' 0%nat i = q 0%nat i /\ is_finite (q' 1%nat i) = true /\
  Rabs (B2R (q' 1%nat i : b64) - B2R (q 1%nat i : b64)) <= (bpow radix2 (-52) + bpow radix2 (-106)) * Rabs (B2R (q 1%nat i : b64)).
Proof.
  intros bln bexp p S v i A q q' Hp Hc Hi Mr Mx.
  pose proof (nE_pos p) as HE.
  destruct (update_cons_fields (B64n bln bexp) p S v) as (E1 & _ & _ & _ & E5 & _).
  assert (E0 : q' 0%nat i = q 0%nat i).
  { unfold q'. rewrite (update_prim_at (B64n bln bexp)) by (first [rewrite E1; exact Hp | exact Hi | destruct p; cbn; lia]).
    destruct p; unfold c2p, adiab_cons_to_prim, isot_cons_to_prim; cbn [fst snd]; rewrite (update_cons_at (B64n bln bexp)) by (cbn; auto; lia); reflexivity. }
  split; [exact E0|].
  assert (E : q' 1%nat i = b_div (b_mul (q 1%nat i) (q 0%nat i)) (q 0%nat i)).
  { unfold q'. rewrite (update_prim_at (B64n bln bexp)) by (first [rewrite E1; exact Hp | exact Hi | destruct p; cbn; lia]).
    destruct p; unfold c2p, adiab_cons_to_prim, isot_cons_to_prim; cbn [fst snd]; rewrite !(update_cons_at (B64n bln bexp)) by (cbn; auto; lia); reflexivity. }
  rewrite E. apply velocity_b64; assumption.
Qed.
Print Assumptions C77_density_velocity.

(** The error of the pressure is a multiple of the rounding unit of pressure
    plus kinetic energy, not of the pressure. *)
Theorem C77_pressure : forall bln bexp S (v : vars (B64n bln bexp)) i,
  let A := B64n bln bexp in
  let q := at2 (n0 A) (prim v) in
  let q' := at2 (n0 A) (prim (update_prim Adiab S (update_cons Adiab S v))) in
  shape 3 S (prim v) -> shape 3 S (cons v) -> (i < S)%nat ->
  is_finite (gamma v : b64) = true -> 1 < B2R (gamma v : b64) <= bpow radix2 100 ->
  moderate (q 0%nat i) -> 0 < B2R (q 0%nat i : b64) -> moderate0 (q 1%nat i) -> moderate (q 2%nat i) -> 0 < B2R (q 2%nat i : b64) ->
  is_finite (q' 2%nat i) = true /\
  Rabs (B2R (q' 2%nat i : b64) - B2R (q 2%nat i : b64)) <=
    bpow radix2 (-49) * stiffness (B2R (gamma v : b64)) (B2R (q 0%nat i : b64)) (B2R (q 1%nat i : b64)) (B2R (q 2%nat i : b64)).
Proof.
  intros bln bexp S v i A q q' Hp Hc Hi Fg Hg Mr Pr Mx Mq Pq.
  destruct (update_cons_fields (B64n bln bexp) Adiab S v) as (E1 & _ & _ & _ & E5 & _).
  pose proof (pressure_b64 (gamma v) (q 0%nat i) (q 1%nat i) (q 2%nat i) Fg Hg Mr Pr Mx Mq Pq) as K. cbv zeta in K.
  match type of K with is_finite ?x = true /\ _ => assert (E : q' 2%nat i = x) end; [|rewrite E; exact K].
  unfold q'. rewrite (update_prim_at (B64n bln bexp)) by (rewrite ?E1; cbn; auto; lia). rewrite E5.
  unfold c2p, adiab_cons_to_prim, isot_cons_to_prim; cbn [fst snd]. rewrite !(update_cons_at (B64n bln bexp)) by (cbn; auto; lia). reflexivity.
Qed.
Print Assumptions C77_pressure.

(** So a gas whose kinetic energy is not too much larger than its pressure
    keeps a positive pressure. *)
Theorem C77_pressure_positive : forall bln bexp S (v : vars (B64n bln bexp)) i,
  let A := B64n bln bexp in
  let q := at2 (n0 A) (prim v) in
  let q' := at2 (n0 A) (prim (update_prim Adiab S (update_cons Adiab S v))) in
  shape 3 S (prim v) -> shape 3 S (cons v) -> (i < S)%nat ->
  is_finite (gamma v : b64) = true -> 1 < B2R (gamma v : b64) <= bpow radix2 100 ->
  moderate (q 0%nat i) -> 0 < B2R (q 0%nat i : b64) -> moderate0 (q 1%nat i) -> moderate (q 2%nat i) -> 0 < B2R (q 2%nat i : b64) ->
  (B2R (gamma v : b64) - 1) * (B2R (q 0%nat i : b64) * (B2R (q 1%nat i : b64) * B2R (q 1%nat i : b64)) / 2) <= bpow radix2 48 * B2R (q 2%nat i : b64) ->
  0 < B2R (q' 2%nat i : b64).
Proof.
  intros bln bexp S v i A q q' Hp Hc Hi Fg Hg Mr Pr Mx Mq Pq Hm.
  destruct (C77_pressure bln bexp S v i Hp Hc Hi Fg Hg Mr Pr Mx Mq Pq) as (_ & K). unfold stiffness in K.
  set (P := B2R (q 2%nat i : b64)) in *. set (M := (B2R (gamma v : b64) - 1) * _) in *.
  assert (X : bpow radix2 (-49) * (P + M) <= bpow radix2 (-49) * (P + bpow radix2 48 * P)) by (apply Rmult_le_compat_l; [apply bpow_ge_0|lra]).
  replace (bpow radix2 (-49) * (P + bpow radix2 48 * P)) with (bpow radix2 (-49) * P + bpow radix2 (-49 + 48) * P) in X by (rewrite bpow_plus; ring).
  change (bpow radix2 (-49 + 48)) with (/ 2) in X.
  assert (Y : bpow radix2 (-49) < / 4) by (apply (bpow_lt radix2 (-49) (-2)); lia).
  assert (Z : bpow radix2 (-49) * P < / 4 * P) by (apply Rmult_lt_compat_r; lra).
  apply Rabs_le_inv in K. change (- (bpow radix2 (-49) * (P + M)) <= B2R (q' 2%nat i : b64) - P <= bpow radix2 (-49) * (P + M)) in K. lra.
Qed.
Print Assumptions C77_pressure_positive.

(** ** Without that hypothesis *)
Section Fast.
Variables bln bexp : b64 -> b64.
Let A := B64n bln bexp.

(** A uniform flow with density 3/10, velocity 8127427 and pressure 1/10000. *)
Definition fast_cfg : config A :=
  mkCfg false (mkMC (A:=A) Cartesian (nZ A 2) (nZ A 3)) (mkPC (A:=A) (nQ A (14 # 10)) SI) BNoGradients BNoGradients
    (mkNC (A:=A) CHll (mkRC (A:=A) RK1 false (nQ A (1 # 100)) (nQ A (1 # 1000)) (nQ A (8 # 100))) 100%N (n0 A) (nZ A 1)
       (nQ A (1 # 1000000000000000)) (nZ A 1000) (nQ A (1 # 10)))
    1%N [].

Definition fast_q (j i : nat) : nF A :=
  match j with
  | 0%nat => nQ A (3 # 10)
  | 1%nat => nZ A 8127427
  | _ => nQ A (1 # 10000)
  end.

Definition fast_init (N : numflux_impl A) (s : sim A N) (m : mesh A) : sim A N * res unit :=
  (mkSim (s_ts s) (set_cent (set_prim (mtab 3 6 fast_q) (cent (s_u s))) (s_u s)) (s_rk s) (s_rhs s), Ok tt).
End Fast.

Definition same_number (A : Num) (x y : nF A) : bool := nleb A x y && nleb A y x.

(** A uniform flow with positive density and pressure: all fluxes are equal,
    and yet the first step fails, because the pressure computed from the
    conservative variables is negative. *)
Theorem C77_fast_flow_b64_refuted : forall bln bexp w, let A := B64n bln bexp in
  exists w' k s',
    init_corries (N:=Hll A) true (fun _ => EmptyString) EmptyString [] (fast_init bln bexp (Hll A)) Adiab 6 (fast_cfg bln bexp) w = (w', Ok k) /\
    good_gas A 6 (cent (s_u (c_sim k))) = true /\
    (forall j i, (j < 3)%nat -> (i < 6)%nat -> same_number A (at2 (n0 A) (prim (cent (s_u (c_sim k)))) j i) (fast_q bln bexp j i) = true) /\
    solver_next true 1 Adiab 6 (c_mesh k) (c_sim k) = (s', Err ENonFinite) /\
    (forall i, (i < 6)%nat -> nltb A (at2 (n0 A) (prim (update_prim Adiab 6 (cent (s_u (c_sim k))))) 2 i) (n0 A) = true).
Proof.
  intros bln bexp w A.
  destruct (first_step_ok A (Hll A) Adiab 6 (fast_init bln bexp (Hll A)) (fast_cfg bln bexp) w
    (fun v v' o => good_gas A 6 v && forallb (fun j => forallb (fun i => same_number A (at2 (n0 A) (prim v) j i) (fast_q bln bexp j i)) (seq 0 6)) (seq 0 3) &&
       forallb (fun i => nltb A (at2 (n0 A) (prim (update_prim Adiab 6 v)) 2 i) (n0 A)) (seq 0 6) && match o with Err ENonFinite => true | _ => false end)%bool ltac:(vm_compute; reflexivity))
    as (w' & k & s' & o & H1 & H2 & H3).
  apply andb_true_iff in H3. destruct H3 as (H3 & H6). apply andb_true_iff in H3. destruct H3 as (H3 & H5). apply andb_true_iff in H3. destruct H3 as (H3 & H4).
  exists w', k, s'. split; [exact H1|]. split; [exact H3|]. split; [|split].
  - intros j i Hj Hi. rewrite forallb_forall in H4. specialize (H4 j ltac:(apply in_seq; lia)). rewrite forallb_forall in H4. exact (H4 i ltac:(apply in_seq; lia)).
  - rewrite H2. destruct o as [x|e| |]; try discriminate H6. destruct e; try discriminate H6. reflexivity.
  - intros i Hi. rewrite forallb_forall in H5. exact (H5 i ltac:(apply in_seq; lia)).
Qed.
Print Assumptions C77_fast_flow_b64_refuted.

(** ** A concrete gas *)
Ltac lit := vm_compute; lra.

Example C77_nonvacuous : forall bln bexp, let A := B64n bln bexp in
  let q := fun j (i : nat) => nQ A (nth j [3 # 10; 17 # 10; 1 # 10]%Q 0%Q) in
  let v := set_prim (mtab 3 6 q) (vars_new Adiab 6 (mkPC (A:=A) (nQ A (14 # 10)) SI)) in
  let v' := update_prim Adiab 6 (update_cons Adiab 6 v) in
  shape 3 6 (prim v) /\ shape 3 6 (cons v) /\ is_finite (gamma v : b64) = true /\ 1 < B2R (gamma v : b64) <= bpow radix2 100 /\
  (forall i, (i < 6)%nat -> at2 (n0 A) (prim v) 0 i = nQ A (3 # 10) /\ at2 (n0 A) (prim v) 1 i = nQ A (17 # 10) /\ at2 (n0 A) (prim v) 2 i = nQ A (1 # 10)) /\
  moderate (nQ A (3 # 10)) /\ 0 < B2R (nQ A (3 # 10) : b64) /\ moderate0 (nQ A (17 # 10)) /\ moderate (nQ A (1 # 10)) /\ 0 < B2R (nQ A (1 # 10) : b64) /\
  (B2R (gamma v : b64) - 1) * (B2R (nQ A (3 # 10) : b64) * (B2R (nQ A (17 # 10) : b64) * B2R (nQ A (17 # 10) : b64)) / 2) <= bpow radix2 48 * B2R (nQ A (1 # 10) : b64) /\
  same_number A (at2 (n0 A) (prim v') 1 3) (nQ A (17 # 10)) = false /\ same_number A (at2 (n0 A) (prim v') 2 3) (nQ A (1 # 10)) = false.
Proof.
  intros bln bexp A q v v'.
  split; [apply shape_mtab|]. split; [apply (shape_zeros2 A)|]. split; [reflexivity|].
  assert (G : B2R (gamma v : b64) = 6305039478318694 / 4503599627370496) by lit.
  assert (R7 : B2R (nQ A (3 # 10) : b64) = 5404319552844595 / 18014398509481984) by lit.
  assert (R11 : B2R (nQ A (17 # 10) : b64) = 7656119366529843 / 4503599627370496) by lit.
  assert (R1 : B2R (nQ A (1 # 10) : b64) = 7205759403792794 / 72057594037927936) by lit.
  assert (H100 : 1000 <= bpow radix2 100) by (apply Rle_trans with (bpow radix2 10); [cbn; lra|apply bpow_le; lia]).
  assert (L100 : bpow radix2 (-100) <= / 1000) by (apply Rle_trans with (bpow radix2 (-10)); [apply bpow_le; lia|cbn; lra]).
  assert (H48 : 1000 <= bpow radix2 48) by (apply Rle_trans with (bpow radix2 10); [cbn; lra|apply bpow_le; lia]).
  unfold moderate, moderate0. rewrite G, R7, R11, R1. rewrite !Rabs_pos_eq by lra.
  repeat match goal with |- _ /\ _ => split end; try lra; try reflexivity.
  - intros i Hi. unfold v. cbn [set_prim prim]. rewrite !at2_mtab by lia. auto.
Qed.
