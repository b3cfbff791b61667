(** Property C01: NaN and infinite values of accepted configurations. *)

From Coq Require Import Reals ZArith NArith QArith List String Lra.
From Flocq Require Import Core BinarySingleNaN.
From Verif Require Import Base Num XReal B64 Config Mesh State NumFlux Time Writer Runner Spec ConfigProofs.
Import ListNotations.
Local Open Scope R_scope.

(** C01: the parameter of the Monocent limiter is no NaN either. *)
Theorem C01_no_nan_limiter : forall bln bexp (c : config (B64n bln bexp)) (p : b64),
  cf_validate c = Ok tt -> nc_numflux (cf_numerics c) = CKt (Monocent (A:=B64n bln bexp) p) -> is_nan p = false.
Proof.
  intros bln bexp c p H E. apply cf_validate_b64 in H. pose proof (vc_limiter _ _ _ H p E) as L.
  destruct p; reflexivity || destruct L.
Qed.
Print Assumptions C01_no_nan_limiter.

(** C01: an accepted configuration has a finite adiabatic index and a finite
    start time; the domain does not start at +inf nor end at -inf. *)
Theorem C01_finite_fields : forall bln bexp (c : config (B64n bln bexp)), cf_validate c = Ok tt ->
  is_finite (pc_gamma (cf_physics c) : b64) = true /\ is_finite (nc_t0 (cf_numerics c) : b64) = true /\
  (mc_xi_in (cf_mesh c) : b64) <> B754_infinity false /\ (mc_xi_out (cf_mesh c) : b64) <> B754_infinity true.
Proof.
  intros bln bexp c H. apply cf_validate_b64 in H. destruct H.
  repeat split.
  - change (nF (B64n bln bexp)) with b64 in *. destruct (pc_gamma (cf_physics c)) as [|[]| |]; try reflexivity; cbn in *; tauto.
  - change (nF (B64n bln bexp)) with b64 in *. destruct (nc_t0 (cf_numerics c)) as [|[]| |]; try reflexivity; cbn in *; try tauto;
      destruct (nc_t_end (cf_numerics c)) as [|[]| |]; cbn in *; tauto.
  - intros E. change (nF (B64n bln bexp)) with b64 in *. rewrite E in vc_xi. destruct (mc_xi_out (cf_mesh c)) as [|[]| |]; exact vc_xi.
  - intros E. change (nF (B64n bln bexp)) with b64 in *. rewrite E in vc_xi. destruct (mc_xi_in (cf_mesh c)) as [|[]| |]; exact vc_xi.
Qed.
Print Assumptions C01_finite_fields.

(** The configuration [c] with every other number replaced by an infinity. *)
Definition at_infinity (bln bexp : b64 -> b64) (c : config (B64n bln bexp)) : config (B64n bln bexp) :=
  let inf : nF (B64n bln bexp) := B754_infinity false in let n := cf_numerics c in let k := nc_time n in
  mkCfg (cf_banner c) (mkMC (A:=B64n bln bexp) (mc_mode (cf_mesh c)) (B754_infinity true) inf) (cf_physics c)
    (cf_bc_west c) (cf_bc_east c)
    (mkNC (A:=B64n bln bexp) (match nc_numflux n with CKt (Monocent _) => CKt (Monocent (A:=B64n bln bexp) inf) | f => f end)
      (mkRC (A:=B64n bln bexp) (rc_mode k) (rc_asc k) inf inf inf) (nc_iter_max n) (nc_t0 n) inf inf inf inf)
    (cf_output_max c) (cf_writer c).

(** Validation does not ask for finite numbers anywhere else: it still accepts. *)
Theorem C01_infinite_accepted : forall bln bexp (c : config (B64n bln bexp)),
  cf_validate c = Ok tt -> cf_validate (at_infinity bln bexp c) = Ok tt.
Proof.
  intros bln bexp c H. pose proof (C01_finite_fields _ _ _ H) as (_ & F0 & _). apply cf_validate_b64. apply cf_validate_b64 in H. destruct H.
  constructor; cbn [at_infinity cf_mesh cf_physics cf_numerics cf_writer mc_xi_in mc_xi_out nc_numflux nc_time nc_iter_max nc_t0 nc_t_end nc_dt_min nc_dt_max nc_dt_cfl rc_rtol rc_atol rc_friction]; try assumption; try exact I.
  - intros p E. destruct (nc_numflux (cf_numerics c)) as [|[| | |q|]]; try discriminate E. injection E as <-. exact I.
  - change (nF (B64n bln bexp)) with b64 in *. destruct (nc_t0 (cf_numerics c)) as [|[]| |]; try discriminate F0; exact I.
Qed.
Print Assumptions C01_infinite_accepted.

(** Example: an accepted configuration with a Monocent limiter. *)
Definition cfg_mono (bln bexp : b64 -> b64) : config (B64n bln bexp) :=
  let A := B64n bln bexp in let c := default_riemann_test A TKt 3 (b_ofZ 1 : nF A) "out" "sod" in let n := cf_numerics c in
  mkCfg (cf_banner c) (cf_mesh c) (cf_physics c) (cf_bc_west c) (cf_bc_east c)
    (mkNC (A:=A) (CKt (Monocent (A:=A) (b_ofZ 2))) (nc_time n) (nc_iter_max n) (nc_t0 n) (nc_t_end n) (nc_dt_min n) (nc_dt_max n) (nc_dt_cfl n))
    (cf_output_max c) (cf_writer c).
Example C01_infinite_example : forall bln bexp,
  cf_validate (cfg_mono bln bexp) = Ok tt /\ nc_numflux (cf_numerics (cfg_mono bln bexp)) = CKt (Monocent (A:=B64n bln bexp) (b_ofZ 2)).
Proof. intros; split; [vm_compute; reflexivity|]. unfold cfg_mono. cbv zeta. cbn [cf_numerics nc_numflux]. reflexivity. Qed.
