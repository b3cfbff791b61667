(** Properties C01, C02, C03 and C52: configuration and units. *)

From Coq Require Import Reals ZArith NArith QArith List String Lra.
From Flocq Require Import Core BinarySingleNaN.
From Verif Require Import Base Num XReal B64 Config Mesh State NumFlux Time Writer Runner Spec ConfigProofs.
Import ListNotations.
Local Open Scope R_scope.

(** C01: validation accepts exactly the documented parameters, for every
    double in every field. *)
Theorem C01_validation_iff : forall bln bexp (c : config (B64n bln bexp)),
  cf_validate c = Ok tt <-> valid_config (A:=B64n bln bexp) b2x c.
Proof. exact cf_validate_b64. Qed.
Print Assumptions C01_validation_iff.

(** C01, consequence: no accepted configuration has a NaN in a checked field. *)
Theorem C01_no_nan : forall bln bexp (c : config (B64n bln bexp)),
  cf_validate c = Ok tt ->
  Forall (fun x : b64 => is_nan x = false)
    [ mc_xi_in (cf_mesh c); mc_xi_out (cf_mesh c); pc_gamma (cf_physics c);
      nc_t0 (cf_numerics c); nc_t_end (cf_numerics c); nc_dt_min (cf_numerics c);
      nc_dt_max (cf_numerics c); nc_dt_cfl (cf_numerics c);
      rc_rtol (nc_time (cf_numerics c)); rc_atol (nc_time (cf_numerics c));
      rc_friction (nc_time (cf_numerics c)) ].
Proof. exact no_nan_b64. Qed.
Print Assumptions C01_no_nan.

(** Non-vacuity: there are accepted and rejected configurations; a NaN
    domain boundary is one of the rejected ones. *)
Definition cfg_ok (bln bexp : b64 -> b64) : config (B64n bln bexp) :=
  default_riemann_test (B64n bln bexp) TKt 3 (b_ofZ 1) "out" "sod".
Definition cfg_nan (bln bexp : b64 -> b64) : config (B64n bln bexp) :=
  mkCfg (A:=B64n bln bexp) false (mkMC (A:=B64n bln bexp) Cartesian (b_ofZ 1) B754_nan) (cf_physics (cfg_ok bln bexp)) BNoGradients BNoGradients
        (cf_numerics (cfg_ok bln bexp)) 1%N [].
Example C01_example : forall bln bexp,
  cf_validate (cfg_ok bln bexp) = Ok tt /\ cf_validate (cfg_nan bln bexp) = Err EConfig.
Proof. intros; split; vm_compute; reflexivity. Qed.

(** C02 *)
Theorem C02_default_accepted : forall bln bexp n E (t_end : b64) folder file,
  xlt (Fin 0) (b2x t_end) -> folder <> EmptyString -> file <> EmptyString ->
  cf_validate (default_riemann_test (B64n bln bexp) n E t_end folder file) = Ok tt.
Proof. exact default_valid_b64. Qed.
Print Assumptions C02_default_accepted.

Example C02_example : xlt (Fin 0) (b2x (b_ofZ 1)) /\ "out"%string <> EmptyString.
Proof. split; [vm_compute; lra|discriminate]. Qed.

(** C03 *)
Theorem C03_hll_iff : forall A p S c m (u : state A),
  (exists s, solver_new (Hll A) p S c m u = Ok s) <-> nc_numflux (cf_numerics c) = CHll.
Proof. exact solver_new_hll. Qed.
Print Assumptions C03_hll_iff.

Theorem C03_kt_iff : forall A p S c m (u : state A),
  (exists s, solver_new (Kt A) p S c m u = Ok s) <-> exists l, nc_numflux (cf_numerics c) = CKt l.
Proof. exact solver_new_kt. Qed.
Print Assumptions C03_kt_iff.

Theorem C03_mismatch_is_err : forall A p S c m (u : state A),
  (forall l, nc_numflux (cf_numerics c) = CKt l -> solver_new (Hll A) p S c m u = Err ENumFluxMismatch) /\
  (nc_numflux (cf_numerics c) = CHll -> solver_new (Kt A) p S c m u = Err ENumFluxMismatch).
Proof. exact solver_new_mismatch. Qed.
Print Assumptions C03_mismatch_is_err.

(** C03, the shipped template: the type [Hll] with a configuration for Kt
    never gets through [init_corries], and no file is touched. *)
Theorem C03_template_fails : forall A validation meta banner sched init p S (c : config A) w l,
  nc_numflux (cf_numerics c) = CKt l ->
  let '(w', r) := init_corries (N:=Hll A) validation meta banner sched init p S c w in
  w' = w /\ forall x, r <> Ok x.
Proof. exact init_hll_kt_fails. Qed.
Print Assumptions C03_template_fails.

Example C03_example : forall bln bexp,
  nc_numflux (cf_numerics (cfg_ok bln bexp)) = CKt VanLeer.
Proof. reflexivity. Qed.

(** C52 *)
Theorem C52_to_si : forall md x,
  length_to_si (A:=XRn) md (Fin x) = Fin (metres md x) /\
  mass_to_si (A:=XRn) md (Fin x) = Fin (kilograms md x) /\
  time_to_si (A:=XRn) md (Fin x) = Fin x.
Proof. exact to_si_spec. Qed.
Print Assumptions C52_to_si.

Theorem C52_cgs_round_trip : forall x,
  length_to_cgs (A:=XRn) CGS (Fin x) = Fin (centimetres CGS x) /\
  mass_to_cgs (A:=XRn) CGS (Fin x) = Fin (grams CGS x) /\
  time_to_cgs (A:=XRn) CGS (Fin x) = Fin x.
Proof. exact cgs_round_trip. Qed.
Print Assumptions C52_cgs_round_trip.

(** C52, the documented conversion to CGS of values given in SI units does
    not take place: every input other than 0 gives a wrong result, in every
    arithmetic the input itself. *)
Theorem C52_si_to_cgs_refuted :
  (forall A (x : nF A), length_to_cgs SI x = x /\ mass_to_cgs SI x = x) /\
  (forall x, x <> 0 ->
     length_to_cgs (A:=XRn) SI (Fin x) <> Fin (centimetres SI x) /\
     mass_to_cgs (A:=XRn) SI (Fin x) <> Fin (grams SI x)).
Proof. exact si_to_cgs_refuted. Qed.
Print Assumptions C52_si_to_cgs_refuted.
