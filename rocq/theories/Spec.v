(** Specifications, independent of the model.

    Only number types, the configuration data types and standard mathematics
    are used here; no function of the model is mentioned. *)

From Coq Require Import Reals ZArith NArith QArith List String Lra.
From Flocq Require Import Core BinarySingleNaN.
From Verif Require Import Num XReal B64 Config Mesh State.
Import ListNotations.
Local Open Scope R_scope.

(** ** Order of doubles *)

(** The extended real number (or NaN) a double stands for. *)
Definition b2x (x : b64) : XR :=
  match x with
  | B754_nan => XNaN
  | B754_infinity false => PInf
  | B754_infinity true => NInf
  | _ => Fin (B2R x)
  end.

(** [x < y] and [x <= y] for extended reals; NaN is not comparable. *)
Definition xlt (x y : XR) : Prop :=
  match x, y with
  | Fin a, Fin b => a < b
  | NInf, Fin _ | NInf, PInf | Fin _, PInf => True
  | _, _ => False
  end.
Definition xle (x y : XR) : Prop :=
  match x, y with
  | Fin a, Fin b => a <= b
  | NInf, Fin _ | NInf, PInf | NInf, NInf | Fin _, PInf | PInf, PInf => True
  | _, _ => False
  end.

(** ** Accepted configurations (C01).  [v] interprets the numbers. *)
Section ValidConfig.
Variable A : Num.
Variable v : nF A -> XR.

(** Data that has one value per cell. *)
Definition is_vector_data (n : data_name) : Prop :=
  n = XiCent \/ n = XiWest \/ n = XiEast \/ (exists j, n = DPrim j) \/ (exists j, n = DCons j) \/ n = DCSound.

Definition valid_output (o : output_config) : Prop :=
  (oc_stream o = File -> oc_folder o <> EmptyString /\ oc_file o <> EmptyString) /\
  (oc_conv o = Scalar -> forall n, In n (oc_names o) -> ~ is_vector_data n).

Record valid_config (c : config A) : Prop := {
  vc_xi : xlt (v (mc_xi_in (cf_mesh c))) (v (mc_xi_out (cf_mesh c)));
  vc_gamma1 : xlt (Fin 1) (v (pc_gamma (cf_physics c)));
  vc_gamma2 : xlt (v (pc_gamma (cf_physics c))) (Fin 2);
  vc_limiter : forall p, nc_numflux (cf_numerics c) = CKt (Monocent p) -> xlt (Fin 1) (v p);
  vc_iter : (0 < nc_iter_max (cf_numerics c))%N;
  vc_t0 : xle (Fin 0) (v (nc_t0 (cf_numerics c)));
  vc_t_end : xlt (v (nc_t0 (cf_numerics c))) (v (nc_t_end (cf_numerics c)));
  vc_dt_min : xlt (Fin 0) (v (nc_dt_min (cf_numerics c)));
  vc_dt_max : xlt (Fin 0) (v (nc_dt_max (cf_numerics c)));
  vc_dt_cfl : xlt (Fin 0) (v (nc_dt_cfl (cf_numerics c)));
  vc_rtol : xlt (Fin 0) (v (rc_rtol (nc_time (cf_numerics c))));
  vc_atol : xlt (Fin 0) (v (rc_atol (nc_time (cf_numerics c))));
  vc_friction : xlt (Fin 0) (v (rc_friction (nc_time (cf_numerics c))));
  vc_outputs : forall o, In o (cf_writer c) -> valid_output o
}.
End ValidConfig.
Arguments valid_config {A}.

(** ** Units (C52): one centimetre is 1/100 metre, one gram 1/1000 kilogram,
    the second is the same in both systems. *)
Definition metres (md : units_mode) (x : R) : R := match md with SI => x | CGS => x / 100 end.
Definition kilograms (md : units_mode) (x : R) : R := match md with SI => x | CGS => x / 1000 end.
Definition centimetres (md : units_mode) (x : R) : R := match md with SI => 100 * x | CGS => x end.
Definition grams (md : units_mode) (x : R) : R := match md with SI => 1000 * x | CGS => x end.

(** ** Mesh (C06): every array of geometric quantities a mesh holds. *)
Definition mesh_geometry {A} (m : mesh A) : list (list (nF A)) :=
  [ m_xi_cent m; m_xi_west m; m_xi_east m;
    m_xi_cent_inv m; m_xi_west_inv m; m_xi_east_inv m;
    m_h_xi_cent m; m_h_xi_west m; m_h_xi_east m;
    m_h_eta_cent m; m_h_eta_west m; m_h_eta_east m;
    m_h_phi_cent m; m_h_phi_west m; m_h_phi_east m;
    m_sqrt_g m; m_line_xi m; m_line_xi_inv m;
    m_d_area_west m; m_d_area_east m;
    m_area_cell m; m_area_west m; m_area_east m;
    m_volume m; m_deta_dphi_d_volume m; m_cell_width m; m_cell_width_inv m;
    m_cexe m; m_cpxp m; m_cxex m; m_cpep m; m_cxpx m; m_cepe m;
    m_minus_cexe m; m_minus_cpxp m; m_minus_cxex m; m_minus_cpep m; m_minus_cxpx m; m_minus_cepe m ].

(** ** Boundary conditions (C13-C16) *)

(** The [d]-th computational cell counted from the border of a side
    ([d = 0] is adjacent to it) and the [k]-th ghost cell beyond it
    ([k = 1] is adjacent), for a mesh of [S] cells. *)
Definition inner_cell (s : side) (S d : nat) : nat :=
  match s with West => (2 + d)%nat | East => (S - 3 - d)%nat end.
Definition ghost_cell (s : side) (S k : nat) : nat :=
  match s with West => (2 - k)%nat | East => (S - 3 + k)%nat end.

(** What a boundary mode promises for the [k]-th ghost cell ([k] is 1 or 2),
    from the values [a0] and [a1] of the first and second computational cell
    and the coordinates [x0] of the first computational cell and [xk] of the
    ghost cell.  A value points into the domain if it is positive (or zero)
    at the western and negative at the eastern border. *)
Definition ghost_value (s : side) (md : cbmode) (k : nat) (a0 a1 x0 xk : R) : R :=
  let mirrored := - (if (k =? 1)%nat then a0 else a1) in
  let line := a0 + INR k * (a0 - a1) in
  let inward := match s with
                | West => if Rle_dec 0 a0 then true else false
                | East => if Rle_dec 0 a0 then false else true
                end in
  match md with
  | NoGradients => a0
  | NearZero => a0 / 10 ^ 10
  | Reflecting => mirrored
  | Extrapolate => line
  | ExtrapolateDensityKepler | ExtrapolateEtaVelocityKepler => a0 * sqrt (x0 / xk)
  | OutflowNoGradients => if inward then mirrored else a0
  | OutFlowExtrapolate => if inward then mirrored else line
  end.

(** A value in the first computational cell points into the domain. *)
Definition points_inward (s : side) (a : R) : Prop :=
  match s with West => 0 <= a | East => a < 0 end.

(** ** The Euler equations (C07, C09, C10).  [f] are the primitive variables of
    a cell (density, velocity and, for the adiabatic system, pressure), [U] the
    conserved ones (density, momentum, energy), [g] the adiabatic index, [cs]
    the isothermal speed of sound. *)
Definition conserved (p : phys) (g : R) (f : nat -> R) (j : nat) : R :=
  match j with
  | 0%nat => f 0%nat
  | 1%nat => f 0%nat * f 1%nat
  | _ => match p with Isot => 0 | Adiab => f 2%nat / (g - 1) + f 0%nat * (f 1%nat * f 1%nat) / 2 end
  end.

Definition euler_pressure (g : R) (U : nat -> R) : R :=
  (g - 1) * (U 2%nat - U 1%nat * U 1%nat / (2 * U 0%nat)).

Definition euler_flux (p : phys) (g cs : R) (U : nat -> R) (j : nat) : R :=
  match p with
  | Isot => match j with
            | 0%nat => U 1%nat
            | _ => U 1%nat * U 1%nat / U 0%nat + cs * cs * U 0%nat
            end
  | Adiab => match j with
            | 0%nat => U 1%nat
            | 1%nat => U 1%nat * U 1%nat / U 0%nat + euler_pressure g U
            | _ => (U 2%nat + euler_pressure g U) * (U 1%nat / U 0%nat)
            end
  end.

(** [lam] is a characteristic speed at [U]: along some non-zero direction [r]
    the derivative of the flux is [lam * r]. *)
Definition char_speed (p : phys) (g cs : R) (U : nat -> R) (lam : R) : Prop :=
  exists r : nat -> R,
    (exists j, (j < nE p)%nat /\ r j <> 0) /\
    forall j, (j < nE p)%nat ->
      derivable_pt_lim (fun s => euler_flux p g cs (fun k => U k + s * r k) j) 0 (lam * r j).
