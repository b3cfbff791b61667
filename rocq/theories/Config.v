(** Configuration types, default constructors and validators
    (src/config.rs and the modules below src/config/, src/units.rs for the
    unit mode, src/writer/data.rs for the data names). *)

From Coq Require Import List ZArith NArith QArith String Bool.
From Verif Require Import Base Num.
Import ListNotations.
Local Open Scope num_scope.

(** src/units.rs L17-24 *)
Inductive units_mode := SI | CGS.

(** src/config/meshconfig.rs L13-16, [MeshMode]: only the Cartesian mode exists. *)
Inductive mesh_mode := Cartesian.

(** src/config.rs L41-66 *)
Inductive cbmode :=
| Extrapolate
| ExtrapolateDensityKepler
| ExtrapolateEtaVelocityKepler
| NearZero
| NoGradients
| OutflowNoGradients
| OutFlowExtrapolate
| Reflecting.

(** src/config.rs L24-32 *)
Inductive bmode :=
| BCustom (l : list (nat * cbmode))
| BNoGradients.

(** src/config/numericsconfig/timeintegrationconfig.rs L63-91 *)
Inductive rkf_mode := RK1 | RK2 | RK3 | RK4 | Heun2 | RKF12 | RKF45 | SSPRK3 | SSPRK5.

(** src/writer/data.rs L72-110 *)
Inductive data_name :=
| XiCent | XiWest | XiEast
| DPrim (j : nat) | DCons (j : nat) | DCSound
| DT | DIter | DDt | DDtKind.

(** src/writer/data.rs L120-132 *)
Inductive data_type := TUsize | TFloat | TVectorFloat | TString.

(** src/writer/data.rs L139-148 *)
Inductive association := AMesh | APhysics | ATimeStep.

(** src/writer/data.rs L155-168, [DataName::data_type] *)
Definition dn_type (n : data_name) : data_type :=
  match n with
  | XiCent | XiWest | XiEast | DPrim _ | DCons _ | DCSound => TVectorFloat
  | DIter => TUsize
  | DT | DDt => TFloat
  | DDtKind => TString
  end.

(** src/writer/data.rs L171-184, [DataName::association] *)
Definition dn_assoc (n : data_name) : association :=
  match n with
  | XiCent | XiWest | XiEast => AMesh
  | DPrim _ | DCons _ | DCSound => APhysics
  | DIter | DT | DDt | DDtKind => ATimeStep
  end.

(** src/config/outputconfig.rs L268-310: [StreamMode],
    [ToStringConversionMode], [FormattingMode] *)
Inductive stream_mode := Stdout | File.
Inductive formatting_mode := TSV | CSV.
Inductive conversion_mode := Scalar | Vector.

(** src/config/outputconfig.rs L17-47 *)
Record output_config := mkOC {
  oc_stream : stream_mode;
  oc_format : formatting_mode;
  oc_conv : conversion_mode;
  oc_folder : string;
  oc_clear : bool;
  oc_file : string;
  oc_precision : nat;
  oc_ghost : bool;
  oc_metadata : bool;
  oc_names : list data_name
}.

(** [String::is_empty] *)
Definition str_empty (s : string) : bool :=
  match s with EmptyString => true | _ => false end.

(** [name.data_type() != DataType::VectorFloat], src/config/outputconfig.rs L254 *)
Definition not_vector (n : data_name) : bool :=
  match dn_type n with TVectorFloat => false | _ => true end.

(** src/config/outputconfig.rs L239-262, [OutputConfig::validate] *)
Definition oc_validate (c : output_config) : res unit :=
  do _ <- (match oc_stream c with
           | File =>
               do _ <- ensure (negb (str_empty (oc_folder c))) EConfig;
               ensure (negb (str_empty (oc_file c))) EConfig
           | Stdout => Ok tt
           end);
  match oc_conv c with
  | Scalar => ensure (forallb not_vector (oc_names c)) EConfig
  | Vector => Ok tt
  end.

(** src/config/outputconfig.rs L116-129 *)
Definition default_stdout_with_names (names : list data_name) : output_config :=
  mkOC Stdout TSV Scalar "" false "" 3 false false names.

(** src/config/outputconfig.rs L79-81 *)
Definition default_stdout : output_config :=
  default_stdout_with_names [DIter; DT; DDt; DDtKind].

(** src/config/outputconfig.rs L220-233 *)
Definition default_file_with_names (folder file : string) (names : list data_name) : output_config :=
  mkOC File CSV Vector folder true file 7 true true names.

(** src/config/outputconfig.rs L172-178 *)
Definition default_file (folder file : string) (num_equations : nat) : output_config :=
  default_file_with_names folder file ([DT; XiCent] ++ map DPrim (seq 0 num_equations)).

(** Which flux scheme type [N] a simulation is compiled with. *)
Inductive numflux_type := THll | TKt.

Section Config.
Variable A : Num.
Notation F := (nF A).

(** src/config/meshconfig.rs L23-32 *)
Record mesh_config := mkMC { mc_mode : mesh_mode; mc_xi_in : F; mc_xi_out : F }.

(** src/config/physicsconfig.rs L18-24 *)
Record physics_config := mkPC { pc_gamma : F; pc_units : units_mode }.

(** src/config/numericsconfig/numfluxconfig.rs L82-100 *)
Inductive limiter_mode := NoLimiter | MinMod | Superbee | Monocent (p : F) | VanLeer.

(** src/config/numericsconfig/numfluxconfig.rs L15-25 *)
Inductive numflux_config := CHll | CKt (l : limiter_mode).

(** src/config/numericsconfig/timeintegrationconfig.rs L98-113 *)
Record rkf_config := mkRC {
  rc_mode : rkf_mode;
  rc_asc : bool;
  rc_rtol : F;
  rc_atol : F;
  rc_friction : F
}.

(** src/config/numericsconfig.rs L23-47; [TimeIntegrationConfig] has the
    single variant [Rkf]. *)
Record numerics_config := mkNC {
  nc_numflux : numflux_config;
  nc_time : rkf_config;
  nc_iter_max : N;
  nc_t0 : F;
  nc_t_end : F;
  nc_dt_min : F;
  nc_dt_max : F;
  nc_dt_cfl : F
}.

(** src/config.rs L76-101 *)
Record config := mkCfg {
  cf_banner : bool;
  cf_mesh : mesh_config;
  cf_physics : physics_config;
  cf_bc_west : bmode;
  cf_bc_east : bmode;
  cf_numerics : numerics_config;
  cf_output_max : N;
  cf_writer : list output_config
}.

(** src/macros.rs L172-190, [check_positive_double!] on one value *)
Definition check_pos (x : F) : res unit := ensure (n0 A <? x) EConfig.

(** src/config/meshconfig.rs L60-70 *)
Definition mc_validate (c : mesh_config) : res unit :=
  ensure (mc_xi_in c <? mc_xi_out c) EConfig.

(** src/config/physicsconfig.rs L38-47 *)
Definition pc_validate (c : physics_config) : res unit :=
  ensure ((n1 A <? pc_gamma c) && (pc_gamma c <? nZ A 2)) EConfig.

(** src/config/numericsconfig/numfluxconfig.rs L102-115 *)
Definition lm_validate (l : limiter_mode) : res unit :=
  match l with
  | NoLimiter | MinMod | Superbee | VanLeer => Ok tt
  | Monocent p => ensure (n1 A <? p) EConfig
  end.

(** src/config/numericsconfig/numfluxconfig.rs L38-45 *)
Definition nfc_validate (c : numflux_config) : res unit :=
  match c with CHll => Ok tt | CKt l => lm_validate l end.

(** src/config/numericsconfig/timeintegrationconfig.rs L130-139 (and L51-57) *)
Definition rc_validate (c : rkf_config) : res unit :=
  do _ <- check_pos (rc_atol c);
  do _ <- check_pos (rc_rtol c);
  check_pos (rc_friction c).

(** src/config/numericsconfig.rs L113-134 *)
Definition nc_validate (c : numerics_config) : res unit :=
  do _ <- nfc_validate (nc_numflux c);
  do _ <- ensure (0 <? nc_iter_max c)%N EConfig;
  do _ <- ensure (n0 A <=? nc_t0 c) EConfig;
  do _ <- ensure (nc_t0 c <? nc_t_end c) EConfig;
  do _ <- check_pos (nc_dt_min c);
  do _ <- check_pos (nc_dt_max c);
  do _ <- check_pos (nc_dt_cfl c);
  rc_validate (nc_time c).

(** the loop over the writer configurations, src/config.rs L249-251 *)
Fixpoint oc_validate_all (l : list output_config) : res unit :=
  match l with
  | [] => Ok tt
  | c :: t => do _ <- oc_validate c; oc_validate_all t
  end.

(** src/config.rs L240-254, [CorriesConfig::validate] *)
Definition cf_validate (c : config) : res unit :=
  do _ <- mc_validate (cf_mesh c);
  do _ <- pc_validate (cf_physics c);
  do _ <- nc_validate (cf_numerics c);
  oc_validate_all (cf_writer c).

(** src/config/meshconfig.rs L48-54 *)
Definition default_mesh_config : mesh_config := mkMC Cartesian (n1 A) (nZ A 2).

(** src/config/physicsconfig.rs L26-33 *)
Definition default_physics_config : physics_config := mkPC (nZ A 5 / nZ A 3) SI.

(** src/config/numericsconfig/timeintegrationconfig.rs L118-128, L46-48 *)
Definition default_rkf_config : rkf_config :=
  mkRC SSPRK5 false (nQ A (1 # 1000)) (nQ A (1 # 1000)) (nQ A (8 # 100)).

(** src/config/numericsconfig.rs L85-107; the panic for a third flux scheme
    type cannot occur because [numflux_type] lists the two existing ones.
    [usize::MAX - 2] is the value on 64-bit targets. *)
Definition default_numerics_config (n : numflux_type) (t_end : F) : numerics_config :=
  mkNC (match n with THll => CHll | TKt => CKt VanLeer end)
       default_rkf_config
       18446744073709551613%N
       (n0 A) t_end (nQ A (1 # 1000000000000)) (nMAX A) (nQ A (4 # 10)).

(** src/config.rs L145-163 *)
Definition default_riemann_test (n : numflux_type) (E : nat) (t_end : F) (folder file : string) : config :=
  mkCfg false default_mesh_config default_physics_config BNoGradients BNoGradients
        (default_numerics_config n t_end) 1%N
        [default_stdout; default_file folder file E].

End Config.

Arguments mkMC {A}. Arguments mc_mode {A}. Arguments mc_xi_in {A}. Arguments mc_xi_out {A}.
Arguments mkPC {A}. Arguments pc_gamma {A}. Arguments pc_units {A}.
Arguments NoLimiter {A}. Arguments MinMod {A}. Arguments Superbee {A}. Arguments Monocent {A}. Arguments VanLeer {A}.
Arguments CHll {A}. Arguments CKt {A}.
Arguments mkRC {A}. Arguments rc_mode {A}. Arguments rc_asc {A}. Arguments rc_rtol {A}. Arguments rc_atol {A}.
Arguments rc_friction {A}.
Arguments mkNC {A}. Arguments nc_numflux {A}. Arguments nc_time {A}. Arguments nc_iter_max {A}.
Arguments nc_t0 {A}. Arguments nc_t_end {A}. Arguments nc_dt_min {A}. Arguments nc_dt_max {A}.
Arguments nc_dt_cfl {A}.
Arguments mkCfg {A}. Arguments cf_banner {A}. Arguments cf_mesh {A}. Arguments cf_physics {A}.
Arguments cf_bc_west {A}. Arguments cf_bc_east {A}. Arguments cf_numerics {A}.
Arguments cf_output_max {A}. Arguments cf_writer {A}.
Arguments cf_validate {A}. Arguments mc_validate {A}. Arguments pc_validate {A}. Arguments nc_validate {A}.
Arguments nfc_validate {A}. Arguments lm_validate {A}. Arguments rc_validate {A}. Arguments check_pos {A}.
