(** The metadata text: the configuration rendered with
    [serde_json::to_string_pretty] (src/writer.rs L77), that is the derived
    [Serialize] implementations of the configuration types and serde_json's
    pretty printer (serde_json 1.0, ser.rs).

    Simplified: the rendering of a finite [f64] (the shortest decimal text that
    reads back as the same number, crate ryu) is the parameter [ftext].
    Writing into a [String] cannot fail, so the result is a plain text. *)

From Coq Require Import List ZArith NArith Bool String Ascii.
From Verif Require Import Base Num Config Writer.
Import ListNotations.
Local Open Scope string_scope.

(** What the derived serializers hand to the printer.  Numbers are kept as the
    text that is printed for them. *)
Inductive json :=
| JNull
| JBool (b : bool)
| JNum (text : string)
| JStr (s : string)
| JArr (l : list json)
| JObj (l : list (string * json)).

(** ** The printer, serde_json src/ser.rs *)

(** lower case hexadecimal digit *)
Definition hex_digit (n : N) : ascii := ascii_of_N (if n <? 10 then 48 + n else 87 + n)%N.

Definition quote_char : ascii := ascii_of_nat 34.

(** [format_escaped_str_contents], one byte: the table [ESCAPE] and
    [write_char_escape].  Bytes from 0x80 on are copied. *)
Definition escape (c : ascii) : string :=
  let n := N_of_ascii c in
  let short (d : ascii) := String "\" (String d "") in
  if (n =? 34)%N then short quote_char
  else if (n =? 92)%N then short "\"%char
  else if (n =? 8)%N then short "b"%char
  else if (n =? 9)%N then short "t"%char
  else if (n =? 10)%N then short "n"%char
  else if (n =? 12)%N then short "f"%char
  else if (n =? 13)%N then short "r"%char
  else if (n <? 32)%N then "\u00" ++ String (hex_digit (n / 16)) (String (hex_digit (n mod 16)) "")
  else String c "".

Fixpoint escaped (s : string) : string :=
  match s with EmptyString => "" | String c t => escape c ++ escaped t end.

(** [serialize_str] *)
Definition quoted (s : string) : string := String quote_char (escaped s) ++ String quote_char "".

(** [indent], two blanks for each level *)
Fixpoint indent (n : nat) : string := match n with O => "" | S n => "  " ++ indent n end.

(** [PrettyFormatter]: [begin_array_value] and [begin_object_key] *)
Definition item_sep (first : bool) (n : nat) : string :=
  (if first then newline else "," ++ newline) ++ indent n.

(** [PrettyFormatter]: [end_array] and [end_object] *)
Definition close_sep {X} (l : list X) (n : nat) : string :=
  match l with [] => "" | _ => newline ++ indent n end.

(** [Serializer<W, PrettyFormatter>], [n] is [current_indent].  An empty array
    is written as [begin_array] directly followed by [end_array]. *)
Fixpoint pretty (n : nat) (j : json) : string :=
  match j with
  | JNull => "null"
  | JBool true => "true"
  | JBool false => "false"
  | JNum t => t
  | JStr s => quoted s
  | JArr l =>
      "[" ++ (fix items (first : bool) (l : list json) : string :=
                match l with
                | [] => ""
                | x :: t => item_sep first (S n) ++ pretty (S n) x ++ items false t
                end) true l ++ close_sep l n ++ "]"
  | JObj l =>
      "{" ++ (fix items (first : bool) (l : list (string * json)) : string :=
                match l with
                | [] => ""
                | (k, x) :: t => item_sep first (S n) ++ quoted k ++ ": " ++ pretty (S n) x ++ items false t
                end) true l ++ close_sep l n ++ "}"
  end.

(** ** The derived [Serialize] implementations *)

(** [serialize_u64] *)
Definition jnat (n : nat) : json := JNum (dec (N.of_nat n)).

(** src/config.rs L40-66, [CustomBoundaryMode] *)
Definition cbmode_json (b : cbmode) : json :=
  JStr (match b with
        | Extrapolate => "Extrapolate"
        | ExtrapolateDensityKepler => "ExtrapolateDensityKepler"
        | ExtrapolateEtaVelocityKepler => "ExtrapolateEtaVelocityKepler"
        | NearZero => "NearZero"
        | NoGradients => "NoGradients"
        | OutflowNoGradients => "OutflowNoGradients"
        | OutFlowExtrapolate => "OutFlowExtrapolate"
        | Reflecting => "Reflecting"
        end).

(** src/config.rs L23-32, [BoundaryMode]; a pair is written as an array *)
Definition bmode_json (b : bmode) : json :=
  match b with
  | BCustom l => JObj [("Custom", JArr (map (fun e => JArr [jnat (fst e); cbmode_json (snd e)]) l))]
  | BNoGradients => JStr "NoGradients"
  end.

(** src/config/numericsconfig/timeintegrationconfig.rs L62-91, [RKFMode] *)
Definition rkf_mode_json (m : rkf_mode) : json :=
  JStr (match m with
        | RK1 => "RK1" | RK2 => "RK2" | RK3 => "RK3" | RK4 => "RK4" | Heun2 => "Heun2"
        | RKF12 => "RKF12" | RKF45 => "RKF45" | SSPRK3 => "SSPRK3" | SSPRK5 => "SSPRK5"
        end).

(** src/writer/data.rs L71-110, [DataName] *)
Definition data_name_json (d : data_name) : json :=
  match d with
  | XiCent => JStr "XiCent" | XiWest => JStr "XiWest" | XiEast => JStr "XiEast"
  | DPrim j => JObj [("Prim", jnat j)]
  | DCons j => JObj [("Cons", jnat j)]
  | DCSound => JStr "CSound"
  | DT => JStr "T" | DIter => JStr "Iter" | DDt => JStr "Dt" | DDtKind => JStr "DtKind"
  end.

(** src/config/outputconfig.rs L16-47 and L267-310 *)
Definition output_config_json (c : output_config) : json :=
  JObj [("stream_mode", JStr (match oc_stream c with Stdout => "Stdout" | File => "File" end));
        ("formatting_mode", JStr (match oc_format c with CSV => "CSV" | TSV => "TSV" end));
        ("string_conversion_mode", JStr (match oc_conv c with Scalar => "Scalar" | Vector => "Vector" end));
        ("folder_name", JStr (oc_folder c));
        ("should_clear_out_folder", JBool (oc_clear c));
        ("file_name", JStr (oc_file c));
        ("precision", jnat (oc_precision c));
        ("should_print_ghostcells", JBool (oc_ghost c));
        ("should_print_metadata", JBool (oc_metadata c));
        ("data_names", JArr (map data_name_json (oc_names c)))].

Section Json.
Variable A : Num.
Variable ftext : nF A -> string.

(** [serialize_f64]: a number that is not finite becomes [null] *)
Definition jfloat (x : nF A) : json := if nfin A x then JNum (ftext x) else JNull.

(** src/config/meshconfig.rs L12-32 *)
Definition mesh_config_json (c : mesh_config A) : json :=
  JObj [("mode", JStr (match mc_mode c with Cartesian => "Cartesian" end));
        ("xi_in", jfloat (mc_xi_in c)); ("xi_out", jfloat (mc_xi_out c))].

(** src/config/physicsconfig.rs L17-24, src/units.rs L16-24 *)
Definition physics_config_json (c : physics_config A) : json :=
  JObj [("adiabatic_index", jfloat (pc_gamma c));
        ("units_mode", JStr (match pc_units c with SI => "SI" | CGS => "CGS" end))].

(** src/config/numericsconfig/numfluxconfig.rs L81-100, [LimiterMode] *)
Definition limiter_json (l : limiter_mode A) : json :=
  match l with
  | NoLimiter => JStr "NoLimiter"
  | MinMod => JStr "MinMod"
  | Superbee => JStr "Superbee"
  | Monocent p => JObj [("Monocent", jfloat p)]
  | VanLeer => JStr "VanLeer"
  end.

(** src/config/numericsconfig/numfluxconfig.rs L14-25, [NumFluxConfig] *)
Definition numflux_json (c : numflux_config A) : json :=
  match c with
  | CHll => JStr "Hll"
  | CKt l => JObj [("Kt", JObj [("limiter_mode", limiter_json l)])]
  end.

(** src/config/numericsconfig/timeintegrationconfig.rs L16-22 and L97-113 *)
Definition time_json (c : rkf_config A) : json :=
  JObj [("Rkf", JObj [("rkf_mode", rkf_mode_json (rc_mode c)); ("asc", JBool (rc_asc c));
                      ("asc_relative_tolerance", jfloat (rc_rtol c));
                      ("asc_absolute_tolerance", jfloat (rc_atol c));
                      ("asc_timestep_friction", jfloat (rc_friction c))])].

(** src/config/numericsconfig.rs L22-47 *)
Definition numerics_json (c : numerics_config A) : json :=
  JObj [("numflux_config", numflux_json (nc_numflux c));
        ("time_integration_config", time_json (nc_time c));
        ("iter_max", JNum (dec (nc_iter_max c)));
        ("t0", jfloat (nc_t0 c)); ("t_end", jfloat (nc_t_end c));
        ("dt_min", jfloat (nc_dt_min c)); ("dt_max", jfloat (nc_dt_max c));
        ("dt_cfl_param", jfloat (nc_dt_cfl c))].

(** src/config.rs L75-101 *)
Definition config_json (c : config A) : json :=
  JObj [("print_banner", JBool (cf_banner c));
        ("mesh_config", mesh_config_json (cf_mesh c));
        ("physics_config", physics_config_json (cf_physics c));
        ("boundary_condition_west", bmode_json (cf_bc_west c));
        ("boundary_condition_east", bmode_json (cf_bc_east c));
        ("numerics_config", numerics_json (cf_numerics c));
        ("output_counter_max", JNum (dec (cf_output_max c)));
        ("writer_config", JArr (map output_config_json (cf_writer c)))].

(** src/writer.rs L77, [serde_json::to_string_pretty(config)] *)
Definition metadata (c : config A) : string := pretty 0 (config_json c).
End Json.

Arguments jfloat {A}. Arguments mesh_config_json {A}. Arguments physics_config_json {A}. Arguments limiter_json {A}.
Arguments numflux_json {A}. Arguments time_json {A}. Arguments numerics_json {A}. Arguments config_json {A}. Arguments metadata {A}.
