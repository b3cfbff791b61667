(** Specification vocabulary for the metadata: reading JSON (RFC 8259) and
    what a JSON value says about a configuration.  Nothing here is a model of
    code. *)

From Coq Require Import List ZArith NArith Bool String Ascii.
From Verif Require Import Base Num Config Writer SpecWriter Json.
Import ListNotations.
Local Open Scope string_scope.

(** ** Reading JSON *)

Definition is_digit (c : ascii) : bool := match digit c with Some _ => true | None => false end.

(** blank, tab, line feed, carriage return *)
Definition is_space (c : ascii) : bool :=
  let n := N_of_ascii c in ((n =? 32) || (n =? 9) || (n =? 10) || (n =? 13))%N.

Fixpoint skip (s : string) : string :=
  match s with String c t => if is_space c then skip t else s | "" => "" end.

(** *** Numbers *)

Fixpoint drop_digits (s : string) : string :=
  match s with String c t => if is_digit c then drop_digits t else s | "" => "" end.

(** one digit or more, followed by what [k] accepts *)
Definition some_digits (k : string -> bool) (s : string) : bool :=
  match s with String c t => is_digit c && k (drop_digits t) | "" => false end.

Definition at_end (s : string) : bool := match s with "" => true | _ => false end.

(** the exponent part, possibly missing *)
Definition exponent (s : string) : bool :=
  match s with
  | "" => true
  | String c t =>
      if (Ascii.eqb c "e" || Ascii.eqb c "E")%bool
      then match t with
           | String d u => if (Ascii.eqb d "+" || Ascii.eqb d "-")%bool then some_digits at_end u else some_digits at_end t
           | "" => false
           end
      else false
  end.

(** the fraction part, possibly missing, and the exponent *)
Definition fraction (s : string) : bool :=
  match s with
  | String c t => if Ascii.eqb c "." then some_digits exponent t else exponent s
  | "" => true
  end.

(** no leading zeros *)
Definition integer_part (s : string) : bool :=
  match s with
  | String c t => if Ascii.eqb c "0" then fraction t else is_digit c && fraction (drop_digits t)
  | "" => false
  end.

(** the text is a JSON number *)
Definition json_number (s : string) : bool :=
  match s with
  | String c t => if Ascii.eqb c "-" then integer_part t else integer_part s
  | "" => false
  end.

(** a character that occurs in numbers *)
Definition number_char (c : ascii) : bool :=
  (is_digit c || Ascii.eqb c "+" || Ascii.eqb c "-" || Ascii.eqb c "." || Ascii.eqb c "e" || Ascii.eqb c "E")%bool.

Fixpoint take_number (s : string) : string * string :=
  match s with
  | String c t => if number_char c then let (a, b) := take_number t in (String c a, b) else ("", s)
  | "" => ("", "")
  end.

(** *** Strings *)

Definition hex_value (c : ascii) : option N :=
  let n := N_of_ascii c in
  if ((48 <=? n) && (n <=? 57))%N then Some (n - 48)%N
  else if ((97 <=? n) && (n <=? 102))%N then Some (n - 87)%N
  else if ((65 <=? n) && (n <=? 70))%N then Some (n - 55)%N
  else None.

(** the character a two-character escape sequence stands for *)
Definition unescape (c : ascii) : option ascii :=
  if Ascii.eqb c "b" then Some (ascii_of_nat 8)
  else if Ascii.eqb c "f" then Some (ascii_of_nat 12)
  else if Ascii.eqb c "n" then Some (ascii_of_nat 10)
  else if Ascii.eqb c "r" then Some (ascii_of_nat 13)
  else if Ascii.eqb c "t" then Some (ascii_of_nat 9)
  else if Ascii.eqb c "/" then Some "/"%char
  else if Ascii.eqb c "\" then Some "\"%char
  else if Ascii.eqb c (ascii_of_nat 34) then Some (ascii_of_nat 34)
  else None.

Definition put (c : ascii) (r : option (string * string)) : option (string * string) :=
  match r with Some (s, k) => Some (String c s, k) | None => None end.

(** the rest of a string after its opening quotation mark, and what follows the
    closing one; [\u] only for characters of ASCII *)
Fixpoint read_string (s : string) : option (string * string) :=
  match s with
  | "" => None
  | String c t =>
      if Ascii.eqb c (ascii_of_nat 34) then Some ("", t)
      else if Ascii.eqb c "\" then
        match t with
        | String "u" (String a (String b (String d (String e r)))) =>
            match hex_value a, hex_value b, hex_value d, hex_value e with
            | Some x, Some y, Some z, Some w =>
                let n := (((x * 16 + y) * 16 + z) * 16 + w)%N in
                if (n <? 128)%N then put (ascii_of_N n) (read_string r) else None
            | _, _, _, _ => None
            end
        | String d r => match unescape d with Some x => put x (read_string r) | None => None end
        | "" => None
        end
      else if (N_of_ascii c <? 32)%N then None
      else put c (read_string t)
  end.

(** *** Values *)

(** [word] at the beginning of [s], and what follows it *)
Fixpoint starts (word s : string) : option string :=
  match word, s with
  | "", _ => Some s
  | String a w, String b t => if Ascii.eqb a b then starts w t else None
  | _, "" => None
  end.

(** [value n s]: the value [s] begins with and the rest; [n] bounds the
    nesting.  [elements] and [members]: the rest of a non-empty array or object
    up to and including the closing bracket. *)
Fixpoint value (n : nat) (s : string) : option (json * string) :=
  match n with
  | O => None
  | S n =>
      match skip s with
      | "" => None
      | String c t =>
          if Ascii.eqb c "[" then
            match skip t with
            | String "]" r => Some (JArr [], r)
            | _ => match elements n t with Some (l, r) => Some (JArr l, r) | None => None end
            end
          else if Ascii.eqb c "{" then
            match skip t with
            | String "}" r => Some (JObj [], r)
            | _ => match members n t with Some (l, r) => Some (JObj l, r) | None => None end
            end
          else if Ascii.eqb c (ascii_of_nat 34) then
            match read_string t with Some (x, r) => Some (JStr x, r) | None => None end
          else if (is_digit c || Ascii.eqb c "-")%bool then
            let (x, r) := take_number (String c t) in if json_number x then Some (JNum x, r) else None
          else
            match starts "null" (String c t), starts "true" (String c t), starts "false" (String c t) with
            | Some r, _, _ => Some (JNull, r)
            | _, Some r, _ => Some (JBool true, r)
            | _, _, Some r => Some (JBool false, r)
            | _, _, _ => None
            end
      end
  end
with elements (n : nat) (s : string) : option (list json * string) :=
  match n with
  | O => None
  | S n =>
      match value n s with
      | Some (x, r) =>
          match skip r with
          | String "," t => match elements n t with Some (l, r) => Some (x :: l, r) | None => None end
          | String "]" t => Some ([x], t)
          | _ => None
          end
      | None => None
      end
  end
with members (n : nat) (s : string) : option (list (string * json) * string) :=
  match n with
  | O => None
  | S n =>
      match skip s with
      | String c t =>
          if Ascii.eqb c (ascii_of_nat 34) then
            match read_string t with
            | Some (k, r) =>
                match skip r with
                | String ":" t =>
                    match value n t with
                    | Some (x, r) =>
                        match skip r with
                        | String "," t => match members n t with Some (l, r) => Some ((k, x) :: l, r) | None => None end
                        | String "}" t => Some ([(k, x)], t)
                        | _ => None
                        end
                    | None => None
                    end
                | _ => None
                end
            | None => None
            end
          else None
      | "" => None
      end
  end.

(** the value a text denotes; nothing but white space may follow it *)
Definition read_json (s : string) : option json :=
  match value (4 * String.length s) s with
  | Some (x, r) => if at_end (skip r) then Some x else None
  | None => None
  end.

(** ** What a JSON value says about a configuration *)

(** the member [k] of an object *)
Fixpoint lookup (k : string) (l : list (string * json)) : option json :=
  match l with
  | [] => None
  | (k', x) :: t => if String.eqb k k' then Some x else lookup k t
  end.

(** the member [k] of [j] satisfies [P] *)
Definition has (k : string) (P : json -> Prop) (j : json) : Prop :=
  match j with
  | JObj l => match lookup k l with Some x => P x | None => False end
  | _ => False
  end.

(** an object with the only member [k] *)
Definition tagged (k : string) (P : json -> Prop) (j : json) : Prop := exists x, j = JObj [(k, x)] /\ P x.

Definition is_bool (b : bool) (j : json) : Prop := j = JBool b.
Definition is_str (s : string) (j : json) : Prop := j = JStr s.
Definition is_int (n : N) (j : json) : Prop := exists t, j = JNum t /\ reads t n.

(** an array whose elements describe the elements of a list *)
Definition is_list {X} (P : X -> json -> Prop) (l : list X) (j : json) : Prop :=
  exists a, j = JArr a /\ Forall2 P l a.

Definition is_cbmode (b : cbmode) : json -> Prop :=
  is_str (match b with
          | Extrapolate => "Extrapolate" | ExtrapolateDensityKepler => "ExtrapolateDensityKepler"
          | ExtrapolateEtaVelocityKepler => "ExtrapolateEtaVelocityKepler" | NearZero => "NearZero"
          | NoGradients => "NoGradients" | OutflowNoGradients => "OutflowNoGradients"
          | OutFlowExtrapolate => "OutFlowExtrapolate" | Reflecting => "Reflecting"
          end).

(** a pair of an equation and a boundary mode *)
Definition is_custom (e : nat * cbmode) (j : json) : Prop :=
  exists a b, j = JArr [a; b] /\ is_int (N.of_nat (fst e)) a /\ is_cbmode (snd e) b.

Definition is_bmode (b : bmode) (j : json) : Prop :=
  match b with
  | BNoGradients => is_str "NoGradients" j
  | BCustom l => tagged "Custom" (is_list is_custom l) j
  end.

Definition is_data_name (d : data_name) (j : json) : Prop :=
  match d with
  | XiCent => is_str "XiCent" j | XiWest => is_str "XiWest" j | XiEast => is_str "XiEast" j
  | DPrim i => tagged "Prim" (is_int (N.of_nat i)) j
  | DCons i => tagged "Cons" (is_int (N.of_nat i)) j
  | DCSound => is_str "CSound" j
  | DT => is_str "T" j | DIter => is_str "Iter" j | DDt => is_str "Dt" j | DDtKind => is_str "DtKind" j
  end.

Definition is_output (c : output_config) (j : json) : Prop :=
  has "stream_mode" (is_str (match oc_stream c with Stdout => "Stdout" | File => "File" end)) j /\
  has "formatting_mode" (is_str (match oc_format c with CSV => "CSV" | TSV => "TSV" end)) j /\
  has "string_conversion_mode" (is_str (match oc_conv c with Scalar => "Scalar" | Vector => "Vector" end)) j /\
  has "folder_name" (is_str (oc_folder c)) j /\
  has "should_clear_out_folder" (is_bool (oc_clear c)) j /\
  has "file_name" (is_str (oc_file c)) j /\
  has "precision" (is_int (N.of_nat (oc_precision c))) j /\
  has "should_print_ghostcells" (is_bool (oc_ghost c)) j /\
  has "should_print_metadata" (is_bool (oc_metadata c)) j /\
  has "data_names" (is_list is_data_name (oc_names c)) j.

Section Says.
Variable A : Num.
(** [denotes t x]: the number with the text [t] is [x] *)
Variable denotes : string -> nF A -> Prop.

(** [null] stands for a number that is not finite. *)
Definition is_float (x : nF A) (j : json) : Prop :=
  match j with
  | JNum t => nfin A x = true /\ denotes t x
  | JNull => nfin A x = false
  | _ => False
  end.

Definition is_limiter (l : limiter_mode A) (j : json) : Prop :=
  match l with
  | NoLimiter => is_str "NoLimiter" j | MinMod => is_str "MinMod" j | Superbee => is_str "Superbee" j
  | VanLeer => is_str "VanLeer" j
  | Monocent p => tagged "Monocent" (is_float p) j
  end.

Definition is_numflux (c : numflux_config A) (j : json) : Prop :=
  match c with
  | CHll => is_str "Hll" j
  | CKt l => tagged "Kt" (has "limiter_mode" (is_limiter l)) j
  end.

Definition is_rkf (c : rkf_config A) (j : json) : Prop :=
  has "rkf_mode" (is_str (match rc_mode c with
    | RK1 => "RK1" | RK2 => "RK2" | RK3 => "RK3" | RK4 => "RK4" | Heun2 => "Heun2"
    | RKF12 => "RKF12" | RKF45 => "RKF45" | SSPRK3 => "SSPRK3" | SSPRK5 => "SSPRK5" end)) j /\
  has "asc" (is_bool (rc_asc c)) j /\
  has "asc_relative_tolerance" (is_float (rc_rtol c)) j /\
  has "asc_absolute_tolerance" (is_float (rc_atol c)) j /\
  has "asc_timestep_friction" (is_float (rc_friction c)) j.

Definition is_numerics (c : numerics_config A) (j : json) : Prop :=
  has "numflux_config" (is_numflux (nc_numflux c)) j /\
  has "time_integration_config" (tagged "Rkf" (is_rkf (nc_time c))) j /\
  has "iter_max" (is_int (nc_iter_max c)) j /\
  has "t0" (is_float (nc_t0 c)) j /\ has "t_end" (is_float (nc_t_end c)) j /\
  has "dt_min" (is_float (nc_dt_min c)) j /\ has "dt_max" (is_float (nc_dt_max c)) j /\
  has "dt_cfl_param" (is_float (nc_dt_cfl c)) j.

(** [j] says that the configuration is [c]. *)
Definition is_config (c : config A) (j : json) : Prop :=
  has "print_banner" (is_bool (cf_banner c)) j /\
  has "mesh_config" (fun j => has "mode" (is_str "Cartesian") j /\
     has "xi_in" (is_float (mc_xi_in (cf_mesh c))) j /\ has "xi_out" (is_float (mc_xi_out (cf_mesh c))) j) j /\
  has "physics_config" (fun j => has "adiabatic_index" (is_float (pc_gamma (cf_physics c))) j /\
     has "units_mode" (is_str (match pc_units (cf_physics c) with SI => "SI" | CGS => "CGS" end)) j) j /\
  has "boundary_condition_west" (is_bmode (cf_bc_west c)) j /\
  has "boundary_condition_east" (is_bmode (cf_bc_east c)) j /\
  has "numerics_config" (is_numerics (cf_numerics c)) j /\
  has "output_counter_max" (is_int (cf_output_max c)) j /\
  has "writer_config" (is_list is_output (cf_writer c)) j.

(** The rendering of numbers: the text of a finite number is a JSON number
    that denotes it. *)
Definition renders (ftext : nF A -> string) : Prop :=
  forall x, nfin A x = true -> json_number (ftext x) = true /\ denotes (ftext x) x.
End Says.
Arguments is_float {A}. Arguments is_config {A}. Arguments is_numerics {A}. Arguments is_rkf {A}. Arguments is_numflux {A}.
Arguments is_limiter {A}. Arguments renders {A}.

(** ** Where the metadata is *)

(** the metadata file of an output configuration *)
Definition metadata_path (c : output_config) : string :=
  folder_slash (oc_folder c) ++ oc_file c ++ match oc_conv c with Vector => "_" | Scalar => "" end ++ "_metadata.json".
