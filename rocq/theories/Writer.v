(** src/writer.rs, src/writer/data.rs, src/writer/output.rs and the
    [Collectable] implementations: collecting data and writing it out.

    The decimal rendering of a double is a parameter ([fmt] below stands for
    Rust's [{:.*e}], see Sci.v), and so is the JSON text of the configuration ([meta_data] below,
    see Json.v). *)

From Coq Require Import List ZArith NArith QArith Bool String Ascii Decimal DecimalString.
From Verif Require Import Base Num Config Mesh State NumFlux Time.
Import ListNotations.
Local Open Scope string_scope.

(** ** Text *)

(** the line break that [writeln!] and [push('\n')] emit *)
Definition newline : string := String (ascii_of_nat 10) EmptyString.

(** Decimal digits of a [usize], [format!("{}", n)] *)
Definition dec (n : N) : string := NilEmpty.string_of_uint (N.to_uint n).
(** [N.to_uint 0] is the digit 0, so [dec 0 = "0"]. *)

Fixpoint repeat_char (c : ascii) (n : nat) : string :=
  match n with O => EmptyString | S n => String c (repeat_char c n) end.

(** [{:>width$}] (fill character [' ']) and [{:0w$}] (fill character ['0']) *)
Definition pad_left (c : ascii) (w : nat) (s : string) : string :=
  repeat_char c (w - String.length s) ++ s.

(** Last character removed, [String::pop] *)
Fixpoint str_pop (s : string) : string :=
  match s with
  | EmptyString => EmptyString
  | String c EmptyString => EmptyString
  | String c t => String c (str_pop t)
  end.

(** [s.ends_with('/')] *)
Fixpoint ends_with_slash (s : string) : bool :=
  match s with
  | EmptyString => false
  | String c EmptyString => Ascii.eqb c "/"
  | String _ t => ends_with_slash t
  end.

(** All but the first [n] characters *)
Fixpoint str_drop (n : nat) (s : string) : string :=
  match n, s with
  | O, _ => s
  | S _, EmptyString => EmptyString
  | S n, String _ t => str_drop n t
  end.

(** src/writer/data.rs L53-68, [Display for Data] *)
Definition name_str (n : data_name) : string :=
  match n with
  | XiCent => "xi_cent" | XiWest => "xi_west" | XiEast => "xi_east"
  | DPrim j => "prim_" ++ dec (N.of_nat j)
  | DCons j => "cons_" ++ dec (N.of_nat j)
  | DCSound => "c_sound" | DT => "t" | DIter => "iter" | DDt => "dt" | DDtKind => "dt_kind"
  end.

(** src/time.rs L33-41, [Display for DtKind] *)
Definition kind_str (k : dtkind) : string :=
  match k with KInit => "init" | KCfl => "cfl" | KErrorDump => "err" end.

(** ** The outside world *)

(** The part of the operating system the writer touches.  [w_files] gives the
    contents of each existing file, [w_dirs] the existing directories (named
    without a slash at the end), [w_stdout] everything printed so far.
    [w_bad p] says that the operating system refuses to create, open or remove
    path [p]; it is arbitrary but does not change with time.  Paths are
    compared as texts, except for one slash at the end of a folder name;
    partial writes are not modelled here, see FineWriter.v. *)
Record world := mkWorld {
  w_files : string -> option string;
  w_dirs : string -> bool;
  w_stdout : string;
  w_bad : string -> bool
}.

Definition w_print (s : string) (w : world) : world :=
  mkWorld (w_files w) (w_dirs w) (w_stdout w ++ s) (w_bad w).

(** Writing [txt] into the file [path] opened with
    [File::options().write(true).append(app).create(true)]: without [append]
    the text replaces the beginning of an existing file and the rest stays,
    since [truncate] is not set. *)
Definition overlay (app : bool) (old : option string) (txt : string) : string :=
  match old with
  | None => txt
  | Some s => if app then s ++ txt else txt ++ str_drop (String.length txt) s
  end.

Definition w_write (path : string) (app : bool) (txt : string) (w : world) : world :=
  mkWorld (fun p => if String.eqb p path then Some (overlay app (w_files w path) txt) else w_files w p)
          (w_dirs w) (w_stdout w) (w_bad w).

(** The folder name with a slash at its end, src/writer/output.rs L113-118 *)
Definition folder_slash (folder : string) : string :=
  if ends_with_slash folder then folder else folder ++ "/".

(** The folder name without a slash at its end *)
Definition dir_name (folder : string) : string :=
  if ends_with_slash folder then str_pop folder else folder.

(** [Path::new(folder).is_dir()] *)
Definition is_dir (w : world) (folder : string) : bool := w_dirs w (dir_name folder).

(** [remove_dir_all(folder)]: all files and directories below it and itself *)
Definition w_remove_dir (folder : string) (w : world) : world :=
  mkWorld (fun p => if prefix (folder_slash folder) p then None else w_files w p)
          (fun d => if prefix (folder_slash folder) (d ++ "/") then false else w_dirs w d)
          (w_stdout w) (w_bad w).

(** [create_dir_all(folder)]: the directory and its parents *)
Definition w_create_dir (folder : string) (w : world) : world :=
  mkWorld (w_files w) (fun d => if prefix (d ++ "/") (folder_slash folder) then true else w_dirs w d)
          (w_stdout w) (w_bad w).

(** The part of a path before its last slash *)
Fixpoint parent (p : string) : option string :=
  match p with
  | EmptyString => None
  | String c t => match parent t with
                  | Some d => Some (String c d)
                  | None => if Ascii.eqb c "/" then Some EmptyString else None
                  end
  end.

(** [open] fails: the operating system refuses, or the directory of the file
    does not exist *)
Definition open_fails (w : world) (p : string) : bool :=
  w_bad w p || match parent p with Some d => negb (w_dirs w d) | None => false end.

Section Writer.
Variable A : Num.
Notation F := (nF A).
Notation vec := (list F).
Notation mat := (list vec).

(** Rust's [format!("{:.*e}", precision, x)] *)
Variable fmt : nat -> F -> string.

(** src/writer.rs L43-55 *)
Inductive data_value := VUsize (n : N) | VFloat (x : F) | VVec (v : vec) | VString (s : string).

(** src/writer/data.rs L14-26; [data_type] and [association] are functions of
    the name in the code too (L47-48) and are not stored. *)
Record data := mkData { d_name : data_name; d_payload : data_value }.

(** src/writer/data.rs L38-50, [Data::new] *)
Definition data_new (S : nat) (offset : nat) (n : data_name) : data :=
  mkData n (match dn_type n with
            | TUsize => VUsize 0
            | TFloat => VFloat (n0 A)
            | TString => VString ""
            | TVectorFloat => VVec (zeros (S - 2 * offset))
            end).

(** [field.slice(s![offset..field.len() - offset])] *)
Definition slice (offset : nat) (v : vec) : vec :=
  firstn (List.length v - offset - offset) (skipn offset v).

(** src/writer.rs L137-154, [Collectable::write_vector]; [assign] panics if
    the lengths differ. *)
Definition write_vector (field : vec) (d : data) (offset : nat) : res data :=
  match d_payload d with
  | VVec v =>
      let s := if (offset =? 0)%nat then field else slice offset field in
      if (List.length s =? List.length v)%nat then Ok (mkData (d_name d) (VVec s)) else Panic
  | _ => Err ECollect
  end.

(** [matrix.row(j)], which panics for [j >= E] *)
Definition row (m : mat) (j : nat) : res vec :=
  match nth_error m j with Some r => Ok r | None => Panic end.

(** src/mesh.rs L452-463, [Collectable for Mesh] *)
Definition collect_mesh (m : mesh A) (offset : nat) (d : data) : res data :=
  match dn_assoc (d_name d), d_name d with
  | AMesh, XiCent => write_vector (m_xi_cent m) d offset
  | AMesh, XiWest => write_vector (m_xi_west m) d offset
  | AMesh, XiEast => write_vector (m_xi_east m) d offset
  | _, _ => Err ECollect
  end.

(** src/state/variables.rs L97-110, [Collectable for Variables] *)
Definition collect_vars (v : vars A) (offset : nat) (d : data) : res data :=
  match dn_assoc (d_name d), d_name d with
  | APhysics, DPrim j => do r <- row (prim v) j; write_vector r d offset
  | APhysics, DCons j => do r <- row (cons v) j; write_vector r d offset
  | APhysics, DCSound => write_vector (c_sound v) d offset
  | _, _ => Err ECollect
  end.

(** src/time/timestep.rs L159-175, [Collectable for TimeStep] *)
Definition collect_time (ts : timestep A) (d : data) : res data :=
  match dn_assoc (d_name d), d_name d with
  | ATimeStep, DIter => Ok (mkData (d_name d) (VUsize (ts_iter ts)))
  | ATimeStep, DT => Ok (mkData (d_name d) (VFloat (ts_t ts)))
  | ATimeStep, DDt => Ok (mkData (d_name d) (VFloat (ts_dt ts)))
  | ATimeStep, DDtKind => Ok (mkData (d_name d) (VString (kind_str (ts_kind ts))))
  | _, _ => Err ECollect
  end.

(** ** One output, src/writer/output.rs *)

(** src/writer/output.rs L19-64 *)
Record output := mkOut {
  o_data : list data;
  o_first : bool;
  o_rows : nat;
  o_conv : conversion_mode;
  o_format : formatting_mode;
  o_stream : stream_mode;
  o_file_name : string;
  o_ending : string;
  o_offset : nat;
  o_counter_width : nat;
  o_metadata : bool;
  o_precision : nat;
  o_width : nat;
  o_delim : ascii;
  o_comment : string
}.

Definition o_set_data (d : list data) (o : output) : output :=
  mkOut d (o_first o) (o_rows o) (o_conv o) (o_format o) (o_stream o) (o_file_name o) (o_ending o)
        (o_offset o) (o_counter_width o) (o_metadata o) (o_precision o) (o_width o) (o_delim o) (o_comment o).
Definition o_set_first (b : bool) (o : output) : output :=
  mkOut (o_data o) b (o_rows o) (o_conv o) (o_format o) (o_stream o) (o_file_name o) (o_ending o)
        (o_offset o) (o_counter_width o) (o_metadata o) (o_precision o) (o_width o) (o_delim o) (o_comment o).

(** src/writer/output.rs L136, [f64::log10(output_counter_max as f64) as usize + 1].
    Modelled as the number of decimal digits of [output_counter_max]; for 0
    the code computes [-inf as usize + 1 = 1].  (The floating point logarithm
    can be one too large for counters just below a power of ten above 10^15;
    this is not modelled.) *)
Definition counter_width (n : N) : nat := String.length (dec n).

(** src/writer/output.rs L77-152, the fields of the new [Output] *)
Definition output_build (S : nat) (c : output_config) (m : mesh A) (output_counter_max : N) : output :=
  let offset := if oc_ghost c then m_imin m else m_ixi_in m in
  {| o_data := map (data_new S offset) (oc_names c);
     o_first := true;
     o_rows := match oc_conv c with
               | Scalar => 1%nat
               | Vector => if oc_ghost c then m_n_all m else m_n_comp m
               end;
     o_conv := oc_conv c;
     o_format := oc_format c;
     o_stream := oc_stream c;
     o_file_name := folder_slash (oc_folder c) ++ oc_file c
                    ++ match oc_conv c with Vector => "_" | Scalar => "" end;
     o_ending := match oc_format c with TSV => ".tsv" | CSV => ".csv" end;
     o_offset := offset;
     o_counter_width := counter_width output_counter_max;
     o_metadata := oc_metadata c;
     o_precision := oc_precision c;
     o_width := match oc_format c with TSV => Nat.min 12 (oc_precision c + 7) | CSV => 0%nat end;
     o_delim := match oc_format c with TSV => " "%char | CSV => ","%char end;
     o_comment := match oc_format c with TSV => "#" | CSV => "" end |}.

(** src/writer/output.rs L78-87, the file system part of [Output::new] *)
Definition output_prepare (c : output_config) (w : world) : world * res unit :=
  match oc_stream c with
  | Stdout => (w, Ok tt)
  | File =>
      let f := oc_folder c in
      let '(w, o) :=
        if oc_clear c && is_dir w f
        then if w_bad w f then (w, Err EIO) else (w_remove_dir f w, Ok tt)
        else (w, Ok tt) in
      match o with
      | Ok _ =>
          if is_dir w f then (w, Ok tt)
          else if w_bad w f then (w, Err EIO) else (w_create_dir f w, Ok tt)
      | o => (w, o)
      end
  end.

(** src/writer/output.rs L168-172, which object a piece of data comes from *)
Definition collect (m : mesh A) (v : vars A) (ts : timestep A) (offset : nat) (d : data) : res data :=
  match dn_assoc (d_name d) with
  | AMesh => collect_mesh m offset d
  | APhysics => collect_vars v offset d
  | ATimeStep => collect_time ts d
  end.

(** [try_for_each] over a vector of mutable elements: stops at the first
    failure, keeping the elements updated so far. *)
Fixpoint try_each {X} (f : X -> X * res unit) (l : list X) : list X * res unit :=
  match l with
  | [] => ([], Ok tt)
  | x :: t =>
      let '(x, o) := f x in
      match o with
      | Ok _ => let '(t, o) := try_each f t in (x :: t, o)
      | o => (x :: t, o)
      end
  end.

(** [f(&mut x)] of a function whose failure leaves [x] as it was *)
Definition keep {X} (x : X) (r : res X) : X * res unit :=
  match r with
  | Ok y => (y, Ok tt)
  | Err e => (x, Err e)
  | Panic => (x, Panic)
  | Fuel => (x, Fuel)
  end.

(** src/writer/output.rs L162-174, [Output::update_data] *)
Definition output_update (m : mesh A) (v : vars A) (ts : timestep A) (o : output) : output * res unit :=
  let '(d, r) := try_each (fun d => keep d (collect m v ts (o_offset o) d)) (o_data o) in
  (o_set_data d o, r).

(** src/writer/output.rs L246-259, [format_data_to_buffer]; indexing [x[j]]
    panics if [j] is out of range. *)
Definition format_data (o : output) (d : data) (j : nat) : res string :=
  match d_payload d with
  | VString s => Ok (pad_left " " (o_width o) s)
  | VUsize n => Ok (pad_left " " (o_width o) (dec n))
  | VFloat x => Ok (pad_left " " (o_width o) (fmt (o_precision o) x))
  | VVec v => match nth_error v j with
              | Some x => Ok (pad_left " " (o_width o) (fmt (o_precision o) x))
              | None => Panic
              end
  end.

(** src/writer/output.rs L286-298, [get_header] *)
Definition header (o : output) : string :=
  str_pop (fold_left (fun acc d => acc ++ pad_left " " (o_width o) (name_str (d_name d)) ++ String (o_delim o) "")
                     (o_data o) (o_comment o)) ++ newline.

(** src/writer/output.rs L236-239, the loop over the remaining data *)
Fixpoint rest_of_line (o : output) (j : nat) (l : list data) : res string :=
  match l with
  | [] => Ok ""
  | d :: t =>
      do s <- format_data o d j;
      do r <- rest_of_line o j t;
      Ok (String (o_delim o) "" ++ s ++ r)
  end.

(** src/writer/output.rs L225-240, one line; [self.data[0]] panics without data *)
Definition line (o : output) (j : nat) : res string :=
  match o_data o with
  | [] => Panic
  | d :: t =>
      do s <- format_data o d j;
      do r <- rest_of_line o j t;
      Ok (match o_format o with TSV => " " | CSV => "" end ++ s ++ r ++ newline)
  end.

(** src/writer/output.rs L224-241, the loop over the rows *)
Fixpoint lines (o : output) (js : list nat) : res string :=
  match js with
  | [] => Ok ""
  | j :: t =>
      do s <- line o j;
      do r <- lines o t;
      Ok (s ++ r)
  end.

(** src/writer/output.rs L218-243, the text [write_into_stream] emits *)
Definition stream_text (o : output) : res string :=
  let h := match o_conv o with
           | Scalar => if o_first o then header o else ""
           | Vector => header o
           end in
  do b <- lines o (seq 0 (o_rows o));
  Ok (h ++ b).

(** src/writer/output.rs L182, L194-196, the path of the file for an output *)
Definition out_path (o : output) (counter : N) : string :=
  match o_conv o with
  | Scalar => o_file_name o ++ o_ending o
  | Vector => o_file_name o ++ pad_left "0" (o_counter_width o) (dec counter) ++ o_ending o
  end.

(** src/writer/output.rs L177-215, [Output::write_output] *)
Definition output_write (counter : N) (o : output) (w : world) : (output * world) * res unit :=
  match o_stream o with
  | File =>
      let p := out_path o counter in
      if open_fails w p then (o, w, Err EIO)
      else
        match stream_text o with
        | Ok txt =>
            let app := match o_conv o with Scalar => negb (o_first o) | Vector => false end in
            (o_set_first false o, w_write p app txt w, Ok tt)
        | Err e => (o, w, Err e)
        | Panic => (o, w, Panic)
        | Fuel => (o, w, Fuel)
        end
  | Stdout =>
      match stream_text o with
      | Ok txt => (o_set_first false o, w_print txt w, Ok tt)
      | Err e => (o, w, Err e)
      | Panic => (o, w, Panic)
      | Fuel => (o, w, Fuel)
      end
  end.

(** src/writer/output.rs L262-283, [Output::write_metadata] *)
Definition output_write_metadata (meta : string) (o : output) (w : world) : world * res unit :=
  if o_metadata o then
    match o_stream o with
    | Stdout => (w_print (meta ++ newline) w, Ok tt)
    | File =>
        let p := o_file_name o ++ "_metadata.json" in
        if open_fails w p then (w, Err EIO) else (w_write p false meta w, Ok tt)
    end
  else (w, Ok tt).

(** ** All outputs, src/writer.rs *)

(** src/writer.rs L21-36; [should_perform_output] is read nowhere *)
Record writer := mkWriter {
  wr_outputs : list output;
  wr_counter : N;
  wr_meta : string;
  wr_banner : bool
}.

(** src/writer.rs L67-72, the loop over the output configurations *)
Fixpoint outputs_new (S : nat) (cs : list output_config) (m : mesh A) (max : N) (w : world)
  : world * res (list output) :=
  match cs with
  | [] => (w, Ok [])
  | c :: t =>
      let '(w, o) := output_prepare c w in
      match o with
      | Ok _ =>
          let '(w, r) := outputs_new S t m max w in
          (w, do os <- r; Ok (output_build S c m max :: os))
      | Err e => (w, Err e)
      | Panic => (w, Panic)
      | Fuel => (w, Fuel)
      end
  end.

(** src/writer.rs L67-80, [Writer::new] *)
Definition writer_new (meta : config A -> string) (S : nat) (c : config A) (m : mesh A) (w : world)
  : world * res writer :=
  let '(w, r) := outputs_new S (cf_writer c) m (cf_output_max c) w in
  (w, do os <- r; Ok (mkWriter os 0 (meta c) (cf_banner c))).

(** src/writer.rs L89-98, [Writer::update_data] *)
Definition writer_update (m : mesh A) (v : vars A) (ts : timestep A) (wr : writer) : writer * res unit :=
  let '(os, r) := try_each (output_update m v ts) (wr_outputs wr) in
  (mkWriter os (wr_counter wr) (wr_meta wr) (wr_banner wr), r).

(** The parallel loop over the outputs under one schedule: [sched] lists the
    positions of the outputs in the order in which they are carried out.  The
    loop ends at the first failure, as [try_for_each] may. *)
Fixpoint write_sched (counter : N) (sched : list nat) (os : list output) (w : world)
  : (list output * world) * res unit :=
  match sched with
  | [] => (os, w, Ok tt)
  | i :: t =>
      match nth_error os i with
      | None => write_sched counter t os w
      | Some o =>
          let '(o, w, r) := output_write counter o w in
          let os := upd i o os in
          match r with
          | Ok _ => write_sched counter t os w
          | r => (os, w, r)
          end
      end
  end.

(** src/writer.rs L101-107, [Writer::write_output] *)
Definition writer_write (sched : list nat) (wr : writer) (w : world) : (writer * world) * res unit :=
  let '(os, w, r) := write_sched (wr_counter wr) sched (wr_outputs wr) w in
  match r with
  | Ok _ => (mkWriter os (wr_counter wr + 1) (wr_meta wr) (wr_banner wr), w, Ok tt)
  | r => (mkWriter os (wr_counter wr) (wr_meta wr) (wr_banner wr), w, r)
  end.

(** src/writer.rs L110-114, [Writer::write_metadata] *)
Fixpoint writer_metadata (meta : string) (sched : list nat) (os : list output) (w : world) : world * res unit :=
  match sched with
  | [] => (w, Ok tt)
  | i :: t =>
      match nth_error os i with
      | None => writer_metadata meta t os w
      | Some o =>
          let '(w, r) := output_write_metadata meta o w in
          match r with
          | Ok _ => writer_metadata meta t os w
          | r => (w, r)
          end
      end
  end.

End Writer.

Arguments VUsize {A}. Arguments VFloat {A}. Arguments VVec {A}. Arguments VString {A}.
Arguments mkData {A}. Arguments d_name {A}. Arguments d_payload {A}.
Arguments data_new {A}. Arguments slice {A}. Arguments write_vector {A}. Arguments row {A}.
Arguments collect_mesh {A}. Arguments collect_vars {A}. Arguments collect_time {A}. Arguments collect {A}.
Arguments mkOut {A}. Arguments o_data {A}. Arguments o_first {A}. Arguments o_rows {A}. Arguments o_conv {A}.
Arguments o_format {A}. Arguments o_stream {A}. Arguments o_file_name {A}. Arguments o_ending {A}.
Arguments o_offset {A}. Arguments o_counter_width {A}. Arguments o_metadata {A}. Arguments o_precision {A}.
Arguments o_width {A}. Arguments o_delim {A}. Arguments o_comment {A}.
Arguments o_set_data {A}. Arguments o_set_first {A}.
Arguments output_build {A}. Arguments output_update {A}. Arguments format_data {A}. Arguments header {A}.
Arguments rest_of_line {A}. Arguments line {A}. Arguments lines {A}. Arguments stream_text {A}. Arguments out_path {A}.
Arguments output_write {A}. Arguments output_write_metadata {A}.
Arguments mkWriter {A}. Arguments wr_outputs {A}. Arguments wr_counter {A}. Arguments wr_meta {A}. Arguments wr_banner {A}.
Arguments outputs_new {A}. Arguments writer_new {A}. Arguments writer_update {A}.
Arguments write_sched {A}. Arguments writer_write {A}. Arguments writer_metadata {A}.
