(** Specification vocabulary for output: numbers, tables and what a table must
    show.  Nothing here is a model of code. *)

From Coq Require Import List ZArith NArith Bool String Ascii.
From Verif Require Import Base Num Config Mesh State NumFlux Time Writer.
Import ListNotations.
Local Open Scope string_scope.

(** ** Numbers *)

(** the value of a decimal digit *)
Definition digit (c : ascii) : option N :=
  let n := N_of_ascii c in if ((48 <=? n) && (n <=? 57))%N then Some (n - 48)%N else None.

(** reading a text as a decimal number, [acc] being the digits before it *)
Fixpoint number (acc : N) (s : string) : option N :=
  match s with
  | EmptyString => Some acc
  | String c t => match digit c with Some d => number (10 * acc + d)%N t | None => None end
  end.

(** [s] consists of digits and denotes [n] *)
Definition reads (s : string) (n : N) : Prop := s <> "" /\ number 0 s = Some n.

(** ** Tables as text *)

(** the pieces between occurrences of [c] *)
Fixpoint split (c : ascii) (s : string) : list string :=
  match s with
  | EmptyString => [""]
  | String d t =>
      if Ascii.eqb d c then "" :: split c t
      else match split c t with
           | x :: l => String d x :: l
           | [] => [String d ""]
           end
  end.

(** the pieces between blanks *)
Definition words (s : string) : list string := filter (fun x => negb (String.eqb x "")) (split " " s).

Definition line_break : ascii := ascii_of_nat 10.

(** the lines of a text, each ended by a line break *)
Definition text_lines (s : string) : list string := removelast (split line_break s).

(** the text ends with a line break *)
Definition complete (s : string) : Prop := exists t, s = t ++ String line_break "".

(** without a [#] at the beginning *)
Definition uncomment (s : string) : string :=
  match s with String c t => if Ascii.eqb c "#" then t else s | EmptyString => s end.

(** reading a table: the rows and in each row the fields *)
Definition parse (f : formatting_mode) (s : string) : list (list string) :=
  match f with
  | CSV => map (split ",") (text_lines s)
  | TSV => map words (text_lines (uncomment s))
  end.

(** [s] is a table with the rows [rows] *)
Definition is_table (f : formatting_mode) (s : string) (rows : list (list string)) : Prop :=
  complete s /\ parse f s = rows.

(** a character that separates neither fields nor lines *)
Definition plain_char (c : ascii) : Prop := c <> ","%char /\ c <> " "%char /\ c <> line_break.

Fixpoint plain_text (s : string) : Prop :=
  match s with EmptyString => True | String c t => plain_char c /\ plain_text t end.

(** Numbers are rendered as texts that do not contain separators. *)
Definition plain {F} (fmt : nat -> F -> string) : Prop := forall p x, fmt p x <> "" /\ plain_text (fmt p x).

(** ** What has to be shown *)

(** the title of a column *)
Definition title (n : data_name) : string :=
  match n with
  | XiCent => "xi_cent" | XiWest => "xi_west" | XiEast => "xi_east"
  | DPrim j => "prim_" ++ dec (N.of_nat j)
  | DCons j => "cons_" ++ dec (N.of_nat j)
  | DCSound => "c_sound" | DT => "t" | DDt => "dt" | DIter => "iter" | DDtKind => "dt_kind"
  end.

Section Shown.
Variable A : Num.
Variable fmt : nat -> nF A -> string.

(** the quantity [n] in cell [i], with precision [prec] *)
Definition field (prec : nat) (m : mesh A) (ts : timestep A) (v : vars A) (i : nat) (n : data_name) : string :=
  match n with
  | XiCent => fmt prec (at1 (n0 A) (m_xi_cent m) i)
  | XiWest => fmt prec (at1 (n0 A) (m_xi_west m) i)
  | XiEast => fmt prec (at1 (n0 A) (m_xi_east m) i)
  | DPrim j => fmt prec (at2 (n0 A) (prim v) j i)
  | DCons j => fmt prec (at2 (n0 A) (cons v) j i)
  | DCSound => fmt prec (at1 (n0 A) (c_sound v) i)
  | DT => fmt prec (ts_t ts)
  | DDt => fmt prec (ts_dt ts)
  | DIter => dec (ts_iter ts)
  | DDtKind => match ts_kind ts with KInit => "init" | KCfl => "cfl" | KErrorDump => "err" end
  end.

(** the cells an output shows on a mesh with [S] cells *)
Definition cells (S : nat) (ghost : bool) : list nat := if ghost then seq 0 S else seq 2 (S - 4).

(** the rows of the file of one vector output *)
Definition vector_rows (S : nat) (c : output_config) (m : mesh A) (ts : timestep A) (v : vars A) : list (list string) :=
  map title (oc_names c) :: map (fun i => map (field (oc_precision c) m ts v i) (oc_names c)) (cells S (oc_ghost c)).

(** the rows of the file of a scalar output after the outputs [l] *)
Definition scalar_rows (c : output_config) (m : mesh A) (l : list (timestep A * vars A)) : list (list string) :=
  map title (oc_names c) :: map (fun x => map (field (oc_precision c) m (fst x) (snd x) 0) (oc_names c)) l.

End Shown.
Arguments field {A}. Arguments vector_rows {A}. Arguments scalar_rows {A}.

(** ** Files *)

(** the file that receives output number [k] of an output configuration, if
    the highest planned number is [mx] *)
Definition file_of (mx : N) (c : output_config) (k : N) : string :=
  folder_slash (oc_folder c) ++ oc_file c ++
  match oc_conv c with Vector => "_" ++ pad_left "0" (String.length (dec mx)) (dec k) | Scalar => "" end ++
  match oc_format c with TSV => ".tsv" | CSV => ".csv" end.

(** No two of the output configurations write to the same file. *)
Definition separate_files (mx : N) (cs : list output_config) : Prop :=
  forall i j ci cj, i <> j -> nth_error cs i = Some ci -> nth_error cs j = Some cj -> oc_stream ci = File -> oc_stream cj = File ->
  forall a b, file_of mx ci a <> file_of mx cj b.

(** Files are in existing directories. *)
Definition tidy (w : world) : Prop :=
  forall f p, is_dir w f = false -> prefix (folder_slash f) p = true -> w_files w p = None.

(** The parents of a directory are directories. *)
Definition rooted (w : world) : Prop :=
  forall f g, is_dir w f = true -> prefix (folder_slash g) (folder_slash f) = true -> is_dir w g = true.

(** The file name has no directory part. *)
Fixpoint no_slash (s : string) : Prop := match s with EmptyString => True | String c t => c <> "/"%char /\ no_slash t end.

(** [g] is the folder [f] or contains it. *)
Definition contains (g f : string) : Prop := prefix (folder_slash g) (folder_slash f) = true.

(** [g] contains [f] and is not the same directory. *)
Definition properly_contains (g f : string) : Prop := contains g f /\ folder_slash g <> folder_slash f.

(** The files two outputs write are different. *)
Definition other_files {A} (o1 o2 : output A) : Prop :=
  o_stream o1 = File -> o_stream o2 = File -> forall a b, out_path o1 a <> out_path o2 b.

(** No two of the outputs write to the same file. *)
Definition separate {A} (os : list (output A)) : Prop :=
  forall i j oi oj, i <> j -> nth_error os i = Some oi -> nth_error os j = Some oj -> other_files oi oj.

(** [o'] is [o] after collecting and writing any number of times. *)
Definition same_output {A} (o o' : output A) : Prop := exists d b, o' = o_set_first b (o_set_data d o).

(** a schedule that carries out each of [n] outputs once *)
Definition each_once (n : nat) (sched : list nat) : Prop :=
  NoDup sched /\ forall i, In i sched <-> (i < n)%nat.

(** A history of complete outputs: each of them collects the data of a
    snapshot and writes all outputs, in some order. *)
Inductive output_history {A} (fmt : nat -> nF A -> string) (m : mesh A) (wr0 : writer A) (w0 : world)
  : list (timestep A * vars A) -> writer A -> world -> Prop :=
| oh_none : output_history fmt m wr0 w0 [] wr0 w0
| oh_output : forall l wr w ts v wr1 sched wr2 w2, output_history fmt m wr0 w0 l wr w ->
    writer_update m v ts wr = (wr1, Ok tt) -> each_once (List.length (wr_outputs wr1)) sched ->
    writer_write fmt sched wr1 w = (wr2, w2, Ok tt) ->
    output_history fmt m wr0 w0 (l ++ [(ts, v)]) wr2 w2.

(** Arrays have one entry per cell and matrices one row per equation. *)
Definition sized {A} (p : phys) (S : nat) (v : vars A) : Prop :=
  shape (nE p) S (prim v) /\ shape (nE p) S (cons v) /\ List.length (c_sound v) = S.

(** The quantity exists for the physics system. *)
Definition name_exists (p : phys) (n : data_name) : Prop :=
  match n with DPrim j => (j < nE p)%nat | DCons j => (j < nE p)%nat | _ => True end.

(** the array a vector quantity is taken from *)
Definition array {A} (m : mesh A) (v : vars A) (n : data_name) : option (list (nF A)) :=
  match n with
  | XiCent => Some (m_xi_cent m)
  | XiWest => Some (m_xi_west m)
  | XiEast => Some (m_xi_east m)
  | DPrim j => nth_error (prim v) j
  | DCons j => nth_error (cons v) j
  | DCSound => Some (c_sound v)
  | _ => None
  end.

(** [wr] results from [wr0] by any sequence of update_data calls with arrays of
    the right size and write_output calls, whatever they returned. *)
Inductive used {A} (fmt : nat -> nF A -> string) (p : phys) (S : nat) (m : mesh A) (wr0 : writer A) : writer A -> Prop :=
| us_new : used fmt p S m wr0 wr0
| us_collect : forall wr v ts wr1 r, used fmt p S m wr0 wr -> sized p S v -> writer_update m v ts wr = (wr1, r) -> used fmt p S m wr0 wr1
| us_write : forall wr sched w wr1 w1 r, used fmt p S m wr0 wr -> writer_write fmt sched wr w = (wr1, w1, r) -> used fmt p S m wr0 wr1.

(** A history of write_output calls and of the results they returned. *)
Inductive write_history {A} (fmt : nat -> nF A -> string) (wr0 : writer A) : list (res unit) -> writer A -> Prop :=
| wh_none : write_history fmt wr0 [] wr0
| wh_collect : forall l wr m v ts wr1 r, write_history fmt wr0 l wr -> writer_update m v ts wr = (wr1, r) -> write_history fmt wr0 l wr1
| wh_write : forall l wr w sched wr1 w1 r, write_history fmt wr0 l wr -> writer_write fmt sched wr w = (wr1, w1, r) ->
    write_history fmt wr0 (l ++ [r]) wr1.

Definition is_ok (r : res unit) : bool := match r with Ok _ => true | _ => false end.
