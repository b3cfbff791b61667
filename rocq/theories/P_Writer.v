(** Properties of the output files (C44-C51, C55). *)

From Coq Require Import List ZArith NArith QArith Bool String Ascii Lia Permutation.
From Verif Require Import Base Num XReal B64 Config Mesh State NumFlux Time Writer Runner Spec SpecWriter SpecRun
  MeshProofs TextProofs TableProofs WriterProofs RunProofs WriterRun WriterDirs P_Run.
Import ListNotations.
Local Open Scope string_scope.

(** ** Configurations for the examples *)

(** one table per output, one line per output, and the screen *)
Definition three_outputs : list output_config :=
  [ mkOC File CSV Vector "out" true "flow" 5 false true [XiCent; DPrim 0; DT];
    mkOC File TSV Scalar "log/" true "steps" 3 false false [DIter; DT; DDtKind];
    default_stdout ].

Definition fmt0 {F} (prec : nat) (x : F) : string := "1.0e0".

Lemma fmt0_plain : forall F, plain (@fmt0 F).
Proof. intros F p x. split; [discriminate|]. apply plainb_ok. reflexivity. Qed.

Lemma last_neq : forall a b, last_char a <> last_char b -> a <> b.
Proof. congruence. Qed.

(** the character before the last three *)
Lemma drop_suffix : forall a b s t : string, String.length s = String.length t -> s <> t -> a ++ s <> b ++ t.
Proof.
  intros a b s t L N H. apply N. assert (E : String.length a = String.length b). { apply (f_equal String.length) in H. rewrite !length_app_s in H. lia. }
  apply (app_inv_s a b s t E H).
Qed.

Lemma three_separate : forall mx, separate_files mx three_outputs.
Proof.
  intros mx i j ci cj N Ei Ej Fi Fj a b. unfold three_outputs in *.
  destruct i as [|[|[|i]]]; cbn in Ei; try (destruct i; discriminate); injection Ei as <-; try discriminate Fi;
  destruct j as [|[|[|j]]]; cbn in Ej; try (destruct j; discriminate); injection Ej as <-; try discriminate Fj; try congruence;
  unfold file_of; cbn [oc_folder oc_file oc_conv oc_format]; rewrite <- !app_assoc_s; apply drop_suffix; try reflexivity; discriminate.
Qed.

(** ** C44 File names *)

(** Output number k of a vector output changes one file.  Its name is the
    folder, the file name, an underscore, the decimal digits of k (padded with
    zeros to at least the length of output_counter_max) and the ending. *)
Theorem C44_file_name : forall A fmt S (m : mesh A) mx c o k w o2 w2,
  same_output (output_build S c m mx) o -> oc_stream c = File -> oc_conv c = Vector ->
  output_write fmt k o w = (o2, w2, Ok tt) ->
  exists digits, reads digits k /\ String.length digits = Nat.max (String.length (dec mx)) (String.length (dec k)) /\
    let p := folder_slash (oc_folder c) ++ oc_file c ++ "_" ++ digits ++ match oc_format c with TSV => ".tsv" | CSV => ".csv" end in
    file_of mx c k = p /\ w_files w2 p <> None /\ forall q, q <> p -> w_files w2 q = w_files w q.
Proof.
  intros A fmt S m mx c o k w o2 w2 Sm F C H. exists (pad_left "0" (String.length (dec mx)) (dec k)).
  split; [split; [|apply number_pad]|].
  { intros Q. apply (f_equal String.length) in Q. rewrite length_pad in Q. pose proof (dec_nonempty k) as D. destruct (dec k); [congruence|]. cbn in Q. lia. }
  split; [apply length_pad|]. cbv zeta.
  assert (P : file_of mx c k = folder_slash (oc_folder c) ++ oc_file c ++ "_" ++ pad_left "0" (String.length (dec mx)) (dec k) ++ match oc_format c with TSV => ".tsv" | CSV => ".csv" end).
  { unfold file_of. rewrite C, app_assoc_s. reflexivity. }
  split; [exact P|]. rewrite <- P, <- (path_file_of A S m mx c k), <- (same_path A _ _ Sm k).
  apply output_write_cases in H. destruct H as [(H & _)|(_ & _ & txt & T & H)]; [congruence|].
  assert (Fo : o_stream o = File) by (destruct Sm as (d & b & ->); exact F). rewrite Fo in H. destruct H as (_ & ->). cbn [w_write w_files].
  split; [rewrite String.eqb_refl; discriminate|]. intros q Hq. destruct (String.eqb_spec q (out_path o k)); [contradiction|reflexivity].
Qed.
Print Assumptions C44_file_name.

(** Different outputs go to different files. *)
Theorem C44_injective : forall mx c a b, oc_conv c = Vector -> file_of mx c a = file_of mx c b -> a = b.
Proof.
  intros mx c a b C H. unfold file_of in H. rewrite C in H. do 2 apply app_inv_head_s in H. apply app_inv_tail_s in H. apply app_inv_head_s in H. apply (pad_inj _ _ _ H).
Qed.
Print Assumptions C44_injective.

(** Up to output_counter_max the alphabetical order of the files is the order
    of the outputs. *)
Theorem C44_order : forall mx c a b, oc_conv c = Vector -> (a <= mx)%N -> (b <= mx)%N ->
  String.compare (file_of mx c a) (file_of mx c b) = N.compare a b.
Proof.
  intros mx c a b C Ha Hb. unfold file_of. rewrite C, !compare_app_l.
  rewrite (compare_app_r ("_" ++ pad_left "0" (String.length (dec mx)) (dec a)) ("_" ++ pad_left "0" (String.length (dec mx)) (dec b))), compare_app_l; [apply pad_compare; assumption|].
  rewrite !length_app_s, !length_pad. pose proof (dec_length_mono a mx Ha). pose proof (dec_length_mono b mx Hb). lia.
Qed.
Print Assumptions C44_order.

(** Beyond it (an error dump, an additional output) it need not be: with
    output_counter_max = 9 number 10 sorts before number 9. *)
Theorem C44_order_refuted : forall c, oc_conv c = Vector -> exists mx a b, (a < b)%N /\ String.compare (file_of mx c a) (file_of mx c b) = Gt.
Proof.
  intros c C. exists 9%N, 9%N, 10%N. split; [lia|]. unfold file_of. rewrite C, !compare_app_l. destruct (oc_format c); vm_compute; reflexivity.
Qed.
Print Assumptions C44_order_refuted.

Example C44_example : file_of 10 (mkOC File CSV Vector "out" true "flow" 5 false true [DT]) 7 = "out/flow_07.csv".
Proof. reflexivity. Qed.

(** ** C45 Contents of output files *)

(** After any number of complete outputs in a folder without files of that
    name, file number n is a table with the column titles and one row per cell
    of output n, there are no further files, and the file of a scalar output
    has the titles and one row per output. *)
Theorem C45_history : forall A (fmt : nat -> nF A -> string) validation S mc (m : mesh A) mx cs k0 meta banner w0 l wr w,
  plain fmt -> mesh_new validation S mc = Ok m -> (5 <= S)%nat -> separate_files mx cs ->
  output_history fmt m (mkWriter (map (fun c => output_build S c m mx) cs) k0 meta banner) w0 l wr w ->
  forall c, In c cs -> oc_validate c = Ok tt -> oc_stream c = File -> (forall k, w_files w0 (file_of mx c k) = None) ->
  match oc_conv c with
  | Vector =>
      (forall n ts v, nth_error l n = Some (ts, v) -> exists txt, w_files w (file_of mx c (k0 + N.of_nat n)) = Some txt /\
         is_table (oc_format c) txt (vector_rows fmt S c m ts v)) /\
      forall k, (k0 + N.of_nat (List.length l) <= k)%N -> w_files w (file_of mx c k) = None
  | Scalar => (l = [] -> forall k, w_files w (file_of mx c k) = None) /\
      (l <> [] -> exists txt, (forall k, w_files w (file_of mx c k) = Some txt) /\ is_table (oc_format c) txt (scalar_rows fmt c m l))
  end.
Proof.
  intros A fmt validation S mc m mx cs k0 meta banner w0 l wr w Hf M HS Sep H c Hc V F Fr. destruct (mesh_dims A _ _ _ _ M) as (_ & D).
  exact (history_files A fmt Hf S m mx cs k0 meta banner w0 l wr w D HS Sep H c Hc V F Fr).
Qed.
Print Assumptions C45_history.

(** The files after a simulation whose outputs were all completed: outputs
    that clear their folder at start-up show exactly the outputs of the run. *)
Theorem C45_run : forall A (N : numflux_impl A) (fmt : nat -> nF A -> string) validation meta banner sched0 init p S c w0 w1 k sched afuel fuel e r,
  plain fmt -> tidy w0 -> (5 <= S)%nat -> separate_files (cf_output_max c) (cf_writer c) ->
  init_corries (N:=N) validation meta banner sched0 init p S c w0 = (w1, Ok k) ->
  (forall j, each_once (List.length (cf_writer c)) (sched j)) ->
  run_loop fmt validation sched afuel fuel p S (c_mesh k) (c_sim k) (c_writer k) w1 = (e, r) ->
  (r = Ok tt \/ wr_counter (e_writer e) = BinNat.N.of_nat (List.length (e_trace e))) ->
  forall oc, In oc (cf_writer c) -> oc_stream oc = File -> oc_clear oc = true ->
  match oc_conv oc with
  | Vector =>
      (forall n ts v, nth_error (e_trace e) n = Some (ts, v) ->
         exists txt, w_files (e_world e) (file_of (cf_output_max c) oc (BinNat.N.of_nat n)) = Some txt /\
         is_table (oc_format oc) txt (vector_rows fmt S oc (c_mesh k) ts v)) /\
      forall j, (BinNat.N.of_nat (List.length (e_trace e)) <= j)%N -> w_files (e_world e) (file_of (cf_output_max c) oc j) = None
  | Scalar =>
      e_trace e <> [] ->
      exists txt, w_files (e_world e) (file_of (cf_output_max c) oc 0) = Some txt /\
        is_table (oc_format oc) txt (scalar_rows fmt oc (c_mesh k) (e_trace e))
  end.
Proof.
  intros A N fmt validation meta banner sched0 init p S c w0 w1 k sched afuel fuel e r Hf T HS Sep I Es R Cn oc Hoc F Cl.
  destruct (init_files A N validation meta banner sched0 init p S c w0 w1 k T I) as (V & _ & D & W & Fr).
  assert (K : wr_counter (e_writer e) = (wr_counter (c_writer k) + BinNat.N.of_nat (List.length (e_trace e)))%N).
  { destruct Cn as [Cn|Cn]; [apply (run_counter _ _ _ _ _ _ _ _ _ _ _ _ _ _ _ R Cn)|]. rewrite W. cbn [wr_counter]. lia. }
  assert (Lw : List.length (wr_outputs (c_writer k)) = List.length (cf_writer c)) by (rewrite W; cbn [wr_outputs]; apply map_length).
  pose proof (run_history A fmt N validation sched afuel fuel p S (c_mesh k) (c_sim k) (c_writer k) w1 e r ltac:(rewrite Lw; exact Es) R K) as H.
  assert (Vo : oc_validate oc = Ok tt).
  { unfold cf_validate in V. repeat match type of V with bind ?a _ = _ => destruct a as [[]|x| |]; cbn [bind] in V; try discriminate end. apply (validate_all _ V oc Hoc). }
  rewrite W in H.
  pose proof (history_files A fmt Hf S (c_mesh k) (cf_output_max c) (cf_writer c) 0 (meta c) (cf_banner c) w1 (e_trace e) (e_writer e) (e_world e) D HS Sep H oc Hoc Vo F (Fr oc Hoc F Cl)) as G.
  destruct (oc_conv oc).
  - destruct G as (_ & G). intros Ne. destruct (G Ne) as (txt & G1 & G2). exists txt. auto.
  - exact G.
Qed.
Print Assumptions C45_run.

(** a binary64 run with output files, judged by [chk] *)
Section Runs.
Variables bln bexp : b64 -> b64.
Notation A := (B64n bln bexp).

Definition wrun_cfg (os : list output_config) : config A :=
  let c := brun_cfg bln bexp 100 2 (1 # 1000000) (4 # 10) in
  mkCfg (cf_banner c) (cf_mesh c) (cf_physics c) (cf_bc_west c) (cf_bc_east c) (cf_numerics c) (cf_output_max c) os.

Definition wrun (os : list output_config) (sched : list nat) (w0 : world) (chk : run_end A (Hll A) -> res unit -> bool) : bool :=
  match init_corries (N:=Hll A) true (fun _ => "{}") "" sched (brun_init bln bexp 1 (1 # 8)) Isot 6 (wrun_cfg os) w0 with
  | (w, Ok k) => let '(e, o) := run_loop fmt0 true (fun _ => sched) 0 101 Isot 6 (c_mesh k) (c_sim k) (c_writer k) w in chk e o
  | _ => false
  end.

Lemma wrun_ok : forall os sched w0 chk, wrun os sched w0 chk = true ->
  exists w k e o, init_corries (N:=Hll A) true (fun _ => "{}") "" sched (brun_init bln bexp 1 (1 # 8)) Isot 6 (wrun_cfg os) w0 = (w, Ok k) /\
    run_loop fmt0 true (fun _ => sched) 0 101 Isot 6 (c_mesh k) (c_sim k) (c_writer k) w = (e, o) /\ chk e o = true.
Proof.
  intros os sched w0 chk H. unfold wrun in H. destruct (init_corries true _ _ _ _ _ _ _ _) as [w k] eqn:I. destruct k as [k|e| |]; try discriminate.
  destruct (run_loop _ true _ 0 101 Isot 6 (c_mesh k) (c_sim k) (c_writer k) w) as [e o] eqn:E. exists w, k, e, o. auto.
Qed.
End Runs.

Lemma no_world_tidy : tidy no_world. Proof. intros f p _ _. reflexivity. Qed.

Lemma once_120 : each_once 3 [1; 2; 0]%nat.
Proof.
  split; [repeat constructor; cbn; intuition discriminate|]. intros i. cbn. split; [intuition lia|]. intros H. destruct i as [|[|[|i]]]; [auto..|lia].
Qed.

(** C45 example: a run over [0, 1] with three outputs of each kind. *)
Example C45_example : forall bln bexp, exists w k e,
  init_corries (A:=B64n bln bexp) (N:=Hll (B64n bln bexp)) true (fun _ => "{}") "" [1; 2; 0]%nat (brun_init bln bexp 1 (1 # 8)) Isot 6 (wrun_cfg bln bexp three_outputs) no_world = (w, Ok k) /\
  run_loop fmt0 true (fun _ => [1; 2; 0]%nat) 0 101 Isot 6 (c_mesh k) (c_sim k) (c_writer k) w = (e, Ok tt) /\
  List.length (e_trace e) = 3%nat /\ each_once 3 [1; 2; 0]%nat /\ separate_files 2 three_outputs /\ tidy no_world /\
  w_files (e_world e) "log/steps.tsv" <> None /\ w_files (e_world e) "out/flow_2.csv" <> None.
Proof.
  intros bln bexp.
  destruct (wrun_ok bln bexp three_outputs [1; 2; 0]%nat no_world (fun e o => b_ok o && (List.length (e_trace e) =? 3)%nat &&
    (match w_files (e_world e) "log/steps.tsv" with Some _ => true | None => false end && match w_files (e_world e) "out/flow_2.csv" with Some _ => true | None => false end))) as (w & k & e & o & I & R & C).
  { vm_compute. reflexivity. }
  apply andb_true_iff in C. destruct C as [C C3]. apply andb_true_iff in C. destruct C as [C1 C2]. apply Nat.eqb_eq in C2. apply andb_true_iff in C3. destruct C3 as [C3 C4].
  destruct o as [[]|x| |]; try discriminate C1. exists w, k, e. split; [exact I|]. split; [exact R|]. split; [exact C2|]. split; [exact once_120|].
  split; [apply three_separate|]. split; [exact no_world_tidy|]. split; [destruct (w_files (e_world e) "log/steps.tsv"); [discriminate|discriminate C3]|destruct (w_files (e_world e) "out/flow_2.csv"); [discriminate|discriminate C4]].
Qed.

(** ** C46 Existing files *)

(** A vector output, and the first write of a scalar output, puts its text over
    the beginning of an existing file; what the file has beyond that stays. *)
Theorem C46_not_truncated : forall A (fmt : nat -> nF A -> string) k o w o2 w2 old,
  o_stream o = File -> (o_conv o = Vector \/ o_first o = true) -> w_files w (out_path o k) = Some old ->
  output_write fmt k o w = (o2, w2, Ok tt) ->
  exists txt, stream_text fmt o = Ok txt /\
    (forall a b, old = a ++ b -> String.length a = String.length txt -> w_files w2 (out_path o k) = Some (txt ++ b)) /\
    ((String.length old <= String.length txt)%nat -> w_files w2 (out_path o k) = Some txt) /\
    ((String.length txt < String.length old)%nat -> w_files w2 (out_path o k) <> Some txt).
Proof.
  intros A fmt k o w o2 w2 old F C O H. apply output_write_cases in H. destruct H as [(H & _)|(_ & _ & txt & T & H)]; [congruence|].
  rewrite F in H. destruct H as (_ & ->). exists txt. split; [exact T|]. cbn [w_write w_files]. rewrite String.eqb_refl, O.
  assert (Ap : appends o = false) by (unfold appends; destruct C as [->|C]; [reflexivity|]; destruct (o_conv o); [rewrite C; reflexivity|reflexivity]). rewrite Ap. cbn [overlay].
  assert (Dr : forall a b, str_drop (String.length a) (a ++ b) = b) by (induction a; intros b; cbn; auto).
  assert (D0 : forall n s, (String.length s <= n)%nat -> str_drop n s = "") by (induction n; intros [|c s] L; cbn in *; try reflexivity; try lia; apply IHn; lia).
  split; [|split].
  - intros a b -> L. rewrite <- L, Dr. reflexivity.
  - intros L. rewrite D0, app_nil_s by exact L. reflexivity.
  - intros L Q. apply (f_equal (fun x => match x with Some s => String.length s | None => 0%nat end)) in Q. rewrite length_app_s in Q.
    assert (Dl : forall n s, String.length (str_drop n s) = (String.length s - n)%nat) by (induction n; intros [|c s]; cbn; auto). rewrite Dl in Q. lia.
Qed.
Print Assumptions C46_not_truncated.

(** The same for the metadata file. *)
Theorem C46_metadata : forall A (o : output A) meta w w2 a b, o_stream o = File -> o_metadata o = true ->
  output_write_metadata meta o w = (w2, Ok tt) -> w_files w (o_file_name o ++ "_metadata.json") = Some (a ++ b) -> String.length a = String.length meta ->
  w_files w2 (o_file_name o ++ "_metadata.json") = Some (meta ++ b).
Proof.
  intros A o meta w w2 a b F M H O L. unfold output_write_metadata in H. rewrite F, M in H. destruct (open_fails _ _); [discriminate|]. injection H as <-.
  cbn [w_write w_files]. rewrite String.eqb_refl, O. cbn [overlay].
  assert (Dr : forall a b, str_drop (String.length a) (a ++ b) = b) by (clear; induction a; intros b; cbn; auto). rewrite <- L, Dr. reflexivity.
Qed.
Print Assumptions C46_metadata.

(** So without clearing, a completed run of a valid configuration can leave a
    file that is not the table of its output. *)
Definition kept_output : list output_config := [mkOC File CSV Vector "out" false "flow" 5 false false [XiCent; DPrim 0]].
Definition old_world : world :=
  mkWorld (fun p => if String.eqb p "out/flow_0.csv" then Some ("a,b" ++ newline ++ "1,2" ++ newline ++ "3,4" ++ newline ++ "5,6" ++ newline ++ "7,8" ++ newline ++ "9,1" ++ newline ++ "2,3" ++ newline ++ "4,5" ++ newline ++ "6,7" ++ newline ++ "8,9" ++ newline ++ "1,2" ++ newline) else None)
          (String.eqb "out") "" (fun _ => false).

Theorem C46_run_refuted : forall bln bexp, exists w k e x oc,
  cf_validate (wrun_cfg bln bexp kept_output) = Ok tt /\
  init_corries (A:=B64n bln bexp) (N:=Hll (B64n bln bexp)) true (fun _ => "{}") "" [0]%nat (brun_init bln bexp 1 (1 # 8)) Isot 6 (wrun_cfg bln bexp kept_output) old_world = (w, Ok k) /\
  run_loop fmt0 true (fun _ => [0]%nat) 0 101 Isot 6 (c_mesh k) (c_sim k) (c_writer k) w = (e, Ok tt) /\
  In oc kept_output /\ nth_error (e_trace e) 0 = Some x /\
  exists txt, w_files (e_world e) (file_of 2 oc 0) = Some txt /\ ~ is_table (oc_format oc) txt (vector_rows fmt0 6 oc (c_mesh k) (fst x) (snd x)).
Proof.
  intros bln bexp.
  destruct (wrun_ok bln bexp kept_output [0]%nat old_world (fun e o => b_ok o && (List.length (e_trace e) =? 3)%nat &&
    match w_files (e_world e) "out/flow_0.csv" with Some t => negb (List.length (parse CSV t) =? 3)%nat | None => false end)) as (w & k & e & o & I & R & C).
  { vm_compute. reflexivity. }
  apply andb_true_iff in C. destruct C as [C C3]. apply andb_true_iff in C. destruct C as [C1 C2]. apply Nat.eqb_eq in C2.
  destruct o as [[]|y| |]; try discriminate C1. destruct (e_trace e) as [|x tr] eqn:Et; [discriminate C2|].
  exists w, k, e, x, (mkOC File CSV Vector "out" false "flow" 5 false false [XiCent; DPrim 0]).
  split; [unfold init_corries in I; destruct (cf_validate (wrun_cfg bln bexp kept_output)) as [[]|y| |]; [reflexivity|discriminate I..]|].
  split; [exact I|]. split; [exact R|]. split; [left; reflexivity|]. split; [rewrite Et; reflexivity|].
  change (file_of 2 (mkOC File CSV Vector "out" false "flow" 5 false false [XiCent; DPrim 0]) 0) with "out/flow_0.csv".
  destruct (w_files (e_world e) "out/flow_0.csv") as [t|]; [|discriminate C3]. exists t. split; [reflexivity|]. intros (_ & P). cbn [oc_format] in P. rewrite P in C3. discriminate C3.
Qed.
Print Assumptions C46_run_refuted.

(** ** C47 Columns *)

(** What one call of write_output puts out for the data of a snapshot: on the
    screen and, in a new or appended file, a table with one column per data
    name, in the order of the configuration.  A scalar output after the first
    adds one row to any table. *)
Theorem C47_columns : forall A (fmt : nat -> nF A -> string) validation S mc (m : mesh A) mx c o ts v o1 k w o2 w2,
  plain fmt -> mesh_new validation S mc = Ok m -> (5 <= S)%nat -> oc_validate c = Ok tt ->
  same_output (output_build S c m mx) o -> map d_name (o_data o) = oc_names c ->
  output_update m v ts o = (o1, Ok tt) -> output_write fmt k o1 w = (o2, w2, Ok tt) ->
  exists txt,
    (oc_stream c = Stdout -> w_stdout w2 = w_stdout w ++ txt) /\
    (oc_stream c = File -> w_files w (file_of mx c k) = None -> w_files w2 (file_of mx c k) = Some txt) /\
    (oc_stream c = File -> oc_conv c = Scalar -> o_first o = false -> forall old, w_files w (file_of mx c k) = Some old -> w_files w2 (file_of mx c k) = Some (old ++ txt)) /\
    (oc_conv c = Vector -> is_table (oc_format c) txt (vector_rows fmt S c m ts v)) /\
    (oc_conv c = Scalar -> o_first o = true -> is_table (oc_format c) txt (scalar_rows fmt c m [(ts, v)])) /\
    (oc_conv c = Scalar -> o_first o = false -> forall T rows, is_table (oc_format c) T rows ->
       is_table (oc_format c) (T ++ txt) (rows ++ [map (field fmt (oc_precision c) m ts v 0) (oc_names c)])).
Proof.
  intros A fmt validation S mc m mx c o ts v o1 k w o2 w2 Hf M HS V Sm Nm U H. destruct (mesh_dims A _ _ _ _ M) as (_ & D).
  apply update_holds in U. destruct U as (Ho & d & ->). rewrite Nm in Ho. set (o1 := o_set_data d o) in *.
  assert (Sm1 : same_output (output_build S c m mx) o1). { destruct Sm as (d0 & b0 & ->). exists d, b0. reflexivity. }
  apply output_write_cases in H. destruct H as [(H & _)|(_ & _ & txt & T & H)]; [congruence|]. exists txt.
  assert (Ef : o_first o1 = o_first o) by reflexivity.
  assert (E0 : o_stream o1 = oc_stream c /\ o_conv o1 = oc_conv c /\ o_format o1 = oc_format c /\ o_rows o1 = o_rows (output_build S c m mx)) by (destruct Sm1 as (d1 & b1 & ->); auto).
  destruct E0 as (Es & Ec & Eo & Er). pose proof (same_styled A _ _ Sm1 (styled_build A S c m mx)) as St.
  destruct (build_rows A S c m mx D HS) as (R1 & R2 & _). cbn [o_conv output_build] in R2.
  assert (Ne : oc_names c <> []) by (apply (text_names A fmt m o1 ts v _ txt Ho T); rewrite Er; exact R1).
  rewrite <- (path_file_of A S m mx c k), <- (same_path A _ _ Sm1 k). rewrite Es in H.
  pose proof (names_build A S c m mx) as Nb.
  split; [intros Q; rewrite Q in H; rewrite H; reflexivity|].
  split; [intros Q Old; rewrite Q in H; destruct H as (_ & ->); cbn [w_write w_files]; rewrite String.eqb_refl, Old; reflexivity|].
  split; [intros Q Cv Fi old Old; rewrite Q in H; destruct H as (_ & ->); cbn [w_write w_files]; rewrite String.eqb_refl, Old; unfold appends; rewrite Ec, Cv, Ef, Fi; reflexivity|].
  split; [|split].
  - intros Cv. rewrite <- Eo, <- (build_table A fmt S c m mx ts v D HS Cv). rewrite Nb.
    rewrite (map_ext (fields fmt (output_build S c m mx) m ts v (oc_names c)) (fields fmt o1 m ts v (oc_names c))) by (intros r; symmetry; apply fields_same; exact Sm1).
    rewrite <- Er. apply (text_vector A fmt Hf o1 m ts v (oc_names c) txt St Ho Ne); [congruence|exact T].
  - intros Cv Fi. rewrite <- Eo. unfold scalar_rows. cbn [map fst snd]. rewrite <- (build_scalar A fmt S c m mx ts v V Cv), <- titles, Nb, <- (fields_same A fmt m _ o1 ts v (oc_names c) 0 Sm1).
    apply (text_scalar_first A fmt Hf o1 m ts v (oc_names c) txt St Ho Ne); [congruence|congruence|rewrite Er; apply R2; exact Cv|exact T].
  - intros Cv Fi T0 rows B. rewrite <- Eo in *. rewrite <- (build_scalar A fmt S c m mx ts v V Cv), Nb, <- (fields_same A fmt m _ o1 ts v (oc_names c) 0 Sm1).
    apply (text_scalar_next A fmt Hf o1 m ts v (oc_names c) txt T0 rows St Ho); [congruence|congruence|rewrite Er; apply R2; exact Cv|exact T|exact B].
Qed.
Print Assumptions C47_columns.

(** In particular every row has one field per data name. *)
Corollary C47_row_lengths : forall A (fmt : nat -> nF A -> string) S (m : mesh A) c ts v txt,
  is_table (oc_format c) txt (vector_rows fmt S c m ts v) ->
  List.length (parse (oc_format c) txt) = Datatypes.S (List.length (cells S (oc_ghost c))) /\
  forall row, In row (parse (oc_format c) txt) -> List.length row = List.length (oc_names c).
Proof.
  intros A fmt S m c ts v txt (_ & ->). unfold vector_rows. split; [cbn [List.length]; rewrite map_length; reflexivity|].
  intros row [<-|H]; [apply map_length|]. apply in_map_iff in H. destruct H as (i & <- & _). apply map_length.
Qed.
Print Assumptions C47_row_lengths.

Section Demo47.
Variable A : Num.
Variable validation : bool.
Variable mc : mesh_config A.
Variable m : mesh A.
Hypothesis M : mesh_new validation 6 mc = Ok m.

Definition demo_vars : vars A := vars_new Isot 6 (default_physics_config A).

(** C47 example: a vector output of a new simulation *)
Lemma demo_update : exists o1, output_update m demo_vars (ts_new (default_numerics_config A THll (n1 A)) 5%N)
  (output_build 6 (mkOC File CSV Vector "out" true "flow" 5 false true [XiCent; DPrim 0; DT]) m 5) = (o1, Ok tt) /\ wf_output Isot 6 o1.
Proof.
  destruct (mesh_dims A _ _ _ _ M) as (_ & D). apply (update_wf A Isot 6 m); [exact D| |apply build_wf; [exact D|lia|discriminate|]].
  - split; [|split]; [split; [reflexivity|]..|reflexivity]; intros [|[|j]] Hj; try reflexivity; cbn in Hj; lia.
  - intros n [<-|[<-|[<-|[]]]]; cbn; auto.
Qed.
End Demo47.

Example C47_example : forall A validation (mc : mesh_config A) m, mesh_new validation 6 mc = Ok m ->
  let c := mkOC File CSV Vector "out" true "flow" 5 false true [XiCent; DPrim 0; DT] in
  exists ts v o1 o2 w2, output_update m v ts (output_build 6 c m 5) = (o1, Ok tt) /\
    output_write fmt0 0 o1 (mkWorld (fun _ => None) (fun _ => true) "" (fun _ => false)) = (o2, w2, Ok tt) /\
    oc_validate c = Ok tt /\ map d_name (o_data (output_build 6 c m 5)) = oc_names c.
Proof.
  intros A validation mc m M c. destruct (demo_update A validation mc m M) as (o1 & U & W). destruct (text_wf A fmt0 Isot 6 o1 W) as (txt & T).
  assert (E : o_stream o1 = File). { pose proof (update_holds A _ _ _ _ _ U) as (_ & d & ->). reflexivity. }
  do 2 eexists. exists o1. unfold output_write. rewrite E, T. do 2 eexists. split; [exact U|].
  split; [unfold open_fails; cbn; destruct (parent _); reflexivity|]. split; reflexivity.
Qed.

(** ** C48 Ghost cells *)

(** After collecting, vector data consist of the values in the cells the
    configuration asks for, in order: all cells, or all but the two ghost
    cells at each end. *)
Theorem C48_cells : forall A validation S mc (m : mesh A) mx c o ts v o1 j n arr,
  mesh_new validation S mc = Ok m -> same_output (output_build S c m mx) o ->
  output_update m v ts o = (o1, Ok tt) -> nth_error (map d_name (o_data o)) j = Some n -> array m v n = Some arr -> List.length arr = S ->
  exists d, nth_error (o_data o1) j = Some d /\ d_name d = n /\ d_payload d = VVec (map (at1 (n0 A) arr) (cells S (oc_ghost c))).
Proof.
  intros A validation S mc m mx c o ts v o1 j n arr M Sm U Hj Ha L. destruct (mesh_dims A _ _ _ _ M) as (HS & _ & _ & D1 & D2 & _).
  apply update_holds in U. destruct U as (Ho & d0 & E1). unfold holds_all in Ho.
  assert (Off : o_offset o1 = if oc_ghost c then 0%nat else 2%nat).
  { rewrite E1. destruct Sm as (d & b & ->). cbn [o_set_data o_set_first o_offset output_build]. rewrite D1, D2. reflexivity. }
  assert (G : exists d, nth_error (o_data o1) j = Some d /\ holds m ts v (o_offset o1) n d).
  { revert j Hj. induction Ho as [|n' d ns ds Hd _ IH]; intros [|j] Hj; try discriminate; cbn [nth_error] in *; [injection Hj as ->; eauto|apply IH; exact Hj]. }
  destruct G as (d & G1 & G2 & G3). exists d. split; [exact G1|]. split; [exact G2|].
  assert (P : d_payload d = VVec (slice (o_offset o1) arr)).
  { destruct n; cbn [array] in Ha; try discriminate; try (injection Ha as <-; exact G3); destruct G3 as (r & R1 & R2); assert (r = arr) by congruence; subst r; exact R2. }
  rewrite P. f_equal. rewrite Off. unfold cells. destruct (oc_ghost c).
  - rewrite slice_0. apply (list_ext _ (n0 A)); [rewrite map_length, seq_length; exact L|]. intros i Hi.
    rewrite (nth_indep (map _ _) (n0 A) (at1 (n0 A) arr 0)) by (rewrite map_length, seq_length; lia). rewrite map_nth, seq_nth by lia. reflexivity.
  - apply (list_ext _ (n0 A)); [rewrite length_slice, map_length, seq_length; lia|]. intros i Hi. rewrite length_slice in Hi.
    rewrite (nth_indep (map _ _) (n0 A) (at1 (n0 A) arr 0)) by (rewrite map_length, seq_length; lia). rewrite map_nth, seq_nth by lia. unfold at1.
    destruct (nth_error (slice 2 arr) i) as [x|] eqn:X; [|apply nth_error_None in X; rewrite length_slice in X; lia].
    rewrite (nth_error_nth _ _ _ X). apply nth_slice in X. rewrite (nth_error_nth _ _ _ X). reflexivity.
Qed.
Print Assumptions C48_cells.

(** In a written file: one row per such cell, in order, and in the column of an
    array the value of the array in that cell.  The case of C47_example meets the
    hypotheses. *)
Theorem C48_written : forall A (fmt : nat -> nF A -> string) validation S mc (m : mesh A) mx c o ts v o1 k w o2 w2,
  plain fmt -> mesh_new validation S mc = Ok m -> (5 <= S)%nat -> oc_validate c = Ok tt -> oc_conv c = Vector -> oc_stream c = File ->
  same_output (output_build S c m mx) o -> map d_name (o_data o) = oc_names c ->
  output_update m v ts o = (o1, Ok tt) -> w_files w (file_of mx c k) = None -> output_write fmt k o1 w = (o2, w2, Ok tt) ->
  exists txt head rows, w_files w2 (file_of mx c k) = Some txt /\ parse (oc_format c) txt = head :: rows /\
    List.length rows = List.length (cells S (oc_ghost c)) /\
    forall n i col name arr, nth_error (cells S (oc_ghost c)) n = Some i -> nth_error (oc_names c) col = Some name -> array m v name = Some arr ->
      exists row, nth_error rows n = Some row /\ nth_error row col = Some (fmt (oc_precision c) (at1 (n0 A) arr i)).
Proof.
  intros A fmt validation S mc m mx c o ts v o1 k w o2 w2 Hf M HS V Hc Hs Sm Nm U Fr H.
  destruct (C47_columns A fmt validation S mc m mx c o ts v o1 k w o2 w2 Hf M HS V Sm Nm U H) as (txt & _ & Ff & _ & (_ & T) & _); [exact Hc|].
  exists txt. do 2 eexists. split; [apply Ff; assumption|]. split; [exact T|]. split; [apply map_length|].
  intros n i col name arr Hn Hcol Ha. eexists. split; [apply map_nth_error; exact Hn|].
  rewrite (map_nth_error _ _ _ Hcol). f_equal. destruct name; cbn [array] in Ha; try discriminate; try (injection Ha as <-; reflexivity);
    cbn [field]; unfold at2, at1; f_equal; symmetry; f_equal; apply nth_error_nth with (d := []) in Ha; symmetry; exact Ha.
Qed.
Print Assumptions C48_written.

(** C48 example: the collected cell centres of a 6 cell mesh are those of cells
    2 and 3 *)
Example C48_example : forall A validation (mc : mesh_config A) m, mesh_new validation 6 mc = Ok m ->
  let c := mkOC File CSV Vector "out" true "flow" 5 false true [XiCent; DPrim 0; DT] in
  cells 6 (oc_ghost c) = [2; 3]%nat /\ exists ts v o1, output_update m v ts (output_build 6 c m 5) = (o1, Ok tt) /\
    nth_error (map d_name (o_data (output_build 6 c m 5))) 0 = Some XiCent /\ exists arr, array m v XiCent = Some arr /\ List.length arr = 6%nat.
Proof.
  intros A validation mc m M c. split; [reflexivity|]. destruct (demo_update A validation mc m M) as (o1 & U & _). do 2 eexists. exists o1. split; [exact U|].
  split; [reflexivity|]. exists (m_xi_cent m). split; [reflexivity|]. destruct (mesh_dims A _ _ _ _ M) as (_ & D). apply D.
Qed.

(** ** C49 Parallel writing *)

(** Whatever the order in which the outputs of one write_output call are
    carried out: the call succeeds in one order if and only if in every order,
    and then the writer and the files are the same; so is the screen if at
    most one output goes there. *)
Theorem C49_schedule : forall A (fmt : nat -> nF A -> string) wr w a b wra wa ra wrb wb rb,
  separate (wr_outputs wr) -> each_once (List.length (wr_outputs wr)) a -> each_once (List.length (wr_outputs wr)) b ->
  writer_write fmt a wr w = (wra, wa, ra) -> writer_write fmt b wr w = (wrb, wb, rb) ->
  (ra = Ok tt <-> rb = Ok tt) /\
  (ra = Ok tt -> wra = wrb /\ (forall p, w_files wa p = w_files wb p) /\ w_dirs wa = w_dirs wb /\
     ((forall i j oi oj, nth_error (wr_outputs wr) i = Some oi -> nth_error (wr_outputs wr) j = Some oj -> o_stream oi = Stdout -> o_stream oj = Stdout -> i = j) ->
      w_stdout wa = w_stdout wb)).
Proof.
  intros A fmt wr w a b wra wa ra wrb wb rb Sep Ea Eb Ha Hb. pose proof (each_once_perm _ _ _ Ea Eb) as Pm.
  destruct Ea as (Na & Ia). destruct Eb as (Nb & Ib). unfold writer_write in Ha, Hb.
  destruct (write_sched fmt (wr_counter wr) a (wr_outputs wr) w) as [[osa wa0] ra0] eqn:Wa.
  destruct (write_sched fmt (wr_counter wr) b (wr_outputs wr) w) as [[osb wb0] rb0] eqn:Wb.
  assert (Xa : ra = ra0 /\ wa = wa0 /\ (ra0 = Ok tt -> wra = mkWriter osa (wr_counter wr + 1) (wr_meta wr) (wr_banner wr))).
  { destruct ra0 as [[]|e| |]; injection Ha as <- <- <-; (split; [reflexivity|]); (split; [reflexivity|]); intros Q; try discriminate; reflexivity. }
  assert (Xb : rb = rb0 /\ wb = wb0 /\ (rb0 = Ok tt -> wrb = mkWriter osb (wr_counter wr + 1) (wr_meta wr) (wr_banner wr))).
  { destruct rb0 as [[]|e| |]; injection Hb as <- <- <-; (split; [reflexivity|]); (split; [reflexivity|]); intros Q; try discriminate; reflexivity. }
  clear Ha Hb. destruct Xa as (-> & -> & Xa). destruct Xb as (-> & -> & Xb).
  assert (Iff : ra0 = Ok tt <-> rb0 = Ok tt).
  { pose proof (sched_can A fmt (wr_counter wr) a (wr_outputs wr) w Na) as Ca. pose proof (sched_can A fmt (wr_counter wr) b (wr_outputs wr) w Nb) as Cb.
    rewrite Wa in Ca. rewrite Wb in Cb. split; intros Q; subst.
    - assert (K : exists os' w', (osb, wb0, rb0) = (os', w', Ok tt)). { apply Cb. intros i o Hi. apply (proj1 Ca); [eauto|]. apply Ia. apply Ib. exact Hi. }
      destruct K as (x & y & K). congruence.
    - assert (K : exists os' w', (osa, wa0, ra0) = (os', w', Ok tt)). { apply Ca. intros i o Hi. apply (proj1 Cb); [eauto|]. apply Ib. apply Ia. exact Hi. }
      destruct K as (x & y & K). congruence. }
  split; [exact Iff|]. intros Q. pose proof (proj1 Iff Q) as Q2. specialize (Xa Q). specialize (Xb Q2). subst ra0 rb0.
  destruct (sched_ok A fmt (wr_counter wr) a _ _ _ _ Na (separate_distinct _ _ _ _ Sep) Wa) as (A1 & A2 & A3 & A4 & A5 & A6).
  destruct (sched_ok A fmt (wr_counter wr) b _ _ _ _ Nb (separate_distinct _ _ _ _ Sep) Wb) as (B1 & B2 & B3 & B4 & B5 & B6).
  assert (Eo : osa = osb).
  { assert (G : forall (x y : list (output A)), (forall i, nth_error x i = nth_error y i) -> x = y).
    { induction x as [|u x IH]; intros [|z y] H; [reflexivity|specialize (H 0%nat); discriminate|specialize (H 0%nat); discriminate|].
      pose proof (H 0%nat) as H0. cbn in H0. injection H0 as ->. f_equal. apply IH. intros i. apply (H (Datatypes.S i)). }
    apply G. intros i. rewrite A1, B1. destruct (nth_error (wr_outputs wr) i) as [o|]; [|reflexivity]. f_equal.
    destruct (in_dec Nat.eq_dec i a) as [Hi|Hi], (in_dec Nat.eq_dec i b) as [Hi2|Hi2]; try reflexivity; exfalso; [apply Hi2; apply Ib; apply Ia; exact Hi|apply Hi; apply Ia; apply Ib; exact Hi2]. }
  split; [congruence|]. split; [|split; [congruence|]].
  - intros p.
    assert (Dec : (exists i o, nth_error (wr_outputs wr) i = Some o /\ o_stream o = File /\ p = out_path o (wr_counter wr)) \/
       forall i o, nth_error (wr_outputs wr) i = Some o -> o_stream o = File -> p <> out_path o (wr_counter wr)).
    { clear. induction (wr_outputs wr) as [|o l IH]; [right; intros [|i] o H; discriminate|].
      destruct IH as [(i & q & H)|IH]; [left; exists (Datatypes.S i), q; exact H|].
      destruct (String.string_dec p (out_path o (wr_counter wr))) as [E|E]; [destruct (o_stream o) eqn:F|].
      - right. intros [|i] q H K; cbn in H; [injection H as <-; congruence|]. apply (IH i q H K).
      - left. exists 0%nat, o. auto.
      - right. intros [|i] q H K; cbn in H; [injection H as <-; exact E|]. apply (IH i q H K). }
    destruct Dec as [(i & o & Ei & F & ->)|Dec].
    + assert (Li : (i < List.length (wr_outputs wr))%nat) by (apply nth_error_Some; congruence).
      destruct (A2 i o (proj2 (Ia i) Li) Ei) as (t1 & T1 & F1). destruct (B2 i o (proj2 (Ib i) Li) Ei) as (t2 & T2 & F2).
      rewrite (F1 F), (F2 F). congruence.
    + rewrite A3, B3; [reflexivity| |]; intros i o _ Ei F; apply (Dec i o Ei F).
  - intros One. rewrite A6, B6. f_equal.
    assert (Swap : forall l1 l2, Permutation l1 l2 -> NoDup l1 -> printed fmt (wr_outputs wr) l1 = printed fmt (wr_outputs wr) l2).
    { intros l1 l2 P. induction P as [|x l1 l2 P IH|x y l|l1 l2 l3 P1 IH1 P2 IH2]; intros ND.
      - reflexivity.
      - inversion ND; subst. cbn [printed]. rewrite IH by assumption. reflexivity.
      - inversion ND as [|? ? N1 N2]; subst. cbn [printed].
        destruct (nth_error (wr_outputs wr) y) as [oy|] eqn:Ey; [|reflexivity]. destruct (nth_error (wr_outputs wr) x) as [ox|] eqn:Ex; [|reflexivity].
        destruct (o_stream oy) eqn:Fy; [|reflexivity]. destruct (o_stream ox) eqn:Fx; [|reflexivity].
        exfalso. apply N1. left. apply (One x y ox oy Ex Ey Fx Fy).
      - rewrite IH1 by exact ND. apply IH2. apply (Permutation_NoDup P1 ND). }
    apply Swap; [exact Pm|exact Na].
Qed.
Print Assumptions C49_schedule.

(** C49 example: two files and the screen in two orders *)
Definition open_world : world := mkWorld (fun _ => None) (fun _ => true) "" (fun _ => false).
Definition screen_and_log : list output_config :=
  [ default_stdout_with_names [DIter; DDtKind]; mkOC File CSV Scalar "out" true "log" 3 false false [DIter]; mkOC File CSV Scalar "out" true "kinds" 3 false false [DDtKind] ].

Example C49_example : forall A (m : mesh A), exists (wr : writer A) wa wb,
  separate (wr_outputs wr) /\ each_once (List.length (wr_outputs wr)) [0; 1; 2]%nat /\ each_once (List.length (wr_outputs wr)) [1; 2; 0]%nat /\
  writer_write fmt0 [0; 1; 2]%nat wr open_world = (wa, Ok tt) /\ writer_write fmt0 [1; 2; 0]%nat wr open_world = (wb, Ok tt) /\
  w_files (snd wa) "out/kinds.csv" = Some ("dt_kind" ++ newline ++ "init" ++ newline).
Proof.
  intros A m.
  exists (fst (writer_update m (vars_new Isot 6 (default_physics_config A)) (ts_new (default_numerics_config A THll (n1 A)) 5%N) (mkWriter (map (fun c => output_build 6 c m 5) screen_and_log) 0 "" false))).
  do 2 eexists. split.
  - intros i j oi oj N Ei Ej Fi Fj a b.
    destruct i as [|[|[|i]]]; cbn in Ei; try (destruct i; discriminate Ei); injection Ei as <-; try discriminate Fi;
    destruct j as [|[|[|j]]]; cbn in Ej; try (destruct j; discriminate Ej); injection Ej as <-; try discriminate Fj; try congruence; discriminate.
  - split; [|split; [exact once_120|]].
    + split; [repeat constructor; cbn; intuition discriminate|]. intros i. cbn. split; [intuition lia|]. intros H. destruct i as [|[|[|i]]]; [auto..|lia].
    + split; [reflexivity|]. split; reflexivity.
Qed.

(** Without different files the order matters: a valid configuration and two
    orders of its two outputs with different files as a result. *)
Definition same_log : list output_config :=
  [ mkOC File CSV Scalar "out" true "log" 3 false false [DIter]; mkOC File CSV Scalar "out" true "log" 3 false false [DDtKind] ].

Theorem C49_same_file_refuted : forall A (m : mesh A), oc_validate_all same_log = Ok tt /\ exists ts v (wr : writer A) wra wa wrb wb,
  writer_update m v ts (mkWriter (map (fun c => output_build 6 c m 5) same_log) 0 "" false) = (wr, Ok tt) /\
  writer_write fmt0 [0; 1]%nat wr open_world = (wra, wa, Ok tt) /\ writer_write fmt0 [1; 0]%nat wr open_world = (wrb, wb, Ok tt) /\
  w_files wa "out/log.csv" <> w_files wb "out/log.csv".
Proof.
  intros A m. split; [reflexivity|]. exists (ts_new (default_numerics_config A THll (n1 A)) 5%N), (vars_new Isot 6 (default_physics_config A)).
  do 5 eexists. split; [reflexivity|]. split; [reflexivity|]. split; [reflexivity|]. vm_compute. discriminate.
Qed.
Print Assumptions C49_same_file_refuted.

(** ** C50 The output counter *)

(** Over any history of update_data and write_output calls the counter grows
    by the number of write_output calls that returned Ok. *)
Theorem C50_counter : forall A (fmt : nat -> nF A -> string) wr0 l wr, write_history fmt wr0 l wr ->
  wr_counter wr = (wr_counter wr0 + N.of_nat (List.length (filter is_ok l)))%N.
Proof.
  intros A fmt wr0 l wr H. induction H as [|l wr m v ts wr1 r H IH U|l wr w sched wr1 w1 r H IH W].
  - cbn. lia.
  - unfold writer_update in U. destruct (try_each _ _) as [os r1]. injection U as <- <-. exact IH.
  - unfold writer_write in W. destruct (write_sched fmt _ _ _ _) as [[os w2] r1]. rewrite filter_app, app_length.
    destruct r1 as [[]|e| |]; injection W as <- <- <-; cbn [wr_counter filter is_ok List.length]; rewrite IH; lia.
Qed.
Print Assumptions C50_counter.

(** and a new writer starts with 0 *)
Theorem C50_start : forall A meta S (c : config A) m w w' wr, writer_new meta S c m w = (w', Ok wr) -> wr_counter wr = 0%N.
Proof.
  intros A meta S c m w w' wr H. unfold writer_new in H. destruct (outputs_new S (cf_writer c) m (cf_output_max c) w) as [w1 r]. destruct r as [os|e| |]; cbn [bind] in H; try discriminate.
  injection H as _ <-. reflexivity.
Qed.
Print Assumptions C50_start.

(** C50 example: a failing call (the directory is missing) followed by a
    successful one; the file gets number 0. *)
Example C50_example : forall A (m : mesh A), exists wr1 wr2 w2,
  let wr0 := mkWriter [output_build 6 (mkOC File CSV Scalar "out" true "log" 3 true false [DIter]) m 5] 0 "" false in
  writer_write fmt0 [0]%nat wr0 no_world = (wr1, no_world, Err EIO) /\ writer_write fmt0 [0]%nat wr1 open_world = (wr2, w2, Ok tt) /\
  write_history fmt0 wr0 [Err EIO; Ok tt] wr2 /\ wr_counter wr2 = 1%N.
Proof.
  intros A m. do 3 eexists. cbv zeta. split; [reflexivity|]. split; [reflexivity|]. split; [|reflexivity].
  change [Err EIO; Ok tt] with (([] ++ [Err EIO]) ++ [Ok tt])%list.
  eapply (wh_write _ _ _ _ open_world [0]%nat); [eapply (wh_write _ _ _ _ no_world [0]%nat); [apply wh_none|reflexivity]|reflexivity].
Qed.

(** ** C51 Panics *)

(** If every output has data names and they exist for the physics system, then
    after any use of the writer collecting data succeeds and writing succeeds or
    returns an I/O error; neither panics. *)
Theorem C51_no_panic : forall A (fmt : nat -> nF A -> string) validation p S mc (m : mesh A) mx cs k0 meta banner wr v ts,
  mesh_new validation S mc = Ok m -> (5 <= S)%nat ->
  (forall c, In c cs -> oc_names c <> [] /\ forall n, In n (oc_names c) -> name_exists p n) ->
  used fmt p S m (mkWriter (map (fun c => output_build S c m mx) cs) k0 meta banner) wr ->
  sized p S v ->
  snd (writer_update m v ts wr) = Ok tt /\
  forall sched w, let r := snd (writer_write fmt sched wr w) in r = Ok tt \/ r = Err EIO.
Proof.
  intros A fmt validation p S mc m mx cs k0 meta banner wr v ts M HS Hc U V. destruct (mesh_dims A _ _ _ _ M) as (_ & D).
  assert (W : wf_all p S (wr_outputs wr)).
  { induction U as [|wr v' ts' wr1 r U IH V' E|wr sched w wr1 w1 r U IH E].
    - intros o Ho. cbn [wr_outputs] in Ho. apply in_map_iff in Ho. destruct Ho as (c & <- & Hin). destruct (Hc c Hin) as (H1 & H2). apply build_wf; assumption.
    - destruct (update_all_wf A p S m v' ts' wr D V' IH) as (wr2 & E2 & W2 & _). rewrite E in E2. injection E2 as -> _. exact W2.
    - unfold writer_write in E. destruct (write_sched fmt (wr_counter wr) sched (wr_outputs wr) w) as [[os w2] r1] eqn:Q.
      destruct (write_all_wf A fmt p S _ _ _ _ _ _ _ IH Q) as (_ & W2). destruct r1; injection E as <- <- <-; exact W2. }
  split.
  - destruct (update_all_wf A p S m v ts wr D V W) as (wr2 & -> & _). reflexivity.
  - intros sched w r. subst r. unfold writer_write. destruct (write_sched fmt (wr_counter wr) sched (wr_outputs wr) w) as [[os w2] r1] eqn:Q.
    destruct (write_all_wf A fmt p S _ _ _ _ _ _ _ W Q) as ([-> | ->] & _); cbn; auto.
Qed.
Print Assumptions C51_no_panic.

(** C51 example: an output with a ghost-free table in use, and a snapshot of the right size *)
Example C51_example : forall A (pc : physics_config A),
  (forall c, In c three_outputs -> oc_names c <> [] /\ forall n, In n (oc_names c) -> name_exists Isot n) /\ sized Isot 6 (vars_new Isot 6 pc).
Proof.
  intros A pc. split.
  - intros c [<-|[<-|[<-|[]]]]; (split; [discriminate|]); cbn; intros n H; repeat (destruct H as [<-|H]; [cbn; auto|]); destruct H.
  - repeat split; try reflexivity; intros j Hj; (destruct j as [|[|j]]; [reflexivity..|cbn in Hj; lia]).
Qed.

(** The documentation promises nothing else, but a validated configuration is
    not enough: an output without data names is accepted and panics at its first
    output ... *)
Theorem C51_empty_names_refuted : forall A (fmt : nat -> nF A -> string) validation S mc (m : mesh A) mx c v ts k w,
  mesh_new validation S mc = Ok m -> (5 <= S)%nat -> oc_names c = [] ->
  (oc_stream c = File -> open_fails w (file_of mx c k) = false) ->
  exists wr, writer_update m v ts (mkWriter [output_build S c m mx] k "" false) = (wr, Ok tt) /\ snd (writer_write fmt [0]%nat wr w) = Panic.
Proof.
  intros A fmt validation S mc m mx c v ts k w M HS Ne O.
  destruct (mesh_dims A _ _ _ _ M) as (_ & D). unfold writer_update. cbn [try_each wr_outputs]. unfold output_update. cbn [o_data output_build]. rewrite Ne. cbn [map try_each].
  eexists. split; [reflexivity|]. unfold writer_write. cbn [wr_outputs wr_counter write_sched nth_error].
  set (o := o_set_data [] (output_build S c m mx)).
  assert (P : output_write fmt k o w = (o, w, Panic) \/ exists o', output_write fmt k o w = (o', w, Panic)).
  { right. assert (T : stream_text fmt o = Panic).
    { unfold stream_text. destruct (build_rows A S c m mx D HS) as (R1 & _). change (o_rows o) with (o_rows (output_build S c m mx)). destruct (o_rows (output_build S c m mx)); [lia|].
      cbn [seq lines line o_data o o_set_data]. reflexivity. }
    unfold output_write. rewrite T. change (o_stream o) with (oc_stream c). destruct (oc_stream c); [eauto|].
    assert (Ep : out_path o k = file_of mx c k). { rewrite <- (path_file_of A S m mx c k). reflexivity. }
    rewrite Ep, (O eq_refl). eauto. }
  destruct P as [->|(o' & ->)]; reflexivity.
Qed.
Print Assumptions C51_empty_names_refuted.

(** ... and so is a name with an equation index the physics does not have; it
    panics when the data of the first output is collected. *)
Theorem C51_bad_index_refuted : forall A validation p S mc (m : mesh A) mx c v ts k n,
  mesh_new validation S mc = Ok m -> (5 <= S)%nat -> sized p S v -> In n (oc_names c) -> ~ name_exists p n ->
  snd (writer_update m v ts (mkWriter [output_build S c m mx] k "" false)) = Panic.
Proof.
  intros A validation p S mc m mx c v ts k n M HS V Hn Bad. destruct (mesh_dims A _ _ _ _ M) as (_ & D).
  unfold writer_update. cbn [wr_outputs try_each]. unfold output_update. cbn [o_data o_offset output_build].
  set (off := (if oc_ghost c then m_imin m else m_ixi_in m)%nat).
  assert (G : exists l, try_each (fun d => keep d (collect m v ts off d)) (map (data_new S off) (oc_names c)) = (l, Panic)).
  { revert Hn. generalize (oc_names c) as ns. induction ns as [|x ns IH]; intros Hn; [destruct Hn|]. cbn [map try_each].
    assert (X : name_exists p x \/ ~ name_exists p x) by (destruct x; cbn; lia).
    assert (W : wf_payload A S off (data_new S off x)). { unfold wf_payload, data_new. cbn [d_name d_payload]. destruct (dn_type x); try exact I. apply repeat_length. }
    destruct X as [X|X].
    - destruct (collect_wf A p S m v ts off (data_new S off x) D V X W) as (d & -> & _). cbn [keep].
      destruct Hn as [->|Hn]; [contradiction|]. destruct (IH Hn) as (l & ->). eauto.
    - assert (E : collect m v ts off (data_new S off x) = Panic).
      { destruct V as ((V1 & _) & (V2 & _) & _). destruct x; cbn [name_exists] in X; try (exfalso; exact (X I)); unfold collect, collect_vars, data_new; cbn [d_name dn_assoc]; unfold row;
        match goal with |- context [nth_error ?q ?j] => destruct (nth_error q j) eqn:R; [exfalso; assert (nth_error q j <> None) by congruence; apply nth_error_Some in H; lia|] end; reflexivity. }
      rewrite E. cbn [keep]. eauto. }
  destruct G as (l & ->). reflexivity.
Qed.
Print Assumptions C51_bad_index_refuted.

(** both kinds of configuration pass validation *)
Example C51_refuted_example :
  oc_validate (mkOC File CSV Vector "out" true "flow" 5 false true []) = Ok tt /\
  oc_validate (default_stdout_with_names []) = Ok tt /\
  oc_validate (mkOC File CSV Vector "out" true "flow" 5 false true [XiCent; DPrim 2]) = Ok tt /\ ~ name_exists Isot (DPrim 2).
Proof. repeat split; try reflexivity. cbn. lia. Qed.

(** ** C55 Output directories *)

(** After Writer::new every output file can be opened (the file system
    permitting), unless the folder of an output lies in the folder of a later
    output that clears its folder. *)
Theorem C55_directories : forall A meta S (c : config A) m w w' wr,
  writer_new meta S c m w = (w', Ok wr) ->
  (forall i j ci cj, (i < j)%nat -> nth_error (cf_writer c) i = Some ci -> nth_error (cf_writer c) j = Some cj ->
     oc_stream ci = File -> oc_stream cj = File -> oc_clear cj = true -> ~ properly_contains (oc_folder cj) (oc_folder ci)) ->
  forall oc k, In oc (cf_writer c) -> oc_stream oc = File -> no_slash (oc_file oc) -> w_bad w' (file_of (cf_output_max c) oc k) = false ->
  open_fails w' (file_of (cf_output_max c) oc k) = false.
Proof.
  intros A meta S c m w w' wr H Sp oc k Hin F Nf B. unfold writer_new in H. destruct (outputs_new S (cf_writer c) m (cf_output_max c) w) as [w1 r] eqn:O. destruct r as [os|e| |]; cbn [bind] in H; try discriminate.
  injection H as <- _. destruct (outputs_dirs A _ _ _ _ _ _ _ O) as (_ & Di). specialize (Di Sp oc Hin F).
  unfold open_fails. rewrite B, parent_file by exact Nf. unfold is_dir in Di. rewrite Di. reflexivity.
Qed.
Print Assumptions C55_directories.

Example C55_example : forall i j ci cj, (i < j)%nat -> nth_error three_outputs i = Some ci -> nth_error three_outputs j = Some cj ->
  oc_stream ci = File -> oc_stream cj = File -> oc_clear cj = true -> ~ properly_contains (oc_folder cj) (oc_folder ci).
Proof.
  intros i j ci cj L Ei Ej Fi Fj _ (C & _). unfold contains in C.
  destruct i as [|[|[|i]]]; cbn in Ei; try (destruct i; discriminate Ei); injection Ei as <-; try discriminate Fi;
  destruct j as [|[|[|j]]]; cbn in Ej; try (destruct j; discriminate Ej); injection Ej as <-; try discriminate Fj; try lia; discriminate C.
Qed.

(** In that case Writer::new succeeds and the output fails. *)
Theorem C55_nested_refuted : forall A (fmt : nat -> nF A -> string) meta S (c : config A) m w w' wr c1 c2 k,
  cf_writer c = [c1; c2] -> oc_stream c1 = File -> oc_stream c2 = File -> oc_clear c2 = true ->
  properly_contains (oc_folder c2) (oc_folder c1) -> no_slash (oc_file c1) -> rooted w ->
  writer_new meta S c m w = (w', Ok wr) ->
  snd (output_write fmt k (output_build S c1 m (cf_output_max c)) w') = Err EIO.
Proof.
  intros A fmt meta S c m w w' wr c1 c2 k E F1 F2 C2 P Nf Rt H. unfold writer_new in H. rewrite E in H. cbn [outputs_new] in H.
  destruct (output_prepare c1 w) as [w1 r1] eqn:P1. destruct r1 as [[]|x| |]; cbn [bind] in H; try discriminate.
  destruct (output_prepare c2 w1) as [w2 r2] eqn:P2. destruct r2 as [[]|x| |]; cbn [bind] in H; try discriminate. injection H as <- _.
  destruct (prepare_dirs _ _ _ P1 F1) as (A1 & _ & _ & A4). destruct (prepare_dirs _ _ _ P2 F2) as (_ & B2 & _).
  assert (D2 : is_dir w1 (oc_folder c2) = true).
  { destruct (is_dir w (oc_folder c1)) eqn:D1; [destruct (oc_clear c1) eqn:C1|]; [apply A4; [auto|apply P]| |apply A4; [auto|apply P]].
    assert (w1 = w). { unfold output_prepare in P1. rewrite F1, C1 in P1. cbn [andb] in P1. rewrite D1 in P1. injection P1 as <-. reflexivity. }
    subst w1. apply (Rt (oc_folder c1)); [exact D1|apply P]. }
  specialize (B2 _ A1 C2 P D2). unfold output_write. change (o_stream (output_build S c1 m (cf_output_max c))) with (oc_stream c1). rewrite F1, path_file_of.
  unfold open_fails. rewrite parent_file by exact Nf. unfold is_dir in B2. rewrite B2. cbn [negb]. rewrite orb_true_r. reflexivity.
Qed.
Print Assumptions C55_nested_refuted.

Definition nested_outputs : list output_config :=
  [ mkOC File CSV Vector "out/tables" true "flow" 5 false true [XiCent]; mkOC File TSV Scalar "out" true "steps" 3 false false [DIter] ].

Example C55_nested_example : forall A (c : config A) m,
  oc_validate_all nested_outputs = Ok tt /\ properly_contains "out" "out/tables" /\ rooted no_world /\
  exists w' wr, writer_new (fun _ => "") 6 (mkCfg (cf_banner c) (cf_mesh c) (cf_physics c) (cf_bc_west c) (cf_bc_east c) (cf_numerics c) (cf_output_max c) nested_outputs) m no_world = (w', Ok wr).
Proof.
  intros A c m. split; [reflexivity|]. split; [split; [reflexivity|discriminate]|]. split; [intros f g H; discriminate H|]. do 2 eexists. reflexivity.
Qed.
