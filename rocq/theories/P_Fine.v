(** Interrupted and interleaved output (C58, C59). *)

From Coq Require Import List ZArith NArith QArith Bool String Ascii Lia Permutation.
From Verif Require Import Base Num XReal B64 Config Mesh State NumFlux Time Writer Runner FineWriter Spec SpecFlow SpecStep SpecWriter SpecRun SpecPanic SpecFine
  MeshProofs TextProofs TableProofs WriterProofs RunProofs WriterRun WriterDirs StepInv PanicProofs FineProofs FineHist P_Run P_Writer.
Import ListNotations.
Local Open Scope string_scope.

(** ** C58 Interruptions *)

Lemma crash_file : forall A (fmt : nat -> nF A -> string) wr w clean tk w' o,
  inv w clean (map (output_job fmt (wr_counter wr)) (wr_outputs wr)) tk w' -> In o (wr_outputs wr) -> o_stream o = File ->
  w_files w' (out_path o (wr_counter wr)) = w_files w (out_path o (wr_counter wr)) \/
  exists a b, fst (emit_stream fmt o) = a ++ b /\
    w_files w' (out_path o (wr_counter wr)) = Some (overlay (appends o) (w_files w (out_path o (wr_counter wr))) a).
Proof.
  intros A fmt wr w clean tk w' o Iv Ho F. apply In_nth_error in Ho. destruct Ho as (i & Ei).
  destruct (task_of A fmt _ _ _ _ _ _ _ Iv Ei) as (ph & _ & T). pose proof (file_target A fmt (wr_counter wr) o F) as Tg.
  destruct ph as [|pos rest|r]; cbn [task_inv] in T.
  - unfold untouched in T. rewrite Tg in T. auto.
  - destruct T as (a & T1 & _ & T2 & _). unfold wrote in T2. rewrite Tg in T2. right. exists a, rest. auto.
  - destruct T as [(T & _)|[(T & _)|(_ & _ & a & b & T1 & T2 & _)]]; [congruence|unfold untouched in T; rewrite Tg in T; auto|].
    unfold wrote in T2. rewrite Tg in T2. right. exists a, b. auto.
Qed.

(** Whenever a write_output call is interrupted, whatever operations its
    outputs have carried out so far in whatever order, and whichever of them
    failed: no directory and no file has changed except the files of this call;
    of each of those at most a beginning of its text has been written; and
    nothing has disappeared from the screen. *)
Theorem C58_crash_point : forall A (fmt : nat -> nF A -> string) wr w es tk w',
  separate (wr_outputs wr) -> execute es (write_tasks fmt wr) w = (tk, w') ->
  w_dirs w' = w_dirs w /\
  (forall p, (forall o, In o (wr_outputs wr) -> o_stream o = File -> p <> out_path o (wr_counter wr)) -> w_files w' p = w_files w p) /\
  (forall o txt, In o (wr_outputs wr) -> o_stream o = File -> stream_text fmt o = Ok txt ->
     partly_written (continues o) txt (w_files w (out_path o (wr_counter wr))) (w_files w' (out_path o (wr_counter wr)))) /\
  exists s, w_stdout w' = w_stdout w ++ s.
Proof.
  intros A fmt wr w es tk w' Sep Ex. pose proof (call_inv A fmt False wr w es tk w' Sep (fun X => match X with end) Ex) as Iv.
  pose proof Iv as (_ & D & _ & Of & Sc & _). split; [exact D|]. split; [|split; [|exact Sc]].
  - intros p No. apply Of. intros j app Hj Q. apply in_map_iff in Hj. destruct Hj as (o & <- & Ho). apply target_file in Q. destruct Q as (F & Q & _). apply (No o Ho F Q).
  - intros o txt Ho F T. apply emit_ok in T. destruct (crash_file _ _ _ _ _ _ _ o Iv Ho F) as [E|(a & b & E & W)]; [left; exact E|right].
    rewrite T in E. cbn [fst] in E. exists a, b. split; [exact E|]. rewrite W. destruct (w_files w (out_path o (wr_counter wr))) as [s|]; cbn [overlay]; [|reflexivity].
    pose proof (append_iff A o) as Ap. split; intros C.
    + rewrite (proj2 Ap C). reflexivity.
    + destruct (appends o); [destruct C; apply Ap; reflexivity|]. eexists. split; [reflexivity|]. apply overlay_overwritten.
Qed.
Print Assumptions C58_crash_point.

(** So, over any history of outputs that were written in parallel, if the
    process stops during the next one: the tables of the earlier outputs are
    complete, the one being written is missing or the beginning of its table,
    and a file with one line per output contains the complete lines of the
    earlier outputs, followed at most by a beginning of the next. *)
Theorem C58_history : forall A (fmt : nat -> nF A -> string) validation p S mc (m : mesh A) mx cs k0 meta banner w0 l wr w v ts wr1 es tk w',
  plain fmt -> mesh_new validation S mc = Ok m -> (5 <= S)%nat -> separate_files mx cs -> data_exists p cs ->
  parallel_history fmt m (mkWriter (map (fun c => output_build S c m mx) cs) k0 meta banner) w0 l wr w ->
  (forall x, In x l -> sized p S (snd x)) -> sized p S v ->
  writer_update m v ts wr = (wr1, Ok tt) -> execute es (write_tasks fmt wr1) w = (tk, w') ->
  forall c, In c cs -> oc_validate c = Ok tt -> oc_stream c = File -> (forall k, w_files w0 (file_of mx c k) = None) ->
  match oc_conv c with
  | Vector =>
      (forall n ts v, nth_error l n = Some (ts, v) -> exists txt, w_files w' (file_of mx c (k0 + N.of_nat n)) = Some txt /\
         is_table (oc_format c) txt (vector_rows fmt S c m ts v)) /\
      (let f := w_files w' (file_of mx c (k0 + N.of_nat (List.length l))) in
       f = None \/ exists a b, f = Some a /\ is_table (oc_format c) (a ++ b) (vector_rows fmt S c m ts v)) /\
      forall k, (k0 + N.of_nat (List.length l) < k)%N -> w_files w' (file_of mx c k) = None
  | Scalar =>
      let f := w_files w' (file_of mx c 0) in
      (l = [] -> f = None \/ exists a b, f = Some a /\ is_table (oc_format c) (a ++ b) (scalar_rows fmt c m [(ts, v)])) /\
      (l <> [] -> exists txt, is_table (oc_format c) txt (scalar_rows fmt c m l) /\
         (f = Some txt \/ exists a b, f = Some (txt ++ a) /\ is_table (oc_format c) (txt ++ a ++ b) (scalar_rows fmt c m (l ++ [(ts, v)]))))
  end.
Proof.
  intros A fmt validation p S mc m mx cs k0 meta banner w0 l wr w v ts wr1 es tk w' Hf M HS Sep De Hi Sl Sv U Ex c Hc V F Fr.
  destruct (mesh_dims A _ _ _ _ M) as (_ & D). set (wr0 := mkWriter (map (fun c => output_build S c m mx) cs) k0 meta banner) in *.
  assert (Sep0 : separate (wr_outputs wr0)) by (apply separate_build; exact Sep).
  destruct (parallel_sequential A fmt m wr0 w0 l wr w Sep0 Hi) as (L & _ & wt & Hs & Sd).
  pose proof (history_files A fmt Hf S m mx cs k0 meta banner w0 l wr wt D HS Sep Hs c Hc V F Fr) as HF.
  destruct (history_inv A fmt Hf m wr0 w0 Sep0) with (l := l) (wr := wr) (w := wt) as (_ & K & Inv).
  { intros i o Ei. unfold wr0 in Ei. cbn [wr_outputs] in Ei. rewrite nth_error_map in Ei. destruct (nth_error cs i) as [ci|]; [|discriminate]. cbn [option_map] in Ei. injection Ei as <-.
    destruct (build_rows A S ci m mx D HS) as (B1 & B2 & _). split; [apply styled_build|]. split; [exact B1|]. split; [exact B2|]. reflexivity. }
  { exact Hs. }
  cbn [wr_counter wr_outputs wr0] in K, Inv.
  apply In_nth_error in Hc. destruct Hc as (i & Hc).
  destruct (Inv i (output_build S c m mx)) as (o' & E' & Sm & Nm & Fi & _). { unfold wr0. cbn [wr_outputs]. rewrite nth_error_map, Hc. reflexivity. }
  rewrite names_build in Nm.
  destruct (update_same A m v ts wr wr1 U) as (K1 & L1 & U1). destruct (U1 i o' E') as (o1 & E1 & Uo & Sm1).
  assert (Sep1 : separate (wr_outputs wr1)).
  { apply (separate_same A (wr_outputs wr0)); [exact Sep0|congruence|]. intros k o Ek. destruct (Inv k o Ek) as (ok & Eok & Sok & _). destruct (U1 k ok Eok) as (o2 & E2 & _ & S2).
    exists o2. split; [exact E2|]. apply (same_trans A o ok o2 Sok S2). }
  pose proof (call_inv A fmt False wr1 w es tk w' Sep1 (fun X => match X with end) Ex) as Iv. pose proof Iv as (_ & _ & _ & Of & _).
  assert (SmB : same_output (output_build S c m mx) o1) by (apply (same_trans A _ o' o1 Sm Sm1)).
  assert (E0 : o_stream o1 = oc_stream c /\ o_conv o1 = oc_conv c) by (destruct SmB as (d1 & b1 & ->); auto). destruct E0 as (Es & Ec).
  assert (F1 : o_stream o1 = File) by congruence.
  assert (Fi1 : o_first o1 = match l with [] => true | _ => false end) by (apply update_holds in Uo; destruct Uo as (_ & d & ->); exact Fi).
  (* the text of the output *)
  assert (W1 : wf_all p S (wr_outputs wr1)).
  { destruct (update_all_wf A p S m v ts wr D Sv) as (wr2 & E2 & W2 & _); [|rewrite U in E2; injection E2 as <-; exact W2].
    apply (parallel_wf A fmt p S m wr0 w0 l wr w D); [|exact Sl|exact Hi]. intros o Ho. cbn [wr0 wr_outputs] in Ho. apply in_map_iff in Ho. destruct Ho as (c2 & <- & Hin).
    destruct (De c2 Hin) as (H1 & H2). apply build_wf; assumption. }
  destruct (text_wf A fmt p S o1 (W1 o1 (nth_error_In _ _ E1))) as (txt & Tx).
  assert (Tab : (oc_conv c = Vector -> is_table (oc_format c) txt (vector_rows fmt S c m ts v)) /\
    (oc_conv c = Scalar -> o_first o' = true -> is_table (oc_format c) txt (scalar_rows fmt c m [(ts, v)])) /\
    (oc_conv c = Scalar -> o_first o' = false -> forall T rows, is_table (oc_format c) T rows ->
       is_table (oc_format c) (T ++ txt) (rows ++ [map (field fmt (oc_precision c) m ts v 0) (oc_names c)]))).
  { assert (Cw : can_write fmt 0%N open_world o1).
    { split; [|eauto]. intros _. unfold open_fails, open_world. cbn [w_bad w_dirs]. destruct (parent (out_path o1 0)); reflexivity. }
    apply output_write_can in Cw. destruct Cw as (o2 & w2 & W).
    destruct (C47_columns A fmt validation S mc m mx c o' ts v o1 0%N open_world o2 w2 Hf M HS V Sm Nm Uo W) as (t2 & _ & Q & _ & R1 & R2 & R3).
    specialize (Q F eq_refl). apply output_write_cases in W. destruct W as [(W & _)|(_ & _ & t3 & T3 & W)]; [congruence|]. rewrite F1 in W. destruct W as (_ & ->).
    rewrite <- (path_file_of A S m mx c 0%N), <- (same_path A _ _ SmB 0%N) in Q. cbn [w_write w_files] in Q. rewrite String.eqb_refl in Q. injection Q as Q. cbn [overlay open_world w_files] in Q.
    assert (Qt : t2 = txt) by congruence. rewrite Qt in R1, R2, R3. split; [exact R1|split; [exact R2|exact R3]]. }
  destruct Tab as (Tv & Ts1 & Ts2). pose proof (proj1 (emit_ok A fmt o1 txt) Tx) as Em.
  destruct (crash_file _ _ _ _ _ _ _ o1 Iv (nth_error_In _ _ E1) F1) as [Cf|Cf].
  - (* not touched *)
    rewrite (same_path A _ _ SmB), path_file_of in Cf. rewrite K1, K in Cf.
    assert (Oth : forall k, oc_conv c = Vector -> k <> (k0 + N.of_nat (List.length l))%N -> w_files w' (file_of mx c k) = w_files wt (file_of mx c k)).
    { intros k Cv Nk. rewrite <- (proj1 Sd). apply Of. intros j app Hj Q. apply in_map_iff in Hj. destruct Hj as (o & <- & Ho). apply target_file in Q. destruct Q as (Fo & Q & _).
      rewrite K1, K in Q. apply In_nth_error in Ho. destruct Ho as (n & En). destruct (Nat.eq_dec n i) as [->|Ne].
      - assert (o = o1) by congruence. subst o. rewrite (same_path A _ _ SmB), path_file_of in Q. apply C44_injective in Q; [congruence|exact Cv].
      - apply (Sep1 i n o1 o (fun X => Ne (eq_sym X)) E1 En F1 Fo k (k0 + N.of_nat (List.length l))%N). rewrite (same_path A _ _ SmB), path_file_of. exact Q. }
    destruct (oc_conv c) eqn:Cv.
    + assert (Pc : forall a b, file_of mx c a = file_of mx c b) by (intros a b; unfold file_of; rewrite Cv; reflexivity).
      rewrite (Pc _ 0%N), (proj1 Sd) in Cf. destruct HF as (H1 & H2). split.
      * intros ->. left. rewrite Cf. apply (H1 eq_refl).
      * intros Ne. destruct (H2 Ne) as (T & HT & TT). exists T. split; [exact TT|]. left. rewrite Cf. apply HT.
    + destruct HF as (H1 & H2). split; [|split].
      * intros n ts' v' Hn. destruct (H1 n ts' v' Hn) as (T & HT & TT). exists T. split; [|exact TT]. rewrite Oth; [exact HT|reflexivity|].
        assert (n < List.length l)%nat by (apply nth_error_Some; congruence). lia.
      * left. rewrite Cf, (proj1 Sd). apply H2. lia.
      * intros k Hk. rewrite Oth; [apply H2; lia|reflexivity|lia].
  - destruct Cf as (a & b & Cb & Cf). rewrite Em in Cb. cbn [fst] in Cb.
    rewrite (same_path A _ _ SmB), path_file_of in Cf. rewrite K1, K in Cf.
    assert (Oth : forall k, oc_conv c = Vector -> k <> (k0 + N.of_nat (List.length l))%N -> w_files w' (file_of mx c k) = w_files wt (file_of mx c k)).
    { intros k Cv Nk. rewrite <- (proj1 Sd). apply Of. intros j app Hj Q. apply in_map_iff in Hj. destruct Hj as (o & <- & Ho). apply target_file in Q. destruct Q as (Fo & Q & _).
      rewrite K1, K in Q. apply In_nth_error in Ho. destruct Ho as (n & En). destruct (Nat.eq_dec n i) as [->|Ne].
      - assert (o = o1) by congruence. subst o. rewrite (same_path A _ _ SmB), path_file_of in Q. apply C44_injective in Q; [congruence|exact Cv].
      - apply (Sep1 i n o1 o (fun X => Ne (eq_sym X)) E1 En F1 Fo k (k0 + N.of_nat (List.length l))%N). rewrite (same_path A _ _ SmB), path_file_of. exact Q. }
    destruct (oc_conv c) eqn:Cv.
    + assert (Pc : forall a b, file_of mx c a = file_of mx c b) by (intros x y; unfold file_of; rewrite Cv; reflexivity).
      rewrite (Pc _ 0%N), (proj1 Sd) in Cf. unfold appends in Cf. rewrite Ec, Fi1 in Cf. destruct HF as (H1 & H2). split.
      * intros ->. right. rewrite (H1 eq_refl) in Cf. cbn [overlay] in Cf. exists a, b. split; [exact Cf|]. rewrite <- Cb. apply (Ts1 eq_refl Fi).
      * intros Ne. destruct (H2 Ne) as (T & HT & TT). exists T. split; [exact TT|]. right. exists a, b. rewrite HT in Cf. destruct l as [|x l]; [congruence|].
        cbn [overlay negb] in Cf. split; [exact Cf|]. rewrite <- Cb. unfold scalar_rows. rewrite map_app. cbn [map fst snd]. rewrite app_comm_cons.
        apply (Ts2 eq_refl Fi). exact TT.
    + destruct HF as (H1 & H2). split; [|split].
      * intros n ts' v' Hn. destruct (H1 n ts' v' Hn) as (T & HT & TT). exists T. split; [|exact TT]. rewrite Oth; [exact HT|reflexivity|].
        assert (n < List.length l)%nat by (apply nth_error_Some; congruence). lia.
      * right. exists a, b. rewrite (proj1 Sd), H2 in Cf by lia. cbn [overlay] in Cf. split; [exact Cf|]. rewrite <- Cb. apply Tv. reflexivity.
      * intros k Hk. rewrite Oth; [apply H2; lia|reflexivity|lia].
Qed.
Print Assumptions C58_history.

(** The same for a whole simulation: start-up, any number of steps with their
    outputs, and a stop in the middle of the output that is due. *)
Theorem C58_run : forall A (N : numflux_impl A) (fmt : nat -> nF A -> string) validation meta banner sched0 init p S c w0 w1 k
    validation' afuel s wr w tr wr1 es tk w',
  plain fmt -> tidy w0 -> (5 <= S)%nat -> separate_files (cf_output_max c) (cf_writer c) -> data_exists p (cf_writer c) -> tame p S init ->
  init_corries (N:=N) validation meta banner sched0 init p S c w0 = (w1, Ok k) ->
  running fmt validation' afuel p S (c_mesh k) (c_sim k) (c_writer k) w1 s wr w tr ->
  due s = true -> writer_update (c_mesh k) (cent (s_u s)) (s_ts (moved_on s)) wr = (wr1, Ok tt) ->
  execute es (write_tasks fmt wr1) w = (tk, w') ->
  forall oc, In oc (cf_writer c) -> oc_stream oc = File -> oc_clear oc = true ->
  let now := (s_ts (moved_on s), cent (s_u s)) in
  match oc_conv oc with
  | Vector =>
      (forall n ts v, nth_error tr n = Some (ts, v) -> exists txt, w_files w' (file_of (cf_output_max c) oc (BinNat.N.of_nat n)) = Some txt /\
         is_table (oc_format oc) txt (vector_rows fmt S oc (c_mesh k) ts v)) /\
      (let f := w_files w' (file_of (cf_output_max c) oc (BinNat.N.of_nat (List.length tr))) in
       f = None \/ exists a b, f = Some a /\ is_table (oc_format oc) (a ++ b) (vector_rows fmt S oc (c_mesh k) (fst now) (snd now))) /\
      forall j, (BinNat.N.of_nat (List.length tr) < j)%N -> w_files w' (file_of (cf_output_max c) oc j) = None
  | Scalar =>
      let f := w_files w' (file_of (cf_output_max c) oc 0) in
      (tr = [] -> f = None \/ exists a b, f = Some a /\ is_table (oc_format oc) (a ++ b) (scalar_rows fmt oc (c_mesh k) [now])) /\
      (tr <> [] -> exists txt, is_table (oc_format oc) txt (scalar_rows fmt oc (c_mesh k) tr) /\
         (f = Some txt \/ exists a b, f = Some (txt ++ a) /\ is_table (oc_format oc) (txt ++ a ++ b) (scalar_rows fmt oc (c_mesh k) (tr ++ [now]))))
  end.
Proof.
  intros A N fmt validation meta banner sched0 init p S c w0 w1 k validation' afuel s wr w tr wr1 es tk w' Hf Ti HS Sep De Ta I R Du U Ex oc Hoc F Cl now.
  destruct (init_files A N validation meta banner sched0 init p S c w0 w1 k Ti I) as (V & _ & D & W & Fr).
  assert (Mk : exists val mc, mesh_new val S mc = Ok (c_mesh k)).
  { unfold init_corries in I. destruct (cf_validate c); try discriminate. destruct (mesh_new validation S (cf_mesh c)) as [m|e| |] eqn:M; try discriminate.
    destruct (solver_new N p S c m (state_new p S (cf_physics c))) as [s1|e| |]; try discriminate.
    destruct (writer_new meta S c m w0) as [w2 r1]. destruct r1 as [wr2|e| |]; try discriminate.
    destruct (writer_metadata (wr_meta wr2) sched0 (wr_outputs wr2) _) as [w3 r2]. destruct r2 as [[]|e| |]; try discriminate.
    destruct (init s1 m) as [s2 r3]. injection I as <- I. apply bind_Ok in I. destruct I as ([] & -> & I). apply bind_Ok in I. destruct I as (u & _ & I). injection I as <-.
    cbn [c_mesh]. eauto. }
  destruct Mk as (val & mc & M).
  assert (Vo : oc_validate oc = Ok tt).
  { unfold cf_validate in V. repeat match type of V with bind ?a _ = _ => destruct a as [[]|x| |]; cbn [bind] in V; try discriminate end. apply (validate_all _ V oc Hoc). }
  pose proof (init_sized A N _ _ _ _ _ _ _ _ _ _ k HS Ta I) as S0.
  assert (G : parallel_history fmt (c_mesh k) (c_writer k) w1 tr wr w /\ wsv A p S (cent (s_u s)) /\ forall x, In x tr -> sized p S (snd x)).
  { clear Du U Ex Hoc F Cl Fr now. induction R as [|s wr w tr wr2 es2 tk2 w2 s2 R (IH1 & IH2 & IH3) Du U Ex Rt Fi Nx|s wr w tr s2 R (IH1 & IH2 & IH3) Du Fi Nx].
    - split; [constructor|]. split; [exact S0|]. intros x [].
    - split; [|split].
      + eapply ph_output; [exact IH1|exact U|exact Ex|exact Rt].
      + apply (evolves_shape A N p S (c_mesh k) (moved_on s) s2 HS); [|exact IH2]. eapply ev_step; [apply ev_refl|exact Nx].
      + intros x Hx. apply in_app_or in Hx. destruct Hx as [Hx|[<-|[]]]; [apply IH3; exact Hx|]. apply wsv_sized. exact IH2.
    - split; [exact IH1|]. split; [|exact IH3]. apply (evolves_shape A N p S (c_mesh k) s s2 HS); [|exact IH2]. eapply ev_step; [apply ev_refl|exact Nx]. }
  destruct G as (Hi & Sn & Sl). rewrite W in Hi.
  exact (C58_history A fmt val p S mc (c_mesh k) (cf_output_max c) (cf_writer c) 0%N (meta c) (cf_banner c) w1 tr wr w (cent (s_u s)) (s_ts (moved_on s)) wr1 es tk w'
    Hf M HS Sep De Hi Sl (wsv_sized _ _ _ _ Sn) U Ex oc Hoc Vo F (Fr oc Hoc F Cl)).
Qed.
Print Assumptions C58_run.

(** ** C59 Interleavings *)

(** A write_output call whose outputs are carried out in parallel, operation by
    operation in any order, and which returns Ok, leaves the same writer and
    the same files as carrying out the outputs one after the other, in any
    order; and the same screen if at most one output goes there. *)
Theorem C59_interleaving : forall A (fmt : nat -> nF A -> string) wr w es tk w2 sched,
  separate (wr_outputs wr) -> each_once (List.length (wr_outputs wr)) sched ->
  execute es (write_tasks fmt wr) w = (tk, w2) -> returned tk (Ok tt) ->
  exists w3, writer_write fmt sched wr w = (writer_after wr tk (Ok tt), w3, Ok tt) /\
    (forall p, w_files w2 p = w_files w3 p) /\ w_dirs w2 = w_dirs w3 /\ (one_screen (wr_outputs wr) -> w_stdout w3 = w_stdout w2).
Proof.
  intros A fmt wr w es tk w2 sched Sep Es Ex Rt.
  destruct (interleaving_gen A fmt wr w w es tk w2 sched Sep) as (w3 & W & (S1 & S2 & _) & St); [repeat split; reflexivity|exact Ex|exact Rt|exact Es|].
  exists w3. auto 6.
Qed.
Print Assumptions C59_interleaving.

(** If the operating system refuses nothing except opening files, the call
    succeeds if and only if it succeeds one after the other, in any order. *)
Theorem C59_result : forall A (fmt : nat -> nF A -> string) wr w es tk w2 r sched,
  separate (wr_outputs wr) -> each_once (List.length (wr_outputs wr)) sched -> no_fault es ->
  execute es (write_tasks fmt wr) w = (tk, w2) -> returned tk r ->
  (r = Ok tt <-> snd (writer_write fmt sched wr w) = Ok tt).
Proof.
  intros A fmt wr w es tk w2 r sched Sep Es Nf Ex Rt. split.
  - intros ->. destruct (C59_interleaving A fmt wr w es tk w2 sched Sep Es Ex Rt) as (w3 & -> & _). reflexivity.
  - intros Ok3. unfold writer_write in Ok3. destruct (write_sched fmt (wr_counter wr) sched (wr_outputs wr) w) as [[os w3] r3] eqn:W.
    assert (r3 = Ok tt) by (destruct r3 as [[]|e| |]; cbn [snd] in Ok3; congruence). subst r3. clear Ok3. destruct Es as (ND & Is).
    pose proof (call_inv A fmt True wr w es tk w2 Sep (fun _ => Nf) Ex) as Iv.
    assert (C : forall i o, nth_error (wr_outputs wr) i = Some o -> can_write fmt (wr_counter wr) w o).
    { intros i o Ei. apply (proj1 (sched_can A fmt (wr_counter wr) sched (wr_outputs wr) w ND) (ex_intro _ os (ex_intro _ w3 W)) i o); [|exact Ei].
      apply Is. apply nth_error_Some. congruence. }
    (* no task has ended otherwise than with Ok *)
    assert (G : forall j x, In (j, Ended x) tk -> x = Ok tt).
    { intros j x Hj. apply In_nth_error in Hj. destruct Hj as (i & Hi).
      assert (Li : (i < List.length (wr_outputs wr))%nat). { rewrite <- (tasks_length A fmt _ _ _ _ _ Iv). apply nth_error_Some. intros Q. discriminate (eq_trans (eq_sym Hi) Q). }
      destruct (nth_error (wr_outputs wr) i) as [o|] eqn:Ei; [|apply nth_error_None in Ei; lia].
      destruct (task_of A fmt _ _ _ _ _ i o Iv Ei) as (ph & E & T). pose proof (eq_trans (eq_sym Hi) E) as E2. injection E2 as -> <-. clear E. destruct (C i o Ei) as (Co & txt & Tx). cbn [task_inv] in T.
      destruct T as [(T & _)|[(_ & _ & T)|(_ & _ & a & b & _ & _ & [(_ & R)|(Q & _)])]].
      - destruct (target_some A fmt _ o T).
      - exfalso. apply (T Logic.I). unfold opens. destruct (j_target (output_job fmt (wr_counter wr) o)) as [| |q app] eqn:Tg; auto.
        apply target_file in Tg. destruct Tg as (Fo & -> & _). apply Co. exact Fo.
      - rewrite R. unfold output_job. cbn [j_end]. apply emit_ok in Tx. rewrite Tx. reflexivity.
      - destruct (Q Logic.I). }
    destruct Rt as (_ & Rt). destruct r as [[]|e| |]; [reflexivity|destruct Rt as ((j & Hj) & _); apply (G j _ Hj)|destruct Rt as (j & Hj); apply (G j _ Hj)|destruct Rt as ((j & Hj) & _); apply (G j _ Hj)].
Qed.
Print Assumptions C59_result.

(** The number of the output, which names the files of the next call, then
    advances as it does one after the other: after a failure it stays. *)
Theorem C59_counter : forall A (fmt : nat -> nF A -> string) wr w es tk w2 r sched,
  separate (wr_outputs wr) -> each_once (List.length (wr_outputs wr)) sched -> no_fault es ->
  execute es (write_tasks fmt wr) w = (tk, w2) -> returned tk r ->
  wr_counter (writer_after wr tk r) = wr_counter (fst (fst (writer_write fmt sched wr w))).
Proof.
  intros A fmt wr w es tk w2 r sched Sep Es Nf Ex Rt. pose proof (C59_result A fmt wr w es tk w2 r sched Sep Es Nf Ex Rt) as (R1 & R2).
  unfold writer_write in *. destruct (write_sched fmt (wr_counter wr) sched (wr_outputs wr) w) as [[os w3] r3].
  destruct r as [[]|e| |], r3 as [[]|e3| |]; cbn in *; try reflexivity; try (specialize (R1 eq_refl); discriminate R1); try (specialize (R2 eq_refl); discriminate R2).
Qed.
Print Assumptions C59_counter.

(** Every output ends once it has had enough turns, whatever happens in
    between; so every fair execution ends. *)
Theorem C59_completes : forall A (fmt : nat -> nF A -> string) wr w, exists n, forall es tk w2,
  execute es (write_tasks fmt wr) w = (tk, w2) -> (forall i, (i < List.length (wr_outputs wr))%nat -> (n <= turns i es)%nat) ->
  forall j ph, In (j, ph) tk -> exists r, ph = Ended r.
Proof.
  intros A fmt wr w.
  assert (B : exists n, forall o, In o (wr_outputs wr) -> (2 + String.length (j_text (output_job fmt (wr_counter wr) o)) <= n)%nat).
  { induction (wr_outputs wr) as [|o l (n & IH)]; [exists 0%nat; intros o []|]. exists (Nat.max n (2 + String.length (j_text (output_job fmt (wr_counter wr) o)))).
    intros q [<-|Hq]; [lia|]. specialize (IH q Hq). lia. }
  destruct B as (n & B). exists n. intros es tk w2 Ex Tu j ph Hj. apply In_nth_error in Hj. destruct Hj as (i & Hi).
  assert (Ln : List.length tk = List.length (wr_outputs wr)).
  { assert (G : forall es ts w ts' w', execute es ts w = (ts', w') -> List.length ts' = List.length ts).
    { clear. induction es as [|e es IH]; intros ts w ts' w' E; cbn in E; [injection E as <- <-; reflexivity|].
      destruct (event_step e ts w) as [ts1 w1] eqn:St. rewrite (IH _ _ _ _ E). unfold event_step in St.
      destruct (match e with Go i n => (i, Some n) | Fault i => (i, None) end) as [i am].
      destruct (nth_error ts i) as [[j ph]|]; [|injection St as <- <-; reflexivity]. destruct (task_step j ph am w). injection St as <- <-. apply length_upd. }
    rewrite (G _ _ _ _ _ Ex). unfold write_tasks, tasks. rewrite !map_length. reflexivity. }
  assert (Li : (i < List.length (wr_outputs wr))%nat) by (rewrite <- Ln; apply nth_error_Some; intros Q; discriminate (eq_trans (eq_sym Hi) Q)).
  destruct (nth_error (wr_outputs wr) i) as [o|] eqn:Ei; [|apply nth_error_None in Ei; lia].
  assert (E0 : nth_error (write_tasks fmt wr) i = Some (output_job fmt (wr_counter wr) o, Waiting)).
  { unfold write_tasks, tasks. rewrite map_map. apply (map_nth_error (fun x => (output_job fmt (wr_counter wr) x, Waiting)) i _ Ei). }
  destruct (execute_progress es _ w tk w2 i _ _ Ex E0) as (ph' & E1 & Le). pose proof (eq_trans (eq_sym Hi) E1) as E2. injection E2 as -> <-. clear E1.
  specialize (B o (nth_error_In _ _ Ei)). specialize (Tu i Li). unfold left_over in Le. cbn [fst snd] in Le.
  destruct ph as [|pos rest|r]; [exfalso; lia|exfalso; lia|eauto].
Qed.
Print Assumptions C59_completes.

(** ** Metadata files *)

(** the metadata file of an output *)
Definition metadata_file {A} (o : output A) : string := o_file_name o ++ "_metadata.json".

Definition writes_metadata {A} (o : output A) : Prop := o_stream o = File /\ o_metadata o = true.

(** Writing the metadata files in parallel: whenever it is interrupted, only
    they have changed and each holds at most a beginning of the metadata; once
    the call has returned Ok each of them begins with all of it. *)
Theorem C58_metadata : forall A (wr : writer A) w es tk w',
  (forall i j oi oj, i <> j -> nth_error (wr_outputs wr) i = Some oi -> nth_error (wr_outputs wr) j = Some oj ->
     writes_metadata oi -> writes_metadata oj -> metadata_file oi <> metadata_file oj) ->
  execute es (metadata_tasks wr) w = (tk, w') ->
  w_dirs w' = w_dirs w /\
  (forall p, (forall o, In o (wr_outputs wr) -> writes_metadata o -> p <> metadata_file o) -> w_files w' p = w_files w p) /\
  (forall o, In o (wr_outputs wr) -> writes_metadata o -> partly_written False (wr_meta wr) (w_files w (metadata_file o)) (w_files w' (metadata_file o))) /\
  (returned tk (Ok tt) -> forall o, In o (wr_outputs wr) -> writes_metadata o ->
     match w_files w (metadata_file o) with
     | None => w_files w' (metadata_file o) = Some (wr_meta wr)
     | Some s => exists t, w_files w' (metadata_file o) = Some t /\ overwritten (wr_meta wr) s t
     end).
Proof.
  intros A wr w es tk w' Ap Ex. unfold metadata_tasks in Ex. set (js := map (metadata_job (wr_meta wr)) (wr_outputs wr)) in *.
  assert (Tf : forall (o : output A) p a, j_target (metadata_job (wr_meta wr) o) = ToFile p a -> writes_metadata o /\ p = metadata_file o /\ a = false).
  { intros o p a H. unfold metadata_job in H. destruct (o_metadata o) eqn:Mo; [|discriminate]. destruct (o_stream o) eqn:So; [discriminate|].
    cbn [j_target] in H. injection H as <- <-. unfold writes_metadata. auto. }
  assert (Ft : forall (o : output A), writes_metadata o -> metadata_job (wr_meta wr) o = mkJob (ToFile (metadata_file o) false) (wr_meta wr) (Ok tt) (Err EIO)).
  { intros o (F & Mo). unfold metadata_job. rewrite Mo, F. reflexivity. }
  assert (Apart : apart js).
  { intros i l ji jl p a b Ne Hi Hl Ti Tl. unfold js in *. rewrite nth_error_map in Hi, Hl.
    destruct (nth_error (wr_outputs wr) i) as [oi|] eqn:Ei; [|discriminate]. destruct (nth_error (wr_outputs wr) l) as [ol|] eqn:El; [|discriminate].
    cbn in Hi, Hl. injection Hi as <-. injection Hl as <-. apply Tf in Ti, Tl. destruct Ti as (F1 & -> & _), Tl as (F2 & Q & _). apply (Ap i l oi ol Ne Ei El F1 F2 Q). }
  pose proof (execute_inv w False es js _ w tk w' Apart (fun X => match X with end) (inv_start w False js) Ex) as Iv.
  destruct Iv as (M & D & B & Of & Sc & Ns & T).
  assert (Tk : forall o, In o (wr_outputs wr) -> writes_metadata o -> exists i ph, nth_error tk i = Some (metadata_job (wr_meta wr) o, ph) /\ task_inv w False (alone js) (metadata_job (wr_meta wr) o) ph w').
  { intros o Ho Wm. apply In_nth_error in Ho. destruct Ho as (i & Ei).
    assert (X : nth_error (map fst tk) i = Some (metadata_job (wr_meta wr) o)) by (rewrite M; unfold js; apply (map_nth_error _ i _ Ei)).
    destruct (nth_error tk i) as [[j ph]|] eqn:E.
    - rewrite (nth_job _ _ _ _ E) in X. injection X as ->. exists i, ph. split; [exact E|]. apply (T i _ ph E).
    - exfalso. apply nth_error_None in E. assert (L : (i < List.length (map fst tk))%nat) by (apply nth_error_Some; rewrite X; discriminate).
      rewrite map_length in L. exact (proj1 (Nat.lt_nge _ _) L E). }
  split; [exact D|]. split; [|split].
  - intros p No. apply Of. intros j app Hj Q. unfold js in Hj. apply in_map_iff in Hj. destruct Hj as (o & <- & Ho). apply Tf in Q. destruct Q as (F & Q & _). apply (No o Ho F Q).
  - intros o Ho Wm. destruct (Tk o Ho Wm) as (i & ph & _ & Ti). rewrite (Ft o Wm) in Ti.
    assert (Wr : forall a b, wr_meta wr = a ++ b -> w_files w' (metadata_file o) = Some (overlay false (w_files w (metadata_file o)) a) ->
      partly_written False (wr_meta wr) (w_files w (metadata_file o)) (w_files w' (metadata_file o))).
    { intros a b E H. right. exists a, b. split; [exact E|]. rewrite H. destruct (w_files w (metadata_file o)) as [s|]; [|reflexivity]. split; [intros []|].
      intros _. eexists. split; [reflexivity|]. apply overlay_overwritten. }
    destruct ph as [|pos rest|r]; cbn [task_inv] in Ti.
    + left. exact Ti.
    + destruct Ti as (a & T1 & _ & T2 & _). apply (Wr a rest T1 T2).
    + destruct Ti as [(Ti & _)|[(Ti & _)|(_ & _ & a & b & T1 & T2 & _)]]; [discriminate|left; exact Ti|apply (Wr a b T1 T2)].
  - intros (_ & Rt) o Ho Wm. destruct (Tk o Ho Wm) as (i & ph & Ei & Ti). pose proof (Rt _ ph (nth_error_In _ _ Ei)) as ->. rewrite (Ft o Wm) in Ti. cbn [task_inv] in Ti.
    destruct Ti as [(Ti & _)|[(_ & Ti & _)|(_ & _ & a & b & T1 & T2 & [(-> & _)|(_ & Ti)])]]; [discriminate..| |discriminate].
    rewrite app_nil_s in T1. cbn [j_text] in T1. subst a. unfold wrote in T2. cbn [j_target] in T2. rewrite T2.
    destruct (w_files w (metadata_file o)) as [s|]; cbn [overlay]; [|reflexivity]. eexists. split; [reflexivity|]. apply overlay_overwritten.
Qed.
Print Assumptions C58_metadata.

(** ** Examples *)
Section Demo.
Variable A : Num.
Variable m : mesh A.

Definition collected (cs : list output_config) : writer A :=
  fst (writer_update m (vars_new Isot 6 (default_physics_config A)) (ts_new (default_numerics_config A THll (n1 A)) 5%N)
         (mkWriter (map (fun c => output_build 6 c m 5) cs) 0 "{}" false)).

(** turn by turn, three characters at a time *)
Definition round_robin (n : nat) : list event := List.concat (repeat [Go 0 2; Go 1 2; Go 2 2] n).

Lemma collected_separate : separate (wr_outputs (collected screen_and_log)).
Proof.
  intros i j oi oj N Ei Ej Fi Fj a b.
  destruct i as [|[|[|i]]]; cbn in Ei; try (destruct i; discriminate Ei); injection Ei as <-; try discriminate Fi;
  destruct j as [|[|[|j]]]; cbn in Ej; try (destruct j; discriminate Ej); injection Ej as <-; try discriminate Fj; try congruence; discriminate.
Qed.

(** C58 example: two files and the screen; one write fails in the middle, and
    the process stops while another file is being written. *)
Example C58_example : separate (wr_outputs (collected screen_and_log)) /\
  let '(tk, w) := execute (round_robin 3 ++ [Fault 1; Go 2 0]) (write_tasks fmt0 (collected screen_and_log)) open_world in
  w_files w "out/log.csv" = Some ("iter" ++ newline ++ "0") /\ w_files w "out/kinds.csv" = Some "dt_kind" /\ w_stdout w = "#     " /\
  nth_error (map snd tk) 1 = Some (Ended (Err EIO)).
Proof. split; [exact collected_separate|]. vm_compute. auto. Qed.

Lemma all_returned : forall tk : list task, forallb (fun t => match snd t with Ended (Ok _) => true | _ => false end) tk = true -> returned tk (Ok tt).
Proof.
  intros tk H. rewrite forallb_forall in H. split.
  - intros j pos rest Hj. discriminate (H _ Hj).
  - intros j ph Hj. specialize (H _ Hj). cbn in H. destruct ph as [| |[[]|e| |]]; try discriminate. reflexivity.
Qed.

(** C59 example: the same to the end *)
Example C59_example : each_once 3 [1; 2; 0]%nat /\ no_fault (round_robin 33) /\
  let '(tk, w) := execute (round_robin 33) (write_tasks fmt0 (collected screen_and_log)) open_world in
  returned tk (Ok tt) /\ w_files w "out/kinds.csv" = Some ("dt_kind" ++ newline ++ "init" ++ newline).
Proof.
  split; [exact once_120|]. split.
  - intros i Hi. unfold round_robin in Hi. apply in_concat in Hi. destruct Hi as (x & Hx & Hi). apply repeat_spec in Hx. subst x.
    cbn in Hi. intuition discriminate.
  - destruct (execute (round_robin 33) (write_tasks fmt0 (collected screen_and_log)) open_world) as [tk w] eqn:E. split.
    + apply all_returned. change tk with (fst (tk, w)). rewrite <- E. vm_compute. reflexivity.
    + change w with (snd (tk, w)). rewrite <- E. vm_compute. reflexivity.
Qed.

(** metadata: two files with different names, written alternately *)
Definition two_metadata : list output_config :=
  [ mkOC File CSV Scalar "out" true "log" 3 false true [DIter]; mkOC File CSV Vector "out" true "flow" 3 false true [XiCent] ].

Example C58_example_metadata :
  let wr := mkWriter (map (fun c => output_build 6 c m 5) two_metadata) 0 "{}" false in
  (forall i j oi oj, i <> j -> nth_error (wr_outputs wr) i = Some oi -> nth_error (wr_outputs wr) j = Some oj ->
     writes_metadata oi -> writes_metadata oj -> metadata_file oi <> metadata_file oj) /\
  let '(tk, w) := execute [Go 0 0; Go 1 0; Go 0 0; Go 1 5; Go 1 0] (metadata_tasks wr) open_world in
  w_files w "out/log_metadata.json" = Some "{" /\ w_files w "out/flow__metadata.json" = Some "{}".
Proof.
  split; [|vm_compute; auto]. intros i j oi oj N Ei Ej _ _.
  destruct i as [|[|i]]; cbn in Ei; try (destruct i; discriminate Ei); injection Ei as <-;
  destruct j as [|[|j]]; cbn in Ej; try (destruct j; discriminate Ej); injection Ej as <-; try congruence; discriminate.
Qed.
End Demo.

(** C58 example for histories: after one complete output the process stops in
    the second line of the log file. *)
Example C58_example_history : forall A (mc : mesh_config A) m, mesh_new false 6 mc = Ok m ->
  separate_files 5 screen_and_log /\ data_exists Isot screen_and_log /\
  exists x wr w wr1 tk w', sized Isot 6 (snd x) /\
    parallel_history fmt0 m (mkWriter (map (fun c => output_build 6 c m 5) screen_and_log) 0 "{}" false) open_world [x] wr w /\
    writer_update m (snd x) (fst x) wr = (wr1, Ok tt) /\
    execute [Go 1 0; Go 2 0; Go 1 0; Go 2 1] (write_tasks fmt0 wr1) w = (tk, w') /\
    w_files w' "out/log.csv" = Some ("iter" ++ newline ++ "0" ++ newline ++ "0") /\
    w_files w' "out/kinds.csv" = Some ("dt_kind" ++ newline ++ "init" ++ newline ++ "in").
Proof.
  intros A mc m M. split; [|split].
  - intros i j ci cj N Ei Ej Fi Fj a b.
    destruct i as [|[|[|i]]]; cbn in Ei; try (destruct i; discriminate Ei); injection Ei as <-; try discriminate Fi;
    destruct j as [|[|[|j]]]; cbn in Ej; try (destruct j; discriminate Ej); injection Ej as <-; try discriminate Fj; try congruence; discriminate.
  - intros c [<-|[<-|[<-|[]]]]; (split; [discriminate|]); cbn; intros n H; repeat (destruct H as [<-|H]; [cbn; auto|]); destruct H.
  - exists (ts_new (default_numerics_config A THll (n1 A)) 5%N, vars_new Isot 6 (default_physics_config A)).
    set (tk1 := fst (execute (round_robin 33) (write_tasks fmt0 (collected A m screen_and_log)) open_world)).
    set (w1 := snd (execute (round_robin 33) (write_tasks fmt0 (collected A m screen_and_log)) open_world)).
    exists (writer_after (collected A m screen_and_log) tk1 (Ok tt)), w1.
    do 3 eexists. split; [|split; [|split; [|split]]].
    + split; [|split]; [split; [reflexivity|]..|reflexivity]; intros [|[|j]] Hj; try reflexivity; cbn in Hj; lia.
    + apply (ph_output fmt0 m (mkWriter (map (fun c => output_build 6 c m 5) screen_and_log) 0 "{}" false) open_world [] (mkWriter (map (fun c => output_build 6 c m 5) screen_and_log) 0 "{}" false) open_world _ _ (collected A m screen_and_log) (round_robin 33) tk1 w1); [constructor|reflexivity| |].
      * unfold tk1, w1. destruct (execute _ _ _). reflexivity.
      * apply all_returned. vm_compute. reflexivity.
    + vm_compute. reflexivity.
    + vm_compute. reflexivity.
    + vm_compute. auto.
Qed.

(** A binary64 simulation with three outputs, its writes interleaved *)
Section Runs.
Variables bln bexp : b64 -> b64.
Notation A := (B64n bln bexp).
Variable m : mesh A.

Definition progress : Type := (sim A (Hll A) * writer A * world * list (timestep A * vars A))%type.

Definition ended_ok (tk : list task) : bool := forallb (fun t => match snd t with Ended (Ok _) => true | _ => false end) tk.

(** [n] steps *)
Fixpoint advance (n : nat) (g : progress) : option progress :=
  match n with
  | O => Some g
  | Datatypes.S n =>
      let '(s, wr, w, tr) := g in
      if finished s then None
      else if due s then
        match writer_update m (cent (s_u s)) (s_ts (moved_on s)) wr with
        | (wr1, Ok tt) =>
            let '(tk, w2) := execute (round_robin 60) (write_tasks fmt0 wr1) w in
            if ended_ok tk then
              match solver_next true 0 Isot 6 m (moved_on s) with
              | (s2, Ok tt) => advance n (s2, writer_after wr1 tk (Ok tt), w2, (tr ++ [(s_ts (moved_on s), cent (s_u s))])%list)
              | _ => None
              end
            else None
        | _ => None
        end
      else
        match solver_next true 0 Isot 6 m s with
        | (s2, Ok tt) => advance n (s2, wr, w, tr)
        | _ => None
        end
  end.

Lemma advance_running : forall s0 wr0 w0 n s wr w tr s' wr' w' tr', running fmt0 true 0 Isot 6 m s0 wr0 w0 s wr w tr ->
  advance n (s, wr, w, tr) = Some (s', wr', w', tr') -> running fmt0 true 0 Isot 6 m s0 wr0 w0 s' wr' w' tr'.
Proof.
  intros s0 wr0 w0 n. induction n as [|n IH]; intros s wr w tr s' wr' w' tr' R H; cbn [advance] in H; [injection H as <- <- <- <-; exact R|].
  destruct (finished s) eqn:Fi; [discriminate|]. destruct (due s) eqn:Du.
  - destruct (writer_update m (cent (s_u s)) (s_ts (moved_on s)) wr) as [wr1 r1] eqn:U. destruct r1 as [[]|e| |]; try discriminate.
    destruct (execute (round_robin 60) (write_tasks fmt0 wr1) w) as [tk w2] eqn:Ex. destruct (ended_ok tk) eqn:Ok1; [|discriminate].
    destruct (solver_next true 0 Isot 6 m (moved_on s)) as [s2 r2] eqn:Nx. destruct r2 as [[]|e| |]; try discriminate.
    refine (IH _ _ _ _ _ _ _ _ _ H). eapply rn_due; try eassumption. apply all_returned. exact Ok1.
  - destruct (solver_next true 0 Isot 6 m s) as [s2 r2] eqn:Nx. destruct r2 as [[]|e| |]; try discriminate.
    refine (IH _ _ _ _ _ _ _ _ _ H). eapply rn_not_due; eassumption.
Qed.
End Runs.

(** the start-up, [n] steps and some events of the output that is due then *)
Definition stopped (bln bexp : b64 -> b64) (n : nat) (es : list event) : option (nat * world) :=
  match init_corries (A:=B64n bln bexp) (N:=Hll (B64n bln bexp)) true (fun _ => "{}") "" [1; 2; 0]%nat (brun_init bln bexp 1 (1 # 8)) Isot 6 (wrun_cfg bln bexp three_outputs) no_world with
  | (w1, Ok k) =>
      match advance bln bexp (c_mesh k) n (c_sim k, c_writer k, w1, []) with
      | Some (s, wr, w, tr) =>
          if due s then
            match writer_update (c_mesh k) (cent (s_u s)) (s_ts (moved_on s)) wr with
            | (wr1, Ok tt) => let '(tk, w') := execute es (write_tasks fmt0 wr1) w in Some (List.length tr, w')
            | _ => None
            end
          else None
      | None => None
      end
  | _ => None
  end.

Definition is_file (w : world) (f txt : string) : bool := match w_files w f with Some t => (t =? txt)%string | None => false end.

(** C58 example for simulations: the process stops in the second output. *)
Example C58_example_run : forall bln bexp, exists w1 k s wr w tr wr1 tk w',
  init_corries (A:=B64n bln bexp) (N:=Hll (B64n bln bexp)) true (fun _ => "{}") "" [1; 2; 0]%nat (brun_init bln bexp 1 (1 # 8)) Isot 6 (wrun_cfg bln bexp three_outputs) no_world = (w1, Ok k) /\
  tame Isot 6 (brun_init bln bexp 1 (1 # 8)) /\ separate_files 2 three_outputs /\ data_exists Isot three_outputs /\ tidy no_world /\
  running fmt0 true 0 Isot 6 (c_mesh k) (c_sim k) (c_writer k) w1 s wr w tr /\ List.length tr = 1%nat /\ due s = true /\
  writer_update (c_mesh k) (cent (s_u s)) (s_ts (moved_on s)) wr = (wr1, Ok tt) /\
  execute [Go 1 0; Go 0 0; Go 0 3; Go 1 10] (write_tasks fmt0 wr1) w = (tk, w') /\
  w_files w' "out/flow_1.csv" = Some "xi_c" /\ w_files w' "log/steps.tsv" = Some ("#      iter          t    dt_kind" ++ newline ++ "          0      1.0e0       init" ++ newline ++ "          2").
Proof.
  intros bln bexp.
  assert (D : match stopped bln bexp 2 [Go 1 0; Go 0 0; Go 0 3; Go 1 10] with
    | Some (n, w) => (n =? 1)%nat && is_file w "out/flow_1.csv" "xi_c" && is_file w "log/steps.tsv" ("#      iter          t    dt_kind" ++ newline ++ "          0      1.0e0       init" ++ newline ++ "          2") | None => false end = true) by (vm_compute; reflexivity).
  unfold stopped in D.
  destruct (init_corries true _ _ _ _ _ _ _ _) as [w1 k] eqn:I0. destruct k as [k|e| |]; [|discriminate D..].
  destruct (advance bln bexp (c_mesh k) 2 _) as [[[[s wr] w] tr]|] eqn:Ad; [|discriminate D].
  destruct (due s) eqn:Du; [|discriminate D].
  destruct (writer_update (c_mesh k) (cent (s_u s)) (s_ts (moved_on s)) wr) as [wr1 r1] eqn:U. destruct r1 as [[]|e| |]; [|discriminate D..].
  destruct (execute _ (write_tasks fmt0 wr1) w) as [tk w'] eqn:Ex.
  apply andb_true_iff in D. destruct D as [D D3]. apply andb_true_iff in D. destruct D as [D1 D2].
  exists w1, k, s, wr, w, tr, wr1, tk, w'. split; [reflexivity|]. split; [|split; [apply three_separate|split; [|split; [exact no_world_tidy|split; [|split; [apply Nat.eqb_eq; exact D1|]]]]]].
  - intros s1 m1 s2 r H. unfold brun_init in H. apply pair_equal_spec in H. destruct H as (<- & <-). cbn [s_rhs s_u].
    split; [discriminate|]. split; [reflexivity|]. split; [reflexivity|]. intros (H1 & H2 & H3 & H4 & H5). cbn [cent set_cent].
    split; [|split; [exact H2|split; [exact H3|split; [exact H4|]]]]; cbn [prim set_prim c_sound set_c_sound].
    + split; [reflexivity|]. intros [|[|j]] Hj; try reflexivity; cbn in Hj; lia.
    + apply repeat_length.
  - exact (proj1 (C51_example (B64n bln bexp) (default_physics_config _))).
  - eapply advance_running; [constructor|exact Ad].
  - split; [exact Du|]. split; [exact U|]. split; [exact Ex|]. unfold is_file in D2, D3. split.
    + destruct (w_files w' "out/flow_1.csv") as [t|]; [|discriminate D2]. apply String.eqb_eq in D2. rewrite D2. reflexivity.
    + destruct (w_files w' "log/steps.tsv") as [t|]; [|discriminate D3]. apply String.eqb_eq in D3. rewrite D3. reflexivity.
Qed.

(** With two outputs to the screen the lines can get mixed up, without any
    failure: the operations below are those of the [write!] calls (title, blank,
    field, delimiter, field, line break), and the screen shows what neither
    order shows. *)
Definition two_screens : list output_config := [ default_stdout_with_names [DIter; DT]; default_stdout_with_names [DDtKind] ].

Definition mixed : list event :=
  [Go 0 0; Go 0 22; Go 1 0; Go 1 11; Go 0 0; Go 1 0; Go 0 9; Go 1 9; Go 1 0; Go 0 0; Go 0 9; Go 0 0; Go 0 0; Go 1 0].

Theorem C59_screen_refuted : forall A (m : mesh A), oc_validate_all two_screens = Ok tt /\ no_fault mixed /\
  let '(tk, w) := execute mixed (write_tasks fmt0 (collected A m two_screens)) open_world in
  returned tk (Ok tt) /\
  forall sched wr' w' r, each_once 2 sched -> writer_write fmt0 sched (collected A m two_screens) open_world = (wr', w', r) -> w_stdout w' <> w_stdout w.
Proof.
  intros A m. split; [reflexivity|]. split; [intros i H; cbn in H; intuition discriminate|].
  destruct (execute mixed (write_tasks fmt0 (collected A m two_screens)) open_world) as [tk w] eqn:E.
  assert (P : forallb (fun t => match snd t with Ended (Ok _) => true | _ => false end) tk = true /\
    w_stdout w = "#      iter          t" ++ newline ++ "#   dt_kind" ++ newline ++ "           0      init" ++ newline ++ "      1.0e0" ++ newline).
  { change tk with (fst (tk, w)). change w with (snd (tk, w)) at 2. rewrite <- E. vm_compute. auto. }
  destruct P as (P1 & P2). split.
  - apply all_returned. exact P1.
  - intros sched wr' w' r Es W. rewrite P2. pose proof (each_once_perm 2 [0; 1]%nat sched (seq_once 2) Es) as Pm.
    apply Permutation_length_2_inv in Pm. destruct Pm as [->| ->].
    + change w' with (snd (fst (wr', w', r))). rewrite <- W. vm_compute. discriminate.
    + change w' with (snd (fst (wr', w', r))). rewrite <- W. vm_compute. discriminate.
Qed.
Print Assumptions C59_screen_refuted.
