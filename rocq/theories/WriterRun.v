(** Files of whole simulations. *)

From Coq Require Import List ZArith NArith Bool String Ascii Lia.
From Verif Require Import Base Num Config Mesh State NumFlux Time Writer Runner SpecWriter SpecRun
  MeshProofs TextProofs TableProofs WriterProofs RunProofs.
Import ListNotations.
Local Open Scope string_scope.

Section Files.
Variable A : Num.
Variable fmt : nat -> nF A -> string.
Hypothesis Hf : plain fmt.

(** the dimensions of a mesh *)
Definition dims (S : nat) (m : mesh A) : Prop :=
  m_n_all m = S /\ m_n_comp m = (S - 4)%nat /\ m_imin m = 0%nat /\ m_ixi_in m = 2%nat /\
  List.length (m_xi_cent m) = S /\ List.length (m_xi_west m) = S /\ List.length (m_xi_east m) = S.

Lemma mesh_dims : forall validation S mc m, mesh_new validation S mc = Ok m -> (4 <= S)%nat /\ dims S m.
Proof.
  intros validation S mc m H. destruct (mesh_new_Ok _ _ _ _ _ H) as (HS & -> & _). split; [exact HS|].
  destruct (mesh_lengths A S mc) as (L1 & L2 & L3 & _). unfold dims. rewrite L1, L2, L3. repeat split; reflexivity.
Qed.

Lemma seq_shift_map : forall n k, map (fun r => (k + r)%nat) (seq 0 n) = seq k n.
Proof.
  induction n as [|n IH]; intros k; [reflexivity|]. cbn [seq map]. rewrite Nat.add_0_r. f_equal. rewrite <- (IH (Datatypes.S k)), <- seq_shift, map_map. apply map_ext. intros r. lia.
Qed.

Lemma names_build : forall S c (m : mesh A) mx, names (output_build S c m mx) = oc_names c.
Proof. intros. unfold names, output_build. cbn [o_data]. rewrite map_map. cbn [data_new d_name]. apply map_id. Qed.

Lemma titles : forall ns, map name_str ns = map title ns.
Proof. intros. apply map_ext. apply name_title. Qed.

Lemma build_rows : forall S c (m : mesh A) mx, dims S m -> (5 <= S)%nat ->
  let o := output_build S c m mx in
  (0 < o_rows o)%nat /\ (o_conv o = Scalar -> o_rows o = 1%nat) /\
  (o_conv o = Vector -> map (fun r => (o_offset o + r)%nat) (seq 0 (o_rows o)) = cells S (oc_ghost c)).
Proof.
  intros S c m mx (D1 & D2 & D3 & D4 & _) HS. unfold output_build. cbn [o_rows o_conv o_offset]. rewrite D1, D2, D3, D4.
  split; [destruct (oc_conv c), (oc_ghost c); lia|]. split; [intros ->; reflexivity|]. intros ->. unfold cells. destruct (oc_ghost c); apply seq_shift_map.
Qed.

Lemma build_table : forall S c (m : mesh A) mx ts v, dims S m -> (5 <= S)%nat -> oc_conv c = Vector ->
  let o := output_build S c m mx in
  map name_str (names o) :: map (fields fmt o m ts v (names o)) (seq 0 (o_rows o)) = vector_rows fmt S c m ts v.
Proof.
  intros S c m mx ts v D HS C o. destruct (build_rows S c m mx D HS) as (_ & _ & B). specialize (B C). subst o.
  unfold vector_rows. rewrite names_build, titles, <- B, map_map. reflexivity.
Qed.

Lemma field_scalar : forall prec m ts v i j n, dn_type n <> TVectorFloat -> field fmt prec m ts v i n = field fmt prec m ts v j n.
Proof. intros prec m ts v i j n H. destruct n; cbn in *; congruence. Qed.

Lemma scalar_names : forall c, oc_validate c = Ok tt -> oc_conv c = Scalar -> forall n, In n (oc_names c) -> dn_type n <> TVectorFloat.
Proof.
  intros c H C n Hn. unfold oc_validate in H. match type of H with bind ?a _ = _ => destruct a as [[]|e| |] end; cbn [bind] in H; try discriminate.
  rewrite C in H. intros E. unfold ensure in H. destruct (forallb _ _) eqn:B in H; [|discriminate]. rewrite forallb_forall in B. specialize (B n Hn). cbv beta in B. destruct n; cbn in B, E; discriminate.
Qed.

Lemma build_scalar : forall S c (m : mesh A) mx ts v, oc_validate c = Ok tt -> oc_conv c = Scalar ->
  let o := output_build S c m mx in
  fields fmt o m ts v (names o) 0 = map (field fmt (oc_precision c) m ts v 0) (oc_names c).
Proof.
  intros S c m mx ts v V C o. subst o. unfold fields. rewrite names_build. apply map_ext_in. intros n Hn. cbn [o_precision output_build o_offset].
  apply field_scalar. apply (scalar_names c V C n Hn).
Qed.

Lemma validate_all : forall l, oc_validate_all l = Ok tt -> forall c, In c l -> oc_validate c = Ok tt.
Proof.
  induction l as [|d l IH]; intros H c []; cbn [oc_validate_all] in H; destruct (oc_validate d) as [[]|e| |] eqn:E; cbn [bind] in H; try discriminate; [congruence|]. apply IH; assumption.
Qed.

(** the contents of the files of a configuration after a history *)
Theorem history_files : forall S m mx cs k0 meta banner w0 l wr w, dims S m -> (5 <= S)%nat -> separate_files mx cs ->
  output_history fmt m (mkWriter (map (fun c => output_build S c m mx) cs) k0 meta banner) w0 l wr w ->
  forall c, In c cs -> oc_validate c = Ok tt -> oc_stream c = File -> (forall k, w_files w0 (file_of mx c k) = None) ->
  match oc_conv c with
  | Vector =>
      (forall n ts v, nth_error l n = Some (ts, v) -> exists txt, w_files w (file_of mx c (k0 + N.of_nat n)) = Some txt /\
         is_table (oc_format c) txt (vector_rows fmt S c m ts v)) /\
      forall k, (k0 + N.of_nat (List.length l) <= k)%N -> w_files w (file_of mx c k) = None
  | Scalar => (l = [] -> forall k, w_files w (file_of mx c k) = None) /\
      (l <> [] -> exists txt, (forall k, w_files w (file_of mx c k) = Some txt) /\ is_table (oc_format c) txt (scalar_rows fmt c m l))
  end.
Proof.
  intros S m mx cs k0 meta banner w0 l wr w D HS Sep H c Hc V F Fr.
  destruct (history_inv A fmt Hf m (mkWriter (map (fun c => output_build S c m mx) cs) k0 meta banner) w0 (separate_build A S m mx cs Sep)) with (l := l) (wr := wr) (w := w) as (_ & _ & Inv).
  { intros i o Ei. cbn [wr_outputs] in Ei. rewrite nth_error_map in Ei. destruct (nth_error cs i) as [ci|]; [|discriminate]. cbn [option_map] in Ei. injection Ei as <-.
    destruct (build_rows S ci m mx D HS) as (B1 & B2 & _). split; [apply styled_build|]. split; [exact B1|]. split; [exact B2|]. reflexivity. }
  { exact H. }
  apply In_nth_error in Hc. destruct Hc as (i & Hi). cbn [wr_outputs] in Inv.
  destruct (Inv i (output_build S c m mx)) as (o' & _ & _ & _ & _ & Fc). { rewrite nth_error_map, Hi. reflexivity. }
  specialize (Fc F). unfold fresh in Fc. cbn [wr_counter] in Fc.
  assert (Fr' : forall j, w_files w0 (out_path (output_build S c m mx) j) = None) by (intros j; rewrite path_file_of; apply Fr).
  specialize (Fc Fr'). unfold file_contents in Fc. cbn [o_conv output_build] in Fc. cbn [wr_counter] in Fc. destruct (oc_conv c) eqn:C.
  - destruct l as [|x l]; (split; [intros Q|intros Q]); try congruence.
    + intros k. rewrite <- (path_file_of A S m). apply Fc.
    + destruct Fc as (txt & F1 & F2). exists txt. split; [intros k; rewrite <- (path_file_of A S m); apply F1|].
      unfold scalar_rows. rewrite <- titles, <- (names_build S c m mx).
      rewrite (map_ext (fun x0 => map (field fmt (oc_precision c) m (fst x0) (snd x0) 0) (names (output_build S c m mx))) (fun x0 => fields fmt (output_build S c m mx) m (fst x0) (snd x0) (names (output_build S c m mx)) 0)).
      * exact F2.
      * intros y. rewrite (build_scalar S c m mx (fst y) (snd y) V C), names_build. reflexivity.
  - destruct Fc as (F1 & F2). split.
    + intros n ts v Hn. destruct (F1 n (ts, v) Hn) as (txt & T1 & T2). exists txt. rewrite <- (path_file_of A S m). split; [exact T1|].
      unfold table_of in T2. cbn [fst snd] in T2. pose proof (build_table S c m mx ts v D HS C) as B. cbv zeta in B. rewrite <- B. exact T2.
    + intros k Hk. rewrite <- (path_file_of A S m). apply F2. exact Hk.
Qed.

Variable N : numflux_impl A.

(** what [init_corries] leaves *)
Lemma init_files : forall validation meta banner sched init p S c w w' (k : components A N), tidy w ->
  init_corries (N:=N) validation meta banner sched init p S c w = (w', Ok k) ->
  cf_validate c = Ok tt /\ (4 <= S)%nat /\ dims S (c_mesh k) /\
  c_writer k = mkWriter (map (fun oc => output_build S oc (c_mesh k) (cf_output_max c)) (cf_writer c)) 0 (meta c) (cf_banner c) /\
  forall oc, In oc (cf_writer c) -> oc_stream oc = File -> oc_clear oc = true -> forall j, w_files w' (file_of (cf_output_max c) oc j) = None.
Proof.
  intros validation meta banner sched init p S c w w' k T I. unfold init_corries in I.
  destruct (cf_validate c) as [[]|x| |] eqn:V; try discriminate. destruct (mesh_new validation S (cf_mesh c)) as [m|x| |] eqn:M; try discriminate.
  unfold solver_new in I. destruct (rhs_new N p S c m) as [nf|x| |]; cbn [bind] in I; try discriminate.
  destruct (writer_new meta S c m w) as [w1 r1] eqn:W. destruct r1 as [wr|x| |]; try discriminate.
  unfold writer_new in W. destruct (outputs_new S (cf_writer c) m (cf_output_max c) w) as [w0 r0] eqn:O.
  destruct r0 as [os|x| |]; cbn [bind] in W; try discriminate. injection W as <- <-.
  destruct (outputs_new_ok A _ _ _ _ _ _ _ O T) as (-> & O2 & O3 & O4 & O5 & O6). cbn [wr_banner wr_meta wr_outputs] in I.
  match type of I with context [writer_metadata ?a ?b ?d ?e] => destruct (writer_metadata a b d e) as [w2 r2] eqn:Md end. destruct r2 as [[]|x| |]; try discriminate.
  match type of I with context [init ?a m] => destruct (init a m) as [s1 r3] eqn:E end.
  destruct r3 as [[]|x| |]; cbn [bind] in I; try discriminate.
  match type of I with context [st_update_from_prim ?a ?b ?c ?d ?e ?f] => destruct (st_update_from_prim a b c d e f) as [u|x| |] end; cbn [bind] in I; try discriminate.
  injection I as <- <-. cbn [c_mesh c_writer]. destruct (mesh_dims _ _ _ _ M) as (HS & D). split; [reflexivity|]. split; [exact HS|]. split; [exact D|]. split; [reflexivity|].
  intros oc Hoc F C j. apply metadata_frame in Md. destruct Md as (Md & _).
  rewrite Md by (rewrite <- (path_file_of A S m), ending_last; discriminate).
  assert (Q : w_files w0 (file_of (cf_output_max c) oc j) = None) by (apply (O6 oc Hoc F C); apply path_prefix).
  destruct (cf_banner c); exact Q.
Qed.

Lemma sched_length : forall kk l os w os' w' r, write_sched fmt kk l os w = (os', w', r) -> List.length os' = List.length os.
Proof.
  intros kk. induction l as [|i l IH]; intros os w os' w' r W; cbn [write_sched] in W; [injection W as <- <-; reflexivity|].
  destruct (nth_error os i) as [o|]; [|apply (IH _ _ _ _ _ W)]. destruct (output_write fmt kk o w) as [[o1 w1] r1].
  destruct r1 as [[]|e| |]; [rewrite (IH _ _ _ _ _ W)|injection W as <- <- <-..]; apply length_upd.
Qed.

(** the outputs of a run are a history *)
Lemma outputs_length : forall sched m (s : sim A N) wr w wr1 w1, outputs fmt sched m s wr w wr1 w1 (Ok tt) -> List.length (wr_outputs wr1) = List.length (wr_outputs wr).
Proof.
  intros sched m s wr w wr1 w1 O. inversion O; subst; [|congruence]. unfold writer_update in *.
  match goal with K : context [try_each ?a ?b] |- _ => destruct (try_each a b) as [os1 r1] eqn:T; injection K as <- -> end. apply try_each_ok in T. destruct T as (L & _).
  unfold writer_write in *. cbn [wr_counter wr_outputs wr_meta wr_banner] in *.
  match goal with K : context [write_sched ?a ?b ?c ?d ?e] |- _ => destruct (write_sched a b c d e) as [[os2 w2] r2] eqn:W end.
  assert (r2 = Ok tt) by (destruct r2 as [[]|e| |]; congruence). subst r2.
  match goal with K : _ = (wr1, w1, Ok tt) |- _ => injection K as <- <- end. cbn [wr_outputs]. rewrite <- L.
  apply (sched_length _ _ _ _ _ _ _ W).
Qed.

Lemma outputs_history : forall sched m wr0 w0 l (s : sim A N) wr w wr1 w1, output_history fmt m wr0 w0 l wr w ->
  (forall k, each_once (List.length (wr_outputs wr)) (sched k)) -> outputs fmt sched m s wr w wr1 w1 (Ok tt) ->
  output_history fmt m wr0 w0 (l ++ [(s_ts s, cent (s_u s))]) wr1 w1.
Proof.
  intros sched m wr0 w0 l s wr w wr1 w1 H E O. inversion O; subst; [|congruence].
  eapply oh_output; [exact H|eassumption| |eassumption].
  match goal with U : writer_update _ _ _ _ = (?x, _) |- _ => assert (L : List.length (wr_outputs x) = List.length (wr_outputs wr)) end.
  { unfold writer_update in *. match goal with K : context [try_each ?a ?b] |- _ => destruct (try_each a b) as [os1 r1] eqn:T; injection K as <- -> end. apply try_each_ok in T. apply T. }
  rewrite L. apply E.
Qed.

Lemma after_history : forall val sched afuel p S m (s0 : sim A N) wr0 w0 n s wr w tr,
  (forall k, each_once (List.length (wr_outputs wr0)) (sched k)) ->
  after fmt val sched afuel p S m s0 wr0 w0 n s wr w tr ->
  output_history fmt m wr0 w0 tr wr w /\ List.length (wr_outputs wr) = List.length (wr_outputs wr0).
Proof.
  intros val sched afuel p S m s0 wr0 w0 n s wr w tr E H. induction H as [|n s wr w tr wr1 w1 s2 H (I1 & I2) D O F X|n s wr w tr s2 H (I1 & I2) D F X].
  - split; [apply oh_none|reflexivity].
  - split; [|rewrite (outputs_length _ _ _ _ _ _ _ O); exact I2].
    change (cent (s_u s)) with (cent (s_u (moved_on s))). eapply outputs_history; [exact I1| |exact O]. rewrite I2. exact E.
  - auto.
Qed.

Lemma run_history : forall val sched afuel fuel p S m (s0 : sim A N) wr0 w0 e r,
  (forall k, each_once (List.length (wr_outputs wr0)) (sched k)) ->
  run_loop fmt val sched afuel fuel p S m s0 wr0 w0 = (e, r) ->
  wr_counter (e_writer e) = (wr_counter wr0 + BinNat.N.of_nat (List.length (e_trace e)))%N ->
  output_history fmt m wr0 w0 (e_trace e) (e_writer e) (e_world e).
Proof.
  intros val sched afuel fuel p S m s0 wr0 w0 e r E R K. apply loop_ends in R.
  assert (Rd : forall n s wr w tr, ready fmt val sched afuel p S m s0 wr0 w0 n s wr w tr -> output_history fmt m wr0 w0 tr wr w /\ List.length (wr_outputs wr) = List.length (wr_outputs wr0)).
  { intros n s wr w tr [s1 wr1 w1 tr1 wr2 w2 H D O|s1 wr1 w1 tr1 H D].
    - destruct (after_history _ _ _ _ _ _ _ _ _ _ _ _ _ _ E H) as (I1 & I2). split; [|rewrite (outputs_length _ _ _ _ _ _ _ O); exact I2].
      change (cent (s_u s1)) with (cent (s_u (moved_on s1))). eapply outputs_history; [exact I1| |exact O]. rewrite I2. exact E.
    - apply (after_history _ _ _ _ _ _ _ _ _ _ _ _ _ _ E H). }
  destruct R as [s1 wr1 w1 tr1 H|n s1 wr1 w1 tr1 wr2 w2 r Hn H Du O NO|n s1 wr1 w1 tr1 Hn H F|n s1 wr1 w1 tr1 s2 er s3 wr2 w2 r Hn H F X -> O|n s1 wr1 w1 tr1 s2 r Hn H F X NR];
    cbn [e_writer e_world e_trace] in *.
  - apply (after_history _ _ _ _ _ _ _ _ _ _ _ _ _ _ E H).
  - exfalso. apply outputs_counter in O. destruct O as (_ & O). rewrite (O NO), (after_counter _ _ _ _ _ _ _ _ _ _ _ _ _ _ _ _ _ H), app_length in K. cbn [List.length] in K. lia.
  - apply (Rd _ _ _ _ _ H).
  - destruct (Rd _ _ _ _ _ H) as (I1 & I2). destruct r as [[]|x| |].
    + match type of O with outputs _ _ _ ?s _ _ _ _ _ => change (s_ts s2) with (s_ts s2); eapply (outputs_history _ _ _ _ _ s) end; [exact I1| |exact O]. rewrite I2. exact E.
    + exfalso. apply outputs_counter in O. destruct O as (_ & O). rewrite (O ltac:(discriminate)), (ready_counter _ _ _ _ _ _ _ _ _ _ _ _ _ _ _ _ _ H), app_length in K. cbn [List.length] in K. lia.
    + exfalso. apply outputs_counter in O. destruct O as (_ & O). rewrite (O ltac:(discriminate)), (ready_counter _ _ _ _ _ _ _ _ _ _ _ _ _ _ _ _ _ H), app_length in K. cbn [List.length] in K. lia.
    + exfalso. apply outputs_counter in O. destruct O as (_ & O). rewrite (O ltac:(discriminate)), (ready_counter _ _ _ _ _ _ _ _ _ _ _ _ _ _ _ _ _ H), app_length in K. cbn [List.length] in K. lia.
  - apply (Rd _ _ _ _ _ H).
Qed.
End Files.
Arguments dims {A}.

(** ** Collecting and writing without panics *)
Section NoPanic.
Variable A : Num.
Variable fmt : nat -> nF A -> string.

Definition wf_payload (S off : nat) (d : data A) : Prop :=
  match dn_type (d_name d), d_payload d with
  | TVectorFloat, VVec v => List.length v = (S - 2 * off)%nat
  | TVectorFloat, _ => False
  | _, VVec _ => False
  | _, _ => True
  end.

Lemma length_slice : forall off (v : list (nF A)), List.length (slice off v) = (List.length v - 2 * off)%nat.
Proof. intros off v. unfold slice. rewrite firstn_length, skipn_length. lia. Qed.

Lemma write_vector_wf : forall S off (f : list (nF A)) d, List.length f = S -> dn_type (d_name d) = TVectorFloat -> wf_payload S off d ->
  exists d', write_vector f d off = Ok d' /\ d_name d' = d_name d /\ wf_payload S off d'.
Proof.
  intros S off f d L T W. unfold wf_payload in W. rewrite T in W. unfold write_vector. destruct (d_payload d) as [n|x|v|s]; try contradiction.
  assert (E : (List.length (if (off =? 0)%nat then f else slice off f) =? List.length v)%nat = true).
  { apply Nat.eqb_eq. rewrite W. destruct (Nat.eqb_spec off 0); [subst off; lia|]. rewrite length_slice. lia. }
  rewrite E. eexists. split; [reflexivity|]. split; [reflexivity|]. unfold wf_payload. cbn [d_name d_payload]. rewrite T. apply Nat.eqb_eq in E. rewrite E. exact W.
Qed.

Lemma collect_wf : forall p S (m : mesh A) v ts off d, dims S m -> sized p S v -> name_exists p (d_name d) -> wf_payload S off d ->
  exists d', collect m v ts off d = Ok d' /\ d_name d' = d_name d /\ wf_payload S off d'.
Proof.
  intros p S m v ts off d (_ & _ & _ & _ & D1 & D2 & D3) ((V1 & V1') & (V2 & V2') & V3) Nm W.
  unfold collect, collect_mesh, collect_vars, collect_time.
  destruct (d_name d) eqn:E; cbn [dn_assoc]; try rewrite <- E.
  all: try (apply write_vector_wf; auto; rewrite E; reflexivity).
  all: try (eexists; split; [reflexivity|]; split; [reflexivity|]; unfold wf_payload; cbn [d_name d_payload]; rewrite E; exact I).
  all: unfold row; cbn [name_exists] in Nm;
    match goal with |- context [nth_error ?q ?j] => destruct (nth_error q j) as [r|] eqn:R; [|exfalso; apply nth_error_None in R; lia] end; cbn [bind];
    apply (nth_error_nth _ _ []) in R; apply write_vector_wf; [rewrite <- R; auto|rewrite E; reflexivity|exact W].
Qed.

Definition wf_output (p : phys) (S : nat) (o : output A) : Prop :=
  o_data o <> [] /\ (forall d, In d (o_data o) -> wf_payload S (o_offset o) d /\ name_exists p (d_name d)) /\ (o_rows o <= S - 2 * o_offset o)%nat /\
  (o_conv o = Vector \/ o_rows o = 1%nat).

Lemma update_wf : forall p S (m : mesh A) v ts o, dims S m -> sized p S v -> wf_output p S o ->
  exists o', output_update m v ts o = (o', Ok tt) /\ wf_output p S o'.
Proof.
  intros p S m v ts o D V (W1 & W2 & W3 & W4). unfold output_update.
  assert (G : forall l, (forall d, In d l -> wf_payload S (o_offset o) d /\ name_exists p (d_name d)) -> exists l', try_each (fun d => keep d (collect m v ts (o_offset o) d)) l = (l', Ok tt) /\
    List.length l' = List.length l /\ forall d, In d l' -> wf_payload S (o_offset o) d /\ name_exists p (d_name d)).
  { induction l as [|d l IH]; intros H; cbn [try_each]; [exists []; split; [reflexivity|]; split; [reflexivity|]; intros d []|].
    destruct (H d (or_introl eq_refl)) as (H1 & H2). destruct (collect_wf p S m v ts (o_offset o) d D V H2 H1) as (d' & C & C1 & C2). rewrite C. cbn [keep].
    destruct IH as (l' & I1 & I2 & I3); [intros x Hx; apply H; right; exact Hx|]. rewrite I1. exists (d' :: l'). split; [reflexivity|]. split; [cbn; congruence|].
    intros x [<-|Hx]; [split; [exact C2|rewrite C1; exact H2]|apply I3; exact Hx]. }
  destruct (G (o_data o) W2) as (l' & G1 & G2 & G3). rewrite G1. eexists. split; [reflexivity|]. unfold wf_output. cbn [o_set_data o_data o_offset o_rows o_conv].
  split; [destruct l', (o_data o); try discriminate; congruence|]. auto.
Qed.

Lemma format_wf : forall S off o (d : data A) r, wf_payload S off d -> (r < S - 2 * off)%nat -> exists s, format_data fmt o d r = Ok s.
Proof.
  intros S off o d r W R. unfold wf_payload in W. unfold format_data. destruct (d_payload d) as [n|x|v|s]; eauto.
  destruct (dn_type (d_name d)); try contradiction. destruct (nth_error v r) eqn:E; [eauto|]. exfalso. apply nth_error_None in E. lia.
Qed.

Lemma text_wf : forall p S o, wf_output p S o -> exists txt, stream_text fmt o = Ok txt.
Proof.
  intros p S o (W1 & W2 & W3 & W4). unfold stream_text.
  assert (L : forall r, (r < S - 2 * o_offset o)%nat -> exists t, line fmt o r = Ok t).
  { intros r R. unfold line. destruct (o_data o) as [|d ds] eqn:E; [congruence|].
    assert (G : forall l, (forall x, In x l -> wf_payload S (o_offset o) x) -> exists t, rest_of_line fmt o r l = Ok t).
    { induction l as [|x l IH]; intros H; cbn [rest_of_line]; [eauto|]. destruct (format_wf S (o_offset o) o x r (H x (or_introl eq_refl)) R) as (s & ->). cbn [bind].
      destruct IH as (t & ->); [intros y Hy; apply H; right; exact Hy|]. cbn [bind]. eauto. }
    destruct (format_wf S (o_offset o) o d r (proj1 (W2 d (or_introl eq_refl))) R) as (s & ->). cbn [bind].
    destruct (G ds) as (t & ->); [intros y Hy; apply W2; right; exact Hy|]. cbn [bind]. eauto. }
  assert (G : forall l, (forall r, In r l -> (r < S - 2 * o_offset o)%nat) -> exists t, lines fmt o l = Ok t).
  { induction l as [|r l IH]; intros H; cbn [lines]; [eauto|]. destruct (L r (H r (or_introl eq_refl))) as (t & ->). cbn [bind].
    destruct IH as (u & ->); [intros x Hx; apply H; right; exact Hx|]. cbn [bind]. eauto. }
  destruct (G (seq 0 (o_rows o))) as (t & ->); [intros r Hr; apply in_seq in Hr; lia|]. cbn [bind]. eauto.
Qed.

Lemma build_wf : forall p S c (m : mesh A) mx, dims S m -> (5 <= S)%nat -> oc_names c <> [] -> (forall n, In n (oc_names c) -> name_exists p n) ->
  wf_output p S (output_build S c m mx).
Proof.
  intros p S c m mx (D1 & D2 & D3 & D4 & _) HS Ne Nm. unfold wf_output, output_build. cbn [o_data o_offset o_rows o_conv]. rewrite D1, D2, D3, D4.
  split; [destruct (oc_names c); [congruence|discriminate]|]. split; [|split].
  - intros d Hd. apply in_map_iff in Hd. destruct Hd as (n & <- & Hn). split; [|apply Nm; exact Hn].
    unfold wf_payload, data_new. cbn [d_name d_payload]. destruct (dn_type n); try exact I. unfold zeros. apply repeat_length.
  - destruct (oc_conv c), (oc_ghost c); lia.
  - destruct (oc_conv c); auto.
Qed.

Lemma set_first_wf : forall p S o b, wf_output p S o -> wf_output p S (o_set_first b o).
Proof. intros p S o b H. destruct o; exact H. Qed.

Definition wf_all (p : phys) (S : nat) (os : list (output A)) : Prop := forall o, In o os -> wf_output p S o.

Lemma update_all_wf : forall p S (m : mesh A) v ts wr, dims S m -> sized p S v -> wf_all p S (wr_outputs wr) ->
  exists wr', writer_update m v ts wr = (wr', Ok tt) /\ wf_all p S (wr_outputs wr') /\ wr_counter wr' = wr_counter wr /\ List.length (wr_outputs wr') = List.length (wr_outputs wr).
Proof.
  intros p S m v ts wr D V W. unfold writer_update.
  assert (G : forall l, wf_all p S l -> exists l', try_each (output_update m v ts) l = (l', Ok tt) /\ wf_all p S l' /\ List.length l' = List.length l).
  { induction l as [|o l IH]; intros H; cbn [try_each]; [exists []; split; [reflexivity|]; split; [intros o []|reflexivity]|].
    destruct (update_wf p S m v ts o D V (H o (or_introl eq_refl))) as (o' & -> & Ho). destruct IH as (l' & -> & I1 & I2); [intros x Hx; apply H; right; exact Hx|].
    exists (o' :: l'). split; [reflexivity|]. split; [intros x [<-|Hx]; [exact Ho|apply I1; exact Hx]|cbn; congruence]. }
  destruct (G _ W) as (l' & -> & G1 & G2). eexists. split; [reflexivity|]. auto.
Qed.

Lemma in_upd : forall {X} i (y : X) l x, In x (upd i y l) -> x = y \/ In x l.
Proof.
  intros X i y l. revert i. induction l as [|z l IH]; intros i x H; [destruct i; destruct H|]. destruct i as [|i]; cbn in H; destruct H as [<-|H]; auto; [right; right; exact H|right; left; reflexivity|].
  destruct (IH i x H); [auto|right; right; assumption].
Qed.

Lemma write_all_wf : forall p S k l os w os' w' r, wf_all p S os -> write_sched fmt k l os w = (os', w', r) ->
  (r = Ok tt \/ r = Err EIO) /\ wf_all p S os'.
Proof.
  intros p S k. induction l as [|i l IH]; intros os w os' w' r H W; cbn [write_sched] in W; [injection W as <- <- <-; auto|].
  destruct (nth_error os i) as [o|] eqn:Ei; [|apply (IH _ _ _ _ _ H W)].
  assert (Wo : wf_output p S o) by (apply H; apply (nth_error_In _ _ Ei)). destruct (text_wf p S o Wo) as (txt & T).
  assert (O : forall o1 w1 r1, output_write fmt k o w = (o1, w1, r1) -> (r1 = Ok tt \/ r1 = Err EIO) /\ wf_output p S o1).
  { intros o1 w1 r1 E. unfold output_write in E. rewrite T in E. destruct (o_stream o); [|destruct (open_fails _ _)]; injection E as <- <- <-; auto using set_first_wf. }
  destruct (output_write fmt k o w) as [[o1 w1] r1]. destruct (O _ _ _ eq_refl) as (O1 & O2).
  assert (H' : wf_all p S (upd i o1 os)). { intros x Hx. apply in_upd in Hx. destruct Hx as [->|Hx]; [exact O2|apply H; exact Hx]. }
  destruct r1 as [[]|e| |]; [apply (IH _ _ _ _ _ H' W)|..]; injection W as <- <- <-; (split; [|exact H']); destruct O1; auto; discriminate.
Qed.
End NoPanic.
Arguments wf_output {A}. Arguments wf_all {A}.
