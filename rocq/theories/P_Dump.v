(** C42, continued: how the error dump is labelled in the files, and which
    failures of an output end a run. *)

From Coq Require Import List ZArith NArith QArith Bool String Ascii Lia.
From Verif Require Import Base Num XReal B64 Config Mesh State NumFlux Time Writer Runner Spec SpecWriter SpecRun
  MeshProofs TextProofs TableProofs WriterProofs RunProofs WriterRun P_Run P_Writer.
Import ListNotations.
Local Open Scope string_scope.

(** In the tables the column DtKind of an output shows err if and only if the
    time step it belongs to is an error dump: in every row of a vector output
    and in the row a scalar output adds. *)
Theorem C42_label : forall A (fmt : nat -> nF A -> string) validation S mc (m : mesh A) mx c o ts v o1 k w o2 w2 col,
  plain fmt -> mesh_new validation S mc = Ok m -> (5 <= S)%nat -> oc_validate c = Ok tt -> oc_stream c = File ->
  same_output (output_build S c m mx) o -> map d_name (o_data o) = oc_names c ->
  output_update m v ts o = (o1, Ok tt) -> output_write fmt k o1 w = (o2, w2, Ok tt) ->
  w_files w (file_of mx c k) = None -> (oc_conv c = Scalar -> o_first o = true) ->
  nth_error (oc_names c) col = Some DDtKind ->
  exists txt head rows, w_files w2 (file_of mx c k) = Some txt /\ parse (oc_format c) txt = head :: rows /\ rows <> [] /\
    forall row, In row rows -> exists x, nth_error row col = Some x /\ (x = "err" <-> ts_kind ts = KErrorDump).
Proof.
  intros A fmt validation S mc m mx c o ts v o1 k w o2 w2 col Hf M HS V St Sm Nm U W Nf Fi Hc.
  destruct (C47_columns A fmt validation S mc m mx c o ts v o1 k w o2 w2 Hf M HS V Sm Nm U W) as (txt & _ & Ff & _ & Tv & Ts & _).
  exists txt.
  assert (Fld : forall i, exists x, nth_error (map (field fmt (oc_precision c) m ts v i) (oc_names c)) col = Some x /\ (x = "err" <-> ts_kind ts = KErrorDump)).
  { intros i. rewrite (map_nth_error _ _ _ Hc). eexists. split; [reflexivity|]. cbn [field]. destruct (ts_kind ts); split; intros Q; try discriminate Q; reflexivity. }
  destruct (oc_conv c) eqn:Cv.
  - destruct (Ts eq_refl (Fi eq_refl)) as (_ & T). do 2 eexists. split; [apply Ff; assumption|]. split; [exact T|]. cbn [map]. split; [discriminate|].
    intros row [<-|[]]. apply Fld.
  - destruct (Tv eq_refl) as (_ & T). do 2 eexists. split; [apply Ff; assumption|]. split; [exact T|]. split.
    + intros Q. apply map_eq_nil in Q. unfold cells in Q. destruct (oc_ghost c); [destruct S; [lia|discriminate]|].
      destruct (S - 4)%nat eqn:Z; [lia|discriminate].
    + intros row Hr. apply in_map_iff in Hr. destruct Hr as (i & <- & _). apply Fld.
Qed.
Print Assumptions C42_label.

(** An output succeeds only if every configured output could collect its data
    and every file in the schedule could be opened; if it does not succeed, its
    result is the one of a configured output that failed. *)
Lemma update_path : forall A (m : mesh A) v ts o o1 r, output_update m v ts o = (o1, r) -> o_stream o1 = o_stream o /\ forall k, out_path o1 k = out_path o k.
Proof. intros A m v ts o o1 r H. unfold output_update in H. destruct (try_each _ _) as [d q]. injection H as <- _. split; reflexivity. Qed.

Lemma sched_opens : forall A (fmt : nat -> nF A -> string) k l (os : list (output A)) w os' w', write_sched fmt k l os w = (os', w', Ok tt) ->
  forall i o, In i l -> nth_error os i = Some o -> o_stream o = File -> open_fails w (out_path o k) = false.
Proof.
  intros A fmt k. induction l as [|j l IH]; intros os w os' w' H i o Hi Ho Hs; [destruct Hi|]. cbn [write_sched] in H.
  destruct (nth_error os j) as [q|] eqn:Ej.
  - destruct (output_write fmt k q w) as [[q1 w1] r1] eqn:E. destruct r1 as [[]|e| |]; try discriminate H.
    apply output_write_cases in E. destruct E as [(E & _)|(_ & -> & txt & _ & E)]; [congruence|].
    destruct (Nat.eq_dec i j) as [->|Ne].
    + assert (q = o) by congruence. subst q. rewrite Hs in E. apply E.
    + destruct Hi as [Hi|Hi]; [congruence|].
      assert (Ho' : nth_error (upd j (o_set_first false q) os) i = Some o).
      { rewrite <- Ho. clear - Ne. revert os j Ne. induction i as [|i IHi]; intros [|x os] [|j] Ne; cbn; try reflexivity; try congruence. apply IHi. congruence. }
      pose proof (IH _ _ _ _ H i o Hi Ho' Hs) as K. unfold open_fails in *.
      destruct (o_stream q); [rewrite E in K|destruct E as (_ & E); rewrite E in K]; exact K.
  - destruct Hi as [->|Hi]; [congruence|]. exact (IH _ _ _ _ H i o Hi Ho Hs).
Qed.

Lemma sched_fails : forall A (fmt : nat -> nF A -> string) k l (os : list (output A)) w os' w' r, write_sched fmt k l os w = (os', w', r) -> r <> Ok tt ->
  exists o w1, output_write fmt k o w1 = (o, w1, r) /\ exists i o0, nth_error os i = Some o0 /\ (o = o0 \/ o = o_set_first false o0).
Proof.
  intros A fmt k. induction l as [|j l IH]; intros os w os' w' r H Nr; cbn [write_sched] in H; [injection H as <- <- <-; congruence|].
  destruct (nth_error os j) as [q|] eqn:Ej; [|exact (IH _ _ _ _ _ H Nr)].
  destruct (output_write fmt k q w) as [[q1 w1] r1] eqn:E. pose proof E as E0. apply output_write_cases in E.
  destruct E as [(E1 & -> & ->)|(-> & -> & txt & _ & E)].
  - assert (r1 = r) by (destruct r1 as [[]|e| |]; [congruence|injection H as _ _ <-; reflexivity..]). subst r1. exists q, w. split; [exact E0|]. exists j, q. auto.
  - destruct (IH _ _ _ _ _ H Nr) as (o & w2 & P & i & o0 & Q & R). exists o, w2. split; [exact P|].
    destruct (Nat.eq_dec i j) as [->|Ne].
    + exists j, q. split; [exact Ej|].
      assert (o0 = o_set_first false q).
      { clear - Q Ej. revert os Q Ej. induction j as [|j IHj]; intros [|x os] Q Ej; cbn in *; try discriminate; [congruence|]. exact (IHj os Q Ej). }
      subst o0. right. destruct R as [->| ->]; reflexivity.
    + exists i, o0. split; [|exact R]. rewrite <- Q. clear - Ne. revert os j Ne. induction i as [|i IHi]; intros [|x os] [|j] Ne; cbn; try reflexivity; try congruence. apply IHi. congruence.
Qed.

Theorem C42_output_fails : forall A (N : numflux_impl A) fmt sched m (s : sim A N) wr w wr' w' r,
  outputs fmt sched m s wr w wr' w' r ->
  let k := wr_counter wr in
  (r = Ok tt -> forall i o, nth_error (wr_outputs wr) i = Some o ->
     (exists o1, output_update m (cent (s_u s)) (s_ts s) o = (o1, Ok tt)) /\
     (In i (sched k) -> o_stream o = File -> open_fails w (out_path o k) = false)) /\
  (r <> Ok tt -> exists i o o1, nth_error (wr_outputs wr) i = Some o /\
     (output_update m (cent (s_u s)) (s_ts s) o = (o1, r) \/
      output_update m (cent (s_u s)) (s_ts s) o = (o1, Ok tt) /\ exists o2 w1, (o2 = o1 \/ o2 = o_set_first false o1) /\ output_write fmt k o2 w1 = (o2, w1, r))).
Proof.
  intros A N fmt sched m s wr w wr' w' r O k.
  assert (Fl : forall (f : output A -> output A * res unit) l l' q, try_each f l = (l', q) -> q <> Ok tt -> exists i x y, nth_error l i = Some x /\ f x = (y, q)).
  { intros f. induction l as [|x l IH]; intros l' q H Nq; cbn [try_each] in H; [injection H as <- <-; congruence|].
    destruct (f x) as [y p] eqn:E. destruct p as [[]|e| |].
    - destruct (try_each f l) as [t p] eqn:T. injection H as <- <-. destruct (IH _ _ eq_refl Nq) as (i & a & b & I1 & I2). exists (Datatypes.S i), a, b. auto.
    - injection H as <- <-. exists 0%nat, x, y. auto.
    - injection H as <- <-. exists 0%nat, x, y. auto.
    - injection H as <- <-. exists 0%nat, x, y. auto. }
  destruct O as [wr1 wr2 w2 r U W|wr1 r U Nr].
  - unfold writer_update in U. destruct (try_each (output_update m (cent (s_u s)) (s_ts s)) (wr_outputs wr)) as [os q] eqn:T. injection U as <- ->.
    destruct (try_each_ok _ _ _ T) as (Ln & T1). unfold writer_write in W. cbn [wr_counter wr_outputs] in W. fold k in W.
    destruct (write_sched fmt k (sched k) os w) as [[os2 w3] r3] eqn:Sc.
    assert (r3 = r) by (destruct r3 as [[]|e| |]; injection W as _ _ <-; reflexivity). subst r3. split.
    + intros -> i o Ho. destruct (T1 i o Ho) as (o1 & E1 & U1). split; [eauto|]. intros Hi Hs.
      destruct (update_path A m _ _ _ _ _ U1) as (P1 & P2). rewrite <- P2. apply (sched_opens A fmt k (sched k) os w os2 w3 Sc i o1 Hi E1). congruence.
    + intros Nr. destruct (sched_fails A fmt k (sched k) os w os2 w3 r Sc Nr) as (o2 & w1 & E & i & o1 & E1 & R).
      assert (Hi : (i < List.length (wr_outputs wr))%nat) by (rewrite <- Ln; apply nth_error_Some; congruence).
      destruct (nth_error (wr_outputs wr) i) as [o|] eqn:Ho; [|apply nth_error_None in Ho; lia].
      destruct (T1 i o Ho) as (o1' & E1' & U1). assert (o1' = o1) by congruence. subst o1'. exists i, o, o1. split; [exact Ho|]. right. eauto 7.
  - split; [congruence|]. intros _. unfold writer_update in U. destruct (try_each (output_update m (cent (s_u s)) (s_ts s)) (wr_outputs wr)) as [os q] eqn:T. injection U as _ ->.
    destruct (Fl _ _ _ _ T Nr) as (i & o & o1 & E1 & E2). exists i, o, o1. auto.
Qed.
Print Assumptions C42_output_fails.

(** Non-vacuity: an error dump in a file; the same output where no file can be
    opened. *)
Example C42_output_example : forall A (N : numflux_impl A) validation (mc : mesh_config A) m (s : sim A N), mesh_new validation 6 mc = Ok m ->
  ts_kind (s_ts s) = KErrorDump ->
  let c := mkOC File CSV Scalar "out" true "log" 5 false true [DIter; DDtKind] in
  let o := output_build 6 c m 5 in
  let wr := mkWriter [o] 0 "" false in
  let fine := mkWorld (fun _ => None) (fun _ => true) "" (fun _ => false) in
  let full := mkWorld (fun _ => None) (fun _ => true) "" (fun _ => true) in
  oc_validate c = Ok tt /\ same_output o o /\ map d_name (o_data o) = oc_names c /\ o_first o = true /\
  (exists wr' w' txt, outputs (fun _ _ => "") (fun _ => [0%nat]) m s wr fine wr' w' (Ok tt) /\ w_files w' (file_of 5 c 0) = Some txt) /\
  (exists wr', outputs (fun _ _ => "") (fun _ => [0%nat]) m s wr full wr' full (Err EIO)).
Proof.
  intros A N validation mc m s M K c o wr fine full.
  split; [reflexivity|]. split; [exists (o_data o), (o_first o); reflexivity|]. split; [reflexivity|]. split; [reflexivity|].
  assert (U : exists o1, output_update m (cent (s_u s)) (s_ts s) o = (o1, Ok tt) /\ o_stream o1 = File /\ o_conv o1 = Scalar /\ o_first o1 = true /\
     (exists txt, stream_text (fun _ _ => "") o1 = Ok txt) /\ out_path o1 0 = file_of 5 c 0).
  { eexists. split; [reflexivity|]. repeat match goal with |- _ /\ _ => split end; [reflexivity..|eexists; vm_compute; reflexivity|reflexivity]. }
  destruct U as (o1 & U & Hs & Hc & Hf & (txt & Ht) & Hp).
  assert (Wu : writer_update m (cent (s_u s)) (s_ts s) wr = (mkWriter [o1] 0 "" false, Ok tt)).
  { unfold writer_update, wr. cbn [wr_outputs try_each]. rewrite U. reflexivity. }
  split.
  - eexists. eexists. exists txt. split.
    + eapply ou_written; [exact Wu|]. unfold writer_write. cbn [wr_counter wr_outputs write_sched nth_error]. unfold output_write.
      rewrite Hs. unfold open_fails. rewrite Ht. cbn [w_bad w_dirs fine]. destruct (parent (out_path o1 0)); reflexivity.
    + cbn [w_files w_write]. rewrite <- Hp, String.eqb_refl. reflexivity.
  - eexists. eapply ou_written; [exact Wu|]. unfold writer_write. cbn [wr_counter wr_outputs write_sched nth_error]. unfold output_write.
    rewrite Hs. reflexivity.
Qed.
