(** Interleaved calls against calls one after the other, and histories. *)

From Coq Require Import List ZArith NArith Bool String Ascii Lia Permutation.
From Verif Require Import Base Num Config Mesh State NumFlux Time Writer Runner FineWriter SpecWriter SpecRun SpecFine
  TextProofs TableProofs WriterProofs WriterRun FineProofs.
Import ListNotations.
Local Open Scope string_scope.

Definition same_disk (w w' : world) : Prop := (forall p, w_files w p = w_files w' p) /\ w_dirs w = w_dirs w' /\ w_bad w = w_bad w'.

Lemma nth_ext_list : forall {X} (x y : list X), (forall i, nth_error x i = nth_error y i) -> x = y.
Proof.
  intros X x. induction x as [|u x IH]; intros [|z y] H; [reflexivity|specialize (H 0%nat); discriminate|specialize (H 0%nat); discriminate|].
  pose proof (H 0%nat) as H0. cbn in H0. injection H0 as ->. f_equal. apply IH. intros i. apply (H (Datatypes.S i)).
Qed.

Section Hist.
Variable A : Num.
Variable fmt : nat -> nF A -> string.

Lemma outputs_after_nth : forall (os : list (output A)) (tk : list task) i, nth_error (outputs_after os tk) i =
  match nth_error os i with
  | None => None
  | Some o => match nth_error tk i with Some (_, Ended (Ok _)) => Some (o_set_first false o) | _ => Some o end
  end.
Proof.
  induction os as [|o os IH]; intros [|[j ph] tk] i.
  - destruct i; reflexivity.
  - destruct i; reflexivity.
  - cbn [outputs_after]. destruct (nth_error (o :: os) i); destruct i; reflexivity.
  - destruct i as [|i]; cbn [outputs_after nth_error]; [destruct ph as [| |[[]|e| |]]; reflexivity|apply IH].
Qed.

(** a task that has ended with [Ok] *)
Lemma done_ok : forall w clean wr tk w2 i o, inv w clean (map (output_job fmt (wr_counter wr)) (wr_outputs wr)) tk w2 ->
  nth_error (wr_outputs wr) i = Some o -> nth_error tk i = Some (output_job fmt (wr_counter wr) o, Ended (Ok tt)) ->
  exists txt, stream_text fmt o = Ok txt /\
    (o_stream o = File -> open_fails w (out_path o (wr_counter wr)) = false /\
       w_files w2 (out_path o (wr_counter wr)) = Some (overlay (appends o) (w_files w (out_path o (wr_counter wr))) txt)) /\
    (o_stream o = Stdout -> one_screen (wr_outputs wr) -> w_stdout w2 = w_stdout w ++ txt).
Proof.
  intros w clean wr tk w2 i o Iv Ei Et. destruct Iv as (_ & _ & _ & _ & _ & _ & T). pose proof (T i _ _ Et) as Ti. cbn [task_inv] in Ti.
  destruct Ti as [(Q & _)|[(_ & Q & _)|(_ & Op & a & b & Tx & W & [(-> & R)|(_ & R)])]];
    [destruct (target_some A fmt _ o Q)|discriminate|cbn [output_job j_end] in R|discriminate].
  rewrite app_nil_s in Tx. unfold output_job in Tx at 1. cbn [j_text] in Tx. exists a.
  split; [apply emit_ok; destruct (emit_stream fmt o) as [t x]; cbn [fst snd] in *; congruence|].
  split.
  - intros F. unfold opens in Op. unfold wrote in W. rewrite (file_target A fmt _ o F) in Op, W. auto.
  - intros F One. unfold wrote in W. rewrite (proj2 (target_screen A fmt _ o) F) in W. apply W. apply alone_outputs. exact One.
Qed.

(** all tasks of a call that returned [Ok] have ended with [Ok] *)
Lemma returned_done : forall w clean wr tk w2 i o, inv w clean (map (output_job fmt (wr_counter wr)) (wr_outputs wr)) tk w2 -> returned tk (Ok tt) ->
  nth_error (wr_outputs wr) i = Some o -> nth_error tk i = Some (output_job fmt (wr_counter wr) o, Ended (Ok tt)).
Proof.
  intros w clean wr tk w2 i o Iv (_ & Rt) Ei. destruct (task_of A fmt _ _ _ _ _ _ _ Iv Ei) as (ph & E & _).
  rewrite E. f_equal. f_equal. apply (Rt (output_job fmt (wr_counter wr) o) ph). apply (nth_error_In _ _ E).
Qed.

Lemma open_fails_disk : forall w w' p, same_disk w w' -> open_fails w p = open_fails w' p.
Proof. intros w w' p (_ & D & B). unfold open_fails. rewrite D, B. reflexivity. Qed.

Lemma path_dec : forall (os : list (output A)) k p,
  (exists i o, nth_error os i = Some o /\ o_stream o = File /\ p = out_path o k) \/ forall o, In o os -> o_stream o = File -> p <> out_path o k.
Proof.
  intros os k p. induction os as [|o l IH]; [right; intros o []|].
  destruct IH as [(i & q & H)|IH]; [left; exists (Datatypes.S i), q; exact H|].
  destruct (String.string_dec p (out_path o k)) as [E|E]; [destruct (o_stream o) eqn:F|].
  - right. intros q [<-|H] K; [congruence|]. apply (IH q H K).
  - left. exists 0%nat, o. auto.
  - right. intros q [<-|H] K; [exact E|]. apply (IH q H K).
Qed.

Lemma printed_none : forall (os : list (output A)) l, (forall i o, In i l -> nth_error os i = Some o -> o_stream o = File) -> printed fmt os l = "".
Proof.
  intros os l. induction l as [|i l IH]; intros H; cbn [printed]; [reflexivity|]. rewrite IH by (intros k o Hk; apply H; right; exact Hk).
  destruct (nth_error os i) as [o|] eqn:E; [|reflexivity]. rewrite (H i o (or_introl eq_refl) E). reflexivity.
Qed.

Lemma printed_one : forall (os : list (output A)) l i o txt, one_screen os -> NoDup l -> In i l -> nth_error os i = Some o -> o_stream o = Stdout -> stream_text fmt o = Ok txt ->
  printed fmt os l = txt.
Proof.
  intros os l i o txt One. induction l as [|k l IH]; intros ND Hi Ei F T; [destruct Hi|]. inversion ND as [|? ? NI ND']; subst. cbn [printed].
  destruct Hi as [->|Hi].
  - rewrite Ei, F, T, printed_none; [apply app_nil_s|]. intros k ok Hk Ek. destruct (o_stream ok) eqn:Fk; [|reflexivity].
    exfalso. apply NI. rewrite (One i k o ok Ei Ek F Fk). exact Hk.
  - rewrite (IH ND' Hi Ei F T). destruct (nth_error os k) as [ok|] eqn:Ek; [|reflexivity]. destruct (o_stream ok) eqn:Fk; [|reflexivity].
    exfalso. apply NI. rewrite (One k i ok o Ek Ei Fk F). exact Hi.
Qed.

Lemma interleaving_gen : forall wr w wt es tk w2 sched, separate (wr_outputs wr) -> same_disk w wt ->
  execute es (write_tasks fmt wr) w = (tk, w2) -> returned tk (Ok tt) -> each_once (List.length (wr_outputs wr)) sched ->
  exists w3, writer_write fmt sched wr wt = (writer_after wr tk (Ok tt), w3, Ok tt) /\ same_disk w2 w3 /\
    (one_screen (wr_outputs wr) -> w_stdout wt = w_stdout w -> w_stdout w3 = w_stdout w2).
Proof.
  intros wr w wt es tk w2 sched Sep Sd Ex Rt (ND & Is).
  pose proof (call_inv A fmt False wr w es tk w2 Sep (fun X => match X with end) Ex) as Iv.
  pose proof (fun i o Ei => done_ok _ _ _ _ _ i o Iv Ei (returned_done _ _ _ _ _ i o Iv Rt Ei)) as Dn.
  assert (C : forall i o, In i sched -> nth_error (wr_outputs wr) i = Some o -> can_write fmt (wr_counter wr) wt o).
  { intros i o _ Ei. destruct (Dn i o Ei) as (txt & T & Fd & _). split; [|eauto]. intros F. rewrite <- (open_fails_disk w wt _ Sd). apply Fd. exact F. }
  apply sched_can in C; [|exact ND]. destruct C as (os' & w3 & W).
  destruct (sched_ok A fmt (wr_counter wr) sched _ _ _ _ ND (separate_distinct _ _ _ _ Sep) W) as (O1 & O2 & O3 & O4 & O5 & O6).
  exists w3. destruct Iv as (M & D & B & Of & Sc & Ns & T). destruct Sd as (S1 & S2 & S3).
  assert (Iv : inv w False (map (output_job fmt (wr_counter wr)) (wr_outputs wr)) tk w2) by (unfold inv; auto 10).
  split; [|split].
  - unfold writer_write. rewrite W. unfold writer_after. f_equal. f_equal. f_equal. apply nth_ext_list. intros i. rewrite O1, outputs_after_nth.
    destruct (nth_error (wr_outputs wr) i) as [o|] eqn:Ei; [|reflexivity]. rewrite (returned_done _ _ _ _ _ i o Iv Rt Ei).
    destruct (in_dec Nat.eq_dec i sched) as [_|N]; [reflexivity|]. exfalso. apply N. apply Is. apply nth_error_Some. congruence.
  - split; [|split; congruence]. intros p. destruct (path_dec (wr_outputs wr) (wr_counter wr) p) as [(i & o & Ei & F & ->)|No].
    + destruct (Dn i o Ei) as (txt & Tx & Fd & _). destruct (Fd F) as (_ & ->).
      assert (Hi : In i sched) by (apply Is; apply nth_error_Some; congruence). destruct (O2 i o Hi Ei) as (txt' & Tx' & Fd'). rewrite (Fd' F), S1. congruence.
    + rewrite Of, O3, S1; [reflexivity| |].
      * intros i o _ Ei F. apply (No o (nth_error_In _ _ Ei) F).
      * intros j app Hj Q. apply in_map_iff in Hj. destruct Hj as (o & <- & Ho). apply target_file in Q. destruct Q as (F & Q & _). apply (No o Ho F Q).
  - intros One So. rewrite O6, So.
    assert (Dc : (exists i o, nth_error (wr_outputs wr) i = Some o /\ o_stream o = Stdout) \/ forall o, In o (wr_outputs wr) -> o_stream o = File).
    { clear. induction (wr_outputs wr) as [|o l IH]; [right; intros o []|]. destruct IH as [(i & q & H)|IH]; [left; exists (Datatypes.S i), q; exact H|].
      destruct (o_stream o) eqn:F; [left; exists 0%nat, o; auto|right]. intros q [<-|H]; auto. }
    destruct Dc as [(i & o & Ei & F)|No].
    + destruct (Dn i o Ei) as (txt & Tx & _ & Fd). rewrite (Fd F One).
      assert (Hi : In i sched) by (apply Is; apply nth_error_Some; congruence). rewrite (printed_one _ _ i o txt One ND Hi Ei F Tx). reflexivity.
    + rewrite printed_none, app_nil_s, Ns; [reflexivity| |].
      * intros j Hj Q. apply in_map_iff in Hj. destruct Hj as (o & <- & Ho). apply (proj1 (target_screen A fmt _ o)) in Q. rewrite (No o Ho) in Q. discriminate.
      * intros i o _ Ei. apply No. apply (nth_error_In _ _ Ei).
Qed.

(** ** Histories *)
Lemma separate_same : forall (os os' : list (output A)), separate os -> List.length os' = List.length os ->
  (forall i o, nth_error os i = Some o -> exists o', nth_error os' i = Some o' /\ same_output o o') -> separate os'.
Proof.
  intros os os' Sep L H i j oi oj N Ei Ej Fi Fj a b.
  assert (G : forall i o', nth_error os' i = Some o' -> exists o, nth_error os i = Some o /\ same_output o o').
  { intros k o' E. destruct (nth_error os k) as [o|] eqn:E0.
    - destruct (H k o E0) as (o2 & E2 & Sm). exists o. split; [reflexivity|]. congruence.
    - exfalso. apply nth_error_None in E0. assert (Q : nth_error os' k <> None) by congruence. apply nth_error_Some in Q. lia. }
  destruct (G i oi Ei) as (pi & Pi & Si). destruct (G j oj Ej) as (pj & Pj & Sj).
  rewrite (same_path A pi oi Si), (same_path A pj oj Sj). apply (Sep i j pi pj N Pi Pj).
  - destruct Si as (d & f & ->). destruct pi; exact Fi.
  - destruct Sj as (d & f & ->). destruct pj; exact Fj.
Qed.

Lemma update_same : forall m v ts (wr wr1 : writer A), writer_update m v ts wr = (wr1, Ok tt) ->
  wr_counter wr1 = wr_counter wr /\ List.length (wr_outputs wr1) = List.length (wr_outputs wr) /\
  forall i o, nth_error (wr_outputs wr) i = Some o -> exists o1, nth_error (wr_outputs wr1) i = Some o1 /\ output_update m v ts o = (o1, Ok tt) /\ same_output o o1.
Proof.
  intros m v ts wr wr1 U. unfold writer_update in U. destruct (try_each (output_update m v ts) (wr_outputs wr)) as [os1 r1] eqn:T. injection U as <- ->.
  destruct (try_each_ok _ _ _ T) as (L1 & T1). split; [reflexivity|]. split; [exact L1|]. intros i o Ei. destruct (T1 i o Ei) as (o1 & E1 & U1).
  exists o1. split; [exact E1|]. split; [exact U1|]. apply update_holds in U1. destruct U1 as (_ & d & ->). exists d, (o_first o). destruct o; reflexivity.
Qed.

Lemma seq_once : forall n, each_once n (seq 0 n).
Proof. intros n. split; [apply seq_NoDup|]. intros i. rewrite in_seq. lia. Qed.

Lemma parallel_sequential : forall m wr0 w0 l wr w, separate (wr_outputs wr0) -> parallel_history fmt m wr0 w0 l wr w ->
  List.length (wr_outputs wr) = List.length (wr_outputs wr0) /\
  (forall i o, nth_error (wr_outputs wr0) i = Some o -> exists o', nth_error (wr_outputs wr) i = Some o' /\ same_output o o') /\
  exists wt, output_history fmt m wr0 w0 l wr wt /\ same_disk w wt.
Proof.
  intros m wr0 w0 l wr w Sep H. induction H as [|l wr w ts v wr1 es tk w2 H (L & Sm & wt & IH & Sd) U Ex Rt].
  - split; [reflexivity|]. split; [intros i o Ei; exists o; split; [exact Ei|apply same_refl]|]. exists w0. split; [constructor|]. repeat split; reflexivity.
  - destruct (update_same m v ts wr wr1 U) as (K & L1 & U1).
    assert (Sm1 : forall i o, nth_error (wr_outputs wr0) i = Some o -> exists o', nth_error (wr_outputs wr1) i = Some o' /\ same_output o o').
    { intros i o Ei. destruct (Sm i o Ei) as (o' & E' & S'). destruct (U1 i o' E') as (o1 & E1 & _ & S1). exists o1. split; [exact E1|]. apply (same_trans A o o' o1 S' S1). }
    assert (SP : separate (wr_outputs wr1)) by (apply (separate_same (wr_outputs wr0) (wr_outputs wr1) Sep); [congruence|exact Sm1]).
    destruct (interleaving_gen wr1 w wt es tk w2 _ SP Sd Ex Rt (seq_once _)) as (w3 & W & Sd3 & _).
    pose proof (call_inv A fmt False wr1 w es tk w2 SP (fun X => match X with end) Ex) as Iv.
    split; [|split].
    + cbn [writer_after wr_outputs].
      assert (G : forall (os : list (output A)) tk, List.length (outputs_after os tk) = List.length os).
      { clear. induction os as [|o os IH]; intros [|[j ph] tk]; cbn; try reflexivity. rewrite IH. reflexivity. }
      rewrite G. congruence.
    + intros i o Ei. destruct (Sm1 i o Ei) as (o1 & E1 & S1). cbn [writer_after wr_outputs]. rewrite outputs_after_nth, E1.
      destruct (nth_error tk i) as [[j ph]|].
      * destruct ph as [| |[[]|e| |]]; eexists; (split; [reflexivity|]); try exact S1. apply (same_trans A o o1 _ S1). exists (o_data o1), false. destruct o1; reflexivity.
      * eexists. split; [reflexivity|]. exact S1.
    + exists w3. split; [|exact Sd3]. eapply oh_output; [exact IH|exact U|apply seq_once|exact W].
Qed.

(** well-formed outputs along a history *)
Lemma parallel_wf : forall p S m wr0 w0 l wr w, dims S m -> wf_all p S (wr_outputs wr0) -> (forall x, In x l -> sized p S (snd x)) ->
  parallel_history fmt m wr0 w0 l wr w -> wf_all p S (wr_outputs wr).
Proof.
  intros p S m wr0 w0 l wr w D W0 Sz H. induction H as [|l wr w ts v wr1 es tk w2 H IH U Ex Rt]; [exact W0|].
  specialize (IH (fun x Hx => Sz x (in_or_app _ _ _ (or_introl Hx)))).
  destruct (update_all_wf A p S m v ts wr D (Sz (ts, v) (in_elt (ts, v) l [])) IH) as (wr2 & E2 & W2 & _).
  rewrite U in E2. injection E2 as <-. cbn [writer_after wr_outputs].
  assert (G : forall (os : list (output A)) tk, wf_all p S os -> wf_all p S (outputs_after os tk)).
  { clear. induction os as [|o os IH]; intros [|[j ph] tk] W x Hx; cbn in Hx; try (apply W; exact Hx); try contradiction.
    destruct Hx as [<-|Hx].
    - destruct ph as [| |[[]|e| |]]; try apply set_first_wf; apply W; left; reflexivity.
    - apply (IH tk (fun y Hy => W y (or_intror Hy)) x Hx). }
  apply G. exact W2.
Qed.
End Hist.
