(** The run loop. *)

From Coq Require Import Reals ZArith NArith QArith Qreals List Bool Lia Lra String.
From Verif Require Import Base Num XReal Config Mesh State NumFlux Time Writer Runner Spec SpecFlow SpecStep StepProofs StepInv TimeProofs TimeMore AscProofs SpecRun.
Import ListNotations.

Local Open Scope nat_scope.

Section Any.
Variable A : Num.
Variable N : numflux_impl A.
Variable fmt : nat -> nF A -> string.
Variables (val : bool) (sched : BinNums.N -> list nat) (afuel : nat) (p : phys) (S : nat) (m : mesh A).
Notation loop := (run_loop (A:=A) (N:=N) fmt val sched afuel).
Notation next := (solver_next (A:=A) (N:=N) val afuel p S m).

Lemma do_output_outputs : forall s wr w wr' w' r, do_output (N:=N) fmt sched m s wr w = (wr', w', r) <-> outputs fmt sched m s wr w wr' w' r.
Proof.
  intros s wr w wr' w' r. unfold do_output. destruct (writer_update m (cent (s_u s)) (s_ts s) wr) as [wr1 r1] eqn:E. split.
  - intros H. destruct r1 as [[]|e| |].
    + destruct (writer_write fmt (sched (wr_counter wr1)) wr1 w) as [[wr2 w2] r2] eqn:E2. injection H as <- <- <-. eapply ou_written; eauto.
    + injection H as <- <- <-. eapply ou_not_collected; [exact E|discriminate].
    + injection H as <- <- <-. eapply ou_not_collected; [exact E|discriminate].
    + injection H as <- <- <-. eapply ou_not_collected; [exact E|discriminate].
  - intros H. inversion H; subst.
    + match goal with K : writer_update _ _ _ _ = (_, Ok tt) |- _ => rewrite E in K; injection K as -> -> end.
      match goal with K : writer_write _ _ _ _ = _ |- _ => exact K end.
    + match goal with K : writer_update _ _ _ _ = (_, _) |- _ => rewrite E in K; injection K as -> -> end.
      destruct r as [[]|e| |]; auto. contradiction.
Qed.

(** ** Outputs do not run out of fuel *)
Lemma format_nofuel : forall o d j, format_data (A:=A) fmt o d j <> Fuel.
Proof. intros o d j. unfold format_data. destruct (d_payload d); try discriminate. destruct (nth_error v j); discriminate. Qed.

Lemma rest_nofuel : forall o j l, rest_of_line (A:=A) fmt o j l <> Fuel.
Proof.
  intros o j. induction l as [|d l IH]; cbn [rest_of_line]; [discriminate|].
  pose proof (format_nofuel o d j). destruct (format_data fmt o d j); cbn [bind]; try discriminate; try congruence.
  destruct (rest_of_line fmt o j l); cbn [bind]; try discriminate; congruence.
Qed.

Lemma line_nofuel : forall o j, line (A:=A) fmt o j <> Fuel.
Proof.
  intros o j. unfold line. destruct (o_data o) as [|d t]; [discriminate|].
  pose proof (format_nofuel o d j). destruct (format_data fmt o d j); cbn [bind]; try discriminate; try congruence.
  pose proof (rest_nofuel o j t). destruct (rest_of_line fmt o j t); cbn [bind]; try discriminate; congruence.
Qed.

Lemma text_nofuel : forall o, stream_text (A:=A) fmt o <> Fuel.
Proof.
  intros o. unfold stream_text. assert (L : forall js, lines (A:=A) fmt o js <> Fuel).
  { induction js as [|j js IH]; cbn [lines]; [discriminate|]. pose proof (line_nofuel o j).
    destruct (line fmt o j); cbn [bind]; try discriminate; try congruence. destruct (lines fmt o js); cbn [bind]; try discriminate; congruence. }
  specialize (L (seq 0 (o_rows o))). destruct (lines fmt o _); cbn [bind]; try discriminate; congruence.
Qed.

Lemma write_nofuel : forall c sc os w os' w' r, write_sched (A:=A) fmt c sc os w = (os', w', r) -> r <> Fuel.
Proof.
  intros c. induction sc as [|i t IH]; intros os w os' w' r H; cbn [write_sched] in H; [injection H as <- <- <-; discriminate|].
  destruct (nth_error os i) as [o|]; [|eapply IH; eauto].
  destruct (output_write fmt c o w) as [[o1 w1] r1] eqn:O.
  assert (r1 <> Fuel).
  { revert O. unfold output_write. pose proof (text_nofuel o) as T. destruct (o_stream o).
    - destruct (stream_text fmt o); intros O; injection O as <- <- <-; try discriminate; congruence.
    - destruct (open_fails w (out_path o c)); [intros O; injection O as <- <- <-; discriminate|].
      destruct (stream_text fmt o); intros O; injection O as <- <- <-; try discriminate; congruence. }
  destruct r1 as [[]|e| |]; [eapply IH; eauto|injection H as <- <- <-; discriminate..|congruence].
Qed.

Lemma each_nofuel : forall {X} (f : X -> X * res unit) l, (forall x, snd (f x) <> Fuel) -> snd (try_each f l) <> Fuel.
Proof.
  intros X f l H. induction l as [|x l IH]; cbn [try_each]; [discriminate|]. specialize (H x). destruct (f x) as [y o]. cbn [snd] in H.
  destruct o as [[]|e| |]; try discriminate; [|congruence]. destruct (try_each f l) as [t o]. exact IH.
Qed.

Lemma collect_nofuel : forall (v : vars A) ts off d, collect m v ts off d <> Fuel.
Proof.
  intros v ts off d. assert (W : forall f, write_vector (A:=A) f d off <> Fuel).
  { intros f. unfold write_vector. destruct (d_payload d); try discriminate. destruct (_ =? _)%nat; discriminate. }
  unfold collect, collect_mesh, collect_vars, collect_time. destruct (d_name d); cbn [dn_assoc]; auto; try discriminate.
  all: unfold row; match goal with |- context [nth_error ?a ?b] => destruct (nth_error a b) end; cbn [bind]; [apply W|discriminate].
Qed.

Lemma outputs_nofuel : forall s wr w wr' w' r, outputs (N:=N) fmt sched m s wr w wr' w' r -> r <> Fuel.
Proof.
  intros s wr w wr' w' r H. inversion H; subst.
  - unfold writer_write in *. match goal with K : context [write_sched ?a ?b ?c ?d ?e] |- _ => destruct (write_sched a b c d e) as [[os w1] r1] eqn:W end.
    apply write_nofuel in W. destruct r1 as [[]|e| |]; match goal with K : _ = (wr', w', r) |- _ => injection K as <- <- <- end; congruence.
  - unfold writer_update in *. match goal with K : context [try_each ?a ?b] |- _ => pose proof (each_nofuel a b) as E; destruct (try_each a b) as [os r1] end.
    cbn [snd] in E. match goal with K : _ = (wr', r) |- _ => injection K as <- <- end. apply E. intros o. unfold output_update.
    match goal with |- context [try_each ?a ?b] => pose proof (each_nofuel a b) as E2; destruct (try_each a b) as [ds r2] end. cbn [snd] in E2 |- *.
    apply E2. intros d. pose proof (collect_nofuel (cent (s_u s)) (s_ts s) (o_offset o) d). unfold keep. destruct (collect m _ _ _ d); cbn [snd]; congruence.
Qed.

Lemma finished_moved : forall s, finished (N:=N) (moved_on s) = finished s. Proof. reflexivity. Qed.

(** one iteration, unfolded *)
Lemma loop_S : forall fuel s wr w, loop (Datatypes.S fuel) p S m s wr w =
  let '(s1, wr1, w1, tr, r) := run_output fmt sched m s wr w in
  match r with
  | Ok _ =>
      if finished s1 then (mkEnd s1 wr1 w1 tr, Ok tt)
      else let '(s2, r2) := next s1 in
        match r2 with
        | Ok _ => let '(e, r) := loop fuel p S m s2 wr1 w1 in (mkEnd (e_sim e) (e_writer e) (e_world e) (tr ++ e_trace e), r)
        | Err er => let s3 := sim_set_ts (ts_set_kind KErrorDump (s_ts s2)) s2 in
            let '(wr2, w2, r3) := do_output fmt sched m s3 wr1 w1 in
            (mkEnd s3 wr2 w2 (tr ++ [(s_ts s3, cent (s_u s3))]), match r3 with Ok _ => Err er | r3 => r3 end)
        | r2 => (mkEnd s2 wr1 w1 tr, r2)
        end
  | r => (mkEnd s1 wr1 w1 tr, r)
  end.
Proof. reflexivity. Qed.

Lemma run_output_due : forall s wr w, due s = true -> run_output (N:=N) fmt sched m s wr w =
  let '(wr1, w1, r) := do_output fmt sched m (moved_on s) wr w in (moved_on s, wr1, w1, [(s_ts (moved_on s), cent (s_u s))], r).
Proof. intros s wr w H. unfold run_output. unfold due in H. cbv zeta. rewrite H. reflexivity. Qed.

Lemma run_output_not : forall s wr w, due s = false -> run_output (N:=N) fmt sched m s wr w = (s, wr, w, [], Ok tt).
Proof. intros s wr w H. unfold run_output. unfold due in H. cbv zeta. rewrite H. reflexivity. Qed.

Notation af := (after (N:=N) fmt val sched afuel p S m).
Notation rd := (ready (N:=N) fmt val sched afuel p S m).

(** prepending a history *)
Lemma after_loop : forall s0 wr0 w0 n s wr w tr, af s0 wr0 w0 n s wr w tr ->
  forall k, loop (n + k) p S m s0 wr0 w0 =
    let '(e, r) := loop k p S m s wr w in (mkEnd (e_sim e) (e_writer e) (e_world e) (tr ++ e_trace e), r).
Proof.
  intros s0 wr0 w0 n s wr w tr H. induction H as [|n s wr w tr wr1 w1 s2 H IH D O F X|n s wr w tr s2 H IH D F X]; intros k.
  - cbn [Nat.add app]. destruct (loop k p S m s0 wr0 w0) as [[a b c d] r]. reflexivity.
  - replace (Datatypes.S n + k) with (n + Datatypes.S k) by lia. rewrite IH, loop_S, run_output_due by exact D.
    apply do_output_outputs in O. rewrite O. cbv zeta beta iota. rewrite finished_moved, F, X.
    destruct (loop k p S m s2 wr1 w1) as [e r]. cbn [e_sim e_writer e_world e_trace]. rewrite <- app_assoc. reflexivity.
  - replace (Datatypes.S n + k) with (n + Datatypes.S k) by lia. rewrite IH, loop_S, run_output_not by exact D.
    cbv zeta beta iota. rewrite F, X. destruct (loop k p S m s2 wr w) as [e r]. cbn [e_sim e_writer e_world e_trace]. reflexivity.
Qed.

(** What remains to be done once the output of an iteration is done. *)
Lemma ready_loop : forall s0 wr0 w0 n s wr w tr, rd s0 wr0 w0 n s wr w tr ->
  forall k, loop (n + Datatypes.S k) p S m s0 wr0 w0 =
    if finished s then (mkEnd s wr w tr, Ok tt)
    else let '(s2, r2) := next s in
      match r2 with
      | Ok _ => let '(e, r) := loop k p S m s2 wr w in (mkEnd (e_sim e) (e_writer e) (e_world e) (tr ++ e_trace e), r)
      | Err er => let s3 := sim_set_ts (ts_set_kind KErrorDump (s_ts s2)) s2 in
          let '(wr2, w2, r3) := do_output fmt sched m s3 wr w in
          (mkEnd s3 wr2 w2 (tr ++ [(s_ts s3, cent (s_u s3))]), match r3 with Ok _ => Err er | r3 => r3 end)
      | r2 => (mkEnd s2 wr w tr, r2)
      end.
Proof.
  intros s0 wr0 w0 n s wr w tr H k. destruct H as [s wr w tr wr1 w1 H D O|s wr w tr H D].
  - rewrite (after_loop _ _ _ _ _ _ _ _ H), loop_S, run_output_due by exact D. apply do_output_outputs in O. rewrite O.
    cbv zeta beta iota. rewrite finished_moved. destruct (finished s); [reflexivity|].
    destruct (next (moved_on s)) as [s2 r2]. destruct r2 as [[]|e| |].
    + destruct (loop k p S m s2 wr1 w1) as [e r]. cbn [e_sim e_writer e_world e_trace]. rewrite <- app_assoc. reflexivity.
    + destruct (do_output fmt sched m _ wr1 w1) as [[a b] c]. cbn [e_sim e_writer e_world e_trace]. rewrite <- app_assoc. reflexivity.
    + reflexivity.
    + reflexivity.
  - rewrite (after_loop _ _ _ _ _ _ _ _ H), loop_S, run_output_not by exact D. cbv zeta beta iota.
    destruct (finished s); [cbn; rewrite app_nil_r; reflexivity|].
    destruct (next s) as [s2 r2]. destruct r2 as [[]|e| |].
    + destruct (loop k p S m s2 wr w) as [e r]. cbn [e_sim e_writer e_world e_trace]. reflexivity.
    + destruct (do_output fmt sched m _ wr w) as [[a b] c]. reflexivity.
    + cbn [e_sim e_writer e_world e_trace]. rewrite app_nil_r. reflexivity.
    + cbn [e_sim e_writer e_world e_trace]. rewrite app_nil_r. reflexivity.
Qed.

(** How a run ends. *)
Inductive ends (s0 : sim A N) (wr0 : writer A) (w0 : world) (fuel : nat) : run_end A N -> res unit -> Prop :=
| en_fuel : forall s wr w tr, af s0 wr0 w0 fuel s wr w tr -> ends s0 wr0 w0 fuel (mkEnd s wr w tr) Fuel
| en_output : forall n s wr w tr wr1 w1 r, n < fuel -> af s0 wr0 w0 n s wr w tr -> due s = true ->
    outputs fmt sched m (moved_on s) wr w wr1 w1 r -> r <> Ok tt ->
    ends s0 wr0 w0 fuel (mkEnd (moved_on s) wr1 w1 (tr ++ [(s_ts (moved_on s), cent (s_u s))])) r
| en_finished : forall n s wr w tr, n < fuel -> rd s0 wr0 w0 n s wr w tr -> finished s = true ->
    ends s0 wr0 w0 fuel (mkEnd s wr w tr) (Ok tt)
| en_failed : forall n s wr w tr s2 er s3 wr2 w2 r, n < fuel -> rd s0 wr0 w0 n s wr w tr -> finished s = false -> next s = (s2, Err er) ->
    s3 = sim_set_ts (ts_set_kind KErrorDump (s_ts s2)) s2 ->
    outputs fmt sched m s3 wr w wr2 w2 r ->
    ends s0 wr0 w0 fuel (mkEnd s3 wr2 w2 (tr ++ [(s_ts s3, cent (s_u s3))])) (match r with Ok _ => Err er | r => r end)
| en_stuck : forall n s wr w tr s2 r, n < fuel -> rd s0 wr0 w0 n s wr w tr -> finished s = false -> next s = (s2, r) -> r = Panic \/ r = Fuel ->
    ends s0 wr0 w0 fuel (mkEnd s2 wr w tr) r.

Lemma loop_ends_aux : forall k s0 wr0 w0 n s wr w tr e r, af s0 wr0 w0 n s wr w tr -> loop (n + k) p S m s0 wr0 w0 = (e, r) -> ends s0 wr0 w0 (n + k) e r.
Proof.
  induction k as [|k IH]; intros s0 wr0 w0 n s wr w tr e r H E.
  - rewrite (after_loop _ _ _ _ _ _ _ _ H) in E. cbn [run_loop e_sim e_writer e_world e_trace] in E.
    injection E as <- <-. rewrite app_nil_r, Nat.add_0_r. apply en_fuel. exact H.
  - assert (R : (exists wr1 w1 r1, due s = true /\ outputs fmt sched m (moved_on s) wr w wr1 w1 r1 /\ r1 <> Ok tt) \/
       exists s1 wr1 w1 tr1, rd s0 wr0 w0 n s1 wr1 w1 tr1 /\
         (finished s1 = false -> forall s2, next s1 = (s2, Ok tt) -> af s0 wr0 w0 (Datatypes.S n) s2 wr1 w1 tr1)).
    { destruct (due s) eqn:D.
      - destruct (do_output fmt sched m (moved_on s) wr w) as [[wr1 w1] r1] eqn:O. apply do_output_outputs in O.
        destruct r1 as [[]|er| |].
        + right. do 4 eexists. split; [eapply rd_due; eauto|]. intros F s2 X. eapply af_due; eauto.
        + left. do 3 eexists. split; [reflexivity|]. split; [exact O|discriminate].
        + left. do 3 eexists. split; [reflexivity|]. split; [exact O|discriminate].
        + left. do 3 eexists. split; [reflexivity|]. split; [exact O|discriminate].
      - right. exists s, wr, w, tr. split; [apply rd_not_due; auto|]. intros F s2 X. eapply af_not_due; eauto. }
    destruct R as [(wr1 & w1 & r1 & D & O & NO)|(s1 & wr1 & w1 & tr1 & R & Nx)].
    + rewrite (after_loop _ _ _ _ _ _ _ _ H), loop_S, run_output_due in E by exact D. apply do_output_outputs in O. rewrite O in E.
      apply do_output_outputs in O. cbv zeta beta iota in E.
      assert (Q : (e, r) = (mkEnd (moved_on s) wr1 w1 (tr ++ [(s_ts (moved_on s), cent (s_u s))]), r1)).
      { rewrite <- E. destruct r1 as [[]|er| |]; try contradiction; reflexivity. }
      injection Q as -> ->. eapply en_output; eauto. lia.
    + rewrite (ready_loop _ _ _ _ _ _ _ _ R) in E. destruct (finished s1) eqn:F.
      * injection E as <- <-. eapply en_finished; eauto. lia.
      * destruct (next s1) as [s2 r2] eqn:X. destruct r2 as [[]|er| |].
        -- specialize (Nx eq_refl _ eq_refl).
           replace (n + Datatypes.S k) with (Datatypes.S n + k) by lia. eapply IH; [exact Nx|]. rewrite (after_loop _ _ _ _ _ _ _ _ Nx). exact E.
        -- cbv zeta in E. match type of E with context [do_output fmt sched m ?x ?y ?z] => destruct (do_output fmt sched m x y z) as [[wr2 w2] r3] eqn:O end. injection E as <- <-. apply do_output_outputs in O.
           apply (en_failed s0 wr0 w0 _ n s1 wr1 w1 tr1 s2 er (sim_set_ts (ts_set_kind KErrorDump (s_ts s2)) s2) wr2 w2 r3); auto; lia.
        -- injection E as <- <-. eapply en_stuck; eauto. lia.
        -- injection E as <- <-. eapply en_stuck; eauto. lia.
Qed.

Lemma loop_ends : forall fuel s0 wr0 w0 e r, loop fuel p S m s0 wr0 w0 = (e, r) -> ends s0 wr0 w0 fuel e r.
Proof. intros fuel s0 wr0 w0 e r E. apply (loop_ends_aux fuel s0 wr0 w0 0 s0 wr0 w0 [] e r); [constructor|exact E]. Qed.

(** ** Counting *)
Lemma calls_iter : forall n s s', calls (N:=N) val afuel p S m n s s' -> ts_iter (s_ts s') = (ts_iter (s_ts s) + BinNat.N.of_nat n)%N /\
  ts_iter_max (s_ts s') = ts_iter_max (s_ts s) /\ bt_asc (rk_bt (s_rk s')) = bt_asc (rk_bt (s_rk s)).
Proof.
  intros n s s' H. induction H as [s|n s s1 s2 o H (I1 & I2 & I3) E|n s s1 t H (I1 & I2 & I3)|n s s1 k H (I1 & I2 & I3)]; cbn [s_ts s_rk ts_iter ts_iter_max ts_set_next ts_set_kind].
  - repeat split. lia.
  - unfold solver_next in E. destruct (rkf_next val afuel p S m s1) as [s3 o3] eqn:E3.
    assert (Es : s2 = s3).
    { destruct o3 as [[]|e| |]; try (apply (f_equal fst) in E; cbn [fst] in E; congruence).
      destruct (ts_iter_max (s_ts s3) <=? ts_iter (s_ts s3))%N; apply (f_equal fst) in E; cbn [fst] in E; congruence. }
    subst s3. destruct (rkf_next_cases _ _ _ _ _ _ _ _ _ _ E3) as (R & _ & T & I & _). destruct R as (R1 & _).
    destruct T as (T1 & _). rewrite R1, I, I1, I3. repeat split; [lia|congruence].
  - auto.
  - auto.
Qed.

Lemma after_calls : forall s0 wr0 w0 n s wr w tr, af s0 wr0 w0 n s wr w tr -> calls val afuel p S m n s0 s.
Proof.
  intros s0 wr0 w0 n s wr w tr H. induction H.
  - constructor.
  - eapply ca_call; [|exact H3]. apply ca_next. exact IHafter.
  - eapply ca_call; eauto.
Qed.

Lemma ready_calls : forall s0 wr0 w0 n s wr w tr, rd s0 wr0 w0 n s wr w tr -> calls val afuel p S m n s0 s.
Proof.
  intros s0 wr0 w0 n s wr w tr [s1 wr1 w1 tr1 wr2 w2 H D O|s1 wr1 w1 tr1 H D].
  - apply ca_next. eapply after_calls; eauto.
  - eapply after_calls; eauto.
Qed.

Lemma ok_below : forall s s', next s = (s', Ok tt) -> (ts_iter (s_ts s') < ts_iter_max (s_ts s'))%N.
Proof.
  intros s s' E. unfold solver_next in E. destruct (rkf_next val afuel p S m s) as [s3 o3] eqn:E3.
  destruct o3 as [[]|e| |]; try discriminate.
  destruct (N.leb_spec (ts_iter_max (s_ts s3)) (ts_iter (s_ts s3))); [discriminate|]. apply (f_equal fst) in E. cbn [fst] in E. congruence.
Qed.

Lemma after_below : forall s0 wr0 w0 n s wr w tr, af s0 wr0 w0 n s wr w tr -> (ts_iter (s_ts s0) < ts_iter_max (s_ts s0))%N ->
  (ts_iter (s_ts s) < ts_iter_max (s_ts s))%N.
Proof. intros s0 wr0 w0 n s wr w tr H H0. destruct H; auto; eapply ok_below; eauto. Qed.

Lemma ready_below : forall s0 wr0 w0 n s wr w tr, rd s0 wr0 w0 n s wr w tr -> (ts_iter (s_ts s0) < ts_iter_max (s_ts s0))%N ->
  (ts_iter (s_ts s) < ts_iter_max (s_ts s))%N.
Proof. intros s0 wr0 w0 n s wr w tr [s1 wr1 w1 tr1 wr2 w2 H D O|s1 wr1 w1 tr1 H D] H0; [cbn|]; eapply after_below; eauto. Qed.

(** What a run does, counted in steps. *)
Lemma run_counts : forall fuel s wr w e r, loop fuel p S m s wr w = (e, r) -> (ts_iter (s_ts s) < ts_iter_max (s_ts s))%N ->
  exists n, calls val afuel p S m n s (e_sim e) /\ (ts_iter (s_ts (e_sim e)) <= ts_iter_max (s_ts s))%N /\ n <= fuel /\
    (r = Ok tt -> (ts_iter (s_ts (e_sim e)) < ts_iter_max (s_ts s))%N) /\
    (r = Fuel -> n = fuel \/ exists s1 s2, calls val afuel p S m (n - 1) s s1 /\ next s1 = (s2, Fuel)).
Proof.
  intros fuel s wr w e r E Hi. apply loop_ends in E.
  assert (L : forall n s1, calls val afuel p S m n s s1 -> (ts_iter (s_ts s1) < ts_iter_max (s_ts s1))%N -> forall s2 o, next s1 = (s2, o) ->
     calls val afuel p S m (Datatypes.S n) s s2 /\ (ts_iter (s_ts s2) <= ts_iter_max (s_ts s))%N).
  { intros n s1 C B s2 o X. assert (C2 : calls val afuel p S m (Datatypes.S n) s s2) by (eapply ca_call; eauto). split; [exact C2|].
    destruct (calls_iter _ _ _ C) as (I1 & I2 & _). destruct (calls_iter _ _ _ C2) as (I3 & I4 & _). rewrite I1, I2 in B. rewrite I3. lia. }
  destruct E as [s1 wr1 w1 tr1 H|n s1 wr1 w1 tr1 wr2 w2 r Hn H D O NO|n s1 wr1 w1 tr1 Hn H F|n s1 wr1 w1 tr1 s2 er s3 wr2 w2 r Hn H F X -> O|n s1 wr1 w1 tr1 s2 r Hn H F X R]; cbn [e_sim].
  - exists fuel. pose proof (after_calls _ _ _ _ _ _ _ _ H) as C. destruct (calls_iter _ _ _ C) as (_ & I2 & _).
    pose proof (after_below _ _ _ _ _ _ _ _ H Hi). rewrite I2 in *. repeat split; auto; try lia; discriminate.
  - exists n. pose proof (after_calls _ _ _ _ _ _ _ _ H) as C. destruct (calls_iter _ _ _ C) as (_ & I2 & _).
    pose proof (after_below _ _ _ _ _ _ _ _ H Hi). rewrite I2 in *. cbn [moved_on s_ts ts_set_next ts_iter].
    split; [apply ca_next; exact C|]. repeat split; auto; try lia. intros ->. exfalso.
    apply outputs_nofuel in O. congruence.
  - exists n. pose proof (ready_calls _ _ _ _ _ _ _ _ H) as C. destruct (calls_iter _ _ _ C) as (_ & I2 & _).
    pose proof (ready_below _ _ _ _ _ _ _ _ H Hi). rewrite I2 in *. repeat split; auto; try lia; discriminate.
  - exists (Datatypes.S n). pose proof (ready_calls _ _ _ _ _ _ _ _ H) as C.
    destruct (L _ _ C (ready_below _ _ _ _ _ _ _ _ H Hi) _ _ X) as (C2 & B). cbn [sim_set_ts s_ts ts_set_kind ts_iter].
    split; [apply ca_kind; exact C2|]. split; [exact B|]. split; [lia|]. apply outputs_nofuel in O.
    split; intros Q; destruct r as [[]|er2| |]; congruence.
  - exists (Datatypes.S n). pose proof (ready_calls _ _ _ _ _ _ _ _ H) as C.
    destruct (L _ _ C (ready_below _ _ _ _ _ _ _ _ H Hi) _ _ X) as (C2 & B). split; [exact C2|]. split; [exact B|]. split; [lia|].
    split; [intros ->; destruct R; discriminate|]. intros ->. right. exists s1, s2. split; [|exact X]. cbn. rewrite Nat.sub_0_r. exact C.
Qed.

(** More fuel does not change anything. *)
Lemma more_fuel : forall fuel s wr w e r, loop fuel p S m s wr w = (e, r) -> r <> Fuel -> forall k, loop (fuel + k) p S m s wr w = (e, r).
Proof.
  induction fuel as [|fuel IH]; intros s wr w e r E Hr k; [cbn in E; congruence|].
  cbn [Nat.add]. rewrite loop_S in *. destruct (run_output fmt sched m s wr w) as [[[[s1 wr1] w1] tr] r1].
  destruct r1 as [[]|er| |]; auto. destruct (finished s1); auto. destruct (next s1) as [s2 r2]. destruct r2 as [[]|er| |]; auto.
  destruct (loop fuel p S m s2 wr1 w1) as [e' r'] eqn:E'. injection E as <- <-. rewrite (IH _ _ _ _ _ E' Hr). reflexivity.
Qed.

(** Only step control can keep a step from returning. *)
Lemma bc_nofuel : forall sd l (v : vars A), bc_apply sd p S m l v <> Fuel.
Proof.
  intros sd l v. unfold bc_apply. assert (K : forall q, apply_modes (A:=A) sd (nE p) S m l q <> Fuel).
  { induction l as [|[j md] t IH]; intros q; cbn [apply_modes]; [discriminate|]. destruct (j <? nE p)%nat; [apply IH|discriminate]. }
  specialize (K (prim v)). destruct (apply_modes sd (nE p) S m l (prim v)); cbn [bind]; congruence.
Qed.

Lemma update_nofuel : forall bw be (u : state A), st_update_from_cons p S bw be m u <> Fuel.
Proof.
  intros bw be u. unfold st_update_from_cons, update_vars_from_cons, update_vars_from_prim.
  match goal with |- context [bc_apply West p S m bw ?v] => pose proof (bc_nofuel West bw v); destruct (bc_apply West p S m bw v) end; cbn [bind]; try congruence.
  match goal with |- context [bc_apply East p S m be ?v] => pose proof (bc_nofuel East be v); destruct (bc_apply East p S m be v) end; cbn [bind]; congruence.
Qed.

Variable Hr : returns N.

Lemma stages_nofuel : forall dt u qs rk rh rk' rh' o, rkf_stages (N:=N) val p S m dt u qs rk rh = (rk', rh', o) -> o <> Fuel.
Proof.
  intros dt u. induction qs as [|q t IH]; intros rk rh rk' rh' o H; cbn [rkf_stages] in H; [injection H as <- <- <-; discriminate|].
  unfold rhs_update in H. match type of H with context [st_update_from_cons ?a ?b ?c ?d ?e ?f] => pose proof (update_nofuel c d f) as U; destruct (st_update_from_cons a b c d e f) as [u1|e1| |] end; try congruence.
  match type of H with context [nf_calc N ?a ?b ?c ?d ?e ?f ?g] => pose proof (Hr a b c d e f g) as R; destruct (nf_calc N a b c d e f g) as [[[n1 d1] u2] o1] end.
  cbn [snd] in R. destruct o1 as [[]|e| |]; [eapply IH; exact H|injection H as <- <- <-; discriminate..|congruence].
Qed.

Lemma validate_nofuel : forall rk, rkf_validate (A:=A) rk <> Fuel.
Proof.
  intros rk. unfold rkf_validate, state_validate, vars_validate, ensure. repeat match goal with |- context [if ?b then _ else _] => destruct b; cbn [bind] end; discriminate.
Qed.

Lemma calc_nofuel : forall dt u rk rh rk' rh' o, calc_rkf_solution (N:=N) val p S dt u rk rh m = (rk', rh', o) -> o <> Fuel.
Proof.
  intros dt u rk rh rk' rh' o H. unfold calc_rkf_solution in H.
  match type of H with context [rkf_stages ?a ?b ?c ?d ?e ?f ?g ?h ?i] => destruct (rkf_stages a b c d e f g h i) as [[k h1] o1] eqn:E end.
  apply stages_nofuel in E. destruct o1 as [[]|e| |]; try (injection H as <- <- <-; congruence).
  cbv zeta in H. match type of H with context [if rk_accepted ?x then ?y else ?z] => destruct (if rk_accepted x then y else z) as [k2 dt2] end.
  pose proof (validate_nofuel k2). destruct val; [destruct (rkf_validate k2) as [[]|e| |]|]; injection H as <- <- <-; congruence.
Qed.

Lemma next_nofuel : forall s s' o, next s = (s', o) -> bt_asc (rk_bt (s_rk s)) = false -> o <> Fuel.
Proof.
  intros s s' o H Ha. unfold solver_next in H. destruct (rkf_next val afuel p S m s) as [s1 o1] eqn:E.
  assert (K : o1 <> Fuel).
  { clear H. unfold rkf_next, calc_dt_expl in E.
    assert (Cf : st_calc_dt_cfl p S (s_u s) (ts_cfl (ts_set_iter (ts_iter (s_ts s) + 1) (s_ts s))) m <> Fuel).
    { unfold st_calc_dt_cfl, calc_dt_cfl, ensure. match goal with |- context [if ?b then _ else _] => destruct b end; discriminate. }
    destruct (st_calc_dt_cfl p S (s_u s) _ m) as [dt|e| |]; try (injection E as <- <-; congruence).
    destruct (nltb A dt _); [injection E as <- <-; discriminate|].
    unfold rkf_asc in E. rewrite Ha in E.
    match type of E with context [calc_rkf_solution ?a ?b ?c ?d ?e ?f ?g ?h] => destruct (calc_rkf_solution a b c d e f g h) as [[k h1] o2] eqn:C end.
    apply calc_nofuel in C. destruct o2 as [x|e| |]; try (injection E as <- <-; congruence).
    match type of E with context [st_update_from_cons ?a ?b ?c ?d ?e ?f] => pose proof (update_nofuel c d f) as U; destruct (st_update_from_cons a b c d e f) as [u1|e1| |] end; try (injection E as <- <-; congruence).
    assert (V : state_validate u1 <> Fuel).
    { unfold state_validate, vars_validate, ensure. repeat match goal with |- context [if ?b then _ else _] => destruct b; cbn [bind] end; discriminate. }
    destruct val; [destruct (state_validate u1) as [[]|e| |]|]; injection E as <- <-; congruence. }
  destruct o1 as [[]|e| |]; try (injection H as <- <-; congruence).
  destruct (_ <=? _)%N; injection H as <- <-; discriminate.
Qed.
End Any.

Lemma hll_returns : forall A, returns (Hll A).
Proof.
  intros A v p S n d u m. cbn [nf_calc Hll]. unfold hll_calc. cbn [snd]. destruct v; [|discriminate].
  unfold hll_validate, ensure. repeat match goal with |- context [if ?b then _ else _] => destruct b; cbn [bind] end; discriminate.
Qed.

Lemma kt_returns : forall A, returns (Kt A).
Proof.
  intros A v p S n d u m. cbn [nf_calc Kt]. unfold kt_calc.
  repeat match goal with |- context [match ?x with (_, _) => _ end] => destruct x end.
  cbn [snd]. destruct v; [|discriminate].
  unfold kt_validate, ensure. repeat match goal with |- context [if ?b then _ else _] => destruct b; cbn [bind] end; discriminate.
Qed.

(** ** Labels of outputs *)
Section Kinds.
Variable A : Num.
Variable N : numflux_impl A.
Lemma next_kind : forall val fuel p S m (s s' : sim A N), solver_next val fuel p S m s = (s', Ok tt) -> ts_kind (s_ts s') <> KErrorDump.
Proof.
  intros val fuel p S m s s' E. unfold solver_next in E. destruct (rkf_next val fuel p S m s) as [s1 o1] eqn:E1.
  destruct o1 as [[]|e| |]; try discriminate. destruct (_ <=? _)%N in E; [discriminate|]. apply (f_equal fst) in E. cbn [fst] in E. subst s'.
  unfold rkf_next in E1. destruct (calc_dt_expl p S _ (s_u s) m) as [ts1 o2] eqn:E2. apply dt_expl_static in E2. destruct E2 as (_ & _ & _ & E2).
  destruct o2 as [[]|e| |]; try discriminate. specialize (E2 eq_refl).
  destruct (rkf_asc val fuel p S (cap_dt ts1) (s_u s) (s_rk s) (s_rhs s) m) as [[[ts2 rk2] rh2] o3] eqn:E3.
  apply rkf_asc_static in E3. destruct E3 as (_ & _ & _ & _ & _ & K). destruct (cap_static A ts1) as (_ & _ & _ & CK).
  destruct o3 as [[]|e| |]; try discriminate.
  match type of E1 with context [calc_rkf_solution ?a ?b ?c ?d ?e ?f ?g ?h] => destruct (calc_rkf_solution a b c d e f g h) as [[k h1] o2] eqn:C end.
  destruct o2 as [x|e| |]; try discriminate.
  match type of E1 with context [st_update_from_cons ?a ?b ?c ?d ?e ?f] => destruct (st_update_from_cons a b c d e f) as [u2|e2| |] end; try discriminate.
  match type of E1 with context [if val then ?a else ?b] => destruct (if val then a else b) as [[]|e3| |] end; try discriminate.
  apply (f_equal fst) in E1. cbn [fst] in E1. subst s1. cbn [s_ts ts_set_t ts_kind]. congruence.
Qed.


Lemma after_kinds : forall fmt val sched afuel p S m (s0 : sim A N) wr0 w0 n s wr w tr, after fmt val sched afuel p S m s0 wr0 w0 n s wr w tr ->
  ts_kind (s_ts s0) <> KErrorDump -> ts_kind (s_ts s) <> KErrorDump /\ forall x, In x tr -> ts_kind (fst x) <> KErrorDump.
Proof.
  intros fmt val sched afuel p S m s0 wr0 w0 n s wr w tr H H0.
  induction H as [|n s wr w tr wr1 w1 s2 H (I1 & I2) D O F X|n s wr w tr s2 H (I1 & I2) D F X].
  - split; [exact H0|]. intros x [].
  - split; [eapply next_kind; eauto|]. intros x Hx. apply in_app_or in Hx. destruct Hx as [Hx|[<-|[]]]; [auto|exact I1].
  - split; [eapply next_kind; eauto|exact I2].
Qed.

Lemma ready_kinds : forall fmt val sched afuel p S m (s0 : sim A N) wr0 w0 n s wr w tr, ready fmt val sched afuel p S m s0 wr0 w0 n s wr w tr ->
  ts_kind (s_ts s0) <> KErrorDump -> forall x, In x tr -> ts_kind (fst x) <> KErrorDump.
Proof.
  intros fmt val sched afuel p S m s0 wr0 w0 n s wr w tr [s1 wr1 w1 tr1 wr2 w2 H D O|s1 wr1 w1 tr1 H D] H0; destruct (after_kinds _ _ _ _ _ _ _ _ _ _ _ _ _ _ _ H H0) as (K1 & K2); [|exact K2].
  intros x Hx. apply in_app_or in Hx. destruct Hx as [Hx|[<-|[]]]; [auto|exact K1].
Qed.

(** ** The output counter *)
Lemma outputs_counter : forall fmt sched m (s : sim A N) wr w wr' w' r, outputs fmt sched m s wr w wr' w' r ->
  (r = Ok tt -> wr_counter wr' = (wr_counter wr + 1)%N) /\ (r <> Ok tt -> wr_counter wr' = wr_counter wr).
Proof.
  intros fmt sched m s wr w wr' w' r H.
  assert (U : forall wr1 r1, writer_update m (cent (s_u s)) (s_ts s) wr = (wr1, r1) -> wr_counter wr1 = wr_counter wr).
  { intros wr1 r1 E. unfold writer_update in E. destruct (try_each _ _) as [os r2]. injection E as <- <-. reflexivity. }
  destruct H as [wr1 wr2 w2 r E W|wr1 r E NR].
  - rewrite <- (U _ _ E). unfold writer_write in W. destruct (write_sched fmt _ _ _ _) as [[os w1] r1]. destruct r1 as [[]|e| |]; injection W as <- <- <-; split; intros Q; try discriminate; try contradiction; reflexivity.
  - split; [contradiction|]. intros _. apply (U _ _ E).
Qed.

Lemma after_counter : forall fmt val sched afuel p S m (s0 : sim A N) wr0 w0 n s wr w tr, after fmt val sched afuel p S m s0 wr0 w0 n s wr w tr ->
  wr_counter wr = (wr_counter wr0 + BinNat.N.of_nat (List.length tr))%N.
Proof.
  intros fmt val sched afuel p S m s0 wr0 w0 n s wr w tr H. induction H as [|n s wr w tr wr1 w1 s2 H IH D O F X|n s wr w tr s2 H IH D F X].
  - cbn. lia.
  - apply outputs_counter in O. destruct O as (O & _). rewrite (O eq_refl), IH, app_length. cbn [List.length]. lia.
  - exact IH.
Qed.

Lemma ready_counter : forall fmt val sched afuel p S m (s0 : sim A N) wr0 w0 n s wr w tr, ready fmt val sched afuel p S m s0 wr0 w0 n s wr w tr ->
  wr_counter wr = (wr_counter wr0 + BinNat.N.of_nat (List.length tr))%N.
Proof.
  intros fmt val sched afuel p S m s0 wr0 w0 n s wr w tr [s1 wr1 w1 tr1 wr2 w2 H D O|s1 wr1 w1 tr1 H D]; [|eapply after_counter; eauto].
  apply outputs_counter in O. destruct O as (O & _). rewrite (O eq_refl), (after_counter _ _ _ _ _ _ _ _ _ _ _ _ _ _ _ H), app_length. cbn [List.length]. lia.
Qed.
End Kinds.
