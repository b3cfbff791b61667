(** What a round of parallel writes does to the outputs and the files, and
    what a history of outputs leaves in the files. *)

From Coq Require Import List ZArith NArith Bool String Ascii Lia Permutation.
From Verif Require Import Base Num Config Mesh State NumFlux Time Writer SpecWriter TextProofs TableProofs.
Import ListNotations.
Local Open Scope string_scope.

Lemma nth_error_upd : forall {X} (l : list X) i j x, nth_error (upd i x l) j = if (i =? j)%nat then match nth_error l j with Some _ => Some x | None => None end else nth_error l j.
Proof.
  intros X. induction l as [|y l IH]; intros i j x.
  - assert (E : nth_error (upd i x (@nil X)) j = None) by (destruct i, j; reflexivity). rewrite E. destruct j; cbn [nth_error]; match goal with |- context [if ?b then _ else _] => destruct b end; reflexivity.
  - destruct i as [|i]; destruct j as [|j]; cbn [upd nth_error Nat.eqb]; try reflexivity. apply IH.
Qed.

Section Sched.
Variable A : Num.
Variable fmt : nat -> nF A -> string.
Variable k : N.

Definition appends (o : output A) : bool := match o_conv o with Scalar => negb (o_first o) | Vector => false end.

Lemma output_write_cases : forall o w o' w' r, output_write fmt k o w = (o', w', r) ->
  (r <> Ok tt /\ o' = o /\ w' = w) \/
  (r = Ok tt /\ o' = o_set_first false o /\ exists txt, stream_text fmt o = Ok txt /\
     match o_stream o with
     | File => open_fails w (out_path o k) = false /\ w' = w_write (out_path o k) (appends o) txt w
     | Stdout => w' = w_print txt w
     end).
Proof.
  intros o w o' w' r H. unfold output_write in H. destruct (o_stream o).
  - destruct (stream_text fmt o) as [txt|e| |]; injection H as <- <- <-; [right|left..]; try (split; [discriminate|auto]). split; [reflexivity|]. split; [reflexivity|]. exists txt. auto.
  - destruct (open_fails w (out_path o k)) eqn:O; [injection H as <- <- <-; left; split; [discriminate|auto]|].
    destruct (stream_text fmt o) as [txt|e| |]; injection H as <- <- <-; [right|left..]; try (split; [discriminate|auto]). split; [reflexivity|]. split; [reflexivity|]. exists txt. auto.
Qed.

(** the output can be carried out *)
Definition can_write (w : world) (o : output A) : Prop :=
  (o_stream o = File -> open_fails w (out_path o k) = false) /\ exists txt, stream_text fmt o = Ok txt.

Lemma output_write_can : forall o w, can_write w o <-> exists o' w', output_write fmt k o w = (o', w', Ok tt).
Proof.
  intros o w. split.
  - intros (H & txt & T). unfold output_write. destruct (o_stream o); [rewrite T; eauto|]. rewrite (H eq_refl), T. eauto.
  - intros (o' & w' & H). apply output_write_cases in H. destruct H as [(H & _)|(_ & _ & txt & T & H)]; [congruence|].
    split; [|eauto]. intros E. rewrite E in H. apply H.
Qed.

(** what the screen shows of a round *)
Fixpoint printed (os : list (output A)) (l : list nat) : string :=
  match l with
  | [] => ""
  | i :: t => match nth_error os i with
              | Some o => match o_stream o, stream_text fmt o with Stdout, Ok txt => txt | _, _ => "" end
              | None => ""
              end ++ printed os t
  end.

Lemma printed_ext : forall os os' l, (forall i, In i l -> nth_error os' i = nth_error os i) -> printed os' l = printed os l.
Proof. intros os os'. induction l as [|i l IH]; intros H; cbn [printed]; [reflexivity|]. rewrite (H i (or_introl eq_refl)), IH; [reflexivity|]. intros j Hj. apply H. right; exact Hj. Qed.

(** the outputs of the round write to different files *)
Definition distinct (os : list (output A)) (l : list nat) : Prop :=
  forall i j oi oj, In i l -> In j l -> i <> j -> nth_error os i = Some oi -> nth_error os j = Some oj ->
    o_stream oi = File -> o_stream oj = File -> out_path oi k <> out_path oj k.

Lemma sched_ok : forall l os w os' w', NoDup l -> distinct os l -> write_sched fmt k l os w = (os', w', Ok tt) ->
  (forall i, nth_error os' i = match nth_error os i with Some o => Some (if in_dec Nat.eq_dec i l then o_set_first false o else o) | None => None end) /\
  (forall i o, In i l -> nth_error os i = Some o -> exists txt, stream_text fmt o = Ok txt /\
     (o_stream o = File -> w_files w' (out_path o k) = Some (overlay (appends o) (w_files w (out_path o k)) txt))) /\
  (forall p, (forall i o, In i l -> nth_error os i = Some o -> o_stream o = File -> p <> out_path o k) -> w_files w' p = w_files w p) /\
  w_dirs w' = w_dirs w /\ w_bad w' = w_bad w /\ w_stdout w' = w_stdout w ++ printed os l.
Proof.
  induction l as [|i l IH]; intros os w os' w' ND DI H; cbn [write_sched] in H.
  - injection H as <- <-. split; [|split; [|split; [|auto]]].
    + intros i. destruct (nth_error os i); reflexivity.
    + intros i o [].
    + reflexivity.
    + split; [reflexivity|]. split; [reflexivity|]. cbn [printed]. rewrite app_nil_s. reflexivity.
  - inversion ND as [|? ? NI ND']; subst. destruct (nth_error os i) as [o|] eqn:Ei.
    + destruct (output_write fmt k o w) as [[o1 w1] r1] eqn:O. apply output_write_cases in O.
      destruct O as [(O1 & _)|(-> & -> & txt & T & O)]; [destruct r1 as [[]|e| |]; try discriminate; congruence|].
      assert (X : forall j, In j l -> nth_error (upd i (o_set_first false o) os) j = nth_error os j).
      { intros j Hj. rewrite nth_error_upd. destruct (Nat.eqb_spec i j); [subst; contradiction|reflexivity]. }
      assert (DI' : distinct (upd i (o_set_first false o) os) l).
      { intros a b oa ob Ha Hb. rewrite (X a Ha), (X b Hb). apply DI; right; assumption. }
      destruct (IH _ _ _ _ ND' DI' H) as (I1 & I2 & I3 & I4 & I5 & I6).
      assert (Wf : forall p, w_files w1 p = match o_stream o with File => if String.eqb p (out_path o k) then Some (overlay (appends o) (w_files w (out_path o k)) txt) else w_files w p | Stdout => w_files w p end).
      { intros p. destruct (o_stream o); [subst w1; reflexivity|]. destruct O as (_ & ->). reflexivity. }
      split; [|split; [|split; [|split; [|split]]]].
      * intros j. rewrite I1, nth_error_upd. destruct (Nat.eqb_spec i j) as [<-|N].
        -- rewrite Ei. destruct (in_dec Nat.eq_dec i l); [contradiction|]. destruct (in_dec Nat.eq_dec i (i :: l)) as [|Q]; [reflexivity|]. exfalso. apply Q. left; reflexivity.
        -- destruct (nth_error os j); [|reflexivity]. destruct (in_dec Nat.eq_dec j l), (in_dec Nat.eq_dec j (i :: l)) as [Q|Q]; try reflexivity.
           ++ exfalso. apply Q. right; assumption.
           ++ destruct Q; [congruence|contradiction].
      * intros j oj [<-|Hj] Ej.
        -- assert (oj = o) by congruence. subst oj. exists txt. split; [exact T|]. intros F. rewrite I3, Wf, F, String.eqb_refl; [reflexivity|].
           intros a oa Ha Ea Fa. rewrite (X a Ha) in Ea. apply (DI i a o oa); auto; [left; reflexivity|right; exact Ha|intros ->; contradiction].
        -- destruct (I2 j oj Hj ltac:(rewrite X; assumption)) as (t2 & T2 & F2). exists t2. split; [exact T2|]. intros F. rewrite (F2 F), Wf.
           destruct (o_stream o) eqn:Fo; [reflexivity|]. destruct (String.eqb_spec (out_path oj k) (out_path o k)) as [Q|_]; [|reflexivity].
           exfalso. revert Q. apply (DI j i oj o); auto; [right; exact Hj|left; reflexivity|intros ->; contradiction].
      * intros p Hp. rewrite I3, Wf.
        -- destruct (o_stream o) eqn:Fo; [reflexivity|]. destruct (String.eqb_spec p (out_path o k)) as [Q|_]; [|reflexivity]. exfalso. apply (Hp i o); auto. left; reflexivity.
        -- intros a oa Ha Ea. rewrite (X a Ha) in Ea. apply (Hp a oa); auto. right; exact Ha.
      * rewrite I4. destruct (o_stream o); [subst w1; reflexivity|]. destruct O as (_ & ->). reflexivity.
      * rewrite I5. destruct (o_stream o); [subst w1; reflexivity|]. destruct O as (_ & ->). reflexivity.
      * rewrite I6, (printed_ext os) by exact X. cbn [printed]. rewrite Ei, T. destruct (o_stream o); [subst w1; cbn [w_print w_stdout]; apply app_assoc_s|]. destruct O as (_ & ->). reflexivity.
    + assert (DI' : distinct os l). { intros a b oa ob Ha Hb. apply DI; right; assumption. }
      destruct (IH _ _ _ _ ND' DI' H) as (I1 & I2 & I3 & I4 & I5 & I6). split; [|split; [|split; [|split; [|split]]]]; auto.
      * intros j. rewrite I1. destruct (nth_error os j) eqn:Ej; [|reflexivity]. destruct (in_dec Nat.eq_dec j l), (in_dec Nat.eq_dec j (i :: l)) as [Q|Q]; try reflexivity.
        -- exfalso. apply Q. right; assumption.
        -- destruct Q; [congruence|contradiction].
      * intros j oj [<-|Hj] Ej; [congruence|]. apply (I2 j oj Hj Ej).
      * intros p Hp. apply I3. intros a oa Ha. apply (Hp a oa). right; exact Ha.
      * rewrite I6. cbn [printed]. rewrite Ei. reflexivity.
Qed.

Lemma can_frame : forall w w' o, w_dirs w' = w_dirs w -> w_bad w' = w_bad w -> can_write w o -> can_write w' o.
Proof. intros w w' o D B (H1 & H2). split; [|exact H2]. intros F. unfold open_fails in *. rewrite D, B. apply H1. exact F. Qed.

Lemma write_frame : forall o w o' w' r, output_write fmt k o w = (o', w', r) -> w_dirs w' = w_dirs w /\ w_bad w' = w_bad w.
Proof.
  intros o w o' w' r H. apply output_write_cases in H. destruct H as [(_ & _ & ->)|(_ & _ & txt & _ & H)]; [auto|].
  destruct (o_stream o); [subst w'; auto|]. destruct H as (_ & ->). auto.
Qed.

(** a round succeeds if and only if every output in it can be carried out *)
Lemma sched_can : forall l os w, NoDup l ->
  ((exists os' w', write_sched fmt k l os w = (os', w', Ok tt)) <-> forall i o, In i l -> nth_error os i = Some o -> can_write w o).
Proof.
  induction l as [|i l IH]; intros os w ND; cbn [write_sched].
  - split; [intros _ i o []|]. eauto.
  - inversion ND as [|? ? NI ND']; subst. destruct (nth_error os i) as [o|] eqn:Ei.
    + destruct (output_write fmt k o w) as [[o1 w1] r1] eqn:O. destruct (write_frame _ _ _ _ _ O) as (D & B).
      assert (X : forall j, In j l -> nth_error (upd i o1 os) j = nth_error os j).
      { intros j Hj. rewrite nth_error_upd. destruct (Nat.eqb_spec i j); [subst; contradiction|reflexivity]. }
      destruct r1 as [[]|e| |].
      * rewrite (IH (upd i o1 os) w1 ND'). split.
        -- intros H j oj [<-|Hj] Ej; [assert (oj = o) by congruence; subst oj; apply output_write_can; eauto|].
           apply (can_frame w1 w); [congruence|congruence|]. apply (H j oj Hj). rewrite X; assumption.
        -- intros H j oj Hj Ej. rewrite X in Ej by assumption. apply (can_frame w w1); [congruence|congruence|]. apply (H j oj); [right; exact Hj|exact Ej].
      * split; [intros (a & b & Q); discriminate|]. intros H. specialize (H i o (or_introl eq_refl) Ei). apply output_write_can in H. destruct H as (a & b & H). congruence.
      * split; [intros (a & b & Q); discriminate|]. intros H. specialize (H i o (or_introl eq_refl) Ei). apply output_write_can in H. destruct H as (a & b & H). congruence.
      * split; [intros (a & b & Q); discriminate|]. intros H. specialize (H i o (or_introl eq_refl) Ei). apply output_write_can in H. destruct H as (a & b & H). congruence.
    + rewrite (IH os w ND'). split.
      * intros H j oj [<-|Hj] Ej; [congruence|]. apply (H j oj Hj Ej).
      * intros H j oj Hj Ej. apply (H j oj); [right; exact Hj|exact Ej].
Qed.
End Sched.
Arguments appends {A}. Arguments distinct {A}. Arguments can_write {A}. Arguments printed {A}.

Lemma separate_distinct : forall A k (os : list (output A)) l, separate os -> distinct k os l.
Proof. intros A k os l H i j oi oj _ _ N Ei Ej Fi Fj. apply (H i j oi oj N Ei Ej Fi Fj). Qed.

Lemma each_once_perm : forall n a b, each_once n a -> each_once n b -> Permutation a b.
Proof. intros n a b (A1 & A2) (B1 & B2). apply NoDup_Permutation; auto. intros x. rewrite A2, B2. tauto. Qed.

Lemma try_each_ok : forall {X} (f : X -> X * res unit) l l', try_each f l = (l', Ok tt) ->
  List.length l' = List.length l /\ forall i x, nth_error l i = Some x -> exists y, nth_error l' i = Some y /\ f x = (y, Ok tt).
Proof.
  intros X f. induction l as [|x l IH]; intros l' H; cbn [try_each] in H.
  - injection H as <-. split; [reflexivity|]. intros [|i] x Q; discriminate.
  - destruct (f x) as [y r] eqn:E. destruct r as [[]|e| |]; try discriminate. destruct (try_each f l) as [t r2] eqn:T. injection H as <- ->.
    destruct (IH t eq_refl) as (I1 & I2). split; [cbn; congruence|]. intros [|i] z Q; cbn [nth_error] in *; [injection Q as <-; eauto|]. apply I2. exact Q.
Qed.

Section History.
Variable A : Num.
Variable fmt : nat -> nF A -> string.
Hypothesis Hf : plain fmt.
Variable m : mesh A.
Variable wr0 : writer A.
Variable w0 : world.
Notation os0 := (wr_outputs wr0).
Notation k0 := (wr_counter wr0).

Hypothesis Hsep : separate os0.
Hypothesis Hstyle : forall i o, nth_error os0 i = Some o -> styled o /\ (0 < o_rows o)%nat /\ (o_conv o = Scalar -> o_rows o = 1%nat) /\ o_first o = true.

Definition names (o : output A) : list data_name := map d_name (o_data o).
Definition fresh (o : output A) : Prop := forall j, w_files w0 (out_path o j) = None.

Definition table_of (o : output A) (x : timestep A * vars A) (rs : list nat) : list (list string) :=
  map (fields fmt o m (fst x) (snd x) (names o)) rs.

(** what the files of output [o] contain after the outputs [l] *)
Definition file_contents (o : output A) (l : list (timestep A * vars A)) (w : world) : Prop :=
  match o_conv o with
  | Vector =>
      (forall n x, nth_error l n = Some x -> exists txt, w_files w (out_path o (k0 + N.of_nat n)) = Some txt /\
         is_table (o_format o) txt (map name_str (names o) :: table_of o x (seq 0 (o_rows o)))) /\
      (forall j, (k0 + N.of_nat (List.length l) <= j)%N -> w_files w (out_path o j) = None)
  | Scalar =>
      match l with
      | [] => forall j, w_files w (out_path o j) = None
      | _ => exists txt, (forall j, w_files w (out_path o j) = Some txt) /\
               is_table (o_format o) txt (map name_str (names o) :: map (fun x => fields fmt o m (fst x) (snd x) (names o) 0) l)
      end
  end.

Definition hist_inv (l : list (timestep A * vars A)) (wr : writer A) (w : world) : Prop :=
  List.length (wr_outputs wr) = List.length os0 /\ wr_counter wr = (k0 + N.of_nat (List.length l))%N /\
  forall i o, nth_error os0 i = Some o -> exists o', nth_error (wr_outputs wr) i = Some o' /\ same_output o o' /\ names o' = names o /\
    o_first o' = (match l with [] => true | _ => false end) /\
    (o_stream o = File -> fresh o -> file_contents o l w).

Lemma vector_path_inj : forall (o : output A) a b, o_conv o = Vector -> out_path o a = out_path o b -> a = b.
Proof.
  intros o a b C H. unfold out_path in H. rewrite C in H. apply app_inv_head_s in H. apply app_inv_tail_s in H. apply pad_inj in H. exact H.
Qed.

Lemma text_names : forall o ts v ns txt, holds_all m ts v o ns -> stream_text fmt o = Ok txt -> (0 < o_rows o)%nat -> ns <> [].
Proof.
  intros o ts v ns txt H T R. unfold stream_text in T. destruct (o_rows o) as [|r]; [lia|]. cbn [seq lines] in T.
  destruct (line fmt o 0) as [t|e| |] eqn:L; cbn [bind] in T; try discriminate. apply (line_join A fmt o m ts v 0 ns t H L).
Qed.

Lemma fields_same : forall o o' ts v ns r, same_output o o' -> fields fmt o' m ts v ns r = fields fmt o m ts v ns r.
Proof. intros o o' ts v ns r (d & b & ->). destruct o; reflexivity. Qed.

Lemma history_inv : forall l wr w, output_history fmt m wr0 w0 l wr w -> hist_inv l wr w.
Proof.
  intros l wr w H. induction H as [|l wr w ts v wr1 sched wr2 w2 H (L & K & IH) U E W].
  - split; [reflexivity|]. split; [cbn; lia|]. intros i o Ei. exists o. split; [exact Ei|]. split; [apply same_refl|]. split; [reflexivity|].
    split; [apply (Hstyle i o Ei)|]. intros F Fr. unfold file_contents. destruct (o_conv o); [exact Fr|].
    split; [intros [|n] x Q; discriminate|]. intros j _. apply Fr.
  - unfold writer_update in U. destruct (try_each (output_update m v ts) (wr_outputs wr)) as [os1 r1] eqn:T. injection U as <- ->.
    destruct (try_each_ok _ _ _ T) as (L1 & T1). clear T. cbn [wr_outputs] in E. rewrite L1, L in E. destruct E as (ND & E).
    unfold writer_write in W. cbn [wr_counter wr_outputs wr_meta wr_banner] in W.
    destruct (write_sched fmt (wr_counter wr) sched os1 w) as [[os2 w3] r3] eqn:Ws.
    assert (r3 = Ok tt) by (destruct r3 as [[]|e| |]; congruence). subst r3. injection W as <- <-.
    (* the outputs after collecting *)
    assert (P1 : forall i o, nth_error os0 i = Some o -> exists o1, nth_error os1 i = Some o1 /\ same_output o o1 /\ holds_all m ts v o1 (names o) /\
       o_first o1 = (match l with [] => true | _ => false end) /\ (o_stream o = File -> fresh o -> file_contents o l w)).
    { intros i o Ei. destruct (IH i o Ei) as (o' & E' & Sm & Nm & Fi & Fc). destruct (T1 i o' E') as (o1 & E1 & U1).
      apply update_holds in U1. destruct U1 as (Ho & d & D). exists o1. split; [exact E1|]. split; [|split; [|split; [|exact Fc]]].
      - apply (same_trans A o o' o1); [exact Sm|]. exists d, (o_first o'). rewrite D. destruct o'; reflexivity.
      - unfold names in Nm. rewrite Nm in Ho. exact Ho.
      - rewrite D. exact Fi. }
    assert (P2 : forall i o1, nth_error os1 i = Some o1 -> exists o, nth_error os0 i = Some o).
    { intros i o1 E1. destruct (nth_error os0 i) as [o|] eqn:E0; [eauto|]. apply nth_error_None in E0.
      assert (Q : nth_error os1 i <> None) by congruence. apply nth_error_Some in Q. lia. }
    assert (SP : separate os1).
    { intros i j oi oj N Ei Ej Fi Fj a b. destruct (P2 i oi Ei) as (pi & Pi). destruct (P2 j oj Ej) as (pj & Pj).
      destruct (P1 i pi Pi) as (qi & Qi & Si & _). destruct (P1 j pj Pj) as (qj & Qj & Sj & _).
      assert (qi = oi) by congruence. assert (qj = oj) by congruence. subst qi qj.
      rewrite (same_path A pi oi Si), (same_path A pj oj Sj). apply (Hsep i j pi pj N Pi Pj).
      - destruct Si as (d & f & ->). destruct pi; exact Fi.
      - destruct Sj as (d & f & ->). destruct pj; exact Fj. }
    destruct (sched_ok A fmt (wr_counter wr) sched os1 w os2 w3 ND (separate_distinct _ _ _ _ SP) Ws) as (O1 & O2 & O3 & _).
    assert (L2 : List.length os2 = List.length os1).
    { destruct (Nat.lt_trichotomy (List.length os2) (List.length os1)) as [Q|[Q|Q]]; [|exact Q|]; exfalso.
      - pose proof (proj2 (nth_error_None os2 (List.length os2)) (le_n _)) as Q1. rewrite O1 in Q1. apply nth_error_Some in Q. destruct (nth_error os1 (List.length os2)); congruence.
      - pose proof (proj2 (nth_error_None os1 (List.length os1)) (le_n _)) as Q1. apply nth_error_Some in Q. rewrite O1, Q1 in Q. congruence. }
    split; [cbn [wr_outputs]; congruence|]. split; [cbn [wr_counter]; rewrite K, app_length; cbn [List.length]; lia|].
    intros i o Ei. destruct (P1 i o Ei) as (o1 & E1 & Sm & Ho & Fi & Fc).
    assert (Il : In i sched) by (apply E; apply nth_error_Some; congruence).
    exists (o_set_first false o1). cbn [wr_outputs].
    split; [rewrite O1, E1; destruct (in_dec Nat.eq_dec i sched); [reflexivity|contradiction]|].
    split; [apply (same_trans A o o1); [exact Sm|]; exists (o_data o1), false; destruct o1; reflexivity|].
    split; [apply (holds_names A _ _ _ _ _ Ho)|].
    split; [destruct l; reflexivity|].
    intros F Fr. specialize (Fc F Fr). destruct (O2 i o1 Il E1) as (txt & Tx & Fx).
    assert (F1 : o_stream o1 = File) by (destruct Sm as (d & f & ->); destruct o; exact F). specialize (Fx F1).
    assert (St : styled o1) by (apply (same_styled A o o1 Sm); apply (Hstyle i o Ei)).
    assert (Ro : o_rows o1 = o_rows o) by (destruct Sm as (d & f & ->); destruct o; reflexivity).
    assert (Co : o_conv o1 = o_conv o) by (destruct Sm as (d & f & ->); destruct o; reflexivity).
    assert (Fo : o_format o1 = o_format o) by (destruct Sm as (d & f & ->); destruct o; reflexivity).
    destruct (Hstyle i o Ei) as (_ & Rp & Rs & _).
    assert (Ns : names o <> []) by (apply (text_names o1 ts v _ txt Ho Tx); lia).
    rewrite (same_path A o o1 Sm) in Fx.
    (* files of other counters are untouched *)
    assert (Oth : forall j, out_path o j <> out_path o (wr_counter wr) -> w_files w3 (out_path o j) = w_files w (out_path o j)).
    { intros j Nj. apply O3. intros a oa Ia Ea Fa. destruct (Nat.eq_dec a i) as [->|N].
      - assert (oa = o1) by congruence. subst oa. rewrite (same_path A o o1 Sm). exact Nj.
      - rewrite <- (same_path A o o1 Sm j). apply (SP i a o1 oa); auto. }
    unfold file_contents in *. destruct (o_conv o) eqn:Cv.
    + (* scalar *)
      assert (Pc : forall a b, out_path o a = out_path o b) by (intros a b; unfold out_path; rewrite Cv; reflexivity).
      assert (AP : appends o1 = match l with [] => false | _ => true end) by (unfold appends; rewrite Co, Fi; destruct l; reflexivity).
      destruct l as [|x l].
      * cbn [app]. rewrite AP, Fc in Fx. cbn [overlay] in Fx. exists txt. split; [intros j; rewrite (Pc j (wr_counter wr)); exact Fx|]. cbn [map fst snd].
        rewrite <- Fo, <- (fields_same o o1 ts v (names o) 0 Sm). apply (text_scalar_first A fmt Hf o1 m ts v (names o) txt St Ho Ns Co Fi ltac:(rewrite Ro; auto) Tx).
      * destruct Fc as (T & Tf & Tt). rewrite AP, Tf in Fx. cbn [overlay] in Fx. exists (T ++ txt). split; [intros j; rewrite (Pc j (wr_counter wr)); exact Fx|].
        rewrite map_app. cbn [map fst snd]. rewrite app_comm_cons. rewrite <- Fo, <- (fields_same o o1 ts v (names o) 0 Sm).
        apply (text_scalar_next A fmt Hf o1 m ts v (names o) txt T _ St Ho Co Fi ltac:(rewrite Ro; auto) Tx). rewrite Fo. exact Tt.
    + (* vector *)
      destruct Fc as (Fc1 & Fc2). unfold appends in Fx. rewrite Co in Fx. rewrite Fc2 in Fx by lia. cbn [overlay] in Fx.
      split.
      * intros n x Hx. destruct (Nat.lt_trichotomy n (List.length l)) as [Q|[Q|Q]].
        -- rewrite nth_error_app1 in Hx by exact Q. destruct (Fc1 n x Hx) as (t & Ft & Tt). exists t. split; [|exact Tt]. rewrite Oth; [exact Ft|].
           intros R. apply vector_path_inj in R; [|exact Cv]. lia.
        -- subst n. rewrite nth_error_app2, Nat.sub_diag in Hx by lia. injection Hx as <-. exists txt. rewrite <- K. split; [exact Fx|].
           unfold table_of. cbn [fst snd]. rewrite <- Fo, <- Ro.
           rewrite (map_ext (fields fmt o m ts v (names o)) (fields fmt o1 m ts v (names o))) by (intros r; symmetry; apply fields_same; exact Sm).
           apply (text_vector A fmt Hf o1 m ts v (names o) txt St Ho Ns Co Tx).
        -- exfalso. assert (Z : nth_error (l ++ [(ts, v)]) n <> None) by congruence. apply nth_error_Some in Z. rewrite app_length in Z. cbn in Z. lia.
      * intros j Hj. rewrite app_length in Hj. cbn [List.length] in Hj. rewrite Oth; [apply Fc2; lia|]. intros R. apply vector_path_inj in R; [|exact Cv]. lia.
Qed.
End History.
Arguments file_contents {A}. Arguments fresh {A}. Arguments names {A}.

Lemma name_title : forall n, name_str n = title n. Proof. destruct n; reflexivity. Qed.

(** ** Start-up *)
Lemma prefix_app : forall a b, prefix a (a ++ b) = true.
Proof. induction a as [|c a IH]; intros b; [destruct b; reflexivity|]. cbn. destruct (Ascii.ascii_dec c c); [apply IH|congruence]. Qed.

Lemma prefix_inv : forall a b, prefix a b = true -> exists c, b = a ++ c.
Proof.
  induction a as [|x a IH]; intros b H; [exists b; reflexivity|]. destruct b as [|y b]; [discriminate|]. cbn in H.
  destruct (Ascii.ascii_dec x y) as [->|]; [|discriminate]. destruct (IH b H) as (c & ->). exists c. reflexivity.
Qed.

Lemma prefix_trans : forall a b c, prefix a b = true -> prefix b c = true -> prefix a c = true.
Proof. intros a b c H K. apply prefix_inv in H, K. destruct H as (d & ->). destruct K as (e & ->). rewrite app_assoc_s. apply prefix_app. Qed.

Lemma dir_slash : forall f, dir_name f ++ "/" = folder_slash f.
Proof.
  intros f. unfold dir_name, folder_slash. destruct (ends_with_slash f) eqn:E; [|reflexivity].
  induction f as [|c f IH]; [discriminate|]. destruct f as [|d f].
  - cbn in E. apply Ascii.eqb_eq in E. subst c. reflexivity.
  - change (str_pop (String c (String d f))) with (String c (str_pop (String d f))). cbn [String.append]. rewrite IH; [reflexivity|exact E].
Qed.

(** preparing creates no file and keeps files in directories *)
Lemma prepare_frame : forall c w w' r, output_prepare c w = (w', r) -> tidy w ->
  tidy w' /\ (forall p, w_files w p = None -> w_files w' p = None) /\ w_stdout w' = w_stdout w /\ w_bad w' = w_bad w /\
  (r = Ok tt -> oc_stream c = File -> oc_clear c = true -> forall p, prefix (folder_slash (oc_folder c)) p = true -> w_files w' p = None).
Proof.
  intros c w w' r H T. unfold output_prepare in H. destruct (oc_stream c).
  { injection H as <- <-. split; [exact T|]. split; [auto|]. split; [reflexivity|]. split; [reflexivity|]. intros _ Q. discriminate. }
  set (f := oc_folder c) in *.
  assert (Rm : tidy (w_remove_dir f w)).
  { intros g p D P. cbn [w_remove_dir w_files]. destruct (prefix (folder_slash f) p) eqn:Pf; [reflexivity|]. apply (T g); [|exact P].
    unfold is_dir in *. cbn [w_remove_dir w_dirs] in D. destruct (prefix (folder_slash f) (dir_name g ++ "/")) eqn:Pg; [|exact D].
    exfalso. rewrite dir_slash in Pg. rewrite (prefix_trans _ _ _ Pg P) in Pf. discriminate. }
  assert (Cr : forall w1, tidy w1 -> tidy (w_create_dir f w1)).
  { intros w1 T1 g p D P. cbn [w_create_dir w_files]. apply (T1 g); [|exact P]. unfold is_dir in *. cbn [w_create_dir w_dirs] in D.
    destruct (prefix _ _) in D; [discriminate|exact D]. }
  destruct (oc_clear c && is_dir w f) eqn:Cl.
  - apply andb_true_iff in Cl. destruct Cl as [Cl Di]. destruct (w_bad w f) eqn:B.
    { injection H as <- <-. split; [exact T|]. split; [auto|]. split; [reflexivity|]. split; [reflexivity|]. discriminate. }
    assert (Fr : forall p, w_files w p = None -> w_files (w_remove_dir f w) p = None). { intros p Hp. cbn [w_remove_dir w_files]. destruct (prefix _ _); auto. }
    assert (Cn : forall p, prefix (folder_slash f) p = true -> w_files (w_remove_dir f w) p = None). { intros p Hp. cbn [w_remove_dir w_files]. rewrite Hp. reflexivity. }
    destruct (is_dir (w_remove_dir f w) f); [injection H as <- <-; auto 8|]. cbn [w_bad w_remove_dir] in H. rewrite B in H. injection H as <- <-.
    split; [apply Cr; exact Rm|]. split; [exact Fr|]. split; [reflexivity|]. split; [reflexivity|]. intros _ _ _. exact Cn.
  - destruct (is_dir w f) eqn:Di.
    + injection H as <- <-. split; [exact T|]. split; [auto|]. split; [reflexivity|]. split; [reflexivity|]. intros _ _ Q. rewrite Q in Cl. discriminate.
    + destruct (w_bad w f).
      * injection H as <- <-. split; [exact T|]. split; [auto|]. split; [reflexivity|]. split; [reflexivity|]. discriminate.
      * injection H as <- <-. split; [apply Cr; exact T|]. split; [auto|]. split; [reflexivity|]. split; [reflexivity|]. intros _ _ _ p P. cbn [w_create_dir w_files]. apply (T f); [exact Di|exact P].
Qed.

Section Start.
Variable A : Num.

Lemma outputs_new_ok : forall S cs (m : mesh A) mx w w' os, outputs_new S cs m mx w = (w', Ok os) -> tidy w ->
  os = map (fun c => output_build S c m mx) cs /\ tidy w' /\ (forall p, w_files w p = None -> w_files w' p = None) /\ w_bad w' = w_bad w /\ w_stdout w' = w_stdout w /\
  forall c, In c cs -> oc_stream c = File -> oc_clear c = true -> forall p, prefix (folder_slash (oc_folder c)) p = true -> w_files w' p = None.
Proof.
  intros S cs m mx. induction cs as [|c cs IH]; intros w w' os H T; cbn [outputs_new] in H.
  - injection H as <- <-. split; [reflexivity|]. split; [exact T|]. split; [auto|]. split; [reflexivity|]. split; [reflexivity|]. intros c [].
  - destruct (output_prepare c w) as [w1 r1] eqn:P. destruct r1 as [[]|e| |]; try discriminate.
    destruct (prepare_frame _ _ _ _ P T) as (P1 & P2 & P3 & P4 & P5). specialize (P5 eq_refl).
    destruct (outputs_new S cs m mx w1) as [w2 r2] eqn:N. destruct r2 as [os2|e| |]; cbn [bind] in H; try discriminate. injection H as <- <-.
    destruct (IH _ _ _ N P1) as (-> & I2 & I3 & I4 & I5 & I6). split; [reflexivity|]. split; [exact I2|]. split; [auto|]. split; [congruence|]. split; [congruence|].
    intros d [<-|Hd] F C p Hp; [apply I3; apply P5; auto|]. apply (I6 d); auto.
Qed.

Lemma ending_last : forall (c : output_config) S (m : mesh A) mx k, last_char (out_path (output_build S c m mx) k) = Some "v"%char.
Proof.
  intros c S m mx k. unfold out_path, output_build. cbn [o_conv o_file_name o_ending o_counter_width].
  destruct (oc_conv c); rewrite ?last_char_app; try (destruct (oc_format c); (reflexivity || discriminate)).
  intros Q. assert (L : String.length (pad_left "0" (counter_width mx) (dec k) ++ match oc_format c with TSV => ".tsv" | CSV => ".csv" end) = 0%nat) by (rewrite Q; reflexivity).
  rewrite length_app_s in L. destruct (oc_format c); cbn in L; lia.
Qed.

Lemma metadata_frame : forall meta sched (os : list (output A)) w w' r, writer_metadata meta sched os w = (w', r) ->
  (forall p, last_char p <> Some "n"%char -> w_files w' p = w_files w p) /\ w_dirs w' = w_dirs w /\ w_bad w' = w_bad w.
Proof.
  intros meta. induction sched as [|i sc IH]; intros os w w' r H; cbn [writer_metadata] in H; [injection H as <- <-; auto|].
  destruct (nth_error os i) as [o|]; [|apply (IH _ _ _ _ H)].
  assert (O : forall w1 r1, output_write_metadata meta o w = (w1, r1) -> (forall p, last_char p <> Some "n"%char -> w_files w1 p = w_files w p) /\ w_dirs w1 = w_dirs w /\ w_bad w1 = w_bad w).
  { intros w1 r1 E. unfold output_write_metadata in E. destruct (o_metadata o); [|injection E as <- <-; auto]. destruct (o_stream o); [injection E as <- <-; auto|].
    destruct (open_fails _ _); injection E as <- <-; [auto|]. split; [|auto]. intros p Hp. cbn [w_write w_files]. destruct (String.eqb_spec p (o_file_name o ++ "_metadata.json")) as [->|]; [|reflexivity].
    exfalso. apply Hp. rewrite last_char_app by discriminate. reflexivity. }
  destruct (output_write_metadata meta o w) as [w1 r1]. destruct (O _ _ eq_refl) as (O1 & O2 & O3).
  destruct r1 as [[]|e| |]; [|injection H as <- <-; auto..]. destruct (IH _ _ _ _ H) as (I1 & I2 & I3). split; [|split; congruence]. intros p Hp. rewrite I1, O1; auto.
Qed.

Lemma path_file_of : forall S (m : mesh A) mx c k, out_path (output_build S c m mx) k = file_of mx c k.
Proof.
  intros S m mx c k. unfold out_path, output_build, file_of. cbn [o_conv o_file_name o_ending o_counter_width]. unfold counter_width.
  destruct (oc_conv c); rewrite !app_assoc_s; reflexivity.
Qed.

Lemma separate_build : forall S (m : mesh A) mx cs, separate_files mx cs -> separate (map (fun c => output_build S c m mx) cs).
Proof.
  intros S m mx cs H i j oi oj N Ei Ej Fi Fj a b. rewrite nth_error_map in Ei, Ej.
  destruct (nth_error cs i) as [ci|] eqn:Ci; [|discriminate]. destruct (nth_error cs j) as [cj|] eqn:Cj; [|discriminate].
  cbn [option_map] in Ei, Ej. injection Ei as <-. injection Ej as <-. rewrite !path_file_of. apply (H i j ci cj N Ci Cj Fi Fj).
Qed.

Lemma path_prefix : forall mx c k, prefix (folder_slash (oc_folder c)) (file_of mx c k) = true.
Proof. intros. unfold file_of. apply prefix_app. Qed.
End Start.
