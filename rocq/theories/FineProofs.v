(** Facts about interleaved execution. *)

From Coq Require Import List ZArith NArith Bool String Ascii Lia.
From Verif Require Import Base Num Config Mesh State NumFlux Time Writer Runner FineWriter SpecWriter SpecRun SpecFine
  TextProofs TableProofs WriterProofs.
Import ListNotations.
Local Open Scope string_scope.

(** ** Text *)
Lemma take_drop : forall n s, str_take n s ++ str_drop n s = s.
Proof. induction n; intros [|c s]; cbn; try reflexivity. rewrite IHn. reflexivity. Qed.

Lemma take_app : forall a b, str_take (String.length a) (a ++ b) = a.
Proof. induction a; intros b; cbn; [reflexivity|]. rewrite IHa. reflexivity. Qed.

Lemma drop_app : forall a b, str_drop (String.length a) (a ++ b) = b.
Proof. induction a; intros b; cbn; auto. Qed.

Lemma drop_drop : forall n m s, str_drop n (str_drop m s) = str_drop (m + n) s.
Proof. intros n m; induction m; intros [|c s]; cbn; try reflexivity; [destruct n; reflexivity|apply IHm]. Qed.

Lemma drop_short : forall n s, (String.length s <= n)%nat -> str_drop n s = "".
Proof. induction n; intros [|c s] L; cbn in *; try reflexivity; try lia. apply IHn. lia. Qed.

Lemma length_drop : forall n s, String.length (str_drop n s) = (String.length s - n)%nat.
Proof. induction n; intros [|c s]; cbn; auto. Qed.

Lemma overlay_overwritten : forall a s, overwritten a s (a ++ str_drop (String.length a) s).
Proof.
  intros a s. destruct (Nat.le_gt_cases (String.length s) (String.length a)) as [L|L].
  - left. rewrite drop_short by exact L. rewrite app_nil_s. auto.
  - right. exists (str_take (String.length a) s), (str_drop (String.length a) s). rewrite take_drop. split; [reflexivity|]. split; [|reflexivity].
    pose proof (f_equal String.length (take_drop (String.length a) s)) as E. rewrite length_app_s, length_drop in E. lia.
Qed.

(** ** The state of a file *)
Lemma text_at_some : forall w p s, w_files w p = Some s -> text_at w p = s.
Proof. intros w p s H. unfold text_at. rewrite H. reflexivity. Qed.

Lemma open_overlay : forall p app w, w_files (w_open p w) p = Some (overlay app (w_files w p) "").
Proof.
  intros p app w. unfold w_open, w_set, text_at. cbn [w_files]. rewrite String.eqb_refl. f_equal.
  destruct (w_files w p); [|reflexivity]. cbn. destruct app; [rewrite app_nil_s|]; reflexivity.
Qed.

Lemma put_overlay : forall p app old a s w, w_files w p = Some (overlay app old a) ->
  w_files (w_put p app (String.length a) s w) p = Some (overlay app old (a ++ s)).
Proof.
  intros p app old a s w H. unfold w_put, w_set. cbn [w_files]. rewrite String.eqb_refl, (text_at_some _ _ _ H). f_equal.
  destruct old as [t|]; cbn [overlay]; destruct app.
  - rewrite app_assoc_s. reflexivity.
  - rewrite take_app, !app_assoc_s, length_app_s. f_equal. f_equal.
    rewrite <- drop_drop, drop_app, drop_drop. reflexivity.
  - reflexivity.
  - replace (str_take (String.length a) a) with a by (rewrite <- (app_nil_s a) at 3; rewrite take_app; reflexivity).
    rewrite drop_short by lia. rewrite app_nil_s. reflexivity.
Qed.

Lemma put_other : forall t pos s w p, (forall app, t <> ToFile p app) -> w_files (put t pos s w) p = w_files w p.
Proof.
  intros [| |q app] pos s w p H; cbn; try reflexivity. destruct (String.eqb_spec p q) as [->|]; [|reflexivity]. destruct (H app eq_refl).
Qed.

Lemma put_frame : forall t pos s w, w_dirs (put t pos s w) = w_dirs w /\ w_bad (put t pos s w) = w_bad w /\
  w_stdout (put t pos s w) = match t with Screen => w_stdout w ++ s | _ => w_stdout w end.
Proof. intros [| |q app] pos s w; cbn; auto. Qed.

Lemma nth_job : forall (ts : list task) i j ph, nth_error ts i = Some (j, ph) -> nth_error (map fst ts) i = Some j.
Proof. intros ts i j ph H. exact (map_nth_error fst i ts H). Qed.

(** ** The invariant *)
Section Inv.
Variable w0 : world.
(** whether no operation is refused *)
Variable clean : Prop.

(** the contents [new] after the text [a] *)
Definition wrote (j : job) (alone : Prop) (a : string) (w : world) : Prop :=
  match j_target j with
  | Nowhere => True
  | Screen => alone -> w_stdout w = w_stdout w0 ++ a
  | ToFile p app => w_files w p = Some (overlay app (w_files w0 p) a)
  end.

Definition untouched (j : job) (alone : Prop) (w : world) : Prop :=
  match j_target j with
  | Nowhere => True
  | Screen => alone -> w_stdout w = w_stdout w0
  | ToFile p _ => w_files w p = w_files w0 p
  end.

Definition opens (j : job) : Prop := match j_target j with ToFile p _ => open_fails w0 p = false | _ => True end.

Definition task_inv (alone : Prop) (j : job) (ph : phase) (w : world) : Prop :=
  match ph with
  | Waiting => untouched j alone w
  | Writing pos rest => exists a, j_text j = a ++ rest /\ pos = String.length a /\ wrote j alone a w /\ opens j /\ j_target j <> Nowhere
  | Ended r =>
      (j_target j = Nowhere /\ r = j_end j) \/
      (untouched j alone w /\ r = Err EIO /\ (clean -> ~ opens j)) \/
      (j_target j <> Nowhere /\ opens j /\ exists a b, j_text j = a ++ b /\ wrote j alone a w /\ ((b = "" /\ r = j_end j) \/ (~ clean /\ r = j_fault j)))
  end.

Definition apart (js : list job) : Prop :=
  forall i k ji jk p a b, i <> k -> nth_error js i = Some ji -> nth_error js k = Some jk -> j_target ji = ToFile p a -> j_target jk <> ToFile p b.

Definition alone (js : list job) : Prop :=
  forall i k ji jk, nth_error js i = Some ji -> nth_error js k = Some jk -> j_target ji = Screen -> j_target jk = Screen -> i = k.

Definition inv (js : list job) (ts : list task) (w : world) : Prop :=
  map fst ts = js /\ w_dirs w = w_dirs w0 /\ w_bad w = w_bad w0 /\
  (forall p, (forall j app, In j js -> j_target j <> ToFile p app) -> w_files w p = w_files w0 p) /\
  (exists s, w_stdout w = w_stdout w0 ++ s) /\
  ((forall j, In j js -> j_target j <> Screen) -> w_stdout w = w_stdout w0) /\
  forall i j ph, nth_error ts i = Some (j, ph) -> task_inv (alone js) j ph w.

Lemma inv_start : forall js, inv js (tasks js) w0.
Proof.
  intros js. unfold inv, tasks. rewrite map_map. cbn [fst]. rewrite map_id. repeat match goal with |- _ /\ _ => split end; auto.
  - exists "". rewrite app_nil_s. reflexivity.
  - intros i j ph H. rewrite nth_error_map in H. destruct (nth_error js i); [|discriminate]. cbn in H. injection H as <- <-.
    cbn. unfold untouched. destruct (j_target j0); auto.
Qed.

Lemma open_fails_frame : forall w p, w_dirs w = w_dirs w0 -> w_bad w = w_bad w0 -> open_fails w p = open_fails w0 p.
Proof. intros w p D B. unfold open_fails. rewrite D, B. reflexivity. Qed.

(** a step of one task keeps the state of the others *)
Lemma task_inv_ext : forall (al : Prop) j ph w w',
  match j_target j with Nowhere => True | Screen => al -> w_stdout w' = w_stdout w | ToFile p _ => w_files w' p = w_files w p end ->
  task_inv al j ph w -> task_inv al j ph w'.
Proof.
  intros al j ph w w' H I.
  assert (U : untouched j al w -> untouched j al w').
  { unfold untouched. destruct (j_target j); [auto| |congruence]. intros X Y. rewrite H by exact Y. apply X. exact Y. }
  assert (W : forall a, wrote j al a w -> wrote j al a w').
  { intros a. unfold wrote. destruct (j_target j); [auto| |congruence]. intros X Y. rewrite H by exact Y. apply X. exact Y. }
  destruct ph as [|pos rest|r]; cbn in *.
  - auto.
  - destruct I as (a & I1 & I2 & I3 & I4). exists a. auto.
  - destruct I as [I|[(I1 & I2)|(I1 & I2 & a & b & I3 & I4 & I5)]]; [auto|right; left; auto|right; right].
    split; [exact I1|]. split; [exact I2|]. exists a, b. auto.
Qed.

Lemma event_inv : forall e js ts w ts' w', apart js -> (clean -> forall i, e <> Fault i) -> inv js ts w ->
  event_step e ts w = (ts', w') -> inv js ts' w'.
Proof.
  intros e js ts w ts' w' Ap Cl (M & D & B & O & (x & Sc) & Ns & T) E. unfold event_step in E.
  assert (Am : exists i am, (match e with Go i n => (i, Some n) | Fault i => (i, None) end) = (i, am) /\ (am = None -> ~ clean)).
  { destruct e as [i n|i]; [exists i, (Some n)|exists i, None]; (split; [reflexivity|]); [discriminate|]. intros _ C. apply (Cl C i). reflexivity. }
  destruct Am as (i & am & Ea & Cl'). rewrite Ea in E. clear Ea Cl.
  destruct (nth_error ts i) as [[j ph]|] eqn:Ei; [|injection E as <- <-; unfold inv; eauto 10].
  destruct (task_step j ph am w) as [ph1 w1] eqn:St. injection E as <- <-.
  assert (Ej : nth_error js i = Some j). { rewrite <- M. apply (nth_job _ _ _ _ Ei). }
  pose proof (T i j ph Ei) as Ti.
  (* the effect on the world *)
  assert (Ef : w1 = w \/ (exists p app, j_target j = ToFile p app /\ w1 = w_open p w) \/ exists pos s, w1 = put (j_target j) pos s w).
  { unfold task_step in St. destruct ph as [|pos rest|r].
    - destruct (j_target j) as [| |p app] eqn:Tg; [injection St as <- <-; auto..|]. destruct am; [|injection St as <- <-; auto].
      destruct (open_fails w p); injection St as <- <-; [auto|]. right. left. exists p, app. auto.
    - destruct rest as [|ch rest]; [injection St as <- <-; auto|]. destruct am; injection St as <- <-; [|auto]. right. right. eauto.
    - injection St as <- <-. auto. }
  assert (Fr : w_dirs w1 = w_dirs w /\ w_bad w1 = w_bad w /\ (forall p, (forall app, j_target j <> ToFile p app) -> w_files w1 p = w_files w p) /\
     exists s, w_stdout w1 = w_stdout w ++ s /\ (j_target j <> Screen -> s = "")).
  { destruct Ef as [->|[(p & app & Tg & ->)|(pos & s & ->)]].
    - repeat match goal with |- _ /\ _ => split end; auto. exists "". rewrite app_nil_s. auto.
    - cbn. repeat match goal with |- _ /\ _ => split end; auto.
      + intros q H. destruct (String.eqb_spec q p) as [->|]; [|reflexivity]. destruct (H app Tg).
      + exists "". rewrite app_nil_s. auto.
    - destruct (put_frame (j_target j) pos s w) as (F1 & F2 & F3). split; [exact F1|]. split; [exact F2|]. split; [intros p H; apply put_other; exact H|].
      rewrite F3. destruct (j_target j); [exists ""|exists s|exists ""]; rewrite ?app_nil_s; split; auto; congruence. }
  destruct Fr as (F1 & F2 & F3 & s & F4 & F5).
  unfold inv. split; [|split; [congruence|split; [congruence|split; [|split; [|split]]]]].
  - rewrite <- M. clear - Ei. revert i Ei. induction ts as [|t ts IH]; intros [|i] Ei; cbn in *; try discriminate; [injection Ei as ->; reflexivity|].
    f_equal. apply IH. exact Ei.
  - intros p H. rewrite F3; [apply O; exact H|]. intros app. apply (H j app). apply (nth_error_In _ _ Ej).
  - exists (x ++ s). rewrite F4, Sc, app_assoc_s. reflexivity.
  - intros H. rewrite F4, F5, app_nil_s; [apply Ns; exact H|]. apply H. apply (nth_error_In _ _ Ej).
  - intros k jk phk Hk. rewrite nth_error_upd in Hk. destruct (Nat.eqb_spec i k) as [<-|Ne].
    + rewrite Ei in Hk. injection Hk as <- <-. clear F1 F2 F3 F4 F5 s Ef x Sc Ns O.
      unfold task_step in St. destruct ph as [|pos rest|r].
      * cbn [task_inv] in Ti. destruct (j_target j) as [| |p app] eqn:Tg.
        -- injection St as <- <-. left. auto.
        -- injection St as <- <-. exists "". unfold wrote, opens, untouched in *. rewrite Tg in *. rewrite app_nil_s.
           repeat match goal with |- _ /\ _ => split end; auto; discriminate.
        -- destruct am; [|injection St as <- <-; right; left; split; [exact Ti|]; split; [reflexivity|]; intros C; destruct (Cl' eq_refl C)].
           destruct (open_fails w p) eqn:Op; injection St as <- <-.
           ++ right. left. split; [exact Ti|]. split; [reflexivity|]. intros _. unfold opens. rewrite Tg, <- (open_fails_frame w p D B), Op. discriminate.
           ++ exists "". unfold wrote, opens, untouched in *. rewrite Tg in *. rewrite <- Ti.
              split; [reflexivity|]. split; [reflexivity|]. split; [apply open_overlay|]. split; [rewrite <- (open_fails_frame w p D B); exact Op|discriminate].
      * destruct Ti as (a & T1 & T2 & T3 & T4 & T5). destruct rest as [|ch rest].
        -- injection St as <- <-. right. right. split; [exact T5|]. split; [exact T4|]. exists a, "". split; [exact T1|]. split; [exact T3|]. left. auto.
        -- destruct am as [n|]; injection St as <- <-.
           ++ set (s := str_take (S n) (String ch rest)). exists (a ++ s). rewrite app_assoc_s. cbn [task_inv].
              change (str_drop n rest) with (str_drop (S n) (String ch rest)). unfold s at 1. rewrite take_drop.
              split; [exact T1|]. split; [rewrite length_app_s; subst pos; reflexivity|]. split; [|auto].
              unfold wrote in *. destruct (j_target j) as [| |p app]; [auto| |].
              ** intros Al. cbn. rewrite T3 by exact Al. rewrite app_assoc_s. reflexivity.
              ** subst pos. apply put_overlay. exact T3.
           ++ right. right. split; [exact T5|]. split; [exact T4|]. exists a, (String ch rest). split; [exact T1|]. split; [exact T3|]. right.
              split; [apply Cl'; reflexivity|reflexivity].
      * injection St as <- <-. exact Ti.
    + apply (task_inv_ext (alone js) jk phk w w1); [|apply (T k jk phk Hk)].
      assert (Ek : nth_error js k = Some jk). { rewrite <- M. apply (nth_job _ _ _ _ Hk). }
      destruct (j_target jk) as [| |p app] eqn:Tg; [exact I| |].
      * intros Al. rewrite F4, F5, app_nil_s; [reflexivity|]. intros Q. apply Ne. apply (Al i k j jk Ej Ek Q Tg).
      * apply F3. intros app' Q. apply (Ap i k j jk p app' app Ne Ej Ek Q Tg).
Qed.

Lemma execute_inv : forall es js ts w ts' w', apart js -> (clean -> no_fault es) -> inv js ts w -> execute es ts w = (ts', w') -> inv js ts' w'.
Proof.
  induction es as [|e es IH]; intros js ts w ts' w' Ap Cl I E; cbn in E; [injection E as <- <-; exact I|].
  destruct (event_step e ts w) as [ts1 w1] eqn:S. apply (IH js ts1 w1 ts' w' Ap); [|apply (event_inv e js ts w ts1 w1 Ap)|exact E]; auto.
  - intros C i Hi. apply (Cl C i). right. exact Hi.
  - intros C i ->. apply (Cl C i). left. reflexivity.
Qed.
End Inv.

(** ** Progress *)
Definition left_over (t : task) : nat :=
  match snd t with Waiting => 2 + String.length (j_text (fst t)) | Writing _ rest => 1 + String.length rest | Ended _ => 0 end.

Lemma execute_progress : forall es ts w ts' w' i j ph, execute es ts w = (ts', w') -> nth_error ts i = Some (j, ph) ->
  exists ph', nth_error ts' i = Some (j, ph') /\ (left_over (j, ph') <= left_over (j, ph) - turns i es)%nat.
Proof.
  induction es as [|e es IH]; intros ts w ts' w' i j ph E H; cbn in E; [injection E as <- <-; exists ph; split; [exact H|]; cbn; lia|].
  destruct (event_step e ts w) as [ts1 w1] eqn:St.
  assert (G : exists ph1, nth_error ts1 i = Some (j, ph1) /\ (left_over (j, ph1) <= left_over (j, ph) - (if Nat.eqb (event_task e) i then 1 else 0))%nat).
  { unfold event_step in St.
    assert (Am : exists k am, (match e with Go i n => (i, Some n) | Fault i => (i, None) end) = (k, am) /\ event_task e = k) by (destruct e; eauto).
    destruct Am as (k & am & Ea & Ek). rewrite Ea in St. rewrite Ek. clear Ea Ek. destruct (nth_error ts k) as [[jk pk]|] eqn:Hk.
    - destruct (task_step jk pk am w) as [ph2 w2] eqn:T. injection St as <- <-. destruct (Nat.eqb_spec k i) as [->|Ne].
      + rewrite H in Hk. injection Hk as <- <-. exists ph2. rewrite nth_error_upd, Nat.eqb_refl, H. split; [reflexivity|].
        unfold task_step in T. unfold left_over; cbn [fst snd]. destruct ph as [|pos rest|r].
        * destruct (j_target j); [injection T as <- <-; lia..|]. destruct am; [destruct (open_fails w path)|]; injection T as <- <-; lia.
        * destruct rest as [|ch rest]; [injection T as <- <-; cbn; lia|]. destruct am; injection T as <- <-; cbn [String.length]; [rewrite length_drop|]; cbn; lia.
        * injection T as <- <-. lia.
      + exists ph. rewrite nth_error_upd. destruct (Nat.eqb_spec k i); [contradiction|]. split; [exact H|lia].
    - injection St as <- <-. exists ph. split; [exact H|]. destruct (Nat.eqb_spec k i) as [->|]; [congruence|lia]. }
  destruct G as (ph1 & G1 & G2). destruct (IH ts1 w1 ts' w' i j ph1 E G1) as (ph2 & K1 & K2). exists ph2. split; [exact K1|].
  unfold turns in *. cbn [filter]. destruct (Nat.eqb (event_task e) i); cbn [List.length]; lia.
Qed.

(** ** Outputs *)
Section Outputs.
Variable A : Num.
Variable fmt : nat -> nF A -> string.

Lemma emit_rest_ok : forall (o : output A) j l txt, rest_of_line fmt o j l = Ok txt <-> emit_rest fmt o j l = (txt, Ok tt).
Proof.
  intros o j l. induction l as [|d l IH]; intros txt; cbn [rest_of_line emit_rest]; [split; congruence|].
  unfold emit_data. destruct (format_data fmt o d j) as [s|e| |]; cbn [bind]; unfold then_write; cbn [fst snd]; try (split; discriminate).
  destruct (rest_of_line fmt o j l) as [r|e| |] eqn:R; destruct (emit_rest fmt o j l) as [t x] eqn:X; cbn [bind fst snd].
  - pose proof (proj1 (IH r) eq_refl) as Q. injection Q as -> ->. cbn [String.append]. split; congruence.
  - split; [discriminate|]. intros Q. exfalso. injection Q as _ ->. pose proof (proj2 (IH t) eq_refl). discriminate.
  - split; [discriminate|]. intros Q. exfalso. injection Q as _ ->. pose proof (proj2 (IH t) eq_refl). discriminate.
  - split; [discriminate|]. intros Q. exfalso. injection Q as _ ->. pose proof (proj2 (IH t) eq_refl). discriminate.
Qed.

Lemma emit_line_ok : forall (o : output A) j txt, line fmt o j = Ok txt <-> emit_line fmt o j = (txt, Ok tt).
Proof.
  intros o j txt. unfold line, emit_line. destruct (o_data o) as [|d l]; [split; cbn; destruct (o_format o); discriminate|].
  unfold emit_data. destruct (format_data fmt o d j) as [s|e| |]; cbn [bind]; unfold then_write; cbn [fst snd]; try (split; discriminate).
  pose proof (emit_rest_ok o j l) as R. destruct (rest_of_line fmt o j l) as [r|e| |]; destruct (emit_rest fmt o j l) as [t x]; cbn [bind fst snd].
  - pose proof (proj1 (R r) eq_refl) as Q. injection Q as -> ->. cbn [fst snd]. split; (intros Q; injection Q as <-; reflexivity).
  - split; [discriminate|]. destruct x as [[]|?| |]; cbn [fst snd]; intros Q; try discriminate Q. exfalso. pose proof (proj2 (R t) eq_refl). discriminate.
  - split; [discriminate|]. destruct x as [[]|?| |]; cbn [fst snd]; intros Q; try discriminate Q. exfalso. pose proof (proj2 (R t) eq_refl). discriminate.
  - split; [discriminate|]. destruct x as [[]|?| |]; cbn [fst snd]; intros Q; try discriminate Q. exfalso. pose proof (proj2 (R t) eq_refl). discriminate.
Qed.

Lemma emit_lines_ok : forall (o : output A) js txt, lines fmt o js = Ok txt <-> emit_lines fmt o js = (txt, Ok tt).
Proof.
  intros o js. induction js as [|j js IH]; intros txt; cbn [lines emit_lines]; [split; congruence|].
  pose proof (emit_line_ok o j) as R. destruct (line fmt o j) as [s|e| |]; destruct (emit_line fmt o j) as [t x]; cbn [bind]; unfold then_write; cbn [fst snd].
  - pose proof (proj1 (R s) eq_refl) as Q. injection Q as -> ->.
    destruct (lines fmt o js) as [r|e| |] eqn:L; destruct (emit_lines fmt o js) as [t2 x2] eqn:X; cbn [bind fst snd].
    + pose proof (proj1 (IH r) eq_refl) as Q. injection Q as -> ->. split; congruence.
    + split; [discriminate|]. intros Q. exfalso. injection Q as _ ->. pose proof (proj2 (IH t2) eq_refl). discriminate.
    + split; [discriminate|]. intros Q. exfalso. injection Q as _ ->. pose proof (proj2 (IH t2) eq_refl). discriminate.
    + split; [discriminate|]. intros Q. exfalso. injection Q as _ ->. pose proof (proj2 (IH t2) eq_refl). discriminate.
  - split; [discriminate|]. destruct x as [[]|?| |]; intros Q; try discriminate Q. exfalso. pose proof (proj2 (R t) eq_refl). discriminate.
  - split; [discriminate|]. destruct x as [[]|?| |]; intros Q; try discriminate Q. exfalso. pose proof (proj2 (R t) eq_refl). discriminate.
  - split; [discriminate|]. destruct x as [[]|?| |]; intros Q; try discriminate Q. exfalso. pose proof (proj2 (R t) eq_refl). discriminate.
Qed.

Lemma emit_ok : forall (o : output A) txt, stream_text fmt o = Ok txt <-> emit_stream fmt o = (txt, Ok tt).
Proof.
  intros o txt. unfold stream_text, emit_stream. pose proof (emit_lines_ok o (seq 0 (o_rows o))) as R.
  destruct (lines fmt o (seq 0 (o_rows o))) as [r|e| |]; destruct (emit_lines fmt o (seq 0 (o_rows o))) as [t x]; cbn [bind]; unfold then_write; cbn [fst snd].
  - pose proof (proj1 (R r) eq_refl) as Q. injection Q as -> ->. split; congruence.
  - split; [discriminate|]. intros Q. exfalso. injection Q as _ ->. pose proof (proj2 (R t) eq_refl). discriminate.
  - split; [discriminate|]. intros Q. exfalso. injection Q as _ ->. pose proof (proj2 (R t) eq_refl). discriminate.
  - split; [discriminate|]. intros Q. exfalso. injection Q as _ ->. pose proof (proj2 (R t) eq_refl). discriminate.
Qed.

Lemma target_file : forall k (o : output A) p a, j_target (output_job fmt k o) = ToFile p a -> o_stream o = File /\ p = out_path o k /\ a = appends o.
Proof. intros k o p a H. unfold output_job in H. cbn [j_target] in H. destruct (o_stream o); [discriminate|]. injection H as <- <-. auto. Qed.

Lemma target_screen : forall k (o : output A), j_target (output_job fmt k o) = Screen <-> o_stream o = Stdout.
Proof. intros k o. unfold output_job. cbn [j_target]. destruct (o_stream o); split; congruence. Qed.

Lemma file_target : forall k (o : output A), o_stream o = File -> j_target (output_job fmt k o) = ToFile (out_path o k) (appends o).
Proof. intros k o H. unfold output_job. cbn [j_target]. rewrite H. reflexivity. Qed.

Lemma target_some : forall k (o : output A), j_target (output_job fmt k o) <> Nowhere.
Proof. intros k o. unfold output_job. cbn [j_target]. destruct (o_stream o); discriminate. Qed.

Lemma apart_outputs : forall k (os : list (output A)), separate os -> apart (map (output_job fmt k) os).
Proof.
  intros k os Sep i l ji jl p a b Ne Hi Hl Ti Tl. rewrite nth_error_map in Hi, Hl.
  destruct (nth_error os i) as [oi|] eqn:Ei; [|discriminate]. destruct (nth_error os l) as [ol|] eqn:El; [|discriminate].
  cbn in Hi, Hl. injection Hi as <-. injection Hl as <-. apply target_file in Ti, Tl. destruct Ti as (F1 & -> & _), Tl as (F2 & Q & _).
  apply (Sep i l oi ol Ne Ei El F1 F2 k k Q).
Qed.

Lemma alone_outputs : forall k (os : list (output A)), one_screen os -> alone (map (output_job fmt k) os).
Proof.
  intros k os One i l ji jl Hi Hl Ti Tl. rewrite nth_error_map in Hi, Hl.
  destruct (nth_error os i) as [oi|] eqn:Ei; [|discriminate]. destruct (nth_error os l) as [ol|] eqn:El; [|discriminate].
  cbn in Hi, Hl. injection Hi as <-. injection Hl as <-. rewrite target_screen in Ti, Tl. apply (One i l oi ol Ei El Ti Tl).
Qed.

Lemma append_iff : forall o : output A, appends o = true <-> continues o.
Proof. intros o. unfold appends, continues. destruct (o_conv o), (o_first o); cbn; intuition congruence. Qed.

(** the tasks of a call after any events *)
Lemma call_inv : forall (clean : Prop) wr w es tk w', separate (wr_outputs wr) -> (clean -> no_fault es) ->
  execute es (write_tasks fmt wr) w = (tk, w') ->
  inv w clean (map (output_job fmt (wr_counter wr)) (wr_outputs wr)) tk w'.
Proof.
  intros clean wr w es tk w' Sep Cl E. unfold write_tasks in E.
  apply (execute_inv w clean es _ _ w tk w' (apart_outputs _ _ Sep) Cl (inv_start w clean _) E).
Qed.

Lemma task_of : forall w clean wr tk w' i o, inv w clean (map (output_job fmt (wr_counter wr)) (wr_outputs wr)) tk w' ->
  nth_error (wr_outputs wr) i = Some o ->
  exists ph, nth_error tk i = Some (output_job fmt (wr_counter wr) o, ph) /\
    task_inv w clean (alone (map (output_job fmt (wr_counter wr)) (wr_outputs wr))) (output_job fmt (wr_counter wr) o) ph w'.
Proof.
  intros w clean wr tk w' i o (M & _ & _ & _ & _ & _ & T) H.
  assert (X : nth_error (map fst tk) i = Some (output_job fmt (wr_counter wr) o)) by (rewrite M, nth_error_map, H; reflexivity).
  destruct (nth_error tk i) as [[j ph]|] eqn:E.
  - rewrite (nth_job _ _ _ _ E) in X. injection X as ->. exists ph. split; [reflexivity|]. apply (T i _ ph E).
  - exfalso. apply nth_error_None in E. assert (L : (i < List.length (map fst tk))%nat) by (apply nth_error_Some; rewrite X; discriminate).
    rewrite map_length in L. exact (proj1 (Nat.lt_nge _ _) L E).
Qed.

Lemma tasks_length : forall w clean wr tk w', inv w clean (map (output_job fmt (wr_counter wr)) (wr_outputs wr)) tk w' -> List.length tk = List.length (wr_outputs wr).
Proof. intros w clean wr tk w' (M & _). apply (f_equal (@List.length job)) in M. rewrite !map_length in M. exact M. Qed.
End Outputs.
