(** C63, C64: the numbers in outputs. *)

From Coq Require Import List ZArith NArith QArith Reals Lra Lia String Ascii Bool.
From Flocq Require Import Core BinarySingleNaN.
From Verif Require Import Base Num B64 Config Mesh State NumFlux Time Writer Runner Sci SpecWriter SpecSci
  MeshProofs TextProofs TableProofs WriterProofs RunProofs WriterRun SciProofs P_Writer.
Import ListNotations.
Local Open Scope string_scope.

(** ** C63 Printed numbers *)

(** A finite double is printed, with precision [p], as a decimal number with
    [p + 1] significant digits.  No such number is closer to the double, so the
    relative error is at most half a unit of the last digit. *)
Theorem C63_nearest : forall p (x : b64), is_finite x = true ->
  exists r, read_number (sci p x) = Some r /\
    (exists d k : Z, r = (IZR d * powerRZ 10 k)%R /\ (Z.abs d < 10 ^ (Z.of_nat p + 1))%Z) /\
    (forall d k : Z, (Z.abs d < 10 ^ (Z.of_nat p + 1))%Z -> (Rabs (r - B2R x) <= Rabs (IZR d * powerRZ 10 k - B2R x))%R) /\
    (Rabs (r - B2R x) <= / 2 * powerRZ 10 (- Z.of_nat p) * Rabs (B2R x))%R.
Proof.
  intros p x Hx. exists (near10 p (B2R x)). split; [apply read_sci; exact Hx|]. pose proof (prec10 p) as Pp.
  destruct (round_N_pt r10 (FLX_exp (Z.of_nat p + 1)) (fun n => negb (Z.even n)) (B2R x)) as (F & N).
  split; [|split].
  - apply FLX_format_generic in F; [|exact Pp]. destruct F as [[d k] E L]. exists d, k. split; [|exact L].
    unfold near10. rewrite E. unfold F2R. cbn [Fnum Fexp]. rewrite bpow10. reflexivity.
  - intros d k L. apply N. apply generic_format_FLX. exists (Float r10 d k); [|exact L]. unfold F2R. cbn [Fnum Fexp]. rewrite bpow10. reflexivity.
  - rewrite <- bpow10. apply near10_err.
Qed.
Print Assumptions C63_nearest.

(** Ties go to the even digit: the number read back is Flocq's rounding to
    nearest, ties to even, in radix 10 with [p + 1] digits. *)
Theorem C63_ties_to_even : forall p (x : b64), is_finite x = true ->
  read_number (sci p x) = Some (round r10 (FLX_exp (Z.of_nat p + 1)) ZnearestE (B2R x)).
Proof. intros p x Hx. rewrite (read_sci p x Hx). reflexivity. Qed.
Print Assumptions C63_ties_to_even.
(** 2.5 and 3.5 with no decimals. *)
Example C63_ties_example : sci 0 (Bdiv mode_NE (b_ofZ 5) (b_ofZ 2)) = "2e0" /\ sci 0 (Bdiv mode_NE (b_ofZ 7) (b_ofZ 2)) = "4e0".
Proof. split; vm_compute; reflexivity. Qed.

(** With a precision of at least 16 (17 significant digits) the double closest
    to the printed number is the one that was printed, *)
Theorem C63_read_back : forall p (x : b64), (16 <= p)%nat -> is_finite x = true ->
  exists r, read_number (sci p x) = Some r /\ round radix2 (FLT_exp (-1074) 53) ZnearestE r = B2R x.
Proof.
  intros p x Hp Hx. exists (near10 p (B2R x)). split; [apply read_sci; exact Hx|]. apply back; [exact Hp|apply b64_format].
Qed.
Print Assumptions C63_read_back.

(** and different doubles have different texts (also signed zeros, infinities
    and NaN). *)
Lemma sign_of_text : forall p (x : b64), is_nan x = false -> Bsign x = match sci p x with String "-" _ => true | _ => false end.
Proof.
  assert (G : forall s t, (forall u, t <> String "-" u) -> s = match sign_str s ++ t with String "-" _ => true | _ => false end).
  { intros [] t Ht; [reflexivity|]. cbn [sign_str String.append]. destruct t as [|c t]; [reflexivity|]. assert (c <> "-"%char) by (intros ->; exact (Ht t eq_refl)).
    destruct c as [[] [] [] [] [] [] [] []]; try congruence; reflexivity. }
  intros p x Hx. destruct x as [s|s| |s m e B]; try discriminate; cbn [sci Bsign].
  - apply G. apply mant_no_minus. split; [lia|apply Z.pow_pos_nonneg; lia].
  - apply G. intros u. discriminate.
  - destruct (frac m e) as [num den] eqn:F. destruct (frac_spec _ _ _ _ F) as (Hn & Hd & V).
    destruct (sci_digits p num den) as [d k] eqn:S. destruct (sci_digits_spec _ _ _ _ _ Hn Hd S) as (Bd & Er).
    apply G. apply mant_no_minus. assert (0 < 10 ^ Z.of_nat p)%Z by (apply Z.pow_pos_nonneg; lia). lia.
Qed.

Theorem C63_distinct : forall p (x y : b64), (16 <= p)%nat -> sci p x = sci p y -> x = y.
Proof.
  intros p x y Hp E.
  assert (Fn : forall z : b64, is_finite z = true <-> exists r, read_number (sci p z) = Some r).
  { intros z. split; [intros Hz; eexists; apply read_sci; exact Hz|]. intros (r & R). destruct z as [s|s| |s m e B]; try reflexivity; [destruct s; discriminate R|discriminate R]. }
  destruct (is_finite x) eqn:Fx.
  - assert (Fy : is_finite y = true) by (apply Fn; rewrite <- E; apply Fn; exact Fx).
    assert (Nx : is_nan x = false) by (destruct x; try discriminate; reflexivity). assert (Ny : is_nan y = false) by (destruct y; try discriminate; reflexivity).
    apply B2R_Bsign_inj; [exact Fx|exact Fy| |rewrite (sign_of_text p x Nx), (sign_of_text p y Ny), E; reflexivity].
    rewrite <- (back p (B2R x) Hp (b64_format x)), <- (back p (B2R y) Hp (b64_format y)). f_equal.
    pose proof (read_sci p x Fx) as Rx. pose proof (read_sci p y Fy) as Ry. rewrite E in Rx. congruence.
  - assert (Fy : is_finite y = false). { destruct (is_finite y) eqn:Fy; [|reflexivity]. assert (is_finite x = true) by (apply Fn; rewrite E; apply Fn; exact Fy). congruence. }
    destruct x as [s|s| |s m e B]; try discriminate; destruct y as [s'|s'| |s' m' e' B']; try discriminate; try reflexivity; cbn in E; repeat match goal with b : bool |- _ => destruct b end; try discriminate E; reflexivity.
Qed.
Print Assumptions C63_distinct.

(** 16 is the least such precision; with the precision of the default file
    output, 7, many doubles share a text. *)
Theorem C63_digits_refuted : exists x y : b64, is_finite x = true /\ is_finite y = true /\ x <> y /\ sci 7 x = sci 7 y /\ sci 15 x = sci 15 y.
Proof.
  exists (b_ofZ 1000), (Bsucc (b_ofZ 1000)). split; [reflexivity|]. split; [reflexivity|].
  split; [intros E; apply (f_equal (sci 16)) in E; vm_compute in E; discriminate E|]. split; vm_compute; reflexivity.
Qed.
Print Assumptions C63_digits_refuted.

(** Printed numbers are in the order of the doubles. *)
Theorem C63_order : forall p (x y : b64) r s, is_finite x = true -> is_finite y = true -> (B2R x <= B2R y)%R ->
  read_number (sci p x) = Some r -> read_number (sci p y) = Some s -> (r <= s)%R.
Proof.
  intros p x y r s Fx Fy L Rx Ry. rewrite (read_sci p x Fx) in Rx. rewrite (read_sci p y Fy) in Ry. injection Rx as <-. injection Ry as <-.
  pose proof (prec10 p) as Pp. apply round_le; [apply FLX_exp_valid; exact Pp|apply valid_rnd_N|exact L].
Qed.
Print Assumptions C63_order.

(** These texts contain no separators: the theorems about tables apply to them. *)
Theorem C63_plain : plain sci.
Proof.
  intros p x. assert (G : forall s t, good t -> good (sign_str s ++ t)).
  { intros [] t (T1 & T2); [|split; assumption]. split; [discriminate|]. split; [|exact T2]. repeat split; discriminate. }
  assert (M : forall d t, (0 <= d < 10 ^ (Z.of_nat p + 1))%Z -> plain_text t -> good (mant_str p d ++ t)).
  { intros d t D T. split; [discriminate|]. apply plain_app. split; [|exact T]. unfold mant_str.
    change (String (digit_char (d / 10 ^ Z.of_nat p)) ?u) with (String (digit_char (d / 10 ^ Z.of_nat p)) "" ++ u). apply plain_app. split.
    - apply (digits_plain _ 0%N (Z.to_N (d / 10 ^ Z.of_nat p))). cbn [number]. rewrite (digit_char_spec _ (mant_digits p d D)). reflexivity.
    - destruct p as [|p']; [exact Logic.I|]. split; [repeat split; discriminate|]. eapply digits_plain. apply (number_digits (S p') _ 0%N). apply Z.mod_pos_bound. apply Z.pow_pos_nonneg; lia. }
  assert (Ex : forall k, plain_text ("e" ++ exp_str k)).
  { intros k. split; [repeat split; discriminate|]. change (plain_text (exp_str k)). unfold exp_str. apply plain_app. split; [|apply good_dec]. destruct (k <? 0)%Z; [apply plainb_ok; reflexivity|exact Logic.I]. }
  destruct x as [s|s| |s m e B]; cbn [sci].
  - apply G. apply M; [split; [lia|apply Z.pow_pos_nonneg; lia]|]. exact (Ex 0%Z).
  - apply G. apply good_lit. reflexivity.
  - apply good_lit. reflexivity.
  - destruct (frac m e) as [num den] eqn:F. destruct (frac_spec _ _ _ _ F) as (Hn & Hd & V).
    destruct (sci_digits p num den) as [d k] eqn:S. destruct (sci_digits_spec _ _ _ _ _ Hn Hd S) as (Bd & Er).
    apply G. apply M; [|apply Ex]. assert (0 < 10 ^ Z.of_nat p)%Z by (apply Z.pow_pos_nonneg; lia). lia.
Qed.
Print Assumptions C63_plain.

(** Together with C48: from a vector output file all finite values of the
    arrays can be read again, with a relative error of half a unit of the last
    digit, and without error if the precision is at least 16. *)
Theorem C63_written : forall bln bexp validation S mc (m : mesh (B64n bln bexp)) mx c o ts v o1 k w o2 w2,
  mesh_new validation S mc = Ok m -> (5 <= S)%nat -> oc_validate c = Ok tt -> oc_conv c = Vector -> oc_stream c = File ->
  same_output (output_build S c m mx) o -> map d_name (o_data o) = oc_names c ->
  output_update m v ts o = (o1, Ok tt) -> w_files w (file_of mx c k) = None -> output_write (sci : nat -> nF (B64n bln bexp) -> string) k o1 w = (o2, w2, Ok tt) ->
  exists txt head rows, w_files w2 (file_of mx c k) = Some txt /\ parse (oc_format c) txt = head :: rows /\
    forall n i col name arr, nth_error (cells S (oc_ghost c)) n = Some i -> nth_error (oc_names c) col = Some name -> array m v name = Some arr ->
      forall x : b64, x = at1 (n0 (B64n bln bexp)) arr i -> is_finite x = true ->
      exists row cell r, nth_error rows n = Some row /\ nth_error row col = Some cell /\ read_number cell = Some r /\
        (Rabs (r - B2R x) <= / 2 * powerRZ 10 (- Z.of_nat (oc_precision c)) * Rabs (B2R x))%R /\
        ((16 <= oc_precision c)%nat -> round radix2 (FLT_exp (-1074) 53) ZnearestE r = B2R x).
Proof.
  intros bln bexp validation S mc m mx c o ts v o1 k w o2 w2 M HS V Cv Sm Sa Nm U Fr H.
  destruct (C48_written (B64n bln bexp) sci validation S mc m mx c o ts v o1 k w o2 w2 C63_plain M HS V Cv Sm Sa Nm U Fr H) as (txt & head & rows & T & P & _ & C).
  exists txt, head, rows. split; [exact T|]. split; [exact P|]. intros n i col name arr Hn Hc Ha x -> Fx.
  destruct (C n i col name arr Hn Hc Ha) as (row & R1 & R2). exists row, (sci (oc_precision c) (at1 (n0 (B64n bln bexp)) arr i)), (near10 (oc_precision c) (B2R (at1 (n0 (B64n bln bexp)) arr i : b64))).
  split; [exact R1|]. split; [exact R2|]. split; [apply read_sci; exact Fx|]. split; [rewrite <- bpow10; apply near10_err|]. intros Hp. apply back; [exact Hp|apply b64_format].
Qed.
Print Assumptions C63_written.

(** C63 example: one third, the smallest subnormal number, a carry and a tie *)
Example C63_example :
  sci 7 (b_div (b_ofZ 1) (b_ofZ 3)) = "3.3333333e-1" /\ sci 16 (b_div (b_ofZ 1) (b_ofZ 10)) = "1.0000000000000001e-1" /\
  sci 3 (Bldexp mode_NE Bone (-1074)) = "4.941e-324" /\ sci 3 (Bopp Bmax_float) = "-1.798e308" /\
  sci 0 (b_div (b_ofZ 99) (b_ofZ 10)) = "1e1" /\ sci 0 (b_div (b_ofZ 25) (b_ofZ 10)) = "2e0" /\
  sci 2 (B754_zero true) = "-0.00e0" /\ read_number "3.3333333e-1" = Some (33333333 * powerRZ 10 (-8))%R.
Proof. repeat match goal with |- _ /\ _ => split end; vm_compute; reflexivity. Qed.

(** C63 example: the hypotheses of C63_written, on any mesh with six cells *)
Example C63_written_example : forall bln bexp validation mc (m : mesh (B64n bln bexp)), mesh_new validation 6 mc = Ok m ->
  let c := mkOC File CSV Vector "out" true "flow" 5 false true [XiCent; DPrim 0; DT] in
  exists ts v o1 o2 w2, output_update m v ts (output_build 6 c m 5) = (o1, Ok tt) /\
    output_write (sci : nat -> nF (B64n bln bexp) -> string) 0 o1 (mkWorld (fun _ => None) (fun _ => true) "" (fun _ => false)) = (o2, w2, Ok tt) /\
    oc_validate c = Ok tt /\ map d_name (o_data (output_build 6 c m 5)) = oc_names c.
Proof.
  intros bln bexp validation mc m M c. destruct (demo_update (B64n bln bexp) validation mc m M) as (o1 & U & W). destruct (text_wf (B64n bln bexp) sci Isot 6 o1 W) as (txt & T).
  assert (E : o_stream o1 = File). { pose proof (update_holds _ _ _ _ _ _ U) as (_ & d & ->). reflexivity. }
  do 2 eexists. exists o1. unfold output_write. rewrite E, T. do 2 eexists. split; [exact U|].
  split; [unfold open_fails; cbn; destruct (parent _); reflexivity|]. split; reflexivity.
Qed.

(** ** C64 Aligned columns *)

Lemma substring_app : forall a b n, substring (String.length a) n (a ++ b) = substring 0 n b.
Proof. induction a; intros b n; [reflexivity|]. cbn. apply IHa. Qed.
Lemma substring_all : forall a b, substring 0 (String.length a) (a ++ b) = a.
Proof. induction a; intros b; cbn; [destruct b; reflexivity|]. rewrite IHa. reflexivity. Qed.

Lemma join_at : forall w l c x, (forall y, In y l -> String.length y = w) -> nth_error l c = Some x ->
  forall b, substring (String.length b + c * (w + 1)) w (b ++ join " " l) = x.
Proof.
  intros w. induction l as [|y l IH]; intros c x H E b; [destruct c; discriminate|].
  pose proof (H y ltac:(left; reflexivity)) as Hy. destruct c as [|c]; cbn [nth_error] in E.
  - injection E as <-. rewrite Nat.mul_0_l, Nat.add_0_r, substring_app. destruct l as [|z l]; [cbn [join]|rewrite join_cons].
    + rewrite <- (app_nil_s y) at 1. rewrite <- Hy. apply substring_all.
    + rewrite <- Hy. apply substring_all.
  - destruct l as [|z l]; [destruct c; discriminate|]. rewrite join_cons. 
    change (String " " (join " " (z :: l))) with (" " ++ join " " (z :: l)). rewrite <- !app_assoc_s.
    replace (String.length b + Datatypes.S c * (w + 1))%nat with (String.length ((b ++ y) ++ " ") + c * (w + 1))%nat by (rewrite !length_app_s, Hy; cbn [String.length]; lia).
    apply IH; [|exact E]. intros u Hu. apply H. right. exact Hu.
Qed.

Lemma join_length : forall w l, l <> [] -> (forall y, In y l -> String.length y = w) -> (String.length (join " " l) + 1 = List.length l * (w + 1))%nat.
Proof.
  intros w. induction l as [|y l IH]; intros Hl H; [congruence|]. pose proof (H y ltac:(left; reflexivity)) as Hy. destruct l as [|z l].
  - cbn [join List.length]. lia.
  - rewrite join_cons, length_app_s. cbn [String.length]. assert (E := IH ltac:(discriminate) ltac:(intros u Hu; apply H; right; exact Hu)). cbn [List.length] in E |- *. lia.
Qed.

Section Align.
Variable A : Num.
Variable fmt : nat -> nF A -> string.
Hypothesis Hf : plain fmt.

(** the lines of a text in columns *)
Lemma lines_raw : forall o m ts v ns js t T, o_format o = TSV -> styled o -> holds_all m ts v o ns -> lines fmt o js = Ok t -> complete T ->
  text_lines (T ++ t) = (text_lines T ++ map (fun r => (" " ++ join " " (map (pad_left " " (o_width o)) (fields fmt o m ts v ns r)))%string) js)%list.
Proof.
  intros o m ts v ns js. induction js as [|j js IH]; intros t T Ft S H L C; cbn [lines] in L.
  - injection L as <-. cbn [map]. rewrite app_nil_s, app_nil_r. reflexivity.
  - destruct (line fmt o j) as [s|e| |] eqn:L1; cbn [bind] in L; try discriminate.
    destruct (lines fmt o js) as [u|e| |] eqn:L2; cbn [bind] in L; try discriminate. injection L as <-.
    destruct (line_join A fmt o m ts v j ns s H L1) as (Hn & ->). rewrite <- app_assoc_s.
    assert (R : row_ok (fields fmt o m ts v ns j)). { split; [destruct ns; [congruence|discriminate]|]. intros x Hx. apply in_map_iff in Hx. destruct Hx as (y & <- & _). apply good_field. exact Hf. }
    pose proof (no_break_join A o _ S R) as NB.
    rewrite (IH u _ Ft S H eq_refl) by (apply complete_app; apply complete_line).
    destruct S as (S1 & S2 & S3). rewrite Ft in S1 |- *. rewrite S1 in NB |- *.
    rewrite text_lines_app by exact C. unfold newline. change (ascii_of_nat 10) with line_break.
    rewrite text_lines_cons by (apply no_char_app; split; [split; [discriminate|exact Logic.I]|exact NB]). rewrite text_lines_nil, <- app_assoc. reflexivity.
Qed.
End Align.

(** In a vector output in TSV format whose texts are not longer than the
    column width the columns line up: all lines have the same length, and the
    text of column [col] stands, padded with blanks on the left, at the same
    place in every line. *)
Theorem C64_aligned : forall A (fmt : nat -> nF A -> string) validation S mc (m : mesh A) mx c o ts v o1 k w o2 w2,
  plain fmt -> mesh_new validation S mc = Ok m -> (5 <= S)%nat -> oc_validate c = Ok tt -> oc_conv c = Vector -> oc_stream c = File -> oc_format c = TSV ->
  same_output (output_build S c m mx) o -> map d_name (o_data o) = oc_names c ->
  output_update m v ts o = (o1, Ok tt) -> w_files w (file_of mx c k) = None -> output_write fmt k o1 w = (o2, w2, Ok tt) ->
  let wid := Nat.min 12 (oc_precision c + 7) in
  (forall row x, In row (vector_rows fmt S c m ts v) -> In x row -> (String.length x <= wid)%nat) ->
  exists txt, w_files w2 (file_of mx c k) = Some txt /\ List.length (text_lines txt) = List.length (vector_rows fmt S c m ts v) /\
    forall n l row, nth_error (text_lines txt) n = Some l -> nth_error (vector_rows fmt S c m ts v) n = Some row ->
      String.length l = (List.length (oc_names c) * (wid + 1))%nat /\
      forall col x, nth_error row col = Some x -> exists b, substring (1 + col * (wid + 1)) wid l = repeat_char " " b ++ x.
Proof.
  intros A fmt validation S mc m mx c o ts v o1 k w o2 w2 Hf M HS V Cv Hs Ft Sm Nm U Fr H wid Sh. destruct (mesh_dims A _ _ _ _ M) as (_ & D).
  apply update_holds in U. destruct U as (Ho & d & ->). rewrite Nm in Ho. set (o1 := o_set_data d o) in *.
  assert (Sm1 : same_output (output_build S c m mx) o1). { destruct Sm as (d0 & b0 & ->). exists d, b0. reflexivity. }
  apply output_write_cases in H. destruct H as [(H & _)|(_ & _ & txt & T & H)]; [congruence|]. exists txt.
  assert (E0 : o_stream o1 = oc_stream c /\ o_conv o1 = oc_conv c /\ o_format o1 = oc_format c /\ o_rows o1 = o_rows (output_build S c m mx) /\ o_width o1 = wid)
    by (destruct Sm1 as (d1 & b1 & ->); cbn; rewrite Ft; auto).
  destruct E0 as (Es & Ec & Eo & Er & Ew). pose proof (same_styled A _ _ Sm1 (styled_build A S c m mx)) as St.
  destruct (build_rows A S c m mx D HS) as (R1 & _ & _).
  assert (Ne : oc_names c <> []) by (apply (text_names A fmt m o1 ts v _ txt Ho T); rewrite Er; exact R1).
  rewrite <- (path_file_of A S m mx c k), <- (same_path A _ _ Sm1 k) in Fr |- *. rewrite Es, Hs in H.
  split; [destruct H as (_ & ->); cbn [w_write w_files]; rewrite String.eqb_refl, Fr; reflexivity|].
  pose proof (build_table A fmt S c m mx ts v D HS Cv) as Bt. cbv zeta in Bt. rewrite (names_build A S c m mx) in Bt.
  rewrite (map_ext (fields fmt (output_build S c m mx) m ts v (oc_names c)) (fields fmt o1 m ts v (oc_names c))) in Bt by (intros r; symmetry; apply fields_same; exact Sm1).
  rewrite <- Er in Bt. rewrite <- Bt in Sh |- *.
  (* the lines *)
  unfold stream_text in T. rewrite Ec, Cv in T. destruct (lines fmt o1 (seq 0 (o_rows o1))) as [b|e| |] eqn:L; cbn [bind] in T; try discriminate. injection T as <-.
  rewrite (lines_raw A fmt Hf o1 m ts v (oc_names c) _ b _ (eq_trans Eo Ft) St Ho L) by (apply (header_table A o1 (oc_names c) St); [apply (holds_names _ _ _ _ _ _ Ho)|exact Ne]).
  rewrite (header_join A o1 (oc_names c) (holds_names _ _ _ _ _ _ Ho) Ne).
  assert (Rn : row_ok (map name_str (oc_names c))). { split; [destruct (oc_names c); [congruence|discriminate]|]. intros x Hx. apply in_map_iff in Hx. destruct Hx as (y & <- & _). apply good_name. }
  pose proof (no_break_join A o1 _ St Rn) as NB. destruct St as (S1 & S2 & _). rewrite Eo, Ft in S1, S2. rewrite S1 in NB |- *. rewrite S2, Ew in *.
  unfold newline. change (ascii_of_nat 10) with line_break. rewrite text_lines_cons by (apply no_char_app; split; [split; [discriminate|exact Logic.I]|exact NB]).
  rewrite text_lines_nil. cbn [app]. split; [cbn [List.length]; rewrite !map_length; reflexivity|].
  assert (G : forall (a : ascii) row, In row (map name_str (oc_names c) :: map (fields fmt o1 m ts v (oc_names c)) (seq 0 (o_rows o1))) -> List.length row = List.length (oc_names c) ->
     String.length (String a "" ++ join " " (map (pad_left " " wid) row)) = (List.length (oc_names c) * (wid + 1))%nat /\
     forall col x, nth_error row col = Some x -> exists b, substring (1 + col * (wid + 1)) wid (String a "" ++ join " " (map (pad_left " " wid) row)) = repeat_char " " b ++ x).
  { intros a row Hr Lr. assert (Pw : forall y, In y (map (pad_left " " wid) row) -> String.length y = wid).
    { intros y Hy. apply in_map_iff in Hy. destruct Hy as (x & <- & Hx). rewrite length_pad. pose proof (Sh row x Hr Hx). lia. }
    split.
    - rewrite length_app_s. cbn [String.length]. rewrite <- Lr, <- (map_length (pad_left " " wid) row), <- (join_length wid); [lia| |exact Pw].
      destruct row; [cbn in Lr; destruct (oc_names c); [congruence|discriminate Lr]|discriminate].
    - intros col x Hx. exists (wid - String.length x)%nat. exact (join_at wid (map (pad_left " " wid) row) col _ Pw (map_nth_error _ _ _ Hx) (String a "")). }
  intros [|n] l row Hl Hr; cbn [nth_error] in Hl, Hr.
  - injection Hl as <-. injection Hr as <-. apply G; [left; reflexivity|apply map_length].
  - destruct (nth_error (seq 0 (o_rows o1)) n) as [i|] eqn:Ei.
    + rewrite (map_nth_error _ _ _ Ei) in Hl. rewrite (map_nth_error _ _ _ Ei) in Hr. injection Hl as <-. injection Hr as <-. apply G; [right; apply in_map; eapply nth_error_In; exact Ei|apply map_length].
    + apply nth_error_None in Ei. assert (X : nth_error (map (fields fmt o1 m ts v (oc_names c)) (seq 0 (o_rows o1))) n = None) by (apply nth_error_None; rewrite map_length; exact Ei). congruence.
Qed.
Print Assumptions C64_aligned.

(** With [sci] this is the case for precisions up to 5 if the exponents have at
    most two digits: *)
Theorem C64_fits : forall p (x : b64), (p <= 5)%nat -> is_finite x = true ->
  (B2R x = 0 \/ powerRZ 10 (-99) <= Rabs (B2R x) <= powerRZ 10 99)%R -> (String.length (sci p x) <= Nat.min 12 (p + 7))%nat.
Proof.
  intros p x Hp Fx H. replace (Nat.min 12 (p + 7)) with (p + 7)%nat by lia.
  assert (Ls : forall s, (String.length (sign_str s) <= 1)%nat) by (intros []; cbn; lia).
  assert (Lm : forall d, (String.length (mant_str p d) <= p + 2)%nat).
  { intros d. unfold mant_str. cbn [String.length]. destruct p as [|p']; [cbn; lia|]. cbn [String.length]. rewrite digits_len. lia. }
  destruct x as [s|s| |s m e B]; try discriminate; cbn [sci].
  - rewrite !length_app_s. specialize (Ls s). specialize (Lm 0%Z). cbn [String.length]. lia.
  - destruct (frac m e) as [num den] eqn:F. destruct (frac_spec _ _ _ _ F) as (Hn & Hd & V).
    destruct (sci_digits p num den) as [d k] eqn:S. destruct (sci_digits_spec _ _ _ _ _ Hn Hd S) as (Bd & Er).
    assert (Hr : (bpow r10 (-99) <= IZR num / IZR den <= bpow r10 99)%R).
    { rewrite V, !bpow10. destruct H as [H|H].
      - exfalso. cbn [B2R] in H. apply eq_0_F2R in H. destruct s; discriminate H.
      - assert (X : Rabs (B2R (B754_finite s m e B : b64)) = F2R (Float radix2 (Zpos m) e)).
        { cbn [B2R]. rewrite <- F2R_Zabs. destruct s; reflexivity. }
        rewrite <- X. exact H. }
    assert (Hk : (-99 <= k <= 99)%Z).
    { pose proof (prec10 p) as Pp. assert (Vx : Valid_exp (FLX_exp (Z.of_nat p + 1))) by (apply FLX_exp_valid; exact Pp).
      assert (N1 : (bpow r10 (-99) <= near10 p (IZR num / IZR den) <= bpow r10 99)%R).
      { unfold near10. assert (Gf : forall q, round r10 (FLX_exp (Z.of_nat p + 1)) ZnearestE (bpow r10 q) = bpow r10 q).
        { intros q. apply round_generic; [apply valid_rnd_N|]. apply generic_format_bpow. unfold FLX_exp. lia. }
        rewrite <- (Gf (-99)%Z), <- (Gf 99%Z). split; apply round_le; try exact Vx; try apply valid_rnd_N; apply Hr. }
      rewrite Er in N1. assert (P10 : (0 < 10 ^ Z.of_nat p)%Z) by (apply Z.pow_pos_nonneg; lia).
      assert (D1 : (bpow r10 (Z.of_nat p) <= IZR d)%R) by (rewrite <- IZR_Zpower by lia; apply IZR_le; exact (proj1 Bd)).
      assert (D2 : (IZR d < bpow r10 (Z.of_nat p + 1))%R) by (rewrite <- IZR_Zpower by lia; apply IZR_lt; exact (proj2 Bd)).
      pose proof (bpow_gt_0 r10 (k - Z.of_nat p)) as Pk.
      split.
      - assert (K : (bpow r10 (-99) < bpow r10 (k + 1))%R).
        { replace (bpow r10 (k + 1)) with (bpow r10 (Z.of_nat p + 1) * bpow r10 (k - Z.of_nat p))%R by (rewrite <- bpow_plus; f_equal; lia). nra. }
        apply lt_bpow in K. lia.
      - assert (K : (bpow r10 k <= bpow r10 99)%R).
        { replace (bpow r10 k) with (bpow r10 (Z.of_nat p) * bpow r10 (k - Z.of_nat p))%R by (rewrite <- bpow_plus; f_equal; lia). nra. }
        apply le_bpow in K. exact K. }
    assert (Le : (String.length (exp_str k) <= 3)%nat).
    { unfold exp_str. rewrite length_app_s. assert (L1 : (String.length (if (k <? 0)%Z then "-" else "") <= 1)%nat) by (destruct (k <? 0)%Z; cbn; lia).
      assert (L2 : (String.length (dec (Z.to_N (Z.abs k))) <= String.length (dec 99))%nat) by (apply dec_length_mono; lia). cbn in L2. lia. }
    rewrite !length_app_s. specialize (Ls s). specialize (Lm d). cbn [String.length]. lia.
Qed.
Print Assumptions C64_fits.

(** With the default precision of files, 7, the width is 12, too short for
    numbers below 1e-9: two lines of the same output have different lengths. *)
Theorem C64_refuted : forall bln bexp (m : mesh (B64n bln bexp)) (v : vars (B64n bln bexp)), exists c ts ts' o1 o1' txt txt',
  oc_validate c = Ok tt /\ oc_precision c = 7%nat /\
  output_update m v ts (output_build 6 c m 5) = (o1, Ok tt) /\ stream_text (sci : nat -> nF (B64n bln bexp) -> string) (o_set_first false o1) = Ok txt /\
  output_update m v ts' (output_build 6 c m 5) = (o1', Ok tt) /\ stream_text (sci : nat -> nF (B64n bln bexp) -> string) (o_set_first false o1') = Ok txt' /\
  String.length txt <> String.length txt'.
Proof.
  intros bln bexp m v. exists (mkOC File TSV Scalar "out" true "steps" 7 false false [DT; DDt]).
  set (ts0 := ts_new (default_numerics_config (B64n bln bexp) THll (b_ofZ 1)) 5%N).
  exists ts0, (ts_set_dt (b_div (b_ofZ 1) (b_ofZ 20000000000) : nF (B64n bln bexp)) ts0).
  assert (G : forall ts, exists o1, output_update m v ts (output_build 6 (mkOC File TSV Scalar "out" true "steps" 7 false false [DT; DDt]) m 5) = (o1, Ok tt) /\
    stream_text (sci : nat -> nF (B64n bln bexp) -> string) (o_set_first false o1) =
    Ok ((" " ++ pad_left " " 12 (sci 7 (ts_t ts)) ++ (" " ++ pad_left " " 12 (sci 7 (ts_dt ts)) ++ "") ++ newline) ++ "")).
  { intros ts. eexists. split; reflexivity. }
  destruct (G ts0) as (o1 & U & T). destruct (G (ts_set_dt (b_div (b_ofZ 1) (b_ofZ 20000000000) : nF (B64n bln bexp)) ts0)) as (o1' & U' & T').
  exists o1, o1'. do 2 eexists. split; [reflexivity|]. split; [reflexivity|]. split; [exact U|]. split; [exact T|]. split; [exact U'|]. split; [exact T'|].
  cbn [ts_t ts_dt ts_set_dt]. subst ts0. cbn [ts_t ts_dt ts_new].
  assert (E1 : String.length (sci 7 (ts_dt (ts_new (default_numerics_config (B64n bln bexp) THll (b_ofZ 1 : nF (B64n bln bexp))) 5%N) : b64)) = 11%nat) by (vm_compute; reflexivity).
  assert (E2 : String.length (sci 7 (b_div (b_ofZ 1) (b_ofZ 20000000000))) = 13%nat) by (vm_compute; reflexivity).
  rewrite !length_app_s, !length_pad, E2. cbn [ts_dt ts_new] in E1. rewrite E1. cbn [String.length newline]. lia.
Qed.
Print Assumptions C64_refuted.

(** C64 example: a table whose texts are short enough *)
Example C64_example : forall bln bexp validation mc (m : mesh (B64n bln bexp)), mesh_new validation 6 mc = Ok m ->
  let c := mkOC File TSV Vector "out" true "flow" 5 false true [DT; DDt] in let ts := ts_set_dt (b_div (b_ofZ (-1)) (b_ofZ 3) : nF (B64n bln bexp)) (ts_new (default_numerics_config (B64n bln bexp) THll (b_ofZ 1)) 5%N) in
  forall v row x, In row (vector_rows (sci : nat -> nF (B64n bln bexp) -> string) 6 c m ts v) -> In x row -> (String.length x <= Nat.min 12 (oc_precision c + 7))%nat.
Proof.
  intros bln bexp validation mc m M c ts v row x Hr Hx. cbn [vector_rows c oc_ghost oc_names oc_precision] in Hr. unfold vector_rows in Hr. cbn in Hr.
  destruct Hr as [<-|[<-|[<-|[]]]]; destruct Hx as [<-|[<-|[]]]; vm_compute; lia.
Qed.
