(** Properties of the metadata (C65). *)

From Coq Require Import List ZArith NArith QArith Reals Bool String Ascii Lia.
From Flocq Require Import Core BinarySingleNaN.
From Verif Require Import Base Num XReal B64 Config Mesh State NumFlux Time Writer Runner Spec SpecWriter SpecRun
  MeshProofs TextProofs TableProofs WriterProofs RunProofs WriterRun Sci SpecSci SciProofs P_Run P_Writer P_Sci Json SpecJson JsonProofs JsonConfig.
Import ListNotations.
Local Open Scope string_scope.

(** C65: the metadata text is JSON, and it says what the configuration is:
    every field under its name. *)
Theorem C65_describes : forall A (denotes : string -> nF A -> Prop) ftext (c : config A), renders denotes ftext ->
  exists j, read_json (metadata ftext c) = Some j /\ is_config denotes c j.
Proof.
  intros A denotes ftext c HR. exists (config_json ftext c). split; [exact (metadata_reads A denotes ftext HR c)|exact (is_config_json A denotes ftext HR c)].
Qed.
Print Assumptions C65_describes.

(** Two configurations of doubles that the library accepts have the same
    metadata only if they are the same, provided that different finite doubles
    have different texts. *)
Theorem C65_determines : forall bln bexp (ftext : nF (B64n bln bexp) -> string) (c1 c2 : config (B64n bln bexp)),
  (forall x, nfin (B64n bln bexp) x = true -> json_number (ftext x) = true) ->
  (forall x y, nfin (B64n bln bexp) x = true -> nfin (B64n bln bexp) y = true -> ftext x = ftext y -> x = y) ->
  cf_validate c1 = Ok tt -> cf_validate c2 = Ok tt -> metadata ftext c1 = metadata ftext c2 -> c1 = c2.
Proof.
  intros bln bexp ftext c1 c2 HJ HI V1 V2 E. set (denotes := fun (t : string) (x : nF (B64n bln bexp)) => t = ftext x).
  assert (HR : renders denotes ftext) by (intros x Hx; split; [exact (HJ x Hx)|reflexivity]).
  destruct (C65_describes _ denotes ftext c1 HR) as (j & R1 & D1). destruct (C65_describes _ denotes ftext c2 HR) as (j' & R2 & D2).
  rewrite E, R2 in R1. injection R1 as <-. eapply (config_two bln bexp denotes); eauto.
  intros t x y Fx Fy Hx Hy. apply HI; congruence.
Qed.
Print Assumptions C65_determines.

(** ** The files *)

Lemma overlay_same : forall s, overlay false (Some s) s = s.
Proof.
  intros s. cbn [overlay]. replace (str_drop (String.length s) s) with ""; [apply app_nil_s|]. induction s as [|c s IH]; [reflexivity|exact IH].
Qed.

Lemma metadata_files : forall A meta sched (os : list (output A)) w w' p, writer_metadata meta sched os w = (w', Ok tt) ->
  w_files w p = None \/ w_files w p = Some meta ->
  (w_files w' p = None \/ w_files w' p = Some meta) /\
  (w_files w p = Some meta \/ (exists i o, In i sched /\ nth_error os i = Some o /\ o_metadata o = true /\ o_stream o = File /\ o_file_name o ++ "_metadata.json" = p) ->
   w_files w' p = Some meta).
Proof.
  intros A meta. induction sched as [|i sc IH]; intros os w w' p H Hp; cbn [writer_metadata] in H.
  - injection H as <-. split; [exact Hp|]. intros [Q|(i & o & [] & _)]. exact Q.
  - destruct (nth_error os i) as [o|] eqn:Ei.
    2:{ destruct (IH _ _ _ p H Hp) as (I1 & I2). split; [exact I1|]. intros [Q|(i' & o & [<-|Hi] & Eo & R)]; [auto|congruence|]. apply I2. right. exists i', o. auto. }
    unfold output_write_metadata in H. destruct (o_metadata o) eqn:Mo.
    2:{ destruct (IH _ _ _ p H Hp) as (I1 & I2). split; [exact I1|]. intros [Q|(i' & o' & [<-|Hi] & Eo & R & R2)]; [auto|congruence|]. apply I2. right. exists i', o'. auto. }
    destruct (o_stream o) eqn:So.
    { destruct (IH _ (w_print (meta ++ newline) w) _ p H Hp) as (I1 & I2). split; [exact I1|]. intros [Q|(i' & o' & [<-|Hi] & Eo & R & R2 & R3)]; [auto|congruence|]. apply I2. right. exists i', o'. auto. }
    destruct (open_fails w _); [discriminate|]. set (w1 := w_write _ _ _ w) in H.
    assert (W1 : w_files w1 p = if String.eqb p (o_file_name o ++ "_metadata.json") then Some meta else w_files w p).
    { unfold w1. cbn [w_write w_files]. destruct (String.eqb_spec p (o_file_name o ++ "_metadata.json")) as [<-|]; [|reflexivity]. destruct Hp as [-> | ->]; [reflexivity|]. rewrite overlay_same. reflexivity. }
    assert (Hp1 : w_files w1 p = None \/ w_files w1 p = Some meta) by (rewrite W1; destruct (String.eqb p _); auto).
    destruct (IH _ _ _ p H Hp1) as (I1 & I2). split; [exact I1|]. intros [Q|(i' & o' & [<-|Hi] & Eo & R & R2 & R3)]; apply I2.
    + left. rewrite W1, Q. destruct (String.eqb p _); reflexivity.
    + left. assert (o' = o) by congruence. subst o'. rewrite W1, R3, String.eqb_refl. reflexivity.
    + right. exists i', o'. auto.
Qed.

Lemma metadata_path_build : forall A S oc (m : mesh A) mx, o_file_name (output_build S oc m mx) ++ "_metadata.json" = metadata_path oc.
Proof. intros. unfold metadata_path, output_build. cbn [o_file_name]. rewrite !app_assoc_s. reflexivity. Qed.

(** *** The run leaves them alone *)

Definition data_file {A} (o : output A) : Prop := o_ending o = ".tsv" \/ o_ending o = ".csv".

Lemma data_last : forall A (o : output A) k, data_file o -> last_char (out_path o k) = Some "v"%char.
Proof.
  intros A o k H. unfold out_path. destruct (o_conv o); rewrite ?last_char_app; try (destruct H as [-> | ->]; (reflexivity || discriminate)).
  intros Q. assert (L : String.length (pad_left "0" (o_counter_width o) (dec k) ++ o_ending o) = 0%nat) by (rewrite Q; reflexivity).
  rewrite length_app_s in L. destruct H as [H|H]; rewrite H in L; cbn in L; lia.
Qed.

Lemma sched_keeps : forall A fmt k p, last_char p <> Some "v"%char -> forall l (os : list (output A)) w os' w' r, Forall data_file os -> write_sched fmt k l os w = (os', w', r) ->
  Forall data_file os' /\ w_files w' p = w_files w p.
Proof.
  intros A fmt k p Np. induction l as [|i l IH]; intros os w os' w' r F H; cbn [write_sched] in H; [injection H as <- <- _; auto|].
  destruct (nth_error os i) as [o|] eqn:Ei; [|exact (IH _ _ _ _ _ F H)].
  assert (Fo : data_file o) by (rewrite Forall_forall in F; apply F; exact (nth_error_In _ _ Ei)).
  destruct (output_write fmt k o w) as [[o1 w1] r1] eqn:O.
  assert (G : data_file o1 /\ w_files w1 p = w_files w p).
  { apply output_write_cases in O. destruct O as [(_ & -> & ->)|(_ & -> & txt & _ & O)]; [auto|]. split; [exact Fo|]. destruct (o_stream o); [subst w1; reflexivity|].
    destruct O as (_ & ->). cbn [w_write w_files]. destruct (String.eqb_spec p (out_path o k)) as [->|]; [|reflexivity]. exfalso. apply Np, data_last, Fo. }
  destruct G as (G1 & G2). assert (F1 : Forall data_file (upd i o1 os)).
  { apply Forall_forall. intros x Hx. apply In_nth_error in Hx. destruct Hx as (q & Hq). rewrite nth_error_upd in Hq. rewrite Forall_forall in F.
    destruct (i =? q)%nat; [destruct (nth_error os q); [injection Hq as <-; exact G1|discriminate]|]. apply F. exact (nth_error_In _ _ Hq). }
  destruct r1 as [[]|e| |]; [|injection H as <- <- _; auto..]. destruct (IH _ _ _ _ _ F1 H) as (I1 & I2). split; [exact I1|congruence].
Qed.

Lemma output_keeps : forall A (N : numflux_impl A) fmt sched m (s : sim A N) wr w wr' w' r p, last_char p <> Some "v"%char -> Forall data_file (wr_outputs wr) ->
  do_output fmt sched m s wr w = (wr', w', r) -> Forall data_file (wr_outputs wr') /\ w_files w' p = w_files w p.
Proof.
  intros A N fmt sched m s wr w wr' w' r p Np F H. unfold do_output, writer_update in H.
  destruct (try_each (output_update m (cent (s_u s)) (s_ts s)) (wr_outputs wr)) as [os r1] eqn:T.
  assert (Fo : Forall data_file os).
  { clear H. revert os r1 T F. generalize (wr_outputs wr). induction l as [|o l IH]; intros os r1 T F; cbn [try_each] in T; [injection T as <- _; constructor|].
    inversion F as [|? ? F1 F2]; subst. unfold output_update at 1 in T. destruct (try_each (fun d => _) (o_data o)) as [d q].
    destruct q as [[]|e| |]; [|injection T as <- _; constructor; [exact F1|exact F2]..].
    destruct (try_each (output_update m _ _) l) as [t q] eqn:E. injection T as <- _. constructor; [exact F1|]. exact (IH _ _ eq_refl F2). }
  destruct r1 as [[]|e| |]; [|injection H as <- <- _; auto..].
  unfold writer_write in H. cbn [wr_counter wr_outputs] in H. destruct (write_sched _ _ _ os w) as [[os2 w2] r2] eqn:W.
  apply (sched_keeps A fmt _ p Np _ _ _ _ _ _ Fo) in W. destruct r2 as [[]|e| |]; injection H as <- <- _; exact W.
Qed.

Lemma run_keeps : forall A (N : numflux_impl A) fmt validation sched afuel p S m q, last_char q <> Some "v"%char -> forall fuel (s : sim A N) wr w e o, Forall data_file (wr_outputs wr) ->
  run_loop (A:=A) (N:=N) fmt validation sched afuel fuel p S m s wr w = (e, o) -> w_files (e_world e) q = w_files w q.
Proof.
  intros A N fmt validation sched afuel p S m q Nq. induction fuel as [|fuel IH]; intros s wr w e o F H; cbn [run_loop] in H; [injection H as <- _; reflexivity|].
  destruct (run_output fmt sched m s wr w) as [[[[s1 wr1] w1] tr] r] eqn:O.
  assert (G : Forall data_file (wr_outputs wr1) /\ w_files w1 q = w_files w q).
  { unfold run_output in O. destruct (nleb A _ _); [|injection O as <- <- <- <- <-; auto].
    destruct (do_output fmt sched m _ wr w) as [[wr2 w2] r2] eqn:D. injection O as <- <- <- <- <-. exact (output_keeps _ _ _ _ _ _ _ _ _ _ _ _ Nq F D). }
  destruct G as (G1 & G2). destruct r as [[]|x| |]; [|injection H as <- _; exact G2..].
  destruct (nleb A _ _); [injection H as <- _; exact G2|]. destruct (solver_next validation afuel p S m s1) as [s2 r2].
  destruct r2 as [[]|x| |].
  - destruct (run_loop fmt validation sched afuel fuel p S m s2 wr1 w1) as [e' r'] eqn:E. injection H as <- _. rewrite <- G2. exact (IH _ _ _ _ _ G1 E).
  - destruct (do_output fmt sched m _ wr1 w1) as [[wr2 w2] r2] eqn:D. apply (output_keeps _ _ _ _ _ _ _ _ _ _ _ _ Nq G1) in D. destruct D as (_ & D).
    destruct r2; injection H as <- _; cbn [e_world]; congruence.
  - injection H as <- _. exact G2.
  - injection H as <- _. exact G2.
Qed.

Lemma path_last : forall oc, last_char (metadata_path oc) = Some "n"%char.
Proof.
  intros oc. unfold metadata_path. rewrite !last_char_app; [reflexivity|..]; try discriminate; destruct (oc_conv oc); try discriminate; destruct (oc_file oc); discriminate.
Qed.

Lemma init_metadata : forall A (N : numflux_impl A) validation meta banner sched init p S c w w' k, tidy w -> each_once (List.length (cf_writer c)) sched ->
  init_corries (N:=N) validation meta banner sched init p S c w = (w', Ok k) ->
  Forall data_file (wr_outputs (c_writer k)) /\
  forall oc, In oc (cf_writer c) -> oc_stream oc = File -> oc_metadata oc = true -> oc_clear oc = true \/ w_files w (metadata_path oc) = None ->
  w_files w' (metadata_path oc) = Some (meta c).
Proof.
  intros A N validation meta banner sched init p S c w w' k T (_ & Al) I. pose proof (init_files A N validation meta banner sched init p S c w w' k T I) as (_ & _ & _ & Wr & _).
  split. { rewrite Wr. cbn [wr_outputs]. apply Forall_forall. intros o Ho. apply in_map_iff in Ho. destruct Ho as (oc & <- & _). unfold data_file, output_build. cbn [o_ending]. destruct (oc_format oc); auto. }
  clear Wr. unfold init_corries in I.
  destruct (cf_validate c) as [[]|x| |] eqn:V; try discriminate. destruct (mesh_new validation S (cf_mesh c)) as [m|x| |] eqn:M; try discriminate.
  unfold solver_new in I. destruct (rhs_new N p S c m) as [nf|x| |]; cbn [bind] in I; try discriminate.
  destruct (writer_new meta S c m w) as [w1 r1] eqn:W. destruct r1 as [wr|x| |]; try discriminate.
  unfold writer_new in W. destruct (outputs_new S (cf_writer c) m (cf_output_max c) w) as [w0 r0] eqn:O.
  destruct r0 as [os|x| |]; cbn [bind] in W; try discriminate. injection W as <- <-.
  destruct (outputs_new_ok A _ _ _ _ _ _ _ O T) as (-> & O2 & O3 & O4 & O5 & O6). cbn [wr_banner wr_meta wr_outputs] in I.
  match type of I with context [writer_metadata ?a ?b ?d ?e] => set (wb := e) in I; destruct (writer_metadata a b d wb) as [w2 r2] eqn:Md end. destruct r2 as [[]|x| |]; try discriminate.
  match type of I with context [init ?a m] => destruct (init a m) as [s1 r3] eqn:E end.
  destruct r3 as [[]|x| |]; cbn [bind] in I; try discriminate.
  match type of I with context [st_update_from_prim ?a ?b ?c ?d ?e ?f] => destruct (st_update_from_prim a b c d e f) as [u|x| |] end; cbn [bind] in I; try discriminate.
  injection I as <- <-. intros oc Hoc F Mo Cl.
  assert (Q : w_files w0 (metadata_path oc) = None).
  { destruct Cl as [Cl|Cl]; [|apply O3, Cl]. apply (O6 oc Hoc F Cl). apply prefix_app. }
  assert (Qb : w_files wb (metadata_path oc) = None) by (unfold wb; destruct (cf_banner c); exact Q).
  destruct (metadata_files A _ _ _ _ _ (metadata_path oc) Md (or_introl Qb)) as (_ & G). apply G. right.
  apply In_nth_error in Hoc. destruct Hoc as (i & Hi). exists i, (output_build S oc m (cf_output_max c)). split; [apply Al; apply nth_error_Some; congruence|].
  split; [rewrite nth_error_map, Hi; reflexivity|]. split; [exact Mo|]. split; [exact F|]. apply metadata_path_build.
Qed.

(** The metadata file of an output whose folder is cleared, or whose metadata
    file did not exist, describes the configuration: after init_corries, and
    still when run_corries ends, however it ends. *)
Theorem C65_file : forall A (N : numflux_impl A) (denotes : string -> nF A -> Prop) ftext fmt validation banner sched init p S c w w' k,
  renders denotes ftext -> tidy w -> each_once (List.length (cf_writer c)) sched ->
  init_corries (N:=N) validation (metadata ftext) banner sched init p S c w = (w', Ok k) ->
  forall oc, In oc (cf_writer c) -> oc_stream oc = File -> oc_metadata oc = true -> oc_clear oc = true \/ w_files w (metadata_path oc) = None ->
  exists text j, w_files w' (metadata_path oc) = Some text /\ read_json text = Some j /\ is_config denotes c j /\
    forall validation' sched' afuel fuel e o,
      run_loop fmt validation' sched' afuel fuel p S (c_mesh k) (c_sim k) (c_writer k) w' = (e, o) -> w_files (e_world e) (metadata_path oc) = Some text.
Proof.
  intros A N denotes ftext fmt validation banner sched init p S c w w' k HR T Al I oc Hoc F Mo Cl.
  destruct (init_metadata A N validation _ banner sched init p S c w w' k T Al I) as (Df & G). specialize (G oc Hoc F Mo Cl).
  destruct (C65_describes A denotes ftext c HR) as (j & R & D). exists (metadata ftext c), j. split; [exact G|]. split; [exact R|]. split; [exact D|].
  intros validation' sched' afuel fuel e o H. rewrite <- G. eapply run_keeps; [|exact Df|exact H]. rewrite path_last. discriminate.
Qed.
Print Assumptions C65_file.

(** ** The hypotheses can be met *)

(** Scientific notation with 17 significant digits is a rendering as required
    (the code renders with the fewest digits that suffice). *)
Lemma drop_digits_app : forall a b, drop_digits a = "" -> drop_digits (a ++ b) = drop_digits b.
Proof.
  induction a as [|c a IH]; intros b H; [reflexivity|]. cbn [drop_digits String.append] in *. destruct (is_digit c); [exact (IH b H)|discriminate].
Qed.

Lemma digit_char_digit : forall z, (0 <= z < 10)%Z -> is_digit (digit_char z) = true.
Proof. intros z H. unfold is_digit. rewrite (digit_char_spec z H). reflexivity. Qed.

Lemma digits_of_digits : forall n d, (0 <= d)%Z -> drop_digits (digits_of n d) = "".
Proof.
  induction n as [|n IH]; intros d H; [reflexivity|]. cbn [digits_of]. rewrite drop_digits_app by (apply IH; apply Z.div_pos; lia).
  cbn [drop_digits]. rewrite digit_char_digit by (apply Z.mod_pos_bound; lia). reflexivity.
Qed.

Lemma digits_of_first : forall n d, (0 <= d)%Z -> exists c t, digits_of (S n) d = String c t /\ is_digit c = true.
Proof.
  induction n as [|n IH]; intros d H.
  - cbn [digits_of String.append]. eexists; eexists; split; [reflexivity|]. apply digit_char_digit, Z.mod_pos_bound. lia.
  - destruct (IH (d / 10)%Z ltac:(apply Z.div_pos; lia)) as (c & t & E & D). cbn [digits_of] in *. rewrite E. cbn [String.append]. eauto.
Qed.

Lemma exp_json : forall k, exponent (String "e" (exp_str k)) = true.
Proof.
  intros k. unfold exp_str. assert (G : forall n, exists c t, dec n = String c t /\ is_digit c = true /\ drop_digits t = "" /\ Ascii.eqb c "+" = false /\ Ascii.eqb c "-" = false).
  { intros n. pose proof (dec_nonempty n) as N. unfold dec in *. destruct (N.to_uint n) as [|l|l|l|l|l|l|l|l|l|l]; [cbn in N; congruence|..];
      (eexists; eexists; split; [reflexivity|]; split; [reflexivity|]; split; [apply uint_digits|]; split; reflexivity). }
  destruct (G (Z.to_N (Z.abs k))) as (c & t & E & D & Dt & P & Mi). rewrite E.
  destruct (k <? 0)%Z; cbn [String.append exponent Ascii.eqb Bool.eqb andb orb some_digits].
  - rewrite D, Dt. reflexivity.
  - rewrite P, Mi. cbn [orb some_digits]. rewrite D, Dt. reflexivity.
Qed.

Lemma mant_json : forall p d k, (0 <= d < 10 ^ (Z.of_nat p + 1))%Z -> (10 ^ Z.of_nat p <= d \/ d = 0)%Z -> (0 < p)%nat ->
  integer_part (mant_str p d ++ String "e" (exp_str k)) = true.
Proof.
  intros p d k Hd Hl Hp. pose proof (mant_digits p d Hd) as Hm. unfold mant_str. destruct p as [|p]; [lia|]. set (P := (10 ^ Z.of_nat (S p))%Z) in *.
  assert (HP : (0 < P)%Z) by (apply Z.pow_pos_nonneg; lia). set (f := digits_of (S p) (d mod P)).
  assert (Fr : fraction (String "." f ++ String "e" (exp_str k)) = true).
  { cbn [String.append fraction Ascii.eqb Bool.eqb andb]. assert (Df : (0 <= d mod P)%Z) by (apply Z.mod_pos_bound; lia).
    destruct (digits_of_first p (d mod P) Df) as (c & t & E & D). pose proof (digits_of_digits (S p) (d mod P) Df) as Dd. fold f in E, Dd. rewrite E in *.
    cbn [String.append some_digits]. rewrite D. cbn [drop_digits] in Dd. rewrite D in Dd. rewrite (drop_digits_app t _ Dd). cbn [drop_digits]. apply exp_json. }
  cbn [String.append]. cbn [String.append] in Fr. cbn [integer_part]. destruct (Ascii.eqb (digit_char (d / P)) "0"); [exact Fr|].
  rewrite (digit_char_digit _ Hm). cbn [drop_digits andb]. exact Fr.
Qed.

Lemma sign_json : forall s t, integer_part t = true -> json_number (sign_str s ++ t) = true.
Proof.
  intros [] t H; [exact H|]. cbn [sign_str String.append]. destruct (all_integer t H) as (_ & c & u & -> & D). cbn [json_number].
  destruct (digit_opening c) as (_ & _). { rewrite D. reflexivity. }
  destruct (Ascii.eqb_spec c "-") as [->|]; [discriminate D|]. exact H.
Qed.

Theorem sci_json : forall p (x : b64), (0 < p)%nat -> is_finite x = true -> json_number (sci p x) = true.
Proof.
  intros p x Hp Hx. destruct x as [s|s| |s m e B]; try discriminate; cbn [sci].
  - apply sign_json. apply (mant_json p 0 0); [split; [lia|apply Z.pow_pos_nonneg; lia]|right; reflexivity|exact Hp].
  - destruct (frac m e) as [num den] eqn:F. destruct (frac_spec _ _ _ _ F) as (Hn & Hd & V).
    destruct (sci_digits p num den) as [d k] eqn:S. destruct (sci_digits_spec _ _ _ _ _ Hn Hd S) as (Bd & Er).
    apply sign_json. apply mant_json; [|left|exact Hp]; [|lia]. assert (0 < 10 ^ Z.of_nat p)%Z by (apply Z.pow_pos_nonneg; lia). lia.
Qed.

(** [t] denotes the double [x]: it is a number whose closest double is [x]. *)
Definition denotes64 (t : string) (x : b64) : Prop :=
  exists r, read_number t = Some r /\ round radix2 (FLT_exp (-1074) 53) ZnearestE r = B2R x.

Example C65_rendering : forall bln bexp,
  renders (A:=B64n bln bexp) denotes64 (sci 16) /\
  (forall x y : nF (B64n bln bexp), sci 16 x = sci 16 y -> x = y).
Proof.
  intros bln bexp. split.
  - intros x Hx. split; [apply sci_json; [lia|exact Hx]|]. destruct (C63_read_back 16 x (le_n _) Hx) as (r & R1 & R2). exists r. auto.
  - intros x y. apply C63_distinct. lia.
Qed.

(** The text for a small value. *)
Example C65_text :
  pretty 0 (JObj [("a", JArr [JNum "1"; JStr (String (ascii_of_nat 10) "x")]); ("b", JArr []); ("c", JObj [("d", JNull)])]) =
  "{" ++ newline ++ "  " ++ quoted "a" ++ ": [" ++ newline ++ "    1," ++ newline ++ "    " ++ String quote_char ("\nx" ++ String quote_char newline) ++ "  ]," ++ newline ++
  "  " ++ quoted "b" ++ ": []," ++ newline ++ "  " ++ quoted "c" ++ ": {" ++ newline ++ "    " ++ quoted "d" ++ ": null" ++ newline ++ "  }" ++ newline ++ "}".
Proof. reflexivity. Qed.

(** In a folder that is not cleared, the longer metadata of an earlier
    simulation keeps its tail, and the file is not JSON any more. *)
Definition jrun_out (clear : bool) (names : list data_name) : output_config := mkOC File CSV Vector "out" clear "flow" 5 false true names.

Definition jrun (bln bexp : b64 -> b64) (clear : bool) (names : list data_name) (w : world) :=
  init_corries (A:=B64n bln bexp) (N:=Hll (B64n bln bexp)) true (metadata (sci 16 : nF (B64n bln bexp) -> string)) "" [0]%nat (brun_init bln bexp 1 (1 # 8)) Isot 6
    (wrun_cfg bln bexp [jrun_out clear names]) w.

Theorem C65_old_file_refuted : forall bln bexp, let A := B64n bln bexp in
  exists (c1 c2 : config A) oc1 oc2 w1 w2 k1 k2 text,
  cf_writer c1 = [oc1] /\ cf_writer c2 = [oc2] /\ oc_stream oc2 = File /\ oc_metadata oc2 = true /\
  init_corries (N:=Hll A) true (metadata (sci 16 : nF A -> string)) "" [0]%nat (brun_init bln bexp 1 (1 # 8)) Isot 6 c1 no_world = (w1, Ok k1) /\
  init_corries (N:=Hll A) true (metadata (sci 16 : nF A -> string)) "" [0]%nat (brun_init bln bexp 1 (1 # 8)) Isot 6 c2 w1 = (w2, Ok k2) /\
  w_files w2 (metadata_path oc2) = Some text /\ read_json text = None.
Proof.
  intros bln bexp A.
  assert (C : match jrun bln bexp false [XiCent; DPrim 0; DT] no_world with
              | (w1, Ok _) => match jrun bln bexp false [DT] w1 with
                              | (w2, Ok _) => match w_files w2 (metadata_path (jrun_out false [DT])) with Some t => match read_json t with None => true | _ => false end | None => false end
                              | _ => false
                              end
              | _ => false
              end = true) by (vm_compute; reflexivity).
  exists (wrun_cfg bln bexp [jrun_out false [XiCent; DPrim 0; DT]]), (wrun_cfg bln bexp [jrun_out false [DT]]), (jrun_out false [XiCent; DPrim 0; DT]), (jrun_out false [DT]).
  destruct (jrun bln bexp false [XiCent; DPrim 0; DT] no_world) as [w1 r1] eqn:E1. destruct r1 as [k1|e| |]; [|discriminate C|discriminate C|discriminate C].
  destruct (jrun bln bexp false [DT] w1) as [w2 r2] eqn:E2. destruct r2 as [k2|e| |]; [|discriminate C|discriminate C|discriminate C].
  destruct (w_files w2 (metadata_path (jrun_out false [DT]))) as [t|] eqn:T; [|discriminate C]. destruct (read_json t) as [j|] eqn:R; [discriminate C|].
  exists w1, w2, k1, k2, t. repeat (split; [first [reflexivity|exact E1|exact E2|exact T]|]). exact R.
Qed.
Print Assumptions C65_old_file_refuted.

(** The same sequence with clearing meets the hypotheses of [C65_file]. *)
Example C65_file_example : forall bln bexp, exists w k,
  jrun bln bexp true [XiCent; DPrim 0; DT] no_world = (w, Ok k) /\ tidy no_world /\ each_once 1 [0]%nat /\
  oc_clear (jrun_out true [XiCent; DPrim 0; DT]) = true /\ metadata_path (jrun_out true [XiCent; DPrim 0; DT]) = "out/flow__metadata.json" /\
  cf_validate (wrun_cfg bln bexp [jrun_out true [XiCent; DPrim 0; DT]]) = Ok tt.
Proof.
  intros bln bexp. assert (C : match jrun bln bexp true [XiCent; DPrim 0; DT] no_world with (_, Ok _) => true | _ => false end = true) by (vm_compute; reflexivity).
  destruct (jrun bln bexp true [XiCent; DPrim 0; DT] no_world) as [w r] eqn:E. destruct r as [k|e| |]; [|discriminate C|discriminate C|discriminate C]. exists w, k.
  split; [reflexivity|]. split; [exact no_world_tidy|]. split; [|split; [reflexivity|split; [reflexivity|vm_compute; reflexivity]]].
  split; [repeat constructor; intros []|]. intros i. cbn. split; [intuition lia|]. intros H. destruct i; [auto|lia].
Qed.

(** Infinite limits are accepted but appear as [null]: the metadata does not
    give the number. *)
Theorem C65_infinite_refuted : forall bln bexp (ftext : nF (B64n bln bexp) -> string), let A := B64n bln bexp in
  (forall x, nfin A x = true -> json_number (ftext x) = true) ->
  exists (c : config A) j, cf_validate c = Ok tt /\ read_json (metadata ftext c) = Some j /\
    has "numerics_config" (has "dt_max" (fun v => v = JNull)) j.
Proof.
  intros bln bexp ftext A HJ.
  set (c := mkCfg (A:=A) false (default_mesh_config A) (default_physics_config A) BNoGradients BNoGradients
    (mkNC CHll (default_rkf_config A) 1 (n0 A) (n1 A) (n1 A) (B754_infinity false : nF A) (n1 A)) 1 []).
  exists c, (config_json ftext c). split; [vm_compute; reflexivity|].
  assert (HR : renders (fun t (x : nF A) => True) ftext) by (intros x Hx; split; [exact (HJ x Hx)|exact Logic.I]).
  split; [exact (metadata_reads A _ ftext HR c)|]. reflexivity.
Qed.
Print Assumptions C65_infinite_refuted.
