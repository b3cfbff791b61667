(** The metadata of a configuration: it describes the configuration, and only
    one configuration that the library accepts. *)

From Coq Require Import List ZArith NArith Bool String Ascii Lia DecimalString.
From Flocq Require Import Core BinarySingleNaN.
From Verif Require Import Base Num B64 Config Writer SpecWriter TextProofs Json SpecJson JsonProofs.
Import ListNotations.
Local Open Scope string_scope.

(** ** Whole numbers *)

Lemma uint_digits : forall d, drop_digits (NilEmpty.string_of_uint d) = "".
Proof. induction d; cbn [NilEmpty.string_of_uint drop_digits]; auto. Qed.

Lemma dec_json : forall n, json_number (dec n) = true.
Proof.
  intros n. unfold dec. destruct (uint_norm n) as (d & -> & [->|(H1 & H2)]); [reflexivity|].
  destruct d as [|l|l|l|l|l|l|l|l|l|l]; [congruence|exfalso; exact (H2 l eq_refl)|..];
    (unfold json_number, integer_part; cbn [NilEmpty.string_of_uint]; rewrite uint_digits; reflexivity).
Qed.

Lemma is_int_dec : forall n, is_int n (JNum (dec n)).
Proof. intros n. exists (dec n). split; [reflexivity|apply reads_dec]. Qed.

(** ** The description *)

Lemma is_custom_list : forall l, Forall2 is_custom l (map (fun e => JArr [jnat (fst e); cbmode_json (snd e)]) l).
Proof.
  induction l as [|[i b] l IH]; cbn [map]; constructor; [|exact IH]. exists (jnat i), (cbmode_json b). split; [reflexivity|]. split; [apply is_int_dec|]. destruct b; reflexivity.
Qed.

Lemma is_bmode_json : forall b, is_bmode b (bmode_json b).
Proof. intros [l|]; [|reflexivity]. cbn [is_bmode bmode_json]. eexists. split; [reflexivity|]. eexists. split; [reflexivity|apply is_custom_list]. Qed.

Lemma is_data_list : forall l, Forall2 is_data_name l (map data_name_json l).
Proof.
  induction l as [|d l IH]; cbn [map]; constructor; [|exact IH]. destruct d; try reflexivity; (eexists; split; [reflexivity|apply is_int_dec]).
Qed.

Lemma is_output_json : forall c, is_output c (output_config_json c).
Proof.
  intros c. unfold is_output, output_config_json. repeat match goal with |- _ /\ _ => split end; try reflexivity.
  - apply is_int_dec.
  - eexists. split; [reflexivity|apply is_data_list].
Qed.

Lemma is_output_list : forall l, Forall2 is_output l (map output_config_json l).
Proof. induction l as [|c l IH]; cbn [map]; constructor; [apply is_output_json|exact IH]. Qed.

Section Describe.
Variable A : Num.
Variable denotes : string -> nF A -> Prop.
Variable ftext : nF A -> string.
Hypothesis HR : renders denotes ftext.

Lemma is_float_json : forall x, is_float denotes x (jfloat ftext x).
Proof. intros x. unfold jfloat, is_float. destruct (nfin A x) eqn:E; [|reflexivity]. split; [reflexivity|apply HR, E]. Qed.

Lemma is_config_json : forall c, is_config denotes c (config_json ftext c).
Proof.
  intros c. unfold is_config, config_json. repeat match goal with |- _ /\ _ => split end; try reflexivity.
  - unfold has, lookup. cbn [String.eqb Ascii.eqb Bool.eqb]. unfold mesh_config_json. split; [destruct (mc_mode _); reflexivity|]. split; apply is_float_json.
  - unfold has, lookup. cbn [String.eqb Ascii.eqb Bool.eqb]. unfold physics_config_json. split; [apply is_float_json|reflexivity].
  - apply is_bmode_json.
  - apply is_bmode_json.
  - change (is_numerics denotes (cf_numerics c) (numerics_json ftext (cf_numerics c))). unfold is_numerics, numerics_json.
    split; [|split; [|split; [apply is_int_dec|repeat match goal with |- _ /\ _ => split end; apply is_float_json]]].
    + change (is_numflux denotes (nc_numflux (cf_numerics c)) (numflux_json ftext (nc_numflux (cf_numerics c)))). destruct (nc_numflux _) as [|l]; [reflexivity|]. cbn [is_numflux numflux_json]. eexists. split; [reflexivity|]. unfold has, lookup. cbn [String.eqb Ascii.eqb Bool.eqb]. destruct l; try reflexivity. cbn [is_limiter limiter_json]. eexists. split; [reflexivity|]. apply is_float_json.
    + unfold has, lookup. cbn [String.eqb Ascii.eqb Bool.eqb]. unfold time_json. eexists. split; [reflexivity|].
      change (is_rkf denotes (nc_time (cf_numerics c)) (JObj [("rkf_mode", rkf_mode_json (rc_mode (nc_time (cf_numerics c)))); ("asc", JBool (rc_asc (nc_time (cf_numerics c))));
        ("asc_relative_tolerance", jfloat ftext (rc_rtol (nc_time (cf_numerics c)))); ("asc_absolute_tolerance", jfloat ftext (rc_atol (nc_time (cf_numerics c))));
        ("asc_timestep_friction", jfloat ftext (rc_friction (nc_time (cf_numerics c))))])).
      unfold is_rkf. repeat match goal with |- _ /\ _ => split end; try apply is_float_json; try reflexivity. 
  - apply is_int_dec.
  - eexists. split; [reflexivity|apply is_output_list].
Qed.

Lemma wf_float : forall x, wf (jfloat ftext x).
Proof. intros x. unfold jfloat. destruct (nfin A x) eqn:E; [|constructor]. constructor. apply HR, E. Qed.

Lemma wf_nat : forall n, wf (jnat n). Proof. intros n. constructor. apply dec_json. Qed.

Lemma wf_bmode : forall b, wf (bmode_json b).
Proof.
  intros [l|]; [|constructor]. cbn [bmode_json]. constructor. constructor; [|constructor]. cbn [snd]. constructor. induction l as [|[i b] l IH]; cbn [map]; constructor; [|exact IH].
  constructor. constructor; [apply wf_nat|]. constructor; [|constructor]. constructor.
Qed.

Lemma wf_data : forall l, Forall wf (map data_name_json l).
Proof. induction l as [|d l IH]; cbn [map]; constructor; [|exact IH]. destruct d; cbn; repeat constructor; cbn; apply dec_json. Qed.

Ltac fields := repeat match goal with |- Forall _ (_ :: _) => constructor | |- Forall _ [] => constructor | |- _ => progress cbn [snd] end.

Lemma wf_output : forall c, wf (output_config_json c).
Proof. intros c. unfold output_config_json. constructor. fields; try (constructor; fail); try apply wf_nat. constructor. apply wf_data. Qed.

Lemma wf_config : forall c, wf (config_json ftext c).
Proof.
  intros c. unfold config_json. constructor. fields; try apply wf_bmode; try (constructor; fail).
  - unfold mesh_config_json. constructor. fields; try apply wf_float. constructor.
  - unfold physics_config_json. constructor. fields; try apply wf_float. constructor.
  - unfold numerics_json. constructor. fields; try apply wf_float.
    + destruct (nc_numflux _) as [|[]]; cbn; repeat (constructor; cbn [snd]). apply wf_float.
    + unfold time_json. constructor. fields. constructor. fields; try apply wf_float; constructor.
    + constructor. apply dec_json.
  - constructor. apply dec_json.
  - constructor. induction (cf_writer c) as [|o l IH]; cbn [map]; constructor; [apply wf_output|exact IH].
Qed.

Lemma metadata_reads : forall c, read_json (metadata ftext c) = Some (config_json ftext c).
Proof. intros c. apply read_pretty, wf_config. Qed.
End Describe.

(** ** Only one configuration *)

Lemma has_two : forall k P Q j, has k P j -> has k Q j -> exists x, P x /\ Q x.
Proof. intros k P Q [| | | | |l] H1 H2; try contradiction. cbn in *. destruct (lookup k l) as [x|]; [|contradiction]. eauto. Qed.

Lemma int_two : forall n k j, is_int n j -> is_int k j -> n = k.
Proof. intros n k j (t & -> & _ & H1) (t' & E & _ & H2). injection E as <-. congruence. Qed.

Lemma str_two : forall s t j, is_str s j -> is_str t j -> s = t.
Proof. unfold is_str. intros s t j H1 H2. congruence. Qed.

Lemma list_two : forall X (P : X -> json -> Prop) l l' j, (forall x y j, P x j -> P y j -> x = y) -> is_list P l j -> is_list P l' j -> l = l'.
Proof.
  intros X P l l' j H (a & -> & F1) (b & E & F2). injection E as <-. revert l' F2. induction F1 as [|x e l a Hx F1 IH]; intros l' F2; inversion F2; subst; [reflexivity|].
  f_equal; [eapply H; eauto|]. apply IH. assumption.
Qed.

Lemma cbmode_two : forall a b j, is_cbmode a j -> is_cbmode b j -> a = b.
Proof. intros a b j H1 H2. pose proof (str_two _ _ _ H1 H2) as E. destruct a, b; try reflexivity; discriminate E. Qed.

Lemma custom_two : forall x y j, is_custom x j -> is_custom y j -> x = y.
Proof.
  intros [i b] [i' b'] j (a & e & -> & H1 & H2) (a' & e' & E & H3 & H4). injection E as <- <-. cbn [fst snd] in *. f_equal; [|eapply cbmode_two; eauto].
  apply Nat2N.inj. eapply int_two; eauto.
Qed.

Lemma tagged_two : forall k P Q j, tagged k P j -> tagged k Q j -> exists x, P x /\ Q x.
Proof. intros k P Q j (x & -> & H1) (y & E & H2). injection E as <-. eauto. Qed.
Lemma tagged_str : forall k P s j, tagged k P j -> is_str s j -> False.
Proof. intros k P s j (x & -> & _) H. discriminate H. Qed.
Lemma tagged_other : forall k k' P Q j, tagged k P j -> tagged k' Q j -> k = k'.
Proof. intros k k' P Q j (x & -> & _) (y & E & _). congruence. Qed.

Lemma bmode_two : forall a b j, is_bmode a j -> is_bmode b j -> a = b.
Proof.
  intros [l|] [l'|] j H1 H2; cbn [is_bmode] in *.
  - destruct (tagged_two _ _ _ _ H1 H2) as (x & X1 & X2). f_equal. exact (list_two _ _ _ _ _ custom_two X1 X2).
  - exfalso. exact (tagged_str _ _ _ _ H1 H2).
  - exfalso. exact (tagged_str _ _ _ _ H2 H1).
  - reflexivity.
Qed.

Lemma data_two : forall a b j, is_data_name a j -> is_data_name b j -> a = b.
Proof.
  intros a b j H1 H2. destruct a, b; cbn [is_data_name] in *; try reflexivity;
    try (pose proof (str_two _ _ _ H1 H2) as E; discriminate E); try (exfalso; exact (tagged_str _ _ _ _ H1 H2)); try (exfalso; exact (tagged_str _ _ _ _ H2 H1));
    try (pose proof (tagged_other _ _ _ _ _ H1 H2) as E; discriminate E).
  - destruct (tagged_two _ _ _ _ H1 H2) as (x & X1 & X2). f_equal. apply Nat2N.inj. eapply int_two; eauto.
  - destruct (tagged_two _ _ _ _ H1 H2) as (x & X1 & X2). f_equal. apply Nat2N.inj. eapply int_two; eauto.
Qed.

Ltac same H1 H2 X := let x := fresh "x" in let a := fresh "a" in let b := fresh "b" in
  destruct (has_two _ _ _ _ H1 H2) as (x & a & b); pose proof (str_two _ _ _ a b) as X; clear x a b.

Lemma output_two : forall a b j, is_output a j -> is_output b j -> a = b.
Proof.
  intros a b j (A1 & A2 & A3 & A4 & A5 & A6 & A7 & A8 & A9 & A10) (B1 & B2 & B3 & B4 & B5 & B6 & B7 & B8 & B9 & B10).
  assert (E1 : oc_stream a = oc_stream b) by (destruct (has_two _ _ _ _ A1 B1) as (x & X1 & X2); pose proof (str_two _ _ _ X1 X2) as E; destruct (oc_stream a), (oc_stream b); congruence).
  assert (E2 : oc_format a = oc_format b) by (destruct (has_two _ _ _ _ A2 B2) as (x & X1 & X2); pose proof (str_two _ _ _ X1 X2) as E; destruct (oc_format a), (oc_format b); congruence).
  assert (E3 : oc_conv a = oc_conv b) by (destruct (has_two _ _ _ _ A3 B3) as (x & X1 & X2); pose proof (str_two _ _ _ X1 X2) as E; destruct (oc_conv a), (oc_conv b); congruence).
  assert (E4 : oc_folder a = oc_folder b) by (destruct (has_two _ _ _ _ A4 B4) as (x & X1 & X2); exact (str_two _ _ _ X1 X2)).
  assert (E5 : oc_clear a = oc_clear b) by (destruct (has_two _ _ _ _ A5 B5) as (x & X1 & X2); unfold is_bool in *; congruence).
  assert (E6 : oc_file a = oc_file b) by (destruct (has_two _ _ _ _ A6 B6) as (x & X1 & X2); exact (str_two _ _ _ X1 X2)).
  assert (E7 : oc_precision a = oc_precision b) by (destruct (has_two _ _ _ _ A7 B7) as (x & X1 & X2); apply Nat2N.inj; exact (int_two _ _ _ X1 X2)).
  assert (E8 : oc_ghost a = oc_ghost b) by (destruct (has_two _ _ _ _ A8 B8) as (x & X1 & X2); unfold is_bool in *; congruence).
  assert (E9 : oc_metadata a = oc_metadata b) by (destruct (has_two _ _ _ _ A9 B9) as (x & X1 & X2); unfold is_bool in *; congruence).
  assert (E10 : oc_names a = oc_names b) by (destruct (has_two _ _ _ _ A10 B10) as (x & X1 & X2); exact (list_two _ _ _ _ _ data_two X1 X2)).
  destruct a, b. cbn in *. congruence.
Qed.

(** Among numbers accepted by the checks of a field there is at most one that
    is not finite. *)
Section Unique.
Variables bln bexp : b64 -> b64.
Notation A := (B64n bln bexp).
Variable denotes : string -> nF A -> Prop.
Hypothesis HD : forall t (x y : nF A), nfin A x = true -> nfin A y = true -> denotes t x -> denotes t y -> x = y.

Lemma float_two : forall (x y : nF A) j, is_float denotes x j -> is_float denotes y j -> (nfin A x = false -> nfin A y = false -> x = y) -> x = y.
Proof.
  intros x y [| |t| | |] H1 H2 H; cbn [is_float] in *; try contradiction; [auto|]. apply (HD t); tauto.
Qed.

Lemma above_two : forall (a b x y : nF A), nltb A a x = true -> nltb A b y = true -> nfin A x = false -> nfin A y = false -> x = y.
Proof.
  assert (G : forall a x : b64, Bltb a x = true -> is_finite x = false -> x = B754_infinity false).
  { intros a x H F. destruct x as [s|[]| |s m e B]; try discriminate F; [|reflexivity|]; destruct a as [s'|[]| |s' m' e' B']; try destruct s'; discriminate H. }
  intros a b x y H1 H2 F1 F2. rewrite (G a x H1 F1), (G b y H2 F2). reflexivity.
Qed.
Lemma below_two : forall (a b x y : nF A), nltb A x a = true -> nltb A y b = true -> nfin A x = false -> nfin A y = false -> x = y.
Proof.
  assert (G : forall a x : b64, Bltb x a = true -> is_finite x = false -> x = B754_infinity true).
  { intros a x H F. destruct x as [s|[]| |s m e B]; try discriminate F; [reflexivity| |]; destruct a as [s'|[]| |s' m' e' B']; try destruct s'; discriminate H. }
  intros a b x y H1 H2 F1 F2. rewrite (G a x H1 F1), (G b y H2 F2). reflexivity.
Qed.

Lemma ensure_true : forall b e, ensure b e = Ok tt -> b = true.
Proof. intros [] e H; [reflexivity|discriminate]. Qed.

Lemma bind_ok : forall (r : res unit) (k : res unit), (do _ <- r; k) = Ok tt -> r = Ok tt /\ k = Ok tt.
Proof. intros [[]| | |] k H; try discriminate. auto. Qed.

Lemma limiter_two : forall (a b : limiter_mode A) j, lm_validate a = Ok tt -> lm_validate b = Ok tt -> is_limiter denotes a j -> is_limiter denotes b j -> a = b.
Proof.
  intros a b j V1 V2 H1 H2. destruct a, b; cbn [is_limiter] in *; try reflexivity;
    try (pose proof (str_two _ _ _ H1 H2) as E; discriminate E); try (exfalso; exact (tagged_str _ _ _ _ H1 H2)); try (exfalso; exact (tagged_str _ _ _ _ H2 H1)).
  destruct (tagged_two _ _ _ _ H1 H2) as (x & X1 & X2). f_equal. apply (float_two _ _ _ X1 X2). apply ensure_true in V1, V2. exact (above_two _ _ _ _ V1 V2).
Qed.

Lemma config_two : forall (a b : config A) j, cf_validate a = Ok tt -> cf_validate b = Ok tt -> is_config denotes a j -> is_config denotes b j -> a = b.
Proof.
  intros a b j V1 V2 (A1 & A2 & A3 & A4 & A5 & A6 & A7 & A8) (B1 & B2 & B3 & B4 & B5 & B6 & B7 & B8).
  unfold cf_validate in V1, V2. apply bind_ok in V1, V2. destruct V1 as (M1 & V1), V2 as (M2 & V2). apply bind_ok in V1, V2. destruct V1 as (P1 & V1), V2 as (P2 & V2).
  apply bind_ok in V1, V2. destruct V1 as (N1 & _), V2 as (N2 & _).
  assert (E1 : cf_banner a = cf_banner b) by (destruct (has_two _ _ _ _ A1 B1) as (x & X1 & X2); unfold is_bool in *; congruence).
  assert (E2 : cf_mesh a = cf_mesh b).
  { destruct (has_two _ _ _ _ A2 B2) as (x & (_ & X1 & X2) & (_ & Y1 & Y2)). apply ensure_true in M1, M2.
    destruct (has_two _ _ _ _ X1 Y1) as (z & Z1 & Z2). pose proof (float_two _ _ _ Z1 Z2 (below_two _ _ _ _ M1 M2)) as F1.
    destruct (has_two _ _ _ _ X2 Y2) as (z' & Z3 & Z4). pose proof (float_two _ _ _ Z3 Z4 (above_two _ _ _ _ M1 M2)) as F2.
    destruct (cf_mesh a) as [[] ? ?], (cf_mesh b) as [[] ? ?]. cbn in *. congruence. }
  assert (E3 : cf_physics a = cf_physics b).
  { destruct (has_two _ _ _ _ A3 B3) as (x & (X1 & X2) & (Y1 & Y2)). apply ensure_true in P1, P2. apply andb_true_iff in P1, P2. destruct P1 as [P1 _], P2 as [P2 _].
    destruct (has_two _ _ _ _ X1 Y1) as (z & Z1 & Z2). pose proof (float_two _ _ _ Z1 Z2 (above_two _ _ _ _ P1 P2)) as F1.
    destruct (has_two _ _ _ _ X2 Y2) as (z' & Z3 & Z4). pose proof (str_two _ _ _ Z3 Z4) as F2.
    destruct (cf_physics a) as [? []], (cf_physics b) as [? []]; cbn in *; congruence. }
  assert (E4 : cf_bc_west a = cf_bc_west b) by (destruct (has_two _ _ _ _ A4 B4) as (x & X1 & X2); exact (bmode_two _ _ _ X1 X2)).
  assert (E5 : cf_bc_east a = cf_bc_east b) by (destruct (has_two _ _ _ _ A5 B5) as (x & X1 & X2); exact (bmode_two _ _ _ X1 X2)).
  assert (E6 : cf_numerics a = cf_numerics b).
  { destruct (has_two _ _ _ _ A6 B6) as (x & (X1 & X2 & X3 & X4 & X5 & X6 & X7 & X8) & (Y1 & Y2 & Y3 & Y4 & Y5 & Y6 & Y7 & Y8)). clear A1 A2 A3 A4 A5 A6 A7 A8 B1 B2 B3 B4 B5 B6 B7 B8 E1 E2 E3 E4 E5.
    unfold nc_validate in N1, N2. apply bind_ok in N1, N2. destruct N1 as (K1 & N1), N2 as (K2 & N2). apply bind_ok in N1, N2. destruct N1 as (_ & N1), N2 as (_ & N2).
    apply bind_ok in N1, N2. destruct N1 as (T1 & N1), N2 as (T2 & N2). apply bind_ok in N1, N2. destruct N1 as (U1 & N1), N2 as (U2 & N2).
    apply bind_ok in N1, N2. destruct N1 as (I1 & N1), N2 as (I2 & N2). apply bind_ok in N1, N2. destruct N1 as (J1 & N1), N2 as (J2 & N2).
    apply bind_ok in N1, N2. destruct N1 as (L1 & N1), N2 as (L2 & N2). apply ensure_true in T1, T2, U1, U2, I1, I2, J1, J2, L1, L2.
    unfold rc_validate in N1, N2. apply bind_ok in N1, N2. destruct N1 as (R1 & N1), N2 as (R2 & N2). apply bind_ok in N1, N2. destruct N1 as (S1 & N1), N2 as (S2 & N2).
    apply ensure_true in R1, R2, S1, S2, N1, N2.
    assert (F1 : nc_numflux (cf_numerics a) = nc_numflux (cf_numerics b)).
    { destruct (has_two _ _ _ _ X1 Y1) as (z & Z1 & Z2). destruct (nc_numflux (cf_numerics a)) as [|l], (nc_numflux (cf_numerics b)) as [|l']; cbn [is_numflux] in *; [reflexivity| | |].
      - exfalso; exact (tagged_str _ _ _ _ Z2 Z1).
      - exfalso; exact (tagged_str _ _ _ _ Z1 Z2).
      - destruct (tagged_two _ _ _ _ Z1 Z2) as (z1 & Z3 & Z4). destruct (has_two _ _ _ _ Z3 Z4) as (z2 & Z5 & Z6). f_equal. exact (limiter_two _ _ _ K1 K2 Z5 Z6). }
    assert (F2 : nc_time (cf_numerics a) = nc_time (cf_numerics b)).
    { destruct (has_two _ _ _ _ X2 Y2) as (z & Z1 & Z2). destruct (tagged_two _ _ _ _ Z1 Z2) as (z1 & (Q1 & Q2 & Q3 & Q4 & Q5) & (O1 & O2 & O3 & O4 & O5)).
      destruct (has_two _ _ _ _ Q1 O1) as (z2 & Z3 & Z4). pose proof (str_two _ _ _ Z3 Z4) as G1.
      destruct (has_two _ _ _ _ Q2 O2) as (z3 & Z5 & Z6). unfold is_bool in Z5, Z6.
      destruct (has_two _ _ _ _ Q3 O3) as (z4 & Z7 & Z8). pose proof (float_two _ _ _ Z7 Z8 (above_two _ _ _ _ S1 S2)) as G3.
      destruct (has_two _ _ _ _ Q4 O4) as (z5 & Z9 & Z10). pose proof (float_two _ _ _ Z9 Z10 (above_two _ _ _ _ R1 R2)) as G4.
      destruct (has_two _ _ _ _ Q5 O5) as (z6 & Z11 & Z12). pose proof (float_two _ _ _ Z11 Z12 (above_two _ _ _ _ N1 N2)) as G5.
      assert (G2 : rc_asc (nc_time (cf_numerics a)) = rc_asc (nc_time (cf_numerics b))) by congruence.
      clear - G1 G2 G3 G4 G5. destruct (nc_time (cf_numerics a)) as [ma ? ? ? ?], (nc_time (cf_numerics b)) as [mb ? ? ? ?]. cbn in *. subst.
      f_equal. destruct ma, mb; try reflexivity; discriminate G1. }
    destruct (has_two _ _ _ _ X3 Y3) as (z3 & Z3 & Z3'). pose proof (int_two _ _ _ Z3 Z3') as F3.
    destruct (has_two _ _ _ _ X4 Y4) as (z4 & Z4 & Z4'). pose proof (float_two _ _ _ Z4 Z4' (below_two _ _ _ _ U1 U2)) as F4.
    destruct (has_two _ _ _ _ X5 Y5) as (z5 & Z5 & Z5'). pose proof (float_two _ _ _ Z5 Z5' (above_two _ _ _ _ U1 U2)) as F5.
    destruct (has_two _ _ _ _ X6 Y6) as (z6 & Z6 & Z6'). pose proof (float_two _ _ _ Z6 Z6' (above_two _ _ _ _ I1 I2)) as F6.
    destruct (has_two _ _ _ _ X7 Y7) as (z7 & Z7 & Z7'). pose proof (float_two _ _ _ Z7 Z7' (above_two _ _ _ _ J1 J2)) as F7.
    destruct (has_two _ _ _ _ X8 Y8) as (z8 & Z8 & Z8'). pose proof (float_two _ _ _ Z8 Z8' (above_two _ _ _ _ L1 L2)) as F8.
    clear - F1 F2 F3 F4 F5 F6 F7 F8. destruct (cf_numerics a), (cf_numerics b). cbn in *. congruence. }
  assert (E7 : cf_output_max a = cf_output_max b) by (destruct (has_two _ _ _ _ A7 B7) as (x & X1 & X2); exact (int_two _ _ _ X1 X2)).
  assert (E8 : cf_writer a = cf_writer b) by (destruct (has_two _ _ _ _ A8 B8) as (x & X1 & X2); exact (list_two _ _ _ _ _ output_two X1 X2)).
  clear - E1 E2 E3 E4 E5 E6 E7 E8. destruct a, b. cbn in *. congruence.
Qed.
End Unique.
