(** Proofs about configuration validation. *)

From Coq Require Import Reals ZArith NArith QArith List String Lra Lia Bool.
From Flocq Require Import Core BinarySingleNaN.
From Verif Require Import Base Num XReal B64 Config Mesh State NumFlux Time Writer Runner Spec.
Import ListNotations.

Lemma Bltb_xlt : forall x y : b64, Bltb x y = true <-> xlt (b2x x) (b2x y).
Proof.
  intros x y. destruct (is_finite x) eqn:Fx, (is_finite y) eqn:Fy.
  - rewrite (Bltb_correct 53 1024 x y Fx Fy).
    assert (Hx : b2x x = Fin (B2R x)) by (destruct x as [|[]| |]; try discriminate; reflexivity).
    assert (Hy : b2x y = Fin (B2R y)) by (destruct y as [|[]| |]; try discriminate; reflexivity).
    rewrite Hx, Hy. simpl. destruct (Rlt_bool_spec (B2R x) (B2R y)); split; intros; try discriminate; auto; lra.
  - destruct y as [|[]| |]; try discriminate; destruct x as [[]| | |[]]; try discriminate; cbn; split; auto; discriminate.
  - destruct x as [|[]| |]; try discriminate; destruct y as [[]| | |[]]; try discriminate; cbn; split; auto; try discriminate; tauto.
  - destruct x as [|[]| |]; try discriminate; destruct y as [|[]| |]; try discriminate; cbn; split; auto; try discriminate; tauto.
Qed.

Lemma Bleb_xle : forall x y : b64, Bleb x y = true <-> xle (b2x x) (b2x y).
Proof.
  intros x y. destruct (is_finite x) eqn:Fx, (is_finite y) eqn:Fy.
  - rewrite (Bleb_correct 53 1024 x y Fx Fy).
    assert (Hx : b2x x = Fin (B2R x)) by (destruct x as [|[]| |]; try discriminate; reflexivity).
    assert (Hy : b2x y = Fin (B2R y)) by (destruct y as [|[]| |]; try discriminate; reflexivity).
    rewrite Hx, Hy. simpl. destruct (Rle_bool_spec (B2R x) (B2R y)); split; intros; try discriminate; auto; lra.
  - destruct y as [|[]| |]; try discriminate; destruct x as [[]| | |[]]; try discriminate; cbn; split; auto; discriminate.
  - destruct x as [|[]| |]; try discriminate; destruct y as [[]| | |[]]; try discriminate; cbn; split; auto; try discriminate; tauto.
  - destruct x as [|[]| |]; try discriminate; destruct y as [|[]| |]; try discriminate; cbn; split; auto; try discriminate; tauto.
Qed.

Lemma xltb_xlt : forall x y : XR, xltb x y = true <-> xlt x y.
Proof.
  intros [a| | |] [b| | |]; simpl; try (split; [discriminate|tauto]); try tauto.
  destruct (Rlt_dec a b); split; auto; try discriminate; tauto.
Qed.

Lemma xleb_xle : forall x y : XR, xleb x y = true <-> xle x y.
Proof.
  intros [a| | |] [b| | |]; simpl; try (split; [discriminate|tauto]); try tauto.
  destruct (Rle_dec a b); split; auto; try discriminate; tauto.
Qed.

Lemma ensure_Ok : forall b e, ensure b e = Ok tt <-> b = true.
Proof. intros [] e; simpl; split; auto; discriminate. Qed.

Lemma bind_tt : forall (x y : res unit), (do _ <- x; y) = Ok tt <-> x = Ok tt /\ y = Ok tt.
Proof.
  intros [[]|e| |] y; simpl; split; intros H; try discriminate; auto; try (destruct H; discriminate); tauto.
Qed.

Lemma not_vector_spec : forall n, not_vector n = true <-> ~ is_vector_data n.
Proof.
  intros n. unfold is_vector_data. destruct n; cbn; split; intros H; try discriminate; auto.
  all: try (exfalso; apply H; eauto 8; fail).
  all: intros HH; repeat (destruct HH as [HH|HH]); try discriminate; destruct HH; discriminate.
Qed.

Lemma str_empty_spec : forall s, negb (str_empty s) = true <-> s <> EmptyString.
Proof. intros []; simpl; split; auto; try discriminate; try tauto; intros; discriminate. Qed.

Lemma oc_validate_spec : forall o, oc_validate o = Ok tt <-> valid_output o.
Proof.
  intros o. unfold oc_validate, valid_output. rewrite bind_tt.
  assert (HS : (match oc_conv o with Scalar => ensure (forallb not_vector (oc_names o)) EConfig | Vector => Ok tt end) = Ok tt
               <-> (oc_conv o = Scalar -> forall n, In n (oc_names o) -> ~ is_vector_data n)).
  { destruct (oc_conv o).
    - rewrite ensure_Ok, forallb_forall. split.
      + intros H _ n Hn. apply not_vector_spec, H, Hn.
      + intros H n Hn. apply not_vector_spec. apply H; auto.
    - split; auto. discriminate. }
  rewrite HS. clear HS.
  destruct (oc_stream o).
  - split; intros [H1 H2]; split; auto. discriminate.
  - rewrite bind_tt, !ensure_Ok, !str_empty_spec. split; intros [H1 H2]; split; auto; apply H1; auto.
Qed.

Lemma oc_validate_all_spec : forall l, oc_validate_all l = Ok tt <-> forall o, In o l -> valid_output o.
Proof.
  induction l as [|c t IH]; simpl; [split; auto; intros _ ? []|].
  rewrite bind_tt, oc_validate_spec, IH. split.
  - intros [H1 H2] o [<-|Ho]; auto.
  - intros H. split; auto.
Qed.

Section Generic.
Variable A : Num.
Variable v : nF A -> XR.
Hypothesis Hlt : forall x y, nltb A x y = true <-> xlt (v x) (v y).
Hypothesis Hle : forall x y, nleb A x y = true <-> xle (v x) (v y).
Hypothesis H0 : v (n0 A) = Fin 0.
Hypothesis H1 : v (n1 A) = Fin 1.
Hypothesis H2 : v (nZ A 2) = Fin 2.

Lemma cf_validate_spec : forall c : config A, cf_validate c = Ok tt <-> valid_config v c.
Proof.
  intros c. unfold cf_validate, mc_validate, pc_validate, nc_validate, rc_validate, check_pos.
  rewrite !bind_tt, !ensure_Ok, oc_validate_all_spec, andb_true_iff, !Hlt, Hle, H0, H1, H2, N.ltb_lt.
  assert (HN : nfc_validate (nc_numflux (cf_numerics c)) = Ok tt <->
               forall p, nc_numflux (cf_numerics c) = CKt (Monocent p) -> xlt (Fin 1) (v p)).
  { unfold nfc_validate, lm_validate. destruct (nc_numflux (cf_numerics c)) as [|[| | |p|]];
      try (split; [intros _ ? HH; discriminate|reflexivity]).
    rewrite ensure_Ok, Hlt, H1. split; [intros H q HH; injection HH as <-; exact H|intros H; apply H; reflexivity]. }
  rewrite HN. split.
  - intros (Hx & (Hg1 & Hg2) & (Hn & Hi & Ht & He & Hmi & Hma & Hc & Hat & Hrt & Hf) & Ho).
    constructor; assumption.
  - intros []. repeat match goal with |- _ /\ _ => split end; assumption.
Qed.
End Generic.

Lemma cf_validate_b64 : forall bln bexp (c : config (B64n bln bexp)), cf_validate c = Ok tt <-> valid_config (A:=B64n bln bexp) b2x c.
Proof.
  intros bln bexp. apply cf_validate_spec.
  - exact Bltb_xlt.
  - exact Bleb_xle.
  - reflexivity.
  - vm_compute. f_equal. field.
  - vm_compute. f_equal. field.
Qed.

Lemma cf_validate_R : forall c : config XRn, cf_validate c = Ok tt <-> valid_config (A:=XRn) (fun x => x) c.
Proof.
  apply cf_validate_spec; try reflexivity.
  - exact xltb_xlt.
  - exact xleb_xle.
Qed.

Lemma xlt_not_nan : forall x y, xlt x y -> x <> XNaN /\ y <> XNaN.
Proof. intros [] [] H; simpl in H; try tauto; split; discriminate. Qed.

Lemma default_valid_b64 : forall bln bexp n E t_end folder file,
  xlt (Fin 0) (b2x t_end) -> folder <> EmptyString -> file <> EmptyString ->
  cf_validate (default_riemann_test (B64n bln bexp) n E t_end folder file) = Ok tt.
Proof.
  intros bln bexp n E t_end folder file Ht Hfo Hfi.
  assert (Ht' : Bltb (b_ofZ 0) t_end = true) by (apply Bltb_xlt; exact Ht).
  unfold cf_validate, default_riemann_test. cbn [cf_mesh cf_physics cf_numerics cf_writer].
  assert (M : mc_validate (default_mesh_config (B64n bln bexp)) = Ok tt) by (vm_compute; reflexivity).
  assert (P : pc_validate (default_physics_config (B64n bln bexp)) = Ok tt) by (vm_compute; reflexivity).
  rewrite M, P. cbn [bind].
  assert (C : nc_validate (default_numerics_config (B64n bln bexp) n t_end) = Ok tt).
  { unfold nc_validate, default_numerics_config.
    cbn [nc_numflux nc_iter_max nc_t0 nc_t_end nc_dt_min nc_dt_max nc_dt_cfl nc_time].
    rewrite !bind_tt, !ensure_Ok. repeat match goal with |- _ /\ _ => split end.
    - destruct n; reflexivity.
    - reflexivity.
    - vm_compute; reflexivity.
    - exact Ht'.
    - vm_compute; reflexivity.
    - vm_compute; reflexivity.
    - vm_compute; reflexivity.
    - vm_compute; reflexivity. }
  rewrite C. cbn [bind]. apply oc_validate_all_spec. intros o [<-|[<-|[]]]; split; cbn; try discriminate; auto.
  intros _ x [<-|[<-|[<-|[<-|[]]]]]; apply not_vector_spec; reflexivity.
Qed.

Lemma solver_new_hll : forall A p S c m (u : state A),
  (exists s, solver_new (Hll A) p S c m u = Ok s) <-> nc_numflux (cf_numerics c) = CHll.
Proof.
  intros. unfold solver_new, rhs_new. cbn. destruct (nc_numflux (cf_numerics c)); cbn; split.
  - reflexivity.
  - intros _. eexists; reflexivity.
  - intros [s H]; discriminate.
  - discriminate.
Qed.

Lemma solver_new_kt : forall A p S c m (u : state A),
  (exists s, solver_new (Kt A) p S c m u = Ok s) <-> exists l, nc_numflux (cf_numerics c) = CKt l.
Proof.
  intros. unfold solver_new, rhs_new. cbn. destruct (nc_numflux (cf_numerics c)) as [|l]; cbn; split.
  - intros [s H]; discriminate.
  - intros [l H]; discriminate.
  - intros _; exists l; reflexivity.
  - intros _. eexists; reflexivity.
Qed.

Lemma solver_new_mismatch : forall A p S c m (u : state A),
  (forall l, nc_numflux (cf_numerics c) = CKt l -> solver_new (Hll A) p S c m u = Err ENumFluxMismatch) /\
  (nc_numflux (cf_numerics c) = CHll -> solver_new (Kt A) p S c m u = Err ENumFluxMismatch).
Proof. intros; split; [intros l H|intros H]; unfold solver_new, rhs_new; cbn; rewrite H; reflexivity. Qed.

Lemma init_hll_kt_fails : forall A validation meta banner sched init p S (c : config A) w l,
  nc_numflux (cf_numerics c) = CKt l ->
  let '(w', r) := init_corries (N:=Hll A) validation meta banner sched init p S c w in
  w' = w /\ forall x, r <> Ok x.
Proof.
  intros A validation meta banner sched init p S c w l H. unfold init_corries.
  destruct (cf_validate c); try (split; [reflexivity|discriminate]).
  destruct (mesh_new validation S (cf_mesh c)); try (split; [reflexivity|discriminate]).
  rewrite (proj1 (solver_new_mismatch A p S c a0 _) l H). split; [reflexivity|discriminate].
Qed.

Lemma b2x_nan : forall x : b64, b2x x <> XNaN -> is_nan x = false.
Proof. intros [|[]| |] H; try reflexivity. exfalso; apply H; reflexivity. Qed.

Lemma no_nan_b64 : forall bln bexp (c : config (B64n bln bexp)),
  cf_validate c = Ok tt ->
  Forall (fun x : b64 => is_nan x = false)
    [ mc_xi_in (cf_mesh c); mc_xi_out (cf_mesh c); pc_gamma (cf_physics c);
      nc_t0 (cf_numerics c); nc_t_end (cf_numerics c); nc_dt_min (cf_numerics c);
      nc_dt_max (cf_numerics c); nc_dt_cfl (cf_numerics c);
      rc_rtol (nc_time (cf_numerics c)); rc_atol (nc_time (cf_numerics c));
      rc_friction (nc_time (cf_numerics c)) ].
Proof.
  intros bln bexp c H. apply cf_validate_b64 in H. destruct H.
  repeat constructor; apply b2x_nan;
    first [ exact (proj1 (xlt_not_nan _ _ vc_xi)) | exact (proj2 (xlt_not_nan _ _ vc_xi))
          | exact (proj2 (xlt_not_nan _ _ vc_gamma1)) | exact (proj1 (xlt_not_nan _ _ vc_t_end))
          | exact (proj2 (xlt_not_nan _ _ vc_t_end)) | exact (proj2 (xlt_not_nan _ _ vc_dt_min))
          | exact (proj2 (xlt_not_nan _ _ vc_dt_max)) | exact (proj2 (xlt_not_nan _ _ vc_dt_cfl))
          | exact (proj2 (xlt_not_nan _ _ vc_rtol)) | exact (proj2 (xlt_not_nan _ _ vc_atol))
          | exact (proj2 (xlt_not_nan _ _ vc_friction)) ].
Qed.

Local Open Scope R_scope.

Lemma to_si_spec : forall md x,
  length_to_si (A:=XRn) md (Fin x) = Fin (metres md x) /\
  mass_to_si (A:=XRn) md (Fin x) = Fin (kilograms md x) /\
  time_to_si (A:=XRn) md (Fin x) = Fin x.
Proof.
  intros [] x; repeat split; cbn; f_equal; unfold metres, kilograms, Q2R; cbn; field.
Qed.

Lemma cgs_round_trip : forall x,
  length_to_cgs (A:=XRn) CGS (Fin x) = Fin (centimetres CGS x) /\
  mass_to_cgs (A:=XRn) CGS (Fin x) = Fin (grams CGS x) /\
  time_to_cgs (A:=XRn) CGS (Fin x) = Fin x.
Proof.
  intros x. unfold length_to_cgs, mass_to_cgs, length_to_si, mass_to_si, LENGTH_CGS, MASS_CGS. rewrite !X_Q, !X_mul.
  assert (H1 : Q2R (1 # 100) = / 100) by (unfold Q2R; cbn; field).
  assert (H2 : Q2R (1 # 1000) = / 1000) by (unfold Q2R; cbn; field).
  repeat split; rewrite ?H1, ?H2; try rewrite X_div by (apply Rinv_neq_0_compat; lra); f_equal; cbn; field.
Qed.

Lemma si_to_cgs_refuted :
  (forall A (x : nF A), length_to_cgs SI x = x /\ mass_to_cgs SI x = x) /\
  (forall x, x <> 0 ->
     length_to_cgs (A:=XRn) SI (Fin x) <> Fin (centimetres SI x) /\
     mass_to_cgs (A:=XRn) SI (Fin x) <> Fin (grams SI x)).
Proof.
  split.
  - intros A x; split; reflexivity.
  - intros x Hx; split; cbn; intros H; injection H as H; unfold centimetres, grams in H; lra.
Qed.
