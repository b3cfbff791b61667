(** Which meshes pass validation in exact arithmetic: proofs. *)

From Coq Require Import Reals ZArith NArith QArith Qreals List Bool Lia Lra.
From Verif Require Import Base Num XReal Config Mesh Spec MeshProofs.
Import ListNotations.
Local Open Scope R_scope.

Definition finl (v : list XR) : Prop := Forall (fun x => exists r, x = Fin r) v.

Lemma finl_at : forall (v : list XR) n, length v = n -> (forall i, (i < n)%nat -> exists r, at1 (n0 XRn) v i = Fin r) -> finl v.
Proof.
  intros v n L H. apply Forall_forall. intros x Hx. apply (In_nth _ _ (n0 XRn)) in Hx. destruct Hx as (i & Hi & <-). apply H. rewrite <- L. exact Hi.
Qed.
Lemma finl_map : forall f v, (forall r, exists r', f (Fin r) = Fin r') -> finl v -> finl (map f v).
Proof.
  intros f v Hf H. apply Forall_forall. intros y Hy. apply in_map_iff in Hy. destruct Hy as (x & <- & Hx).
  destruct (proj1 (Forall_forall _ _) H x Hx) as (r & ->). apply Hf.
Qed.
Lemma finl_zip : forall f v w, (forall r s, exists t, f (Fin r) (Fin s) = Fin t) -> finl v -> finl w -> finl (zipw XRn f v w).
Proof.
  intros f v w Hf Hv Hw. apply Forall_forall. intros y Hy. unfold zipw in Hy. apply in_map_iff in Hy. destruct Hy as ((x1 & x2) & <- & Hx).
  destruct (proj1 (Forall_forall _ _) Hv x1 (in_combine_l _ _ _ _ Hx)) as (r & ->).
  destruct (proj1 (Forall_forall _ _) Hw x2 (in_combine_r _ _ _ _ Hx)) as (s & ->). cbn [fst snd]. apply Hf.
Qed.
Lemma finl_recip : forall v n, length v = n -> (forall i, (i < n)%nat -> exists r, at1 (n0 XRn) v i = Fin r /\ r <> 0) -> finl (map (nrecip XRn) v).
Proof.
  intros v n L H. apply Forall_forall. intros y Hy. apply in_map_iff in Hy. destruct Hy as (x & <- & Hx).
  apply (In_nth _ _ (n0 XRn)) in Hx. destruct Hx as (i & Hi & <-). destruct (H i ltac:(rewrite <- L; exact Hi)) as (r & E & N). unfold at1 in E. rewrite E.
  rewrite X_recip by exact N. eauto.
Qed.
Lemma finl_ones : forall v : list XR, finl (map (fun _ => n1 XRn) v).
Proof. intros v. apply Forall_forall. intros x Hx. apply in_map_iff in Hx. destruct Hx as (_ & <- & _). exists 1. reflexivity. Qed.

(** A reciprocal that is finite has a denominator that is not zero. *)
Lemma recip_nonzero : forall r, nfin XRn (nrecip XRn (Fin r)) = true -> r <> 0.
Proof.
  intros r H ->. unfold nrecip in H. cbn in H. destruct (Req_EM_T 0 0) as [_|n]; [|contradiction n; reflexivity].
  unfold xinf_sgn in H. revert H. destruct (Rlt_dec _ _); try discriminate. destruct (Rlt_dec _ _); discriminate.
Qed.

Section Accept.
Variables (S : nat) (md : mesh_mode) (a b : R).
Hypothesis HS : (5 <= S)%nat.
Hypothesis Hab : a < b.
Let c := mkMC (A:=XRn) md (Fin a) (Fin b).
Let m := mesh_build (A:=XRn) S c.
Let h := hx S a b.

Lemma accept_if : (forall i, (i < S)%nat -> a + h * (INR i - 2) <> 0 /\ a + h * (INR i - 2 + 1 / 2) <> 0 /\ a + h * (INR i - 2 + 1) <> 0) ->
  mesh_new (A:=XRn) true S c = Ok m.
Proof.
  intros Hz. apply mesh_new_by; [lia|]. apply mesh_validate_ok. fold m.
  pose proof (hx_pos S a b HS Hab) as Hh. fold h in Hh. pose proof (mesh_lengths XRn S c) as (L2 & L1 & L3 & _). fold m in L1, L2, L3.
  split; [|split; [|split]].
  - change (nfin XRn (m_dxi m) = true). unfold m, c. rewrite mesh_dxi_R by exact HS. reflexivity.
  - reflexivity.
  - reflexivity.
  - assert (Fw : finl (m_xi_west m)) by (apply finl_at with (n := S); [exact L1|intros i Hi; unfold m, c; rewrite mesh_west_R by assumption; eauto]).
    assert (Fc : finl (m_xi_cent m)) by (apply finl_at with (n := S); [exact L2|intros i Hi; unfold m, c; rewrite mesh_cent_R by assumption; eauto]).
    assert (Fe : finl (m_xi_east m)) by (apply finl_at with (n := S); [exact L3|intros i Hi; unfold m, c; rewrite mesh_east_R by assumption; eauto]).
    assert (Iw : finl (m_xi_west_inv m)).
    { apply (finl_recip (m_xi_west m) S L1). intros i Hi. unfold m, c. rewrite mesh_west_R by assumption. eexists. split; [reflexivity|]. apply Hz. exact Hi. }
    assert (Ic : finl (m_xi_cent_inv m)).
    { apply (finl_recip (m_xi_cent m) S L2). intros i Hi. unfold m, c. rewrite mesh_cent_R by assumption. eexists. split; [reflexivity|]. apply Hz. exact Hi. }
    assert (Ie : finl (m_xi_east_inv m)).
    { apply (finl_recip (m_xi_east m) S L3). intros i Hi. unfold m, c. rewrite mesh_east_R by assumption. eexists. split; [reflexivity|]. apply Hz. exact Hi. }
    assert (Vm : forall r s, exists t, nmul XRn (Fin r : XR) (Fin s) = Fin t) by (intros; eexists; reflexivity).
    assert (Vs : forall r s, exists t, nsub XRn (Fin r : XR) (Fin s) = Fin t) by (intros; eexists; reflexivity).
    assert (Va : forall r s, exists t, nadd XRn (Fin r : XR) (Fin s) = Fin t) by (intros; eexists; reflexivity).
    assert (F1 : forall v : list XR, finl (map (fun _ => n1 XRn) v)) by apply finl_ones.
    assert (Fd : m_dxi m = Fin h) by (unfold m, c; rewrite mesh_dxi_R by exact HS; reflexivity).
    assert (Fl : finl (m_line_xi m)).
    { change (m_line_xi m) with (map (fun x => nmul XRn x (m_dxi m)) (map (fun _ => n1 XRn) (m_xi_cent m))). apply finl_map; [|apply F1].
      intros r. rewrite Fd. eexists; reflexivity. }
    assert (Fg : finl (m_sqrt_g m)).
    { change (m_sqrt_g m) with (zipw XRn (nmul XRn) (zipw XRn (nmul XRn) (map (fun _ => n1 XRn) (m_xi_cent m)) (map (fun _ => n1 XRn) (m_xi_cent m))) (map (fun _ => n1 XRn) (m_xi_cent m))).
      repeat (apply finl_zip; auto). }
    assert (Faw : finl (m_d_area_west m)).
    { change (m_d_area_west m) with (zipw XRn (nmul XRn) (map (fun _ => n1 XRn) (m_xi_west m)) (map (fun _ => n1 XRn) (m_xi_west m))). apply finl_zip; auto. }
    assert (Fae : finl (m_d_area_east m)).
    { change (m_d_area_east m) with (zipw XRn (nmul XRn) (map (fun _ => n1 XRn) (m_xi_east m)) (map (fun _ => n1 XRn) (m_xi_east m))). apply finl_zip; auto. }
    assert (Fcw : finl (m_cell_width m)).
    { change (m_cell_width m) with (zipw XRn (nsub XRn) (m_xi_east m) (m_xi_west m)). apply finl_zip; auto. }
    assert (Lcw : length (m_cell_width m) = S).
    { unfold m. cbn [m_cell_width mesh_build]. rewrite length_zipw; rewrite !map_length, !length_tab; reflexivity. }
    assert (Fcwi : finl (m_cell_width_inv m)).
    { apply (finl_recip (m_cell_width m) S Lcw). intros i Hi. unfold m, c. rewrite mesh_width_R by assumption. eexists. split; [reflexivity|]. fold h. lra. }
    assert (Fli : finl (m_line_xi_inv m)).
    { apply (finl_recip (m_line_xi m) S).
      - change (length (map (fun x => nmul XRn x (m_dxi m)) (map (fun _ => n1 XRn) (m_xi_cent m))) = S). rewrite !map_length. exact L2.
      - intros i Hi. change (m_line_xi m) with (map (fun x => nmul XRn x (m_dxi m)) (map (fun _ => n1 XRn) (m_xi_cent m))).
        rewrite at1_map with (dx := n0 XRn) by (rewrite map_length, L2; exact Hi).
        rewrite at1_map with (dx := n0 XRn) by (rewrite L2; exact Hi). rewrite Fd, X_n1, X_mul. eexists. split; [reflexivity|]. lra. }
    assert (Fv : finl (m_volume m)).
    { change (m_volume m) with (map (fun x => nmul XRn (nmul XRn (nmul XRn x (m_dxi m)) (n1 XRn)) (n1 XRn)) (m_sqrt_g m)). apply finl_map; [|exact Fg].
      intros r. rewrite Fd. eexists; reflexivity. }
    assert (Lv : length (m_volume m) = S).
    { unfold m. cbn [m_volume mesh_build]. rewrite map_length, !length_zipw; rewrite ?length_zipw, ?map_length, ?length_tab; rewrite ?map_length, ?length_tab; reflexivity. }
    assert (Fdd : finl (m_deta_dphi_d_volume m)).
    { apply finl_at with (n := S).
      - change (length (map (fun v => ndiv XRn (nmul XRn (n1 XRn) (n1 XRn)) (nadd XRn (nEPS XRn) v)) (m_volume m)) = S). rewrite map_length. exact Lv.
      - intros i Hi. unfold m, c. rewrite mesh_dddv_R by assumption. eauto. }
    assert (Fac : finl (m_area_cell m)).
    { change (m_area_cell m) with (map (nabs XRn) (zipw XRn (nmul XRn) (zipw XRn (nsub XRn) (m_xi_east m) (m_xi_west m)) (zipw XRn (nsub XRn) (m_xi_east m) (m_xi_west m)))).
      apply finl_map; [intros r; eexists; reflexivity|]. repeat (apply finl_zip; auto). }
    assert (Far : forall v, finl v -> finl (map (fun x => nmul XRn (nmul XRn x (n1 XRn)) (n1 XRn)) v)) by (intros v Hv; apply finl_map; [intros r; eexists; reflexivity|exact Hv]).
    assert (Fx : forall v w : list XR, finl (zipw XRn (nmul XRn) (zipw XRn (nmul XRn) (map (fun x => nmul XRn (nQ XRn (1 # 2)) x) (zipw XRn (nadd XRn) (map (fun _ => n1 XRn) v) (map (fun _ => n1 XRn) w))) (zipw XRn (nsub XRn) (map (fun _ => n1 XRn) v) (map (fun _ => n1 XRn) w))) (m_deta_dphi_d_volume m))).
    { intros v w; apply finl_zip; auto; apply finl_zip; auto; [|apply finl_zip; auto]. apply finl_map; [intros r; eexists; reflexivity|]. apply finl_zip; auto. }
    assert (Fm : forall v, finl v -> finl (map (fun x => nmul XRn (nZ XRn (-1)) x) v)) by (intros v Hv; apply finl_map; [intros r; eexists; reflexivity|exact Hv]).
    assert (All : Forall finl (mesh_arrays m)).
    { unfold mesh_arrays. repeat (apply Forall_cons; [first [assumption|exact (F1 _)|exact (Far _ Faw)|exact (Far _ Fae)|exact (Fx _ _)|exact (Fm _ (Fx _ _))|exact (Fm _ (F1 _))]|]). apply Forall_nil. }
    intros v Hv x Hx. pose proof (proj1 (Forall_forall _ _) All v Hv) as K. destruct (proj1 (Forall_forall _ _) K x Hx) as (r & ->). reflexivity.
Qed.

Lemma accept_only : forall mm, mesh_new (A:=XRn) true S c = Ok mm -> mm = m /\
  forall i, (i < S)%nat -> a + h * (INR i - 2) <> 0 /\ a + h * (INR i - 2 + 1 / 2) <> 0 /\ a + h * (INR i - 2 + 1) <> 0.
Proof.
  intros mm H. destruct (mesh_new_Ok _ _ _ _ _ H) as (_ & -> & V). split; [reflexivity|]. specialize (V eq_refl).
  apply mesh_validate_ok in V. destruct V as (_ & _ & _ & V). fold m in V.
  pose proof (mesh_lengths XRn S c) as (L2 & L1 & L3 & _). fold m in L1, L2, L3.
  assert (G : forall v : list XR, length v = S -> In (map (nrecip XRn) v) (mesh_arrays m) -> forall i r, (i < S)%nat -> at1 (n0 XRn) v i = Fin r -> r <> 0).
  { intros v L Hv i r Hi E. apply recip_nonzero. rewrite <- E. apply (V _ Hv). apply in_map. unfold at1. apply nth_In. apply (Nat.lt_le_trans _ S); [exact Hi|]. rewrite <- L. apply le_n. }
  intros i Hi. split; [|split].
  - apply (G (m_xi_west m) L1) with (i := i); [unfold mesh_arrays; right; right; right; right; left; reflexivity|exact Hi|unfold m, c; apply mesh_west_R; assumption].
  - apply (G (m_xi_cent m) L2) with (i := i); [unfold mesh_arrays; right; right; right; left; reflexivity|exact Hi|unfold m, c; apply mesh_cent_R; assumption].
  - apply (G (m_xi_east m) L3) with (i := i); [unfold mesh_arrays; right; right; right; right; right; left; reflexivity|exact Hi|unfold m, c; apply mesh_east_R; assumption].
Qed.
End Accept.
