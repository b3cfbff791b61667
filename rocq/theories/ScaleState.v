(** A change of the units of mass and time: the state and its updates. *)

From Coq Require Import Reals ZArith QArith Qreals List Bool Lia Lra.
From Verif Require Import Base Num XReal Config Mesh State ScaleBase.
Import ListNotations.
Local Open Scope R_scope.

Section Scale.
(** factors of densities and of velocities; times get [/ sig] *)
Variables lam sig : R.
Hypothesis Hl : 0 < lam.
Hypothesis Hs : 0 < sig.

(** factors of the rows of the primitive and conservative variables and of the
    fluxes *)
Definition fp (j : nat) : R := match j with O => lam | Datatypes.S O => sig | _ => lam * sig * sig end.
Definition fc (j : nat) : R := match j with O => lam | Datatypes.S O => lam * sig | _ => lam * sig * sig end.
Definition ff (j : nat) : R := fc j * sig.
Definition fe (j : nat) : R := sig.

Lemma fp_pos : forall j, 0 < fp j.
Proof using Hl Hs. intros [|[|j]]; unfold fp; ppos. Qed.
Lemma fc_pos : forall j, 0 < fc j.
Proof using Hl Hs. intros [|[|j]]; unfold fc; ppos. Qed.
Lemma ff_pos : forall j, 0 < ff j.
Proof using Hl Hs. intros j. unfold ff. apply Rmult_lt_0_compat; [apply fc_pos|exact Hs]. Qed.

Ltac rel ::= first [reflexivity | cbv [ff fe]; cbn [fp fc]; field; repeat match goal with |- _ /\ _ => split end; pne | ring].
Ltac ppos ::= cbv [ff fe]; cbn [fp fc]; repeat first [assumption | apply Rlt_0_1 | apply fp_pos | apply fc_pos | apply Rmult_lt_0_compat | apply Rdiv_lt_0_compat | apply Rinv_0_lt_compat].

(** [v'] is [v] in the other units *)
Record vs (v v' : vars XRn) : Prop := mkVs {
  vs_prim : rm fp (prim v) (prim v');
  vs_cons : rm fc (cons v) (cons v');
  vs_cs : rv sig (c_sound v) (c_sound v');
  vs_eig : rm fe (eigen_vals v) (eigen_vals v');
  vs_flux : rm ff (flux v) (flux v');
  vs_gamma : gamma v' = gamma v;
  vs_zero : zero_vec v' = zero_vec v
}.

Ltac lf := first [eapply rm_at; eassumption | eapply rv_at; eassumption | eapply rv_at; eapply rm_row; eassumption].
Ltac sxx := sx lf.
Ltac opn H := let a := fresh "Rp" in let b := fresh "Rc" in let c := fresh "Rs" in let d := fresh "Re" in let e := fresh "Rf" in
  destruct H as [a b c d e Hg Hz].
Ltac vcl := constructor; cbn [set_prim set_cons set_c_sound set_eigen_vals set_flux prim cons c_sound eigen_vals flux gamma zero_vec]; try assumption.

Lemma vs_update_prim : forall p S v v', vs v v' -> vs (update_prim p S v) (update_prim p S v').
Proof using Hl Hs.
  intros p S v v' H. opn H. destruct p; unfold update_prim; vcl; rewrite ?Hg;
    repeat (apply rm_upd); try assumption; apply rv_tab; intros i _; cbn [fst snd isot_cons_to_prim adiab_cons_to_prim fp]; unfold JRHO, JXI; cbn [fp]; sxx.
Qed.
Lemma vs_update_cons : forall p S v v', vs v v' -> vs (update_cons p S v) (update_cons p S v').
Proof using Hl Hs.
  intros p S v v' H. opn H. destruct p; unfold update_cons; vcl; rewrite ?Hg;
    repeat (apply rm_upd); try assumption; apply rv_tab; intros i _; cbn [fst snd isot_prim_to_cons adiab_prim_to_cons fc]; unfold JRHO, JXI, nrecip; cbn [fc]; sxx.
Qed.
Lemma vs_update_flux : forall p S v v', vs v v' -> vs (update_flux p S v) (update_flux p S v').
Proof using Hl Hs.
  intros p S v v' H. opn H. destruct p; unfold update_flux; vcl; rewrite ?Hg;
    repeat (apply rm_upd); try assumption; apply rv_tab; intros i _; cbn [fst snd isot_flux adiab_flux]; unfold ff, JRHO, JXI; cbn [fc]; sxx.
Qed.
Lemma vs_update_c_sound : forall p S v v', vs v v' -> vs (update_c_sound p S v) (update_c_sound p S v').
Proof using Hl Hs.
  intros p S v v' H. opn H. destruct p; unfold update_c_sound; cbn [is_adiabatic]; vcl. rewrite ?Hg.
  apply rv_tab; intros i _. unfold pressure, rho_prim, row_or_zero. cbn [JPRESSURE]. unfold JRHO. sxx.
Qed.

Lemma vs_eig_min : forall S v v', vs v v' -> vs (update_eigen_vals_min S v) (update_eigen_vals_min S v').
Proof using Hl Hs.
  intros S v v' H. opn H. unfold update_eigen_vals_min; vcl. apply rm_upd; [assumption|]. apply rv_tab; intros i _. unfold JXI. sxx.
Qed.
Lemma vs_eig_max : forall p S v v', vs v v' -> vs (update_eigen_vals_max p S v) (update_eigen_vals_max p S v').
Proof using Hl Hs.
  intros p S v v' H. opn H. unfold update_eigen_vals_max; vcl. apply rm_upd; [assumption|]. apply rv_tab; intros i _. unfold JXI. sxx.
Qed.
Lemma vs_eigen : forall p S v v', vs v v' -> vs (update_eigen_vals p S v) (update_eigen_vals p S v').
Proof using Hl Hs.
  intros p S v v' H. unfold update_eigen_vals. apply vs_eig_max. pose proof (vs_eig_min S v v' H) as H1.
  set (w := update_eigen_vals_min S v) in *. set (w' := update_eigen_vals_min S v') in *. clearbody w w'. opn H1. vcl.
  destruct p; cbn [nE Nat.sub seq fold_left]; [assumption|]. apply rm_upd; [assumption|]. unfold fe.
  pose proof (rm_row _ _ _ JXI Rp) as X. exact X.
Qed.
Lemma vs_derived : forall p S v v', vs v v' -> vs (update_derived_variables p S v) (update_derived_variables p S v').
Proof using Hl Hs.
  intros p S v v' H. unfold update_derived_variables. apply vs_eigen. destruct (is_adiabatic p); [apply vs_update_c_sound|]; exact H.
Qed.

(** *** boundary conditions: any row factors *)
Section Boundary.
Variable f : nat -> R.
Hypothesis Hf : forall j, 0 < f j.
Notation z := (n0 XRn).

Ltac ppos ::= repeat first [assumption | apply Rlt_0_1 | match goal with H : forall j, 0 < _ |- _ => apply H end | apply Rmult_lt_0_compat | apply Rdiv_lt_0_compat | apply Rinv_0_lt_compat].
Ltac rel ::= first [reflexivity | field; repeat match goal with |- _ /\ _ => split end; pne | ring].
Ltac bst := repeat (match goal with |- rm _ (upd2 _ _ _ _) (upd2 _ _ _ _) => apply rm_upd2 end); try assumption.

Lemma rm_set : forall j i x x' q q', rm f q q' -> sc (f j) x x' -> rm f (upd2 j i x q) (upd2 j i x' q').
Proof using. intros. apply rm_upd2; assumption. Qed.

Lemma sc_npos : forall j i q q', rm f q q' -> npos XRn (at2 z q' j i) = npos XRn (at2 z q j i).
Proof using Hf. intros j i q q' H. apply (sc_pos (f j)); [apply Hf|]. apply rm_at. exact H. Qed.

Ltac b1 := apply rm_set; [|sx ltac:(eapply rm_at; eassumption)].

Ltac b2 := match goal with |- rm f (upd2 _ _ _ ?x) (upd2 _ _ _ ?y) =>
  let H1 := fresh "H1" in assert (H1 : rm f x y) by (b1; assumption); let x1 := fresh "x1" in let y1 := fresh "y1" in
  set (x1 := x) in *; set (y1 := y) in *; clearbody x1 y1; b1; assumption end.

Lemma inv_fin : forall j i q q', rm f q q' -> nfin XRn (n1 XRn / at2 z q' j i)%num = nfin XRn (n1 XRn / at2 z q j i)%num.
Proof using Hf.
  intros j i q q' H. apply (sc_fin (1 / f j)). eapply sc_div'; [apply sc_refl1; reflexivity|apply rm_at; exact H|reflexivity|lra|apply Hf].
Qed.

Lemma mode_scaled : forall s S (m : mesh XRn) md j q q', rm f q q' -> rm f (apply_mode s S m md j q) (apply_mode s S m md j q').
Proof using Hf.
  intros s S m md j q q' H.
  assert (XW : rm f (extrapolate_west S m j q) (extrapolate_west S m j q')).
  { unfold extrapolate_west. rewrite !(inv_fin _ _ _ _ H). destruct (m_is_logarithmic m); cbv zeta; [|b2].
    destruct (negb _ || negb _)%bool; [repeat apply rm_set; try apply sc_zero; assumption|b2]. }
  assert (XE : rm f (extrapolate_east S m j q) (extrapolate_east S m j q')).
  { unfold extrapolate_east. rewrite !(inv_fin _ _ _ _ H). destruct (m_is_logarithmic m); cbv zeta; [|b2].
    destruct (negb _ || negb _)%bool; [repeat apply rm_set; try apply sc_zero; assumption|b2]. }
  assert (RW : rm f (reflecting_west j q) (reflecting_west j q')) by (unfold reflecting_west; cbv zeta; b2).
  assert (RE : rm f (reflecting_east S j q) (reflecting_east S j q')) by (unfold reflecting_east; cbv zeta; b2).
  assert (NW : rm f (no_gradients_west j q) (no_gradients_west j q')) by (unfold no_gradients_west; cbv zeta; b2).
  assert (NE : rm f (no_gradients_east S j q) (no_gradients_east S j q')) by (unfold no_gradients_east; cbv zeta; b2).
  assert (ZW : rm f (near_zero_west j q) (near_zero_west j q')) by (unfold near_zero_west; cbv zeta; b2).
  assert (ZE : rm f (near_zero_east S j q) (near_zero_east S j q')) by (unfold near_zero_east; cbv zeta; b2).
  assert (KW : rm f (kepler_west m j q) (kepler_west m j q')) by (unfold kepler_west; cbv zeta; b2).
  assert (KE : rm f (kepler_east S m j q) (kepler_east S m j q')) by (unfold kepler_east; cbv zeta; b2).
  destruct s, md; cbn [apply_mode]; try assumption;
    unfold outflow_no_gradients_west, outflow_no_gradients_east, outflow_extrapolate_west, outflow_extrapolate_east;
    rewrite !(sc_npos _ _ _ _ H); match goal with |- context [if ?b then _ else _] => destruct b end; assumption.
Qed.

Lemma modes_scaled : forall s E S (m : mesh XRn) l q q', rm f q q' ->
  match apply_modes s E S m l q, apply_modes s E S m l q' with
  | Ok a, Ok b => rm f a b | Err e, Err e' => e = e' | Panic, Panic => True | Fuel, Fuel => True | _, _ => False
  end.
Proof using Hf.
  intros s E S m l. induction l as [|[j md] t IH]; intros q q' H; cbn [apply_modes]; [exact H|].
  destruct (j <? E)%nat; [|exact I]. apply IH. apply mode_scaled. exact H.
Qed.
End Boundary.

(** two outcomes of the same kind, with related values *)
Definition rres {X} (P : X -> X -> Prop) (r r' : res X) : Prop :=
  match r, r' with
  | Ok a, Ok b => P a b | Err e, Err e' => e = e' | Panic, Panic => True | Fuel, Fuel => True | _, _ => False
  end.

Lemma vs_bc : forall s p S m l v v', vs v v' -> rres vs (bc_apply s p S m l v) (bc_apply s p S m l v').
Proof using Hl Hs.
  intros s p S m l v v' H. unfold bc_apply. pose proof (modes_scaled fp fp_pos s (nE p) S m l _ _ (vs_prim _ _ H)) as X.
  destruct (apply_modes s (nE p) S m l (prim v)), (apply_modes s (nE p) S m l (prim v')); cbn [bind rres] in *; try contradiction; try assumption.
  opn H. vcl.
Qed.
Lemma vs_from_prim : forall p S bw be m v v', vs v v' -> rres vs (update_vars_from_prim p S bw be m v) (update_vars_from_prim p S bw be m v').
Proof using Hl Hs.
  intros p S bw be m v v' H. unfold update_vars_from_prim. pose proof (vs_bc West p S m bw v v' H) as X.
  destruct (bc_apply West p S m bw v) as [v1|e| |], (bc_apply West p S m bw v') as [v1'|e'| |]; cbn [bind rres] in *; try contradiction; try assumption.
  pose proof (vs_bc East p S m be v1 v1' X) as Y.
  destruct (bc_apply East p S m be v1) as [v2|e| |], (bc_apply East p S m be v1') as [v2'|e'| |]; cbn [bind rres] in *; try contradiction; try assumption.
  apply vs_derived, vs_update_cons. exact Y.
Qed.
Lemma vs_from_cons : forall p S bw be m v v', vs v v' -> rres vs (update_vars_from_cons p S bw be m v) (update_vars_from_cons p S bw be m v').
Proof using Hl Hs. intros. unfold update_vars_from_cons. apply vs_from_prim, vs_update_prim. assumption. Qed.

(** the whole state *)
Definition us (u u' : state XRn) : Prop := vs (cent u) (cent u') /\ vs (west u) (west u') /\ vs (east u) (east u').

Lemma us_from_prim : forall p S bw be m u u', us u u' -> rres us (st_update_from_prim p S bw be m u) (st_update_from_prim p S bw be m u').
Proof using Hl Hs.
  intros p S bw be m u u' (H & Hw & He). unfold st_update_from_prim. pose proof (vs_from_prim p S bw be m _ _ H) as X.
  destruct (update_vars_from_prim p S bw be m (cent u)), (update_vars_from_prim p S bw be m (cent u')); cbn [bind rres] in *; try contradiction; try assumption.
  unfold us; cbn [set_cent cent west east]; auto.
Qed.
Lemma us_from_cons : forall p S bw be m u u', us u u' -> rres us (st_update_from_cons p S bw be m u) (st_update_from_cons p S bw be m u').
Proof using Hl Hs.
  intros p S bw be m u u' (H & Hw & He). unfold st_update_from_cons. pose proof (vs_from_cons p S bw be m _ _ H) as X.
  destruct (update_vars_from_cons p S bw be m (cent u)), (update_vars_from_cons p S bw be m (cent u')); cbn [bind rres] in *; try contradiction; try assumption.
  unfold us; cbn [set_cent cent west east]; auto.
Qed.
Lemma vs_assign : forall a a' b b', vs a a' -> vs b b' -> vs (vars_assign a b) (vars_assign a' b').
Proof using. intros a a' b b' H [Hp Hc Hcs _ _ _ _]. opn H. unfold vars_assign. vcl. Qed.
Lemma us_assign : forall a a' b b', us a a' -> us b b' -> us (state_assign a b) (state_assign a' b').
Proof using. intros a a' b b' (H & H1 & H2) (H3 & H4 & H5). unfold us; cbn [state_assign cent west east]; repeat match goal with |- _ /\ _ => split end; apply vs_assign; assumption. Qed.
Lemma us_init_west_east : forall u u', us u u' -> us (init_west_east u) (init_west_east u').
Proof using. intros u u' (H & H1 & H2). unfold us; cbn [init_west_east cent west east]; repeat match goal with |- _ /\ _ => split end; try assumption; apply vs_assign; assumption. Qed.
Lemma vs_set_cons : forall v v' c c', vs v v' -> rm fc c c' -> vs (set_cons c v) (set_cons c' v').
Proof using. intros v v' c c' H Hc. opn H. vcl. Qed.
Lemma us_set_cons : forall u u' c c', us u u' -> rm fc c c' -> us (set_cent (set_cons c (cent u)) u) (set_cent (set_cons c' (cent u')) u').
Proof using. intros u u' c c' (H & H1 & H2) Hc. unfold us; cbn [set_cent cent west east]; repeat match goal with |- _ /\ _ => split end; try assumption. apply vs_set_cons; assumption. Qed.

Lemma rm_zeros2 : forall f e n, rm f (zeros2 (A:=XRn) e n) (zeros2 (A:=XRn) e n).
Proof using. intros. unfold zeros2, zeros. apply rm_repeat. apply sc_zero. Qed.
Lemma rv_zeros : forall k n, rv k (zeros (A:=XRn) n) (zeros (A:=XRn) n).
Proof using. intros. unfold zeros. apply rv_repeat. apply sc_zero. Qed.
Lemma vs_new : forall p S c c', pc_gamma c' = pc_gamma c -> vs (vars_new p S c) (vars_new p S c').
Proof using. intros p S c c' E. constructor; cbn [vars_new prim cons c_sound eigen_vals flux gamma zero_vec]; try apply rm_zeros2; try apply rv_zeros; auto. Qed.
Lemma us_new : forall p S c c', pc_gamma c' = pc_gamma c -> us (state_new p S c) (state_new p S c').
Proof using. intros p S c c' E. unfold us; cbn [state_new cent west east]; repeat match goal with |- _ /\ _ => split end; apply vs_new; exact E. Qed.

Lemma rm_all_fin2 : forall f M M', rm f M M' -> all_fin2 (A:=XRn) M' = all_fin2 (A:=XRn) M.
Proof using. exact rm_fin. Qed.
Lemma rv_all_fin : forall k v v', rv k v v' -> all_fin (A:=XRn) v' = all_fin (A:=XRn) v.
Proof using. exact rv_fin. Qed.
Lemma us_validate : forall u u', us u u' -> state_validate u' = state_validate u.
Proof using.
  intros u u' (H & _). unfold state_validate, vars_validate. opn H. rewrite (rm_all_fin2 _ _ _ Rp), (rm_all_fin2 _ _ _ Rc). reflexivity.
Qed.
Lemma vs_eigen_min : forall v v', vs v v' -> rv sig (eigen_min v) (eigen_min v').
Proof using. intros v v' H. opn H. unfold eigen_min. exact (rm_row _ _ _ 0%nat Re). Qed.
Lemma vs_eigen_max : forall p v v', vs v v' -> rv sig (eigen_max p v) (eigen_max p v').
Proof using. intros p v v' H. opn H. unfold eigen_max. exact (rm_row _ _ _ (nE p - 1)%nat Re). Qed.

Lemma us_dt : forall p S u u' c m, us u u' -> rres (sc (/ sig)) (st_calc_dt_cfl p S u c m) (st_calc_dt_cfl p S u' c m).
Proof using Hl Hs.
  intros p S u u' c m (H & _). unfold st_calc_dt_cfl, calc_dt_cfl.
  pose proof (vs_eigen_max p _ _ H) as E. set (e := eigen_max p (cent u)) in *. set (e' := eigen_max p (cent u')) in *. clearbody e e'.
  assert (X : forall l a a', sc sig a a' ->
    sc sig (fold_left (fun acc i => nmax XRn acc (nabs XRn (at1 (n0 XRn) e i * at1 (n0 XRn) (m_cell_width_inv m) i)%num)) l a)
           (fold_left (fun acc i => nmax XRn acc (nabs XRn (at1 (n0 XRn) e' i * at1 (n0 XRn) (m_cell_width_inv m) i)%num)) l a')).
  { induction l as [|i t IH]; intros a a' Ha; cbn [fold_left]; [exact Ha|]. apply IH. apply sc_max; [exact Hs|exact Ha|].
    apply sc_abs; [exact Hs|]. eapply sc_mul'; [apply rv_at; exact E|apply sc_refl1; reflexivity|ring|exact Hs|lra]. }
  specialize (X (seq 0 S) (n0 XRn) (n0 XRn) (sc_zero sig)).
  assert (Y := sc_div' 1 sig (/ sig) c _ c _ (sc_refl1 1 c eq_refl) X ltac:(field; lra) ltac:(lra) Hs).
  rewrite (sc_fin _ _ _ Y). destruct (nfin XRn _); cbn [rres]; [exact Y|reflexivity].
Qed.
End Scale.
