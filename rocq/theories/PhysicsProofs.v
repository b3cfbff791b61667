(** Proofs about the two physics systems. *)

From Coq Require Import Reals ZArith QArith Qreals List Lia Bool Lra.
From Flocq Require Import Core BinarySingleNaN.
From Verif Require Import Base Num XReal B64 Config Mesh State Spec ConfigProofs.
Import ListNotations.
Local Open Scope nat_scope.

(** ** Cell view of the array functions *)
Section Cell.
Variable A : Num.
Notation F := (nF A).

Lemma shape_zeros2 : forall e n, shape e n (zeros2 (A:=A) e n).
Proof.
  intros e n. unfold zeros2, zeros. split; [apply repeat_length|]. intros j Hj.
  rewrite (nth_indep _ [] (repeat (n0 A) n)) by (rewrite repeat_length; assumption).
  rewrite nth_repeat. apply repeat_length.
Qed.

(** row [j] of the conversion of one cell, [f] the cell's other variables *)
Definition c2p (p : phys) (g : F) (f : nat -> F) (j : nat) : F :=
  match p with
  | Isot => let r := isot_cons_to_prim (A:=A) (f 0) (f 1) in
            match j with 0 => fst r | _ => snd r end
  | Adiab => let r := adiab_cons_to_prim (A:=A) (f 0) (f 1) (f 2) g in
            match j with 0 => fst (fst r) | 1 => snd (fst r) | _ => snd r end
  end.
Definition p2c (p : phys) (g : F) (f : nat -> F) (j : nat) : F :=
  match p with
  | Isot => let r := isot_prim_to_cons (A:=A) (f 0) (f 1) in
            match j with 0 => fst r | _ => snd r end
  | Adiab => let r := adiab_prim_to_cons (A:=A) (f 0) (f 1) (f 2) g in
            match j with 0 => fst (fst r) | 1 => snd (fst r) | _ => snd r end
  end.
Definition pflux (p : phys) (q c : nat -> F) (cs : F) (j : nat) : F :=
  match p with
  | Isot => let r := isot_flux (A:=A) (c 0) (q 1) (c 1) cs in
            match j with 0 => fst r | _ => snd r end
  | Adiab => let r := adiab_flux (A:=A) (q 1) (c 1) (q 2) (c 2) in
            match j with 0 => fst (fst r) | 1 => snd (fst r) | _ => snd r end
  end.

Lemma nE_pos : forall p, 2 <= nE p. Proof. intros []; cbn; lia. Qed.

Ltac rows :=
  repeat first [ rewrite nth_upd_ne by (cbn; lia) | rewrite nth_upd_eq by (rewrite ?length_upd; cbn in *; lia) ].

Lemma update_prim_at : forall p S (v : vars A) j i, shape (nE p) S (prim v) -> j < nE p -> i < S ->
  at2 (n0 A) (prim (update_prim p S v)) j i = c2p p (gamma v) (fun k => at2 (n0 A) (cons v) k i) j.
Proof.
  intros p S v j i [Hl Hr] Hj Hi. unfold at2 at 1. unfold update_prim, c2p. unfold JRHO, JXI.
  destruct p; cbn [nE prim set_prim] in *.
  - destruct j as [|[|j]]; [| |lia]; rows; rewrite nth_tab by assumption; reflexivity.
  - destruct j as [|[|[|j]]]; [| | |lia]; rows; rewrite nth_tab by assumption; reflexivity.
Qed.

Lemma update_cons_at : forall p S (v : vars A) j i, shape (nE p) S (cons v) -> j < nE p -> i < S ->
  at2 (n0 A) (cons (update_cons p S v)) j i = p2c p (gamma v) (fun k => at2 (n0 A) (prim v) k i) j.
Proof.
  intros p S v j i [Hl Hr] Hj Hi. unfold at2 at 1. unfold update_cons, p2c. unfold JRHO, JXI.
  destruct p; cbn [nE cons set_cons] in *.
  - destruct j as [|[|j]]; [| |lia]; rows; rewrite nth_tab by assumption; reflexivity.
  - destruct j as [|[|[|j]]]; [| | |lia]; rows; rewrite nth_tab by assumption; reflexivity.
Qed.

Lemma update_flux_at : forall p S (v : vars A) j i, shape (nE p) S (flux v) -> j < nE p -> i < S ->
  at2 (n0 A) (flux (update_flux p S v)) j i =
  pflux p (fun k => at2 (n0 A) (prim v) k i) (fun k => at2 (n0 A) (cons v) k i) (at1 (n0 A) (c_sound v) i) j.
Proof.
  intros p S v j i [Hl Hr] Hj Hi. unfold at2 at 1. unfold update_flux, pflux. unfold JRHO, JXI.
  destruct p; cbn [nE flux set_flux] in *.
  - destruct j as [|[|j]]; [| |lia]; rows; rewrite nth_tab by assumption; reflexivity.
  - destruct j as [|[|[|j]]]; [| | |lia]; rows; rewrite nth_tab by assumption; reflexivity.
Qed.

Lemma update_prim_shape : forall p S (v : vars A), shape (nE p) S (prim v) -> shape (nE p) S (prim (update_prim p S v)).
Proof. intros [] S v H; cbn [update_prim prim set_prim]; repeat apply shape_upd_row; auto; apply length_tab. Qed.
Lemma update_cons_shape : forall p S (v : vars A), shape (nE p) S (cons v) -> shape (nE p) S (cons (update_cons p S v)).
Proof. intros [] S v H; cbn [update_cons cons set_cons]; repeat apply shape_upd_row; auto; apply length_tab. Qed.
Lemma update_flux_shape : forall p S (v : vars A), shape (nE p) S (flux v) -> shape (nE p) S (flux (update_flux p S v)).
Proof. intros [] S v H; cbn [update_flux flux set_flux]; repeat apply shape_upd_row; auto; apply length_tab. Qed.

Lemma update_prim_fields : forall p S (v : vars A),
  cons (update_prim p S v) = cons v /\ c_sound (update_prim p S v) = c_sound v /\
  eigen_vals (update_prim p S v) = eigen_vals v /\ flux (update_prim p S v) = flux v /\
  gamma (update_prim p S v) = gamma v /\ zero_vec (update_prim p S v) = zero_vec v.
Proof. intros [] S v; cbn; auto 8. Qed.
Lemma update_cons_fields : forall p S (v : vars A),
  prim (update_cons p S v) = prim v /\ c_sound (update_cons p S v) = c_sound v /\
  eigen_vals (update_cons p S v) = eigen_vals v /\ flux (update_cons p S v) = flux v /\
  gamma (update_cons p S v) = gamma v /\ zero_vec (update_cons p S v) = zero_vec v.
Proof. intros [] S v; cbn; auto 8. Qed.
Lemma update_flux_fields : forall p S (v : vars A),
  prim (update_flux p S v) = prim v /\ cons (update_flux p S v) = cons v /\
  c_sound (update_flux p S v) = c_sound v /\
  eigen_vals (update_flux p S v) = eigen_vals v /\
  gamma (update_flux p S v) = gamma v /\ zero_vec (update_flux p S v) = zero_vec v.
Proof. intros [] S v; cbn; auto 8. Qed.

Lemma density_unchanged : forall p S (v : vars A), shape (nE p) S (prim v) -> shape (nE p) S (cons v) ->
  nth 0 (cons (update_cons p S v)) [] = nth 0 (prim v) [] /\
  nth 0 (prim (update_prim p S v)) [] = nth 0 (cons v) [].
Proof.
  intros p S v Hp Hc. pose proof (nE_pos p).
  pose proof (update_cons_shape p S v Hc) as Sc. pose proof (update_prim_shape p S v Hp) as Sp.
  split; apply list_ext with (d := n0 A).
  - rewrite (proj2 Sc), (proj2 Hp) by lia. reflexivity.
  - rewrite (proj2 Sc) by lia. intros i Hi.
    change (at2 (n0 A) (cons (update_cons p S v)) 0 i = at2 (n0 A) (prim v) 0 i).
    rewrite update_cons_at by (auto; lia). destruct p; reflexivity.
  - rewrite (proj2 Sp), (proj2 Hc) by lia. reflexivity.
  - rewrite (proj2 Sp) by lia. intros i Hi.
    change (at2 (n0 A) (prim (update_prim p S v)) 0 i = at2 (n0 A) (cons v) 0 i).
    rewrite update_prim_at by (auto; lia). destruct p; reflexivity.
Qed.

(** ** Derived variables *)
Definition c_new (p : phys) (S : nat) (v : vars A) : list F :=
  match p with
  | Isot => c_sound v
  | Adiab => tab S (fun i => nsqrt A (ndiv A (nmul A (gamma v) (at2 (n0 A) (prim v) 2 i)) (at2 (n0 A) (prim v) 0 i)))
  end.

Lemma derived_fields : forall p S (v : vars A),
  prim (update_derived_variables p S v) = prim v /\ cons (update_derived_variables p S v) = cons v /\
  c_sound (update_derived_variables p S v) = c_new p S v /\
  flux (update_derived_variables p S v) = flux v /\
  gamma (update_derived_variables p S v) = gamma v /\ zero_vec (update_derived_variables p S v) = zero_vec v.
Proof. intros [] S v; cbn; auto 8. Qed.

(** row [j] of the eigenvalues of one cell *)
Definition eigen_row (p : phys) (vel cs : F) (j : nat) : F :=
  if j =? 0 then nsub A vel cs else if j =? nE p - 1 then nadd A vel cs else vel.

Lemma derived_eigen_at : forall p S (v : vars A) j i, shape (nE p) S (eigen_vals v) -> shape (nE p) S (prim v) ->
  j < nE p -> i < S ->
  at2 (n0 A) (eigen_vals (update_derived_variables p S v)) j i =
  eigen_row p (at2 (n0 A) (prim v) 1 i) (at1 (n0 A) (c_new p S v) i) j.
Proof.
  intros p S v j i [Hl Hr] [Hl' Hr'] Hj Hi. unfold at2 at 1.
  destruct p; cbn [nE] in *.
  - unfold update_derived_variables, update_eigen_vals. cbn [is_adiabatic nE Nat.sub seq fold_left].
    unfold update_eigen_vals_max, update_eigen_vals_min. cbn [eigen_vals set_eigen_vals prim c_sound nE Nat.sub].
    unfold JXI. destruct j as [|[|j]]; [| |lia]; rows; rewrite nth_tab by assumption; reflexivity.
  - unfold update_derived_variables, update_eigen_vals. cbn [is_adiabatic nE Nat.sub seq fold_left].
    unfold update_eigen_vals_max, update_eigen_vals_min, update_c_sound.
    cbn [eigen_vals set_eigen_vals prim c_sound nE Nat.sub is_adiabatic set_c_sound].
    unfold JXI. destruct j as [|[|[|j]]]; [| | |lia]; rows.
    + rewrite nth_tab by assumption. reflexivity.
    + reflexivity.
    + rewrite nth_tab by assumption. reflexivity.
Qed.

Lemma derived_eigen_shape : forall p S (v : vars A), shape (nE p) S (eigen_vals v) -> shape (nE p) S (prim v) ->
  shape (nE p) S (eigen_vals (update_derived_variables p S v)).
Proof.
  intros p S v H [Hl Hr]. destruct p; cbn [nE] in *.
  - unfold update_derived_variables, update_eigen_vals. cbn [is_adiabatic nE Nat.sub seq fold_left].
    unfold update_eigen_vals_max, update_eigen_vals_min. cbn [eigen_vals set_eigen_vals].
    repeat apply shape_upd_row; auto; apply length_tab.
  - unfold update_derived_variables, update_eigen_vals. cbn [is_adiabatic nE Nat.sub seq fold_left].
    unfold update_eigen_vals_max, update_eigen_vals_min, update_c_sound.
    cbn [eigen_vals set_eigen_vals prim is_adiabatic set_c_sound].
    repeat apply shape_upd_row; auto; try apply length_tab.
Qed.
End Cell.

(** ** Exact arithmetic *)

Lemma Q2R_half : Q2R (1 # 2) = (1 / 2)%R.
Proof. unfold Q2R; cbn. lra. Qed.

Lemma prim_roundtrip_cell : forall p S (v : vars XRn) g (f : nat -> R) i,
  shape (nE p) S (prim v) -> shape (nE p) S (cons v) -> i < S ->
  gamma v = Fin g -> (p = Adiab -> g <> 1)%R ->
  (forall j, j < nE p -> at2 (n0 XRn) (prim v) j i = Fin (f j)) -> (f 0%nat <> 0)%R ->
  forall j, j < nE p -> at2 (n0 XRn) (prim (update_prim p S (update_cons p S v))) j i = at2 (n0 XRn) (prim v) j i.
Proof.
  intros p S v g f i Hp Hc Hi Hg Hg1 Hf Hf0 j Hj.
  destruct (update_cons_fields XRn p S v) as (E1 & _ & _ & _ & E5 & _).
  rewrite update_prim_at by (rewrite ?E1; assumption). rewrite E5, Hg, Hf by assumption.
  destruct p; cbn [nE] in *; unfold c2p; rewrite !update_cons_at by (cbn; auto; lia); unfold p2c; rewrite ?Hg;
  rewrite !Hf by lia; unfold adiab_prim_to_cons, adiab_cons_to_prim, isot_prim_to_cons, isot_cons_to_prim; cbn [fst snd].
  - destruct j as [|[|j]]; [reflexivity| |lia]. rewrite X_mul, X_div by assumption. f_equal. field. assumption.
  - specialize (Hg1 eq_refl).
    destruct j as [|[|[|j]]]; [reflexivity| | |lia].
    + rewrite X_mul, X_div by assumption. f_equal. field. assumption.
    + rewrite X_n1, X_Q, Q2R_half, X_sub, X_recip, !X_mul, X_add, X_div by lra.
      rewrite !X_mul, X_sub, X_mul. f_equal. field. split; lra.
Qed.

Lemma cons_roundtrip_cell : forall p S (v : vars XRn) g (f : nat -> R) i,
  shape (nE p) S (prim v) -> shape (nE p) S (cons v) -> i < S ->
  gamma v = Fin g -> (p = Adiab -> g <> 1)%R ->
  (forall j, j < nE p -> at2 (n0 XRn) (cons v) j i = Fin (f j)) -> (f 0%nat <> 0)%R ->
  forall j, j < nE p -> at2 (n0 XRn) (cons (update_cons p S (update_prim p S v))) j i = at2 (n0 XRn) (cons v) j i.
Proof.
  intros p S v g f i Hp Hc Hi Hg Hg1 Hf Hf0 j Hj.
  destruct (update_prim_fields XRn p S v) as (E1 & _ & _ & _ & E5 & _).
  rewrite update_cons_at by (rewrite ?E1; assumption). rewrite E5, Hg, Hf by assumption.
  destruct p; cbn [nE] in *; unfold p2c; rewrite !update_prim_at by (cbn; auto; lia); unfold c2p; rewrite ?Hg;
  rewrite !Hf by lia; unfold adiab_prim_to_cons, adiab_cons_to_prim, isot_prim_to_cons, isot_cons_to_prim; cbn [fst snd].
  - destruct j as [|[|j]]; [reflexivity| |lia]. rewrite X_div, X_mul by assumption. f_equal. field. assumption.
  - specialize (Hg1 eq_refl).
    destruct j as [|[|[|j]]]; [reflexivity| | |lia].
    + rewrite X_div, X_mul by assumption. f_equal. field. assumption.
    +
      rewrite X_n1, X_Q, Q2R_half, X_sub, X_recip, !X_div by lra. rewrite !X_mul, X_sub, !X_mul, X_add.
      f_equal. field. split; lra.
Qed.

(** *** Fluxes and their derivatives *)
Section Flux.
Local Open Scope R_scope.

Lemma cons_is_conserved : forall p S (v : vars XRn) g (f : nat -> R) i,
  shape (nE p) S (cons v) -> (i < S)%nat ->
  gamma v = Fin g -> (p = Adiab -> g <> 1) ->
  (forall j, (j < nE p)%nat -> at2 (n0 XRn) (prim v) j i = Fin (f j)) ->
  forall j, (j < nE p)%nat -> at2 (n0 XRn) (cons (update_cons p S v)) j i = Fin (conserved p g f j).
Proof.
  intros p S v g f i Hc Hi Hg Hg1 Hf j Hj. rewrite update_cons_at by assumption. unfold p2c. rewrite ?Hg. destruct p; cbn [nE] in *.
  - rewrite !Hf by lia. destruct j as [|[|j]]; [reflexivity| |lia].
    unfold isot_prim_to_cons; cbn [fst snd]. rewrite X_mul. cbn [conserved]. f_equal. lra.
  - rewrite !Hf by lia. specialize (Hg1 eq_refl). destruct j as [|[|[|j]]]; [reflexivity| | |lia];
    unfold adiab_prim_to_cons, isot_prim_to_cons; cbn [fst snd].
    + rewrite X_mul. cbn [conserved]. f_equal. lra.
    + rewrite X_n1, X_Q, Q2R_half, X_sub, X_recip by lra. rewrite !X_mul, X_add. cbn [conserved]. f_equal. field. lra.
Qed.

Lemma flux_is_euler : forall p S (v : vars XRn) g (f : nat -> R) i cs,
  shape (nE p) S (flux v) -> (i < S)%nat -> (p = Adiab -> g <> 1) ->
  (forall j, (j < nE p)%nat -> at2 (n0 XRn) (prim v) j i = Fin (f j)) -> f 0%nat <> 0 ->
  (forall j, (j < nE p)%nat -> at2 (n0 XRn) (cons v) j i = Fin (conserved p g f j)) ->
  at1 (n0 XRn) (c_sound v) i = Fin cs ->
  forall j, (j < nE p)%nat ->
       at2 (n0 XRn) (flux (update_flux p S v)) j i = Fin (euler_flux p g cs (conserved p g f) j).
Proof.
  intros p S v g f i cs Hx Hi Hg1 Hf Hf0 HU Hcs j Hj.
  rewrite update_flux_at by assumption. rewrite Hcs.
  unfold pflux. destruct p; cbn [nE] in *.
  - rewrite !HU by lia. rewrite Hf by lia. unfold isot_flux; cbn [fst snd]. destruct j as [|[|j]]; [reflexivity| |lia].
    rewrite !X_mul, X_add, X_mul. unfold euler_flux, conserved. f_equal. field. assumption.
  - rewrite !HU by lia. rewrite !Hf by lia. specialize (Hg1 eq_refl). unfold adiab_flux; cbn [fst snd].
    destruct j as [|[|[|j]]]; [reflexivity| | |lia].
    + rewrite X_mul, X_add. unfold euler_flux, euler_pressure, conserved. f_equal. field. split; lra.
    + rewrite X_add, X_mul. unfold euler_flux, euler_pressure, conserved. f_equal. field. split; lra.
Qed.

(** Directional derivative of the Euler flux. *)
Definition jac (p : phys) (g cs : R) (U r : nat -> R) (j : nat) : R :=
  let rho := U 0%nat in let mm := U 1%nat in let e := U 2%nat in
  match p with
  | Isot => match j with
      | 0%nat => r 1%nat
      | _ => (2 * mm * r 1%nat * rho - mm * mm * r 0%nat) / (rho * rho) + cs * cs * r 0%nat
      end
  | Adiab =>
      let dp := (g - 1) * (r 2%nat - (2 * mm * r 1%nat * rho - mm * mm * r 0%nat) / (2 * (rho * rho))) in
      let pr := (g - 1) * (e - mm * mm / (2 * rho)) in
      match j with
      | 0%nat => r 1%nat
      | 1%nat => (2 * mm * r 1%nat * rho - mm * mm * r 0%nat) / (rho * rho) + dp
      | _ => (r 2%nat + dp) * (mm / rho) + (e + pr) * ((r 1%nat * rho - mm * r 0%nat) / (rho * rho))
      end
  end.

Lemma d_lin : forall a b, derivable_pt_lim (fun s => a + s * b) 0 b.
Proof.
  intros a b eps Heps. exists (mkposreal 1 Rlt_0_1). intros h Hh _.
  replace ((a + (0 + h) * b - (a + 0 * b)) / h - b) with 0 by (field; assumption).
  rewrite Rabs_R0. assumption.
Qed.

Lemma d_ext : forall f g x l, (forall y, f y = g y) -> derivable_pt_lim f x l -> derivable_pt_lim g x l.
Proof.
  intros f g x l H D eps Heps. destruct (D eps Heps) as [d Hd]. exists d. intros h Hh Hb.
  rewrite <- !H. apply Hd; assumption.
Qed.

Lemma d_eq : forall f x l l', l = l' -> derivable_pt_lim f x l -> derivable_pt_lim f x l'.
Proof. intros; subst; assumption. Qed.

Lemma d_quot : forall a b c d, c <> 0 ->
  derivable_pt_lim (fun s => (a + s * b) / (c + s * d)) 0 ((b * c - a * d) / (c * c)).
Proof.
  intros a b c d Hc.
  eapply d_eq; [|apply (derivable_pt_lim_div (fun s => a + s * b) (fun s => c + s * d) 0 b d)].
  - unfold Rsqr. field. assumption.
  - apply d_lin.
  - apply d_lin.
  - lra.
Qed.

Lemma d_quot2 : forall a b c d, c <> 0 ->
  derivable_pt_lim (fun s => (a + s * b) * (a + s * b) / (c + s * d)) 0 ((2 * a * b * c - a * a * d) / (c * c)).
Proof.
  intros a b c d Hc.
  eapply d_eq; [|apply (derivable_pt_lim_div (fun s => (a + s * b) * (a + s * b)) (fun s => c + s * d) 0
                          (b * (a + 0 * b) + (a + 0 * b) * b) d)].
  - unfold Rsqr. field. assumption.
  - apply (derivable_pt_lim_mult (fun s => a + s * b) (fun s => a + s * b)); apply d_lin.
  - apply d_lin.
  - lra.
Qed.

Lemma d_pressure : forall g U r, U 0%nat <> 0 ->
  derivable_pt_lim (fun s => euler_pressure g (fun k => U k + s * r k)) 0
    ((g - 1) * (r 2%nat - (2 * U 1%nat * r 1%nat * U 0%nat - U 1%nat * U 1%nat * r 0%nat) / (2 * (U 0%nat * U 0%nat)))).
Proof.
  intros g U r H. unfold euler_pressure.
  eapply d_ext with (f := mult_real_fct (g - 1)
     (fun s => (U 2%nat + s * r 2%nat) - (/ 2) * ((U 1%nat + s * r 1%nat) * (U 1%nat + s * r 1%nat) / (U 0%nat + s * r 0%nat)))).
  - intros y. unfold mult_real_fct. f_equal. f_equal. unfold Rdiv. rewrite Rinv_mult. ring.
  - apply derivable_pt_lim_scal.
    eapply d_eq; [|apply (derivable_pt_lim_minus (fun s => U 2%nat + s * r 2%nat)); [apply d_lin|
      apply (derivable_pt_lim_scal (fun s => (U 1%nat + s * r 1%nat) * (U 1%nat + s * r 1%nat) / (U 0%nat + s * r 0%nat)) (/ 2)); apply d_quot2; assumption]].
    field. assumption.
Qed.

Lemma d_flux : forall p g cs U r j, U 0%nat <> 0 -> (j < nE p)%nat ->
  derivable_pt_lim (fun s => euler_flux p g cs (fun k => U k + s * r k) j) 0 (jac p g cs U r j).
Proof.
  intros p g cs U r j H Hj. destruct p; cbn [nE] in Hj; unfold euler_flux, jac.
  - destruct j as [|[|j]]; [apply d_lin| |lia].
    eapply d_eq; [|apply (derivable_pt_lim_plus (fun s => (U 1%nat + s * r 1%nat) * (U 1%nat + s * r 1%nat) / (U 0%nat + s * r 0%nat))
       (fun s => cs * cs * (U 0%nat + s * r 0%nat)))]; [|apply d_quot2; assumption|
       apply (derivable_pt_lim_scal (fun s => U 0%nat + s * r 0%nat)); apply d_lin].
    reflexivity.
  - destruct j as [|[|[|j]]]; [apply d_lin| | |lia].
    + apply (derivable_pt_lim_plus (fun s => (U 1%nat + s * r 1%nat) * (U 1%nat + s * r 1%nat) / (U 0%nat + s * r 0%nat))
         (fun s => euler_pressure g (fun k => U k + s * r k))); [apply d_quot2|apply d_pressure]; assumption.
    + eapply d_eq; [|apply (derivable_pt_lim_mult
         (fun s => (U 2%nat + s * r 2%nat) + euler_pressure g (fun k => U k + s * r k))
         (fun s => (U 1%nat + s * r 1%nat) / (U 0%nat + s * r 0%nat)));
         [apply (derivable_pt_lim_plus (fun s => U 2%nat + s * r 2%nat)); [apply d_lin|apply d_pressure; assumption]
         |apply d_quot; assumption]].
      unfold euler_pressure. field. assumption.
Qed.

Lemma d_unique : forall f x l1 l2, derivable_pt_lim f x l1 -> derivable_pt_lim f x l2 -> l1 = l2.
Proof. intros. eapply uniqueness_limite; eassumption. Qed.

(** [lambda] is a characteristic speed iff it is one of the listed values. *)
Lemma char_speed_isot : forall g cs f lam, f 0%nat <> 0 ->
  (char_speed Isot g cs (conserved Isot g f) lam <-> lam = f 1%nat - cs \/ lam = f 1%nat + cs).
Proof.
  intros g cs f lam H. unfold char_speed. split.
  - intros (r & (j0 & Hj0 & Hr) & Hd).
    assert (HJ : forall j, (j < 2)%nat -> jac Isot g cs (conserved Isot g f) r j = lam * r j).
    { intros j Hj. eapply d_unique; [apply d_flux; [exact H|exact Hj]|apply Hd; exact Hj]. }
    pose proof (HJ 0%nat ltac:(lia)) as J0. pose proof (HJ 1%nat ltac:(lia)) as J1.
    cbn [jac conserved] in J0, J1.
    assert (J1' : 2 * f 1%nat * r 1%nat - f 1%nat * f 1%nat * r 0%nat + cs * cs * r 0%nat = lam * r 1%nat)
      by (rewrite <- J1; field; assumption).
    assert (r0 : r 0%nat <> 0).
    { intros Z. rewrite Z in J0. apply Hr. cbn [nE] in Hj0.
      destruct j0 as [|[|j0]]; [exact Z| |lia]. rewrite J0; ring. }
    rewrite J0 in J1'.
    assert (P : ((lam - (f 1%nat - cs)) * (lam - (f 1%nat + cs))) * r 0%nat = 0)
      by (match type of J1' with ?L = ?RR => transitivity (RR - L); [ring|lra] end).
    apply Rmult_integral in P. destruct P as [P|P]; [|contradiction].
    apply Rmult_integral in P. destruct P; [left|right]; lra.
  - intros Hl.
    exists (fun j => match j with 0%nat => 1 | _ => lam end). split.
    + exists 0%nat. split; [cbn; lia|lra].
    + intros j Hj. eapply d_eq; [|apply d_flux; [exact H|exact Hj]].
      cbn [nE] in Hj. destruct j as [|[|j]]; [| |lia]; cbn [jac conserved]; [ring|].
      destruct Hl; subst lam; field; assumption.
Qed.

Lemma char_speed_adiab : forall g cs f lam, f 0%nat <> 0 -> g <> 1 -> cs * cs = g * f 2%nat / f 0%nat ->
  (char_speed Adiab g cs (conserved Adiab g f) lam <->
   lam = f 1%nat - cs \/ lam = f 1%nat \/ lam = f 1%nat + cs).
Proof.
  intros g cs f lam H Hg Hcs. unfold char_speed.
  set (rho := f 0%nat) in *. set (v := f 1%nat) in *. set (pr := f 2%nat) in *.
  split.
  - intros (r & (j0 & Hj0 & Hr) & Hd).
    assert (HJ : forall j, (j < 3)%nat -> jac Adiab g cs (conserved Adiab g f) r j = lam * r j).
    { intros j Hj. eapply d_unique; [apply d_flux; [exact H|exact Hj]|apply Hd; exact Hj]. }
    pose proof (HJ 0%nat ltac:(lia)) as J0. pose proof (HJ 1%nat ltac:(lia)) as J1. pose proof (HJ 2%nat ltac:(lia)) as J2.
    cbn [jac conserved] in J0, J1, J2. fold rho v pr in J1, J2.
    (* second row, solved for the energy component *)
    assert (J1' : (g - 1) * r 2%nat = lam * r 1%nat - (3 - g) * v * r 1%nat + (3 - g) / 2 * v * v * r 0%nat).
    { rewrite <- J1. field. assumption. }
    assert (J2' : g * v * r 2%nat + ((g * pr / (g - 1) + rho * v * v / 2) / rho - (g - 1) * v * v) * r 1%nat
                 + ((g - 1) / 2 * v * v * v - (g * pr / (g - 1) + rho * v * v / 2) * v / rho) * r 0%nat = lam * r 2%nat).
    { rewrite <- J2. field. split; lra. }
    assert (r0 : r 0%nat <> 0).
    { intros Z. rewrite Z in *. assert (Z1 : r 1%nat = 0) by (rewrite J0; ring).
      rewrite Z1 in J1'. assert (Z2 : (g - 1) * r 2%nat = 0) by (rewrite J1'; ring).
      apply Rmult_integral in Z2. destruct Z2 as [Z2|Z2]; [lra|].
      apply Hr. cbn [nE] in Hj0. destruct j0 as [|[|[|j0]]]; [assumption|assumption|assumption|lia]. }
    assert (P : ((lam - (v - cs)) * (lam - v) * (lam - (v + cs))) * r 0%nat = 0).
    { assert (R2 : r 2%nat = (lam * r 1%nat - (3 - g) * v * r 1%nat + (3 - g) / 2 * v * v * r 0%nat) / (g - 1)).
      { rewrite <- J1'. field. lra. }
      rewrite R2, J0 in J2'.
      assert (E : ((lam - (v - cs)) * (lam - v) * (lam - (v + cs))) * r 0%nat =
        (lam - v) * ((lam - v) * (lam - v) - cs * cs) * r 0%nat) by ring.
      rewrite E, Hcs.
      apply (Rmult_eq_reg_r (/ (g - 1))); [|apply Rinv_neq_0_compat; lra].
      rewrite Rmult_0_l.
      match type of J2' with ?L = ?RR => assert (D : RR - L = 0) by lra end.
      rewrite <- D. field. split; lra. }
    apply Rmult_integral in P. destruct P as [P|P]; [|contradiction].
    apply Rmult_integral in P. destruct P as [P|P]; [|right; right; lra].
    apply Rmult_integral in P. destruct P; [left; lra|right; left; lra].
  - intros Hl.
    exists (fun j => match j with
      | 0%nat => 1 | 1%nat => lam
      | _ => (lam * lam - (3 - g) * v * lam + (3 - g) / 2 * v * v) / (g - 1) end). split.
    + exists 0%nat. split; [cbn; lia|lra].
    + intros j Hj. eapply d_eq; [|apply d_flux; [exact H|exact Hj]].
      cbn [nE] in Hj. destruct j as [|[|[|j]]]; [| | |lia]; cbn [jac conserved]; fold rho v pr.
      * ring.
      * field. split; lra.
      * assert (P : (lam - v) * ((lam - v) * (lam - v) - cs * cs) = 0).
        { destruct Hl as [Hl|[Hl|Hl]]; rewrite Hl; ring. }
        rewrite Hcs in P.
        apply Rminus_diag_uniq.
        match goal with |- ?L = 0 => assert (D : L = - ((lam - v) * ((lam - v) * (lam - v) - g * pr / rho)) / (g - 1)) end.
        { field. split; lra. }
        rewrite D, P. field. lra.
Qed.

(** Sound speed and eigenvalues of a cell after [update_derived_variables]. *)
Lemma c_new_R : forall p S (v : vars XRn) g f i cs0,
  (i < S)%nat -> gamma v = Fin g -> 0 < f 0%nat -> (p = Adiab -> 0 <= g * f 2%nat) ->
  (p = Isot -> at1 (n0 XRn) (c_sound v) i = Fin cs0) ->
  (forall j, (j < nE p)%nat -> at2 (n0 XRn) (prim v) j i = Fin (f j)) ->
  at1 (n0 XRn) (c_new XRn p S v) i = Fin (match p with Isot => cs0 | Adiab => sqrt (g * f 2%nat / f 0%nat) end).
Proof.
  intros p S v g f i cs0 Hi Hg H0 Hp Hc Hf. destruct p; cbn [c_new nE] in *.
  - apply Hc; reflexivity.
  - rewrite at1_tab by assumption. rewrite Hg, !Hf by lia. rewrite X_mul, X_div by lra.
    apply X_sqrt. unfold Rdiv. specialize (Hp eq_refl).
    apply Rmult_le_pos; [assumption|]. apply Rlt_le, Rinv_0_lt_compat; assumption.
Qed.

Lemma euler_system : forall p S (v w : vars XRn) g f i cs0,
  shape (nE p) S (prim v) -> shape (nE p) S (cons v) -> shape (nE p) S (flux v) -> shape (nE p) S (eigen_vals v) ->
  (i < S)%nat -> gamma v = Fin g -> 1 < g ->
  (forall j, (j < nE p)%nat -> at2 (n0 XRn) (prim v) j i = Fin (f j)) ->
  0 < f 0%nat -> (p = Adiab -> 0 < f 2%nat) ->
  (p = Isot -> at1 (n0 XRn) (c_sound v) i = Fin cs0) ->
  w = update_flux p S (update_derived_variables p S (update_cons p S v)) ->
  let U := conserved p g f in
  exists cs lam,
    (p = Isot -> cs = cs0) /\ (p = Adiab -> cs = sqrt (g * f 2%nat / f 0%nat)) /\
    (forall j, (j < nE p)%nat -> at2 (n0 XRn) (cons w) j i = Fin (U j)) /\
    (forall j, (j < nE p)%nat -> at2 (n0 XRn) (flux w) j i = Fin (euler_flux p g cs U j)) /\
    (forall j, (j < nE p)%nat -> at2 (n0 XRn) (eigen_vals w) j i = Fin (lam j)) /\
    (forall l, char_speed p g cs U l <-> exists j, (j < nE p)%nat /\ l = lam j).
Proof.
  intros p S v w g f i cs0 Sp Sc Sf Se Hi Hg Hg1 Hf H0 H2 Hc -> U.
  set (cs := match p with Isot => cs0 | Adiab => sqrt (g * f 2%nat / f 0%nat) end).
  exists cs, (fun j => if (j =? 0)%nat then f 1%nat - cs else if (j =? nE p - 1)%nat then f 1%nat + cs else f 1%nat).
  set (v1 := update_cons p S v).
  destruct (update_cons_fields XRn p S v) as (E1 & E2 & E3 & E4 & E5 & _).
  destruct (derived_fields XRn p S v1) as (D1 & D2 & D3 & D4 & D5 & _).
  destruct (update_flux_fields XRn p S (update_derived_variables p S v1)) as (W1 & W2 & W3 & W4 & W5 & _).
  assert (HU : forall j, (j < nE p)%nat -> at2 (n0 XRn) (cons v1) j i = Fin (U j)).
  { intros j Hj. unfold v1, U. eapply cons_is_conserved; eauto. intros _; lra. }
  assert (Hcs : at1 (n0 XRn) (c_new XRn p S v1) i = Fin cs).
  { unfold cs. apply c_new_R with (f := f) (g := g); unfold v1; rewrite ?E5, ?E1, ?E2; auto.
    intros ->. specialize (H2 eq_refl). nra. }
  repeat match goal with |- _ /\ _ => split end.
  - intros ->; reflexivity.
  - intros ->; reflexivity.
  - intros j Hj. rewrite W2, D2. apply HU; assumption.
  - intros j Hj. apply flux_is_euler; auto.
    + rewrite D4. unfold v1; rewrite E4; assumption.
    + intros _; lra.
    + intros k Hk. rewrite D1. unfold v1; rewrite E1. apply Hf; assumption.
    + lra.
    + intros k Hk. rewrite D2. apply HU; assumption.
    + rewrite D3. assumption.
  - intros j Hj. rewrite W4. unfold v1. rewrite derived_eigen_at by (rewrite ?E1, ?E3; assumption).
    fold v1. rewrite Hcs. unfold v1 at 1. rewrite E1, Hf by (destruct p; cbn; lia).
    unfold eigen_row. rewrite X_sub, X_add.
    destruct (j =? 0)%nat; [reflexivity|]. destruct (j =? nE p - 1)%nat; reflexivity.
  - intros l. unfold U. destruct p.
    + rewrite char_speed_isot by lra. cbn [nE]. split.
      * intros [->| ->]; [exists 0%nat|exists 1%nat]; cbn; split; auto; lia.
      * intros (j & Hj & ->). destruct j as [|[|j]]; [left|right|lia]; reflexivity.
    + specialize (H2 eq_refl).
      assert (Hpos : 0 <= g * f 2%nat / f 0%nat).
      { apply Rlt_le, Rdiv_lt_0_compat; [nra|assumption]. }
      rewrite char_speed_adiab; [|lra|lra|unfold cs; rewrite sqrt_sqrt by assumption; reflexivity].
      cbn [nE]. split.
      * intros [->|[->| ->]]; [exists 0%nat|exists 1%nat|exists 2%nat]; cbn; split; auto; lia.
      * intros (j & Hj & ->). destruct j as [|[|[|j]]]; [left|right; left|right; right|lia]; reflexivity.
Qed.

Lemma eigen_ordered : forall p S (v : vars XRn) i a c,
  shape (nE p) S (prim v) -> shape (nE p) S (eigen_vals v) -> (i < S)%nat ->
  at2 (n0 XRn) (prim v) 1 i = Fin a ->
  at1 (n0 XRn) (c_sound (update_derived_variables p S v)) i = Fin c -> 0 <= c ->
  let w := update_derived_variables p S v in
  exists e : nat -> R, (forall j, (j < nE p)%nat -> at2 (n0 XRn) (eigen_vals w) j i = Fin (e j)) /\
    (forall j, (j + 1 < nE p)%nat -> e j <= e (j + 1)%nat) /\
    e 0%nat = a - c /\ e (nE p - 1)%nat = a + c /\ e 0%nat <= a <= e (nE p - 1)%nat.
Proof.
  intros p S v i a c Sp Se Hi Ha Hc Hpos w.
  exists (fun j => if (j =? 0)%nat then a - c else if (j =? nE p - 1)%nat then a + c else a).
  split.
  - intros j Hj. unfold w. rewrite derived_eigen_at by assumption. rewrite Ha.
    destruct (derived_fields XRn p S v) as (_ & _ & D3 & _). rewrite <- D3, Hc. unfold eigen_row.
    rewrite X_sub, X_add. destruct (j =? 0)%nat; [reflexivity|]. destruct (j =? nE p - 1)%nat; reflexivity.
  - destruct p; cbn [nE Nat.sub Nat.eqb]; (split; [|lra]); intros j Hj.
    + destruct j as [|j]; [cbn; lra|lia].
    + destruct j as [|[|j]]; [cbn; lra|cbn; lra|lia].
Qed.

Lemma sound_speed_adiab : forall S (v : vars XRn) g r pr i, (i < S)%nat ->
  gamma v = Fin g -> at2 (n0 XRn) (prim v) 0 i = Fin r -> at2 (n0 XRn) (prim v) 2 i = Fin pr ->
  r <> 0 -> 0 <= g * pr / r ->
  at1 (n0 XRn) (c_sound (update_derived_variables Adiab S v)) i = Fin (sqrt (g * pr / r)).
Proof.
  intros S v g r pr i Hi Hg Hr Hpr H0 Hp.
  destruct (derived_fields XRn Adiab S v) as (_ & _ & D3 & _). rewrite D3. cbn [c_new].
  rewrite at1_tab by assumption. rewrite Hg, Hr, Hpr, X_mul, X_div by assumption. apply X_sqrt; assumption.
Qed.
End Flux.

(** ** Ordering of the eigenvalues in IEEE doubles *)
Lemma b_sub_le : forall v c : b64, is_finite v = true -> is_finite c = true -> Bleb (b_ofZ 0) c = true ->
  Bleb (b_sub v c) v = true.
Proof.
  intros v c Fv Fc Hc.
  rewrite (Bleb_correct 53 1024) in Hc by auto.
  assert (Hc' : (0 <= B2R c)%R).
  { destruct (Rle_bool_spec (B2R (b_ofZ 0)) (B2R c)) as [H|H]; [|discriminate].
    change (B2R (b_ofZ 0)) with 0%R in H. exact H. }
  pose proof (Bminus_correct 53 1024 _ _ mode_NE v c Fv Fc) as H. fold (b_sub v c) in H.
  destruct (Rlt_bool _ _) eqn:E.
  - destruct H as (H1 & H2 & _). rewrite (Bleb_correct 53 1024) by assumption.
    apply Rle_bool_true. rewrite H1.
    apply round_le_generic; [apply FLT_exp_valid; reflexivity|apply valid_rnd_N|apply generic_format_B2R|]. lra.
  - destruct H as (H1 & H2).
    assert (Sc : Bsign c = false \/ (B2R c = 0)%R).
    { destruct c as [s| | |s mm e He]; try discriminate; [right; reflexivity|]. left.
      destruct s; [|reflexivity]. exfalso. cbn in Hc'. 
      assert (HH : (@F2R radix2 {| Fnum := Zneg mm; Fexp := e |} < 0)%R) by (apply F2R_lt_0; reflexivity). lra. }
    destruct Sc as [Sc|Sc].
    + rewrite Sc in H2. cbn in H2. rewrite H2 in H1. unfold binary_overflow in H1. cbn in H1.
      destruct (b_sub v c) as [s|s| |s mm e He] eqn:Eb; try discriminate H1.
      injection H1 as ->. destruct v as [s'| | |s' m' e' He']; try discriminate; reflexivity.
    + exfalso. rewrite Sc in E. rewrite Rminus_0_r in E.
      rewrite round_generic in E; [|apply valid_rnd_N|apply generic_format_B2R].
      pose proof (abs_B2R_lt_emax 53 1024 v) as HB. apply Rlt_bool_true in HB. congruence.
Qed.

Lemma b_add_ge : forall v c : b64, is_finite v = true -> is_finite c = true -> Bleb (b_ofZ 0) c = true ->
  Bleb v (b_add v c) = true.
Proof.
  intros v c Fv Fc Hc.
  rewrite (Bleb_correct 53 1024) in Hc by auto.
  assert (Hc' : (0 <= B2R c)%R).
  { destruct (Rle_bool_spec (B2R (b_ofZ 0)) (B2R c)) as [H|H]; [|discriminate].
    change (B2R (b_ofZ 0)) with 0%R in H. exact H. }
  pose proof (Bplus_correct 53 1024 _ _ mode_NE v c Fv Fc) as H. fold (b_add v c) in H.
  destruct (Rlt_bool _ _) eqn:E.
  - destruct H as (H1 & H2 & _). rewrite (Bleb_correct 53 1024) by assumption.
    apply Rle_bool_true. rewrite H1.
    apply round_ge_generic; [apply FLT_exp_valid; reflexivity|apply valid_rnd_N|apply generic_format_B2R|]. lra.
  - destruct H as (H1 & H2).
    assert (Sc : Bsign c = false \/ (B2R c = 0)%R).
    { destruct c as [s| | |s mm e He]; try discriminate; [right; reflexivity|]. left.
      destruct s; [|reflexivity]. exfalso. cbn in Hc'. 
      assert (HH : (@F2R radix2 {| Fnum := Zneg mm; Fexp := e |} < 0)%R) by (apply F2R_lt_0; reflexivity). lra. }
    destruct Sc as [Sc|Sc].
    + rewrite Sc in H2. rewrite H2 in H1. unfold binary_overflow in H1. cbn in H1.
      destruct (b_add v c) as [s|s| |s mm e He] eqn:Eb; try discriminate H1.
      injection H1 as ->. destruct v as [s'| | |s' m' e' He']; try discriminate; reflexivity.
    + exfalso. rewrite Sc in E. rewrite Rplus_0_r in E.
      rewrite round_generic in E; [|apply valid_rnd_N|apply generic_format_B2R].
      pose proof (abs_B2R_lt_emax 53 1024 v) as HB. apply Rlt_bool_true in HB. congruence.
Qed.

Lemma eigen_ordered_b64 : forall bln bexp p S (v : vars (B64n bln bexp)) i,
  let B := B64n bln bexp in let w := update_derived_variables p S v in
  let vel : b64 := at2 (n0 B) (prim v) 1 i in let c : b64 := at1 (n0 B) (c_sound w) i in
  shape (nE p) S (prim v) -> shape (nE p) S (eigen_vals v) -> (i < S)%nat ->
  is_finite vel = true -> is_finite c = true -> xle (Fin 0) (b2x c) ->
  xle (b2x (at2 (n0 B) (eigen_vals w) 0 i)) (b2x vel) /\
  xle (b2x vel) (b2x (at2 (n0 B) (eigen_vals w) (nE p - 1) i)).
Proof.
  intros bln bexp p S v i B w vel c Sp Se Hi Fv Fc Hc.
  assert (Hc0 : Bleb (b_ofZ 0) c = true) by (apply Bleb_xle; exact Hc).
  assert (Ew : at1 (n0 B) (c_new B p S v) i = c).
  { unfold c, w. destruct (derived_fields B p S v) as (_ & _ & D3 & _). unfold B in *. rewrite D3. reflexivity. }
  unfold w. rewrite !derived_eigen_at by (auto; destruct p; cbn; lia).
  fold B. fold vel. rewrite Ew.
  split; apply Bleb_xle.
  - apply b_sub_le; assumption.
  - destruct p; apply b_add_ge; assumption.
Qed.
