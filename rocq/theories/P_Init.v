(** Properties of the shipped initial conditions (C53). *)

From Coq Require Import Reals List ZArith NArith QArith Qreals Bool String Lia Lra.
From Flocq Require Import Core BinarySingleNaN.
From Verif Require Import Base Num XReal B64 Config Mesh State NumFlux Time Writer Runner Spec SpecFlow SpecStep SpecInit
  MeshProofs BoundaryProofs PhysicsProofs FluxProofs UpdateProofs StepInv SpecRun RunProofs P_Run.
Import ListNotations.
Local Open Scope nat_scope.

(** ** The jump lies in the middle *)

(** [(S as f64 * 0.5) as usize] is S / 2 in exact arithmetic ... *)
Theorem C53_breakpoint : forall S, breakpoint XRn S = Nat.div S 2.
Proof.
  intros S. unfold breakpoint. cbn [nmul nZ nQ XRn xmul ntrunc xtrunc].
  assert (H : (Int_part (IZR (Z.of_nat S) * Q2R (1 # 2)) = Z.of_nat (Nat.div S 2))%Z).
  { rewrite Q2R_half. pose proof (Nat.div_mod S 2 ltac:(lia)) as D. pose proof (Nat.mod_upper_bound S 2 ltac:(lia)) as U.
    assert (E : (Z.of_nat S = 2 * Z.of_nat (S / 2) + Z.of_nat (S mod 2))%Z) by lia.
    destruct (base_Int_part (IZR (Z.of_nat S) * (1 / 2))) as (B1 & B2). set (k := Int_part (IZR (Z.of_nat S) * (1 / 2))) in *.
    assert (K1 : (IZR (2 * k) <= IZR (Z.of_nat S))%R) by (rewrite mult_IZR; lra). assert (K2 : (IZR (Z.of_nat S) < IZR (2 * k + 2))%R) by (rewrite plus_IZR, mult_IZR; lra).
    apply le_IZR in K1. apply lt_IZR in K2. lia. }
  rewrite H. apply Nat2Z.id.
Qed.
Print Assumptions C53_breakpoint.

Lemma half_b64 : B2R (b_div (b_ofZ 1) (b_ofZ 2)) = (/ 2)%R /\ is_finite (b_div (b_ofZ 1) (b_ofZ 2)) = true.
Proof.
  replace (b_div (b_ofZ 1) (b_ofZ 2)) with (@B754_finite 53 1024 false 4503599627370496 (-53) eq_refl) by (apply b_eq_by; vm_compute; reflexivity).
  split; [|reflexivity]. cbn [B2R]. unfold F2R. cbn. lra.
Qed.

Lemma fmt_ok : forall m e, (Z.abs m < 2 ^ 53)%Z -> (-1074 <= e)%Z -> generic_format radix2 (SpecFloat.fexp 53 1024) (F2R (Float radix2 m e)).
Proof. intros m e M E. apply (generic_format_FLT radix2 (-1074) 53). exists (Float radix2 m e); [reflexivity|exact M|exact E]. Qed.

(** ... and in binary64 for every S below 2^53. *)
Theorem C53_breakpoint_b64 : forall bln bexp S, (Z.of_nat S < 2 ^ 53)%Z -> breakpoint (B64n bln bexp) S = Nat.div S 2.
Proof.
  intros bln bexp S HS. unfold breakpoint. cbn [nmul nZ nQ B64n ntrunc Qnum Qden]. unfold b_trunc.
  set (z := Z.of_nat S) in *. assert (Hz : (0 <= z)%Z) by lia.
  assert (Small : forall x, (Rabs x <= IZR z)%R -> (Rabs x < bpow radix2 1024)%R).
  { intros x Hx. apply Rle_lt_trans with (1 := Hx). apply Rlt_trans with (IZR (2 ^ 53)); [apply IZR_lt; exact HS|].
    change (2 ^ 53)%Z with (Zpower radix2 53). rewrite IZR_Zpower by lia. apply bpow_lt. lia. }
  assert (P1 : B2R (b_ofZ z) = IZR z /\ is_finite (b_ofZ z) = true).
  { pose proof (binary_normalize_correct 53 1024 Hp64 He64 mode_NE z 0 false) as C. cbv zeta in C. fold (b_ofZ z) in C.
    rewrite round_generic in C; [|apply valid_rnd_N|apply fmt_ok; lia].
    assert (E : F2R (Float radix2 z 0) = IZR z) by (unfold F2R; cbn; lra). rewrite E in C. rewrite Rlt_bool_true in C; [tauto|].
    apply Small. rewrite Rabs_pos_eq by (apply IZR_le; exact Hz). lra. }
  destruct P1 as (P1 & F1). destruct half_b64 as (P2 & F2).
  assert (P3 : B2R (b_mul (b_ofZ z) (b_div (b_ofZ 1) (b_ofZ 2))) = (IZR z * / 2)%R).
  { pose proof (Bmult_correct 53 1024 Hp64 He64 mode_NE (b_ofZ z) (b_div (b_ofZ 1) (b_ofZ 2))) as C. rewrite P1, P2 in C.
    assert (E : (IZR z * / 2)%R = F2R (Float radix2 z (-1))) by (unfold F2R; cbn; lra).
    rewrite round_generic in C; [|apply valid_rnd_N|rewrite E; apply fmt_ok; lia].
    rewrite Rlt_bool_true in C; [apply C|]. apply Small. rewrite Rabs_pos_eq by (assert (0 <= IZR z)%R by (apply IZR_le; exact Hz); lra).
    assert (0 <= IZR z)%R by (apply IZR_le; exact Hz). lra. }
  pose proof (Btrunc_correct 53 1024 He64 (b_mul (b_ofZ z) (b_div (b_ofZ 1) (b_ofZ 2)))) as C. rewrite P3 in C.
  rewrite round_FIX_IZR in C. apply eq_IZR in C. rewrite C.
  assert (H : (Ztrunc (IZR z * / 2) = Z.of_nat (Nat.div S 2))%Z).
  { rewrite Ztrunc_floor by (assert (0 <= IZR z)%R by (apply IZR_le; exact Hz); lra). apply Zfloor_imp. rewrite plus_IZR.
    pose proof (Nat.div_mod S 2 ltac:(lia)) as D. pose proof (Nat.mod_upper_bound S 2 ltac:(lia)) as U.
    assert (E : (z = 2 * Z.of_nat (S / 2) + Z.of_nat (S mod 2))%Z) by lia. rewrite E, plus_IZR, mult_IZR.
    assert (L : (0 <= IZR (Z.of_nat (S mod 2)) <= 1)%R) by (split; apply IZR_le; lia). lra. }
  rewrite H. apply Nat2Z.id.
Qed.
Print Assumptions C53_breakpoint_b64.

(** ** The initial states *)

Section Init.
Variable A : Num.

Lemma nth_repeat_lt : forall {X} (x d : X) n i, i < n -> nth i (repeat x n) d = x.
Proof. intros X x d n. induction n as [|n IH]; intros i H; [lia|]. destruct i; [reflexivity|]. cbn. apply IH. lia. Qed.

Lemma at_row : forall (q : list (list (nF A))) j k r i, j < List.length q ->
  at2 (n0 A) (upd j r q) k i = if Nat.eqb k j then nth i r (n0 A) else at2 (n0 A) q k i.
Proof.
  intros q j k r i H. unfold at2. destruct (Nat.eqb_spec k j) as [->|Ne]; [rewrite nth_upd_eq by exact H; reflexivity|]. rewrite nth_upd_ne by auto. reflexivity.
Qed.

Lemma shape_row : forall e S (q : list (list (nF A))) j r, shape e S q -> List.length r = S -> shape e S (upd j r q).
Proof.
  intros e S q j r (L & H) Hr. split; [rewrite length_upd; exact L|]. intros k Hk. destruct (Nat.eq_dec k j) as [->|Ne].
  - rewrite nth_upd_eq by lia. exact Hr.
  - rewrite nth_upd_ne by auto. apply H. exact Hk.
Qed.

Lemma init_noh_view : forall p S pc, breakpoint A S = Nat.div S 2 ->
  exists u, init_noh p S (state_new p S pc) = (u, Ok tt) /\ wss p S u /\ gamma (cent u) = pc_gamma pc /\
  (forall j i, j < nE p -> i < S -> at2 (n0 A) (prim (cent u)) j i = noh_prim A S j i) /\
  (p = Isot -> forall i, i < S -> at1 (n0 A) (c_sound (cent u)) i = n1 A).
Proof.
  intros p S pc B. unfold init_noh, state_new. rewrite B. eexists. split; [reflexivity|].
  assert (Z : shape (nE p) S (zeros2 (A:=A) (nE p) S)) by apply shape_zeros2.
  assert (LZ : List.length (zeros2 (A:=A) (nE p) S) = nE p) by apply Z.
  assert (W : wsv A p S (vars_new p S pc)) by apply wsv_new.
  split; [|split; [|split]].
  - unfold wss. destruct p; cbn [set_cent cent west east]; (split; [|auto]); unfold wsv in *; cbn [set_prim set_c_sound vars_new prim cons eigen_vals flux c_sound] in *.
    + destruct W as (W1 & W2 & W3 & W4 & W5). split; [|repeat match goal with |- _ /\ _ => split end; auto; apply repeat_length].
      apply shape_row; [apply shape_row; [exact W1|apply repeat_length]|apply length_tab].
    + destruct W as (W1 & W2 & W3 & W4 & W5). split; [|auto].
      apply shape_row; [apply shape_row; [apply shape_row; [exact W1|apply repeat_length]|apply length_tab]|apply repeat_length].
  - destruct p; reflexivity.
  - intros j i Hj Hi. destruct p; cbn [set_cent cent set_prim set_c_sound prim vars_new].
    + rewrite !at_row by (rewrite ?length_upd, LZ; unfold JRHO, JXI; cbn [nE]; lia). destruct j as [|[|j]]; cbn [Nat.eqb JRHO JXI noh_prim]; [|apply nth_tab; exact Hi|cbn in Hj; lia].
      apply nth_repeat_lt; exact Hi.
    + rewrite !at_row by (rewrite ?length_upd, LZ; unfold JRHO, JXI; cbn [nE]; lia). destruct j as [|[|[|j]]]; cbn [Nat.eqb JRHO JXI noh_prim]; [|apply nth_tab; exact Hi| |cbn in Hj; lia];
      apply nth_repeat_lt; exact Hi.
  - intros -> i Hi. cbn [set_cent cent set_c_sound c_sound]. unfold at1. apply nth_repeat_lt; exact Hi.
Qed.

Lemma init_sod_view : forall S pc, breakpoint A S = Nat.div S 2 ->
  exists u, init_sod Adiab S (state_new Adiab S pc) = (u, Ok tt) /\ wss Adiab S u /\ gamma (cent u) = pc_gamma pc /\
  (forall j i, j < 3 -> i < S -> at2 (n0 A) (prim (cent u)) j i = sod_prim A S j i).
Proof.
  intros S pc B. unfold init_sod, state_new. rewrite B. eexists. split; [reflexivity|].
  assert (Z : shape 3 S (zeros2 (A:=A) 3 S)) by apply shape_zeros2.
  assert (W : wsv A Adiab S (vars_new Adiab S pc)) by apply wsv_new.
  split; [|split; [reflexivity|]].
  - unfold wss. cbn [set_cent cent west east]. split; [|auto]. unfold wsv in *; cbn [set_prim vars_new prim cons eigen_vals flux c_sound] in *.
    destruct W as (W1 & W2 & W3 & W4 & W5). split; [|auto]. apply shape_row; [apply shape_row; [exact W1|apply length_tab]|apply length_tab].
  - intros j i Hj Hi. cbn [set_cent cent set_prim prim]. rewrite !at_row by (rewrite ?length_upd; cbn; lia).
    destruct j as [|[|[|j]]]; cbn [Nat.eqb JRHO sod_prim]; [apply nth_tab; exact Hi| |apply nth_tab; exact Hi|lia].
    change (at2 (n0 A) (zeros2 3 S) 1 i) with (nth i (repeat (n0 A) S) (n0 A)). apply nth_repeat_lt; exact Hi.
Qed.
End Init.

(** What init_corries returns for an initial condition function that sets the
    values [F] (symmetric under the copying of the boundary cells). *)
Lemma init_corries_view : forall A (N : numflux_impl A) validation meta banner sched f p S c w w' k (F : nat -> nat -> nF A),
  6 <= S -> cf_bc_west c = BNoGradients -> cf_bc_east c = BNoGradients ->
  (exists u, f (state_new p S (cf_physics c)) = (u, Ok tt) /\ wss p S u /\ gamma (cent u) = pc_gamma (cf_physics c) /\
    (forall j i, j < nE p -> i < S -> at2 (n0 A) (prim (cent u)) j i = F j i) /\
    (p = Isot -> forall i, i < S -> at1 (n0 A) (c_sound (cent u)) i = n1 A)) ->
  (forall j i, i < S -> F j (clamp S i) = F j i) ->
  init_corries (A:=A) (N:=N) validation meta banner sched (on_state f) p S c w = (w', Ok k) ->
  let u := s_u (c_sim k) in
  (forall j i, j < nE p -> i < S -> at2 (n0 A) (prim (cent u)) j i = F j i) /\
  (p = Isot -> forall i, i < S -> at1 (n0 A) (c_sound (cent u)) i = n1 A) /\
  gamma (cent u) = pc_gamma (cf_physics c) /\
  consistent p S (init_bc BNoGradients (nE p)) (init_bc BNoGradients (nE p)) (c_mesh k) (cent u) /\
  prim (west u) = prim (cent u) /\ prim (east u) = prim (cent u) /\ cons (west u) = cons (cent u) /\ cons (east u) = cons (cent u) /\
  c_sound (west u) = c_sound (cent u) /\ c_sound (east u) = c_sound (cent u).
Proof.
  intros A N validation meta banner sched f p S c w w' k F HS Bw Be (u0 & Ef & W0 & G0 & P0 & C0) HF H. unfold init_corries in H.
  destruct (cf_validate c); try discriminate. destruct (mesh_new validation S (cf_mesh c)) as [m|e| |]; try discriminate.
  destruct (solver_new N p S c m (state_new p S (cf_physics c))) as [s|e| |] eqn:Es; try discriminate.
  destruct (writer_new meta S c m w) as [w1 r1]. destruct r1 as [wr|e| |]; try discriminate.
  destruct (writer_metadata (wr_meta wr) sched (wr_outputs wr) _) as [w2 r2]. destruct r2 as [[]|e| |]; try discriminate.
  unfold solver_new in Es. apply bind_Ok in Es. destruct Es as (rh & Rh & Es). injection Es as <-.
  unfold rhs_new in Rh. apply bind_Ok in Rh. destruct Rh as (nf & _ & Rh). injection Rh as <-.
  unfold on_state in H. cbn [s_u s_ts s_rk s_rhs] in H. rewrite Ef in H. injection H as <- H. cbn [bind s_rhs r_bw r_be s_u s_ts s_rk] in H.
  apply bind_Ok in H. destruct H as (u1 & Hu & H). injection H as <-. cbn [c_sim s_u c_mesh].
  rewrite Bw, Be in Hu. unfold st_update_from_prim in Hu. apply bind_Ok in Hu. destruct Hu as (v & Hv & Hu). injection Hu as <-.
  destruct W0 as (W0 & _). destruct (ng_prim A p S m (cent u0) ltac:(lia) W0) as (v' & E' & Pr). rewrite Hv in E'. injection E' as <-.
  destruct (update_from_prim_view A p S _ _ m _ v ltac:(lia) W0 Hv) as (W & G & _ & Cs & _).
  cbn [init_west_east set_cent cent west east vars_assign set_prim set_cons set_c_sound prim cons c_sound].
  split; [|split; [|split; [|split]]].
  - intros j i Hj Hi. rewrite Pr by assumption. rewrite P0; [apply HF; exact Hi|exact Hj|]. pose proof (clamp_interior S i ltac:(lia)) as (I1 & I2). lia.
  - intros Ep i Hi. rewrite Cs by exact Ep. apply C0; assumption.
  - rewrite G. exact G0.
  - apply (prim_consistent A p S _ _ m (cent u0) v HS W0 Hv).
  - repeat match goal with |- _ /\ _ => split end; reflexivity.
Qed.

Lemma clamp_half : forall S i, 6 <= S -> i < S -> (clamp S i <? Nat.div S 2) = (i <? Nat.div S 2).
Proof.
  intros S i HS Hi. pose proof (Nat.div_mod S 2 ltac:(lia)) as D. pose proof (Nat.mod_upper_bound S 2 ltac:(lia)) as U. unfold clamp.
  destruct (Nat.ltb_spec i 2); [|destruct (Nat.ltb_spec (S - 3) i); [|reflexivity]].
  all: destruct (Nat.ltb_spec i (S / 2)); [apply Nat.ltb_lt|apply Nat.ltb_ge]; lia.
Qed.

(** The Noh test, on both physics systems.  The hypothesis on the breakpoint is
    C53_breakpoint resp. C53_breakpoint_b64. *)
Theorem C53_noh : forall A (N : numflux_impl A) validation meta banner sched p S c w w' k,
  6 <= S -> breakpoint A S = Nat.div S 2 -> cf_bc_west c = BNoGradients -> cf_bc_east c = BNoGradients ->
  init_corries (A:=A) (N:=N) validation meta banner sched (on_state (init_noh p S)) p S c w = (w', Ok k) ->
  let u := s_u (c_sim k) in
  (forall j i, j < nE p -> i < S -> at2 (n0 A) (prim (cent u)) j i = noh_prim A S j i) /\
  (p = Isot -> forall i, i < S -> at1 (n0 A) (c_sound (cent u)) i = n1 A) /\
  gamma (cent u) = pc_gamma (cf_physics c) /\
  consistent p S (init_bc BNoGradients (nE p)) (init_bc BNoGradients (nE p)) (c_mesh k) (cent u) /\
  prim (west u) = prim (cent u) /\ prim (east u) = prim (cent u) /\ cons (west u) = cons (cent u) /\ cons (east u) = cons (cent u) /\
  c_sound (west u) = c_sound (cent u) /\ c_sound (east u) = c_sound (cent u).
Proof.
  intros A N validation meta banner sched p S c w w' k HS B Bw Be H.
  apply (init_corries_view A N validation meta banner sched (init_noh p S) p S c w w' k (noh_prim A S) HS Bw Be); [apply init_noh_view; exact B| |exact H].
  intros j i Hi. destruct j as [|[|j]]; cbn [noh_prim]; try reflexivity. rewrite clamp_half by assumption. reflexivity.
Qed.
Print Assumptions C53_noh.

(** The Sod test, on adiabatic physics. *)
Theorem C53_sod : forall A (N : numflux_impl A) validation meta banner sched S c w w' k,
  6 <= S -> breakpoint A S = Nat.div S 2 -> cf_bc_west c = BNoGradients -> cf_bc_east c = BNoGradients ->
  init_corries (A:=A) (N:=N) validation meta banner sched (on_state (init_sod Adiab S)) Adiab S c w = (w', Ok k) ->
  let u := s_u (c_sim k) in
  (forall j i, j < 3 -> i < S -> at2 (n0 A) (prim (cent u)) j i = sod_prim A S j i) /\
  gamma (cent u) = pc_gamma (cf_physics c) /\
  consistent Adiab S (init_bc BNoGradients 3) (init_bc BNoGradients 3) (c_mesh k) (cent u) /\
  prim (west u) = prim (cent u) /\ prim (east u) = prim (cent u) /\ cons (west u) = cons (cent u) /\ cons (east u) = cons (cent u) /\
  c_sound (west u) = c_sound (cent u) /\ c_sound (east u) = c_sound (cent u).
Proof.
  intros A N validation meta banner sched S c w w' k HS B Bw Be H.
  destruct (init_corries_view A N validation meta banner sched (init_sod Adiab S) Adiab S c w w' k (sod_prim A S) HS Bw Be) as (R1 & _ & R2); [| |exact H|exact (conj R1 R2)].
  - destruct (init_sod_view A S (cf_physics c) B) as (u & E & W & G & P). exists u. split; [exact E|]. split; [exact W|]. split; [exact G|]. split; [exact P|]. discriminate.
  - intros j i Hi. destruct j as [|[|j]]; cbn [sod_prim]; try reflexivity; rewrite clamp_half by assumption; reflexivity.
Qed.
Print Assumptions C53_sod.

(** init_sod on isothermal physics: init_corries returns an error, and where
    any other initial condition gets as far as the initial condition function
    it is the error of init_sod. *)
Theorem C53_sod_isothermal : forall A (N : numflux_impl A) validation meta banner sched S c w,
  (forall k, snd (init_corries (A:=A) (N:=N) validation meta banner sched (on_state (init_sod Isot S)) Isot S c w) <> Ok k) /\
  (forall init w' k, init_corries (A:=A) (N:=N) validation meta banner sched init Isot S c w = (w', Ok k) ->
     init_corries (A:=A) (N:=N) validation meta banner sched (on_state (init_sod Isot S)) Isot S c w = (w', Err EInitFn)).
Proof.
  intros A N validation meta banner sched S c w. split.
  - intros k. unfold init_corries.
    destruct (cf_validate c); try discriminate. destruct (mesh_new validation S (cf_mesh c)) as [m|e| |]; try discriminate.
    destruct (solver_new N Isot S c m (state_new Isot S (cf_physics c))) as [s|e| |]; try discriminate.
    destruct (writer_new meta S c m w) as [w1 r1]. destruct r1 as [wr|e| |]; try discriminate.
    destruct (writer_metadata (wr_meta wr) sched (wr_outputs wr) _) as [w2 r2]. destruct r2 as [[]|e| |]; discriminate.
  - intros init w' k H. unfold init_corries in *.
    destruct (cf_validate c); try discriminate. destruct (mesh_new validation S (cf_mesh c)) as [m|e| |]; try discriminate.
    destruct (solver_new N Isot S c m (state_new Isot S (cf_physics c))) as [s|e| |]; try discriminate.
    destruct (writer_new meta S c m w) as [w1 r1]. destruct r1 as [wr|e| |]; try discriminate.
    destruct (writer_metadata (wr_meta wr) sched (wr_outputs wr) _) as [w2 r2]. destruct r2 as [[]|e| |]; try discriminate.
    destruct (init s m) as [s1 r3]. injection H as <- _. reflexivity.
Qed.
Print Assumptions C53_sod_isothermal.

(** With five cells the only computational cell lies on the right-hand side and
    its values replace those of the left-hand ghost cells. *)
Theorem C53_five_cells_refuted : forall bln bexp, let A := B64n bln bexp in exists c w k,
  cf_validate c = Ok tt /\ cf_bc_west c = BNoGradients /\ cf_bc_east c = BNoGradients /\ breakpoint A 5 = Nat.div 5 2 /\
  init_corries (A:=A) (N:=Hll A) false (fun _ => EmptyString) EmptyString [] (on_state (init_noh Isot 5)) Isot 5 c no_world = (w, Ok k) /\
  at2 (n0 A) (prim (cent (s_u (c_sim k)))) 1 0 <> noh_prim A 5 1 0.
Proof.
  intros bln bexp A. set (c := brun_cfg bln bexp 100 2 (1 # 1000000) (4 # 10)).
  assert (H : match init_corries (A:=A) (N:=Hll A) false (fun _ => EmptyString) EmptyString [] (on_state (init_noh Isot 5)) Isot 5 c no_world with
    | (w, Ok k) => negb (Beqb (at2 (n0 A) (prim (cent (s_u (c_sim k)))) 1 0) (noh_prim A 5 1 0)) | _ => false end = true) by (vm_compute; reflexivity).
  destruct (init_corries (A:=A) (N:=Hll A) false (fun _ => EmptyString) EmptyString [] (on_state (init_noh Isot 5)) Isot 5 c no_world) as [w k] eqn:E. destruct k as [k|e| |]; try discriminate H.
  exists c, w, k. split; [|split; [reflexivity|split; [reflexivity|split; [apply C53_breakpoint_b64; reflexivity|split; [exact E|]]]]].
  - vm_compute. reflexivity.
  - intros Q. rewrite Q in H. apply negb_true_iff in H. assert (X : Beqb (noh_prim A 5 1 0) (noh_prim A 5 1 0) = true) by (vm_compute; reflexivity). congruence.
Qed.
Print Assumptions C53_five_cells_refuted.

(** C53 examples: both problems are reached by init_corries in binary64. *)
Definition sod_cfg bln bexp : config (B64n bln bexp) :=
  let c := brun_cfg bln bexp 100 2 (1 # 1000000) (4 # 10) in
  mkCfg false (cf_mesh c) (mkPC (nQ (B64n bln bexp) (14 # 10)) (pc_units (cf_physics c))) BNoGradients BNoGradients (cf_numerics c) 2 [].

Example C53_example : forall bln bexp, let A := B64n bln bexp in exists w k w2 k2,
  init_corries (A:=A) (N:=Hll A) true (fun _ => EmptyString) EmptyString [] (on_state (init_noh Isot 8)) Isot 8 (brun_cfg bln bexp 100 2 (1 # 1000000) (4 # 10)) no_world = (w, Ok k) /\
  init_corries (A:=A) (N:=Hll A) true (fun _ => EmptyString) EmptyString [] (on_state (init_sod Adiab 9)) Adiab 9 (sod_cfg bln bexp) no_world = (w2, Ok k2) /\
  Nat.div 8 2 = breakpoint A 8 /\ Nat.div 9 2 = breakpoint A 9.
Proof.
  intros bln bexp A.
  destruct (init_corries (A:=A) (N:=Hll A) true (fun _ => EmptyString) EmptyString [] (on_state (init_noh Isot 8)) Isot 8 (brun_cfg bln bexp 100 2 (1 # 1000000) (4 # 10)) no_world) as [w k] eqn:E.
  destruct (init_corries (A:=A) (N:=Hll A) true (fun _ => EmptyString) EmptyString [] (on_state (init_sod Adiab 9)) Adiab 9 (sod_cfg bln bexp) no_world) as [w2 k2] eqn:E2.
  assert (H : b_ok (do _ <- snd (init_corries (A:=A) (N:=Hll A) true (fun _ => EmptyString) EmptyString [] (on_state (init_noh Isot 8)) Isot 8 (brun_cfg bln bexp 100 2 (1 # 1000000) (4 # 10)) no_world); Ok tt) = true) by (vm_compute; reflexivity).
  assert (H2 : b_ok (do _ <- snd (init_corries (A:=A) (N:=Hll A) true (fun _ => EmptyString) EmptyString [] (on_state (init_sod Adiab 9)) Adiab 9 (sod_cfg bln bexp) no_world); Ok tt) = true) by (vm_compute; reflexivity).
  rewrite E in H. rewrite E2 in H2. destruct k as [k|e| |]; try discriminate H. destruct k2 as [k2|e| |]; try discriminate H2.
  exists w, k, w2, k2. split; [reflexivity|]. split; [reflexivity|]. split; symmetry; apply C53_breakpoint_b64; reflexivity.
Qed.
