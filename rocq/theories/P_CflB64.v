(** C28 in binary64 arithmetic: the CFL condition holds up to roundings. *)

From Coq Require Import Reals ZArith NArith QArith List Bool Lia Lra String.
From Flocq Require Import Core BinarySingleNaN.
From Verif Require Import Base Num XReal B64 Config Mesh State NumFlux Time Writer Runner Spec SpecStep SpecInit SpecConv
  ConfigProofs MeshProofs BoundaryProofs VanLeer ConvB64 CflB64 P_Run P_Init.
Import ListNotations.
Local Open Scope R_scope.

(** For finite velocities and sound speeds, wave speeds that are zero or
    between 2^-100 and 2^100, inverse cell widths and Courant number in the
    same range: dt |v + c| / (cell width) stays below the Courant number up to
    a factor 1 + 2^-51, and reaches it up to a factor 1 - 2^-51 in some cell;
    the call fails exactly if no wave moves. *)
Theorem C28_cfl_b64 : forall bln bexp p S (u : state (B64n bln bexp)) (c : b64) (m : mesh (B64n bln bexp)) bw be,
  let A := B64n bln bexp in
  let vel := fun i => at2 (n0 A) (prim (cent u)) 1 i : b64 in
  let cs := fun i => at1 (n0 A) (c_sound (cent u)) i : b64 in
  let winv := fun i => at1 (n0 A) (m_cell_width_inv m) i : b64 in
  consistent p S bw be m (cent u) -> moderate c -> 0 < B2R c ->
  (forall i, (i < S)%nat -> is_finite (vel i) = true /\ is_finite (cs i) = true /\ moderate (winv i) /\ 0 < B2R (winv i) /\
     (B2R (vel i) + B2R (cs i) = 0 \/ bpow radix2 (-100) <= Rabs (B2R (vel i) + B2R (cs i)) <= bpow radix2 100)) ->
  match st_calc_dt_cfl p S u (c : nF A) m with
  | Ok dt => is_finite (dt : b64) = true /\ 0 < B2R (dt : b64) /\
     (forall i, (i < S)%nat -> B2R (dt : b64) * (Rabs (B2R (vel i) + B2R (cs i)) * B2R (winv i)) <= (1 + bpow radix2 (-51)) * B2R c) /\
     exists i, (i < S)%nat /\ (1 - bpow radix2 (-51)) * B2R c <= B2R (dt : b64) * (Rabs (B2R (vel i) + B2R (cs i)) * B2R (winv i))
  | Err EDtNonFinite => forall i, (i < S)%nat -> B2R (vel i) + B2R (cs i) = 0
  | _ => False
  end.
Proof.
  intros bln bexp p S u c m bw be A vel cs winv C Mc Pc H.
  apply (cfl_b64 bln bexp S (eigen_max p (cent u)) _ c m (fun i => B2R (vel i) + B2R (cs i)) eq_refl Mc Pc).
  intros i Hi. destruct (H i Hi) as (Fv & Fc & Mw & Pw & Sv).
  assert (E : at1 (n0 (B64n bln bexp)) (eigen_max p (cent u)) i = b_add (vel i) (cs i)) by exact (cst_fast _ _ _ _ _ _ _ C i Hi).
  rewrite E. assert (Bd : Rabs (B2R (vel i) + B2R (cs i)) <= bpow radix2 100) by (destruct Sv as [-> | (_ & U)]; [rewrite Rabs_R0; apply bpow_ge_0|exact U]).
  destruct (b_add_bound (vel i) (cs i) 100 ltac:(lia) Fv Fc Bd) as (Fs & _).
  split; [exact Fs|]. split; [|split; [exact Sv|split; [exact Mw|exact Pw]]].
  destruct (fl_sum (vel i) (cs i)) as (R1 & _). destruct (MeshB64.b_add_val _ _ Fs) as (_ & _ & Es). rewrite Es. exact R1.
Qed.
Print Assumptions C28_cfl_b64.

(** Example: the start of the collision problem; wave speeds 2 and 0. *)
Example C28_b64_nonvacuous : forall bln bexp, let A := B64n bln bexp in
  exists k bw be, let u := s_u (c_sim k) in
  consistent Isot 8 bw be (c_mesh (A:=A) (N:=Hll A) k) (cent u) /\
  moderate (nQ A (4 # 10)) /\ 0 < B2R (nQ A (4 # 10) : b64) /\
  forall i, (i < 8)%nat -> at2 (n0 A) (prim (cent u)) 1 i = b_ofZ (if (i <? 4)%nat then 1 else -1) /\ at1 (n0 A) (c_sound (cent u)) i = b_ofZ 1 /\
    moderate (at1 (n0 A) (m_cell_width_inv (c_mesh k)) i) /\ 0 < B2R (at1 (n0 A) (m_cell_width_inv (c_mesh k)) i : b64).
Proof.
  intros bln bexp A.
  destruct (init_corries (A:=A) (N:=Hll A) true (fun _ => EmptyString) EmptyString [] (on_state (init_noh Isot 8)) Isot 8 (brun_cfg bln bexp 100 2 (1 # 1000000) (4 # 10)) no_world) as [w k] eqn:E.
  set (chk := fun x : b64 => (is_finite x && Bleb (b_ofZ 1) x && Bleb x (b_ofZ 8))%bool).
  assert (H : match init_corries (A:=A) (N:=Hll A) true (fun _ => EmptyString) EmptyString [] (on_state (init_noh Isot 8)) Isot 8 (brun_cfg bln bexp 100 2 (1 # 1000000) (4 # 10)) no_world with
    | (_, Ok k) => forallb (fun i => chk (at1 (n0 A) (m_cell_width_inv (c_mesh k)) i)) (seq 0 8) | _ => false end = true) by (vm_compute; reflexivity).
  rewrite E in H. destruct k as [k|e| |]; try discriminate H.
  destruct (C53_noh A (Hll A) true _ _ _ Isot 8 (brun_cfg bln bexp 100 2 (1 # 1000000) (4 # 10)) _ w k ltac:(lia) ltac:(apply C53_breakpoint_b64; reflexivity) eq_refl eq_refl E) as (P & Q & _ & C & _). cbv zeta in *.
  exists k, (init_bc BNoGradients 2), (init_bc BNoGradients 2). split; [exact C|].
  assert (H100 : 1000 <= bpow radix2 100) by (apply Rle_trans with (bpow radix2 10); [cbn; lra|apply bpow_le; lia]).
  assert (L100 : bpow radix2 (-100) <= / 1000) by (apply Rle_trans with (bpow radix2 (-10)); [apply bpow_le; lia|cbn; lra]).
  assert (R4 : B2R (nQ A (4 # 10) : b64) = 7205759403792794 / 18014398509481984) by (vm_compute; lra).
  unfold moderate at 1. rewrite R4, Rabs_pos_eq by lra. split; [split; [reflexivity|lra]|]. split; [lra|].
  intros i Hi. split; [rewrite P by (cbn; lia); cbn [noh_prim]; change (8 / 2)%nat with 4%nat; destruct (i <? 4)%nat; reflexivity|]. split; [rewrite Q by auto; reflexivity|].
  rewrite forallb_forall in H. specialize (H i ltac:(apply in_seq; lia)). set (x := at1 (n0 A) _ i) in *. unfold chk in H.
  apply andb_true_iff in H. destruct H as (H & H3). apply andb_true_iff in H. destruct H as (H1 & H2).
  pose proof (Bleb_correct 53 1024 (b_ofZ 1) x eq_refl H1) as C2. pose proof (Bleb_correct 53 1024 x (b_ofZ 8) H1 eq_refl) as C3.
  assert (E1 : B2R (b_ofZ 1) = 1) by (vm_compute; lra). assert (E8 : B2R (b_ofZ 8) = 8) by (vm_compute; lra). rewrite E1 in C2. rewrite E8 in C3.
  change (Bleb (b_ofZ 1) x = true) in H2. rewrite H2 in C2. rewrite H3 in C3.
  destruct (Rle_bool_spec 1 (B2R x)) as [L1|]; [|discriminate C2]. destruct (Rle_bool_spec (B2R x) 8) as [L8|]; [|discriminate C3].
  split; [|lra]. split; [exact H1|]. rewrite Rabs_pos_eq by lra. lra.
Qed.
