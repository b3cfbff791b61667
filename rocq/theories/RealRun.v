(** Concrete simulations in exact arithmetic, for the examples beside the
    theorems.  Nothing here is a model of code. *)

From Coq Require Import Reals ZArith NArith QArith Qreals List Bool Lia Lra.
From Verif Require Import Base Num XReal Config Mesh State NumFlux Time Spec SpecFlow SpecStep
  MeshProofs BoundaryProofs PhysicsProofs FluxProofs UpdateProofs StepProofs StepInv StepEq TimeProofs TimeMore.
Import ListNotations.

(** ** Without validation and with NoGradients boundaries a step only fails
    because of its step size. *)
Section Total.
Variable A : Num.
Variable N : numflux_impl A.
Variables (p : phys) (S : nat) (m : mesh A).
Hypothesis Htot : forall self d u, exists a b c, nf_calc N false p S self d u m = (a, b, c, Ok tt).

Lemma ng_update : forall v, exists v', update_vars_from_cons (A:=A) p S (ng p) (ng p) m v = Ok v'.
Proof.
  intros v. unfold update_vars_from_cons, update_vars_from_prim.
  destruct (ng_ok A West p S m (update_prim p S v)) as [v1 B1]. rewrite B1. cbn [bind].
  destruct (ng_ok A East p S m v1) as [v2 B2]. rewrite B2. cbn [bind]. eauto.
Qed.

Lemma total_stages : forall dt u qs (k : rkf A) (h : rhs A N), r_bw h = ng p -> r_be h = ng p ->
  exists k' h', rkf_stages false p S m dt u qs k h = (k', h', Ok tt) /\ r_bw h' = ng p /\ r_be h' = ng p.
Proof.
  intros dt u. induction qs as [|q qs IH]; intros k h H1 H2; cbn [rkf_stages]; [eauto|].
  match goal with |- context [rhs_update false p S h ?x m] => set (w := x) end.
  unfold rhs_update, st_update_from_cons. rewrite H1, H2. destruct (ng_update (cent w)) as [v Hv]. rewrite Hv. cbn [bind].
  destruct (Htot (r_nf h) (r_full h) (set_cent v w)) as (a & b & c & E). rewrite E.
  apply IH; reflexivity.
Qed.

Lemma total_calc : forall dt u (k : rkf A) (h : rhs A N), r_bw h = ng p -> r_be h = ng p ->
  exists k' h' x, calc_rkf_solution false p S dt u k h m = (k', h', Ok x) /\ r_bw h' = ng p /\ r_be h' = ng p.
Proof.
  intros dt u k h H1 H2. unfold calc_rkf_solution.
  match goal with |- context [rkf_stages false p S m dt u ?q ?r h] => destruct (total_stages dt u q r h H1 H2) as (k' & h' & E & E1 & E2); rewrite E end.
  cbn [rk_accepted rk_set_utilde]. destruct (rk_accepted k'); eauto 8.
Qed.

Lemma total_next : forall fuel (s : sim A N) dt, r_bw (s_rhs s) = ng p -> r_be (s_rhs s) = ng p -> bt_asc (rk_bt (s_rk s)) = false ->
  st_calc_dt_cfl p S (s_u s) (ts_cfl (s_ts s)) m = Ok dt -> nltb A dt (ts_dt_min (s_ts s)) = false ->
  exists s', rkf_next false fuel p S m s = (s', Ok tt).
Proof.
  intros fuel s dt H1 H2 Ha C L. unfold rkf_next, calc_dt_expl, rkf_asc. cbn [ts_cfl ts_set_iter]. rewrite C. cbn [ts_dt_min ts_set_dt ts_set_iter]. rewrite L, Ha.
  match goal with |- context [calc_rkf_solution false p S ?d (s_u s) (s_rk s) (s_rhs s) m] => destruct (total_calc d (s_u s) (s_rk s) (s_rhs s) H1 H2) as (k' & h' & x & E & E1 & E2); rewrite E end.
  unfold st_update_from_cons. rewrite E1, E2.
  match goal with |- context [update_vars_from_cons p S (ng p) (ng p) m ?v] => destruct (ng_update v) as [v' Hv]; rewrite Hv end.
  cbn [bind]. eauto.
Qed.
End Total.

Lemma hll_total : forall A p S m self d u, exists a b c, nf_calc (Hll A) false p S self d u m = (a, b, c, Ok tt).
Proof. intros. cbn [nf_calc Hll]. unfold hll_calc. eauto. Qed.
Lemma kt_total : forall A p S m self d u, exists a b c, nf_calc (Kt A) false p S self d u m = (a, b, c, Ok tt).
Proof. intros. cbn [nf_calc Kt]. unfold kt_calc. eauto. Qed.

Local Open Scope R_scope.

(** ** A simulation with given primitive variables [q j i], t = 0, next output
    at [tn], Courant number [cfl] *)
Definition rcfg (nf : numflux_config XRn) (md : rkf_mode) (asc : bool) (cfl : R) : config XRn :=
  mkCfg false (mkMC (A:=XRn) Cartesian (Fin 1) (Fin 2)) (mkPC (A:=XRn) (Fin (14 / 10)) SI) BNoGradients BNoGradients
    (mkNC (A:=XRn) nf (mkRC (A:=XRn) md asc (Fin (1 / 1000)) (Fin (1 / 1000)) (Fin (8 / 100))) 100%N (Fin 0) (Fin 1)
       (Fin (1 / 1000000)) (Fin 1000) (Fin cfl))
    2%N [].

Definition rmesh (S : nat) : mesh XRn := mesh_build (A:=XRn) S (mkMC (A:=XRn) Cartesian (Fin 1) (Fin 2)).

Definition rsim {N : numflux_impl XRn} (p : phys) (S : nat) (c : config XRn) (nf : nf_T N) (v : vars XRn) (tn : R) : sim XRn N :=
  mkSim (ts_set_next (Fin tn : nF XRn) (ts_new (cf_numerics c) 2%N)) (one_state v) (rkf_new p S c)
        (mkRhs (zeros2 (nE p) S) nf (init_bc (cf_bc_west c) (nE p)) (init_bc (cf_bc_east c) (nE p))).

Lemma rsim_ok : forall (N : numflux_impl XRn) p S nfc md asc cfl (nf : nf_T N) v tn (good : nf_T N -> Prop), good nf ->
  wsv XRn p S v -> gamma v = Fin (14 / 10) -> solver_ok p S good (rsim p S (rcfg nfc md asc cfl) nf v tn).
Proof.
  intros N p S nfc md asc cfl nf v tn good Hg W G.
  assert (Wn : wss p S (state_new p S (cf_physics (rcfg nfc md asc cfl)))) by (repeat split; try apply wsv_new; apply (wsv_new XRn p S (cf_physics (rcfg nfc md asc cfl)))).
  split; [split; [exact W|split; exact W]|]. split.
  - split; [|split]; cbn [s_u rsim one_state cent west east]; rewrite G; reflexivity.
  - split; cbn [rk_bt s_rk rk_utilde rkf_new r_nf r_full s_rhs r_bw r_be rsim]; auto; try apply shape_zeros2. repeat split.
Qed.

(** One step of a uniform isothermal flow, any scheme that cannot fail. *)
Lemma rsim_step : forall (N : numflux_impl XRn) S nfc md cfl (nf : nf_T N) vel cs tn fuel, (6 <= S)%nat ->
  (forall self d u, exists a b c, nf_calc N false Isot S self d u (rmesh S) = (a, b, c, Ok tt)) ->
  vel + cs <> 0 -> 1 / 1000000 * Rabs (vel + cs) * INR (S - 4) <= cfl -> 0 < cfl ->
  exists v, let s := rsim Isot S (rcfg nfc md false cfl) nf v tn in
    wsv XRn Isot S v /\ gamma v = Fin (14 / 10) /\
    consistent Isot S (ng Isot) (ng Isot) (rmesh S) v /\
    (forall i, (i < S)%nat -> at2 (n0 XRn) (prim v) 0 i = Fin 1 /\ at2 (n0 XRn) (prim v) 1 i = Fin vel /\ at1 (n0 XRn) (c_sound v) i = Fin cs) /\
    st_calc_dt_cfl Isot S (s_u s) (ts_cfl (s_ts s)) (rmesh S) = Ok (Fin (cfl * (1 / INR (S - 4)) / Rabs (vel + cs)) : nF XRn) /\
    exists s', solver_next false fuel Isot S (rmesh S) s = (s', Ok tt) /\ rkf_next false fuel Isot S (rmesh S) s = (s', Ok tt).
Proof.
  intros N S nfc md cfl nf vel cs tn fuel HS Ht Hne Hlo Hc.
  destruct (uniform_cfl S Cartesian 1 2 cfl vel cs HS ltac:(lra) Hc Hne) as (u & Co & W & P & D).
  destruct (rdemo Isot S (14 / 10) cs (fun j _ => match j with 0%nat => 1 | _ => vel end) (rmesh S) HS) as (v & _ & Cv & Wv & Gv & Pv & Qv).
  assert (PQ : forall i, (i < S)%nat -> at2 (n0 XRn) (prim v) 0 i = Fin 1 /\ at2 (n0 XRn) (prim v) 1 i = Fin vel /\ at1 (n0 XRn) (c_sound v) i = Fin cs).
  { intros i Hi. split; [apply (Pv 0%nat i); cbn; lia|]. split; [apply (Pv 1%nat i); cbn; lia|]. apply Qv; auto. }
  exists v. intros s. split; [exact Wv|]. split; [exact Gv|]. split; [exact Cv|]. split; [exact PQ|].
  assert (Ds : st_calc_dt_cfl Isot S (s_u s) (ts_cfl (s_ts s)) (rmesh S) = Ok (Fin (cfl * (1 / INR (S - 4)) / Rabs (vel + cs)) : nF XRn)).
  { pose proof (cfl_mesh Isot S Cartesian 1 2 cfl (one_state v) _ _ (fun _ => vel) (fun _ => cs) ltac:(lia) ltac:(lra) Hc Cv) as K.
    specialize (K ltac:(apply Wv) ltac:(intros i Hi; split; apply PQ; exact Hi)). change (mesh_build (A:=XRn) S (mkMC (A:=XRn) Cartesian (Fin 1) (Fin 2))) with (rmesh S) in K.
    change (s_u s) with (one_state v). change (ts_cfl (s_ts s)) with (Fin cfl : nF XRn).
    destruct (st_calc_dt_cfl Isot S (one_state v) (Fin cfl : nF XRn) (rmesh S)) as [x|e| |]; try contradiction.
    - destruct x as [dt| | |]; try contradiction. destruct K as (K1 & _ & i & Hi & K3). unfold hx in K3.
      assert (Rabs (vel + cs) <> 0) by (apply Rabs_no_R0; exact Hne). replace (2 - 1) with 1 in K3 by ring.
      assert (Ed : dt = cfl * (1 / INR (S - 4)) / Rabs (vel + cs)) by (rewrite <- K3; field; assumption). rewrite Ed. reflexivity.
    - destruct e; try contradiction. exfalso. apply Hne. apply (K 0%nat). lia. }
  split; [exact Ds|].
  assert (Hn : 0 < INR (S - 4)) by (apply lt_0_INR; lia).
  assert (Hv : 0 < Rabs (vel + cs)) by (apply Rabs_pos_lt; exact Hne).
  destruct (fun a b => total_next XRn N Isot S (rmesh S) Ht fuel s _ eq_refl eq_refl a Ds b) as (s' & E).
  - destruct md; reflexivity.
  - change (ts_dt_min (s_ts s)) with (Fin (1 / 1000000) : nF XRn). rewrite X_ltb. destruct (Rlt_dec _ _) as [L|L]; [|reflexivity]. exfalso.
    assert (cfl * (1 / INR (S - 4)) / Rabs (vel + cs) * (INR (S - 4) * Rabs (vel + cs)) < 1 / 1000000 * (INR (S - 4) * Rabs (vel + cs))).
    { apply Rmult_lt_compat_r; [apply Rmult_lt_0_compat; assumption|exact L]. }
    replace (cfl * (1 / INR (S - 4)) / Rabs (vel + cs) * (INR (S - 4) * Rabs (vel + cs))) with cfl in H by (field; lra). lra.
  - exists s'. split; [|exact E]. unfold solver_next. rewrite E.
    destruct (rkf_next_cases _ _ _ _ _ _ _ _ _ _ E) as (_ & _ & T & I & _).
    assert (M : ts_iter_max (s_ts s') = 100%N) by (destruct T as (T1 & T2); rewrite T1; reflexivity).
    rewrite M, I. reflexivity.
Qed.
