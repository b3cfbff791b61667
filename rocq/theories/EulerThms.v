(** Consequences of the forward Euler form of a step: cell values, step
    control, conservation, positivity. *)

From Coq Require Import Reals ZArith NArith QArith Qreals Qabs List Bool Lia Lra.
From Verif Require Import Base Num XReal Config Mesh State NumFlux Time Spec SpecFlow SpecStep SpecTableau SpecEuler
  MeshProofs BoundaryProofs PhysicsProofs FluxProofs UpdateProofs FluxReal FluxThms StepProofs StepInv StepEq TableauProofs
  TimeProofs TimeMore AscProofs EulerStep.
Import ListNotations.
Local Open Scope R_scope.

Lemma weight_high : forall md, Q2R (qsum (bt_order (qtab md)) (qat (bt_high (qtab md)))) = weight_sum md.
Proof.
  intros md. replace (weight_sum md) with (Q2R (match md with SSPRK5 => 999995 # 1000000 | _ => 1 end)).
  - apply Qeq_eqR. destruct md; vm_compute; reflexivity.
  - destruct md; unfold weight_sum, Q2R; cbn; lra.
Qed.
Lemma weight_low : forall md, embedded md = true -> Q2R (qsum (bt_order (qtab md)) (qat (bt_low (qtab md)))) = 1.
Proof.
  intros md H. replace 1 with (Q2R 1) by (unfold Q2R; cbn; lra).
  apply Qeq_eqR. destruct md; try discriminate; vm_compute; reflexivity.
Qed.
Lemma embedded_high : forall md, embedded md = true -> weight_sum md = 1.
Proof. intros [] H; try discriminate; reflexivity. Qed.

Lemma next_of_solver : forall A (N : numflux_impl A) val fuel p S m (s s' : sim A N),
  solver_next val fuel p S m s = (s', Ok tt) -> rkf_next val fuel p S m s = (s', Ok tt).
Proof.
  intros A N val fuel p S m s s' H. unfold solver_next in H.
  destruct (rkf_next val fuel p S m s) as [s1 o]. destruct o as [[]|e| |]; try discriminate.
  destruct (_ <=? _)%N; [discriminate|exact H].
Qed.

Lemma all_fin2_at : forall (v : list (list (nF XRn))) E n j i, shape E n v -> (j < E)%nat -> (i < n)%nat -> all_fin2 v = true -> nfin XRn (at2 (n0 XRn) v j i) = true.
Proof.
  intros v E n j i (L & Sh) Hj Hi H. unfold all_fin2 in H. rewrite forallb_forall in H.
  assert (In (nth j v []) v) by (apply nth_In; lia). specialize (H _ H0). unfold all_fin in H. rewrite forallb_forall in H.
  apply H. apply nth_In. rewrite (Sh j Hj). exact Hi.
Qed.

Lemma c2p_0 : forall A p g X, c2p A p g X 0 = X 0%nat.
Proof. intros A [] g X; reflexivity. Qed.
Lemma c2p_1 : forall A p g X, c2p A p g X 1 = ndiv A (X 1%nat) (X 0%nat).
Proof. intros A [] g X; reflexivity. Qed.
Lemma p2c_0 : forall A p g X, p2c A p g X 0 = X 0%nat.
Proof. intros A [] g X; reflexivity. Qed.

Lemma euler_cells : forall (N : numflux_impl XRn) p S m good val fuel (c : rkf_config XRn) (s s' : sim XRn N) f dt g i U,
  (5 <= S)%nat -> memoryless N p S m good -> solver_ok p S good s -> rk_bt (s_rk s) = bt_new c ->
  rhs_values p S m s f -> solver_next val fuel p S m s = (s', Ok tt) -> ts_dt (s_ts s') = Fin dt ->
  gamma (cent (s_u s)) = Fin g -> (p = Adiab -> g <> 1) ->
  (2 <= i <= S - 3)%nat -> (forall j, (j < nE p)%nat -> at2 (n0 XRn) (cons (cent (s_u s))) j i = Fin (U j)) ->
  let V := fun j => U j - dt * weight_sum (rc_mode c) * f j i in
  at2 (n0 XRn) (cons (cent (s_u s'))) 0 i = Fin (V 0%nat) /\
  (val = true -> V 0%nat <> 0) /\
  (V 0%nat <> 0 -> forall j, (j < nE p)%nat -> at2 (n0 XRn) (cons (cent (s_u s'))) j i = Fin (V j)).
Proof.
  intros N p S m good val fuel c s s' f dt g i U HS Hm Hok Hb Hf E Hdt Hg Hg1 Hi HU V.
  apply next_of_solver in E.
  destruct (euler_step N p S m good val fuel c s s' f dt HS Hm Hok Hb Hf E Hdt) as (v0 & Up & W & G & Va & Co).
  rewrite weight_high in Co.
  destruct (update_from_cons_view XRn p S _ _ m v0 _ HS W Up) as (W' & G' & _ & _ & P' & C').
  rewrite G, Hg in P', C'.
  assert (Ii : interior S i) by (unfold interior; lia).
  assert (HV : forall j, (j < nE p)%nat -> at2 (n0 XRn) (cons v0) j i = Fin (V j)).
  { intros j Hj. apply Co; [exact Hj|lia|apply HU; exact Hj]. }
  assert (H0 : (0 < nE p)%nat) by (destruct p; cbn; lia). assert (H1 : (1 < nE p)%nat) by (destruct p; cbn; lia).
  destruct (C' i ltac:(lia)) as (C1 & _).
  assert (C0 : at2 (n0 XRn) (cons (cent (s_u s'))) 0 i = Fin (V 0%nat)).
  { rewrite C1, p2c_0, (P' 0%nat i H0 Ii), c2p_0 by exact H0. apply HV. exact H0. }
  split; [exact C0|]. split.
  - intros -> Z. specialize (Va eq_refl). unfold vars_validate in Va.
    destruct (all_fin2 (prim (cent (s_u s')))) eqn:F; [|discriminate].
    assert (Hfin := all_fin2_at (prim (cent (s_u s'))) (nE p) S 1 i ltac:(apply W') H1 ltac:(lia) F).
    rewrite (P' 1%nat i H1 Ii) in Hfin.
    assert (Hd : c2p XRn p (Fin g) (fun k => at2 (n0 XRn) (cons v0) k i) 1 = ndiv XRn (Fin (V 1%nat)) (Fin (V 0%nat))).
    { rewrite c2p_1, (HV 1%nat H1), (HV 0%nat H0). reflexivity. }
    rewrite Hd, Z in Hfin. cbn in Hfin. destruct (Req_EM_T 0 0) as [_|N0]; [|congruence].
    unfold xinf_sgn in Hfin. repeat match type of Hfin with context [if ?b then _ else _] => destruct b end; discriminate.
  - intros NZ j Hj. rewrite C1 by exact Hj.
    rewrite (p2c_R p g (rprim p g V)); [|exact Hg1|exact Hj|].
    + rewrite conserved_rprim; auto.
    + intros l Hl. rewrite (P' l i Hl Ii). apply c2p_R; auto.
Qed.

(** ** The error estimate of the automated step control *)

Lemma zero_entry : forall x : XR, nmax XRn (Fin 0) (nabs XRn (ndiv XRn (Fin 0) x)) = Fin 0.
Proof.
  intros [r| | |]; cbn.
  - destruct (Req_EM_T r 0).
    + unfold xinf_sgn. destruct (Rlt_dec 0 0); [lra|]. destruct (Rlt_dec 0 0); [lra|]. reflexivity.
    + cbn. unfold Rdiv. rewrite Rmult_0_l, Rabs_R0. destruct (Rlt_dec 0 0); [lra|]; reflexivity.
  - rewrite Rabs_R0. destruct (Rlt_dec 0 0); [lra|]; reflexivity.
  - rewrite Rabs_R0. destruct (Rlt_dec 0 0); [lra|]; reflexivity.
  - reflexivity.
Qed.

Lemma asc_err0 : forall E S (rtol atol : nF XRn) hi lo,
  (forall j i, (j < E)%nat -> (2 <= i <= S - 3)%nat -> exists r, at2 (n0 XRn) hi j i = Fin r /\ at2 (n0 XRn) lo j i = Fin r) ->
  asc_error E S rtol atol hi lo = Fin 0.
Proof.
  intros E S rtol atol hi lo H. unfold asc_error.
  assert (Hin : forall j l acc, (j < E)%nat -> (forall i, In i l -> (2 <= i <= S - 3)%nat) -> acc = Fin 0 ->
    fold_left (fun acc i => nmax XRn acc (nabs XRn (ndiv XRn (nsub XRn (at2 (n0 XRn) hi j i) (at2 (n0 XRn) lo j i))
       (nmul XRn rtol (nadd XRn (at2 (n0 XRn) hi j i) atol))))) l acc = Fin 0).
  { intros j l. induction l as [|i l IH]; intros acc Hj Hl ->; [reflexivity|]. cbn [fold_left].
    destruct (H j i Hj (Hl i (or_introl eq_refl))) as (r & E1 & E2).
    apply IH; [exact Hj|intros i' Hi'; apply Hl; right; exact Hi'|].
    rewrite E1, E2, X_sub. replace (r - r) with 0 by ring. apply zero_entry. }
  assert (Ho : forall l acc, (forall j, In j l -> (j < E)%nat) -> acc = Fin 0 ->
    fold_left (fun acc j => fold_left (fun acc i => nmax XRn acc (nabs XRn (ndiv XRn (nsub XRn (at2 (n0 XRn) hi j i) (at2 (n0 XRn) lo j i))
       (nmul XRn rtol (nadd XRn (at2 (n0 XRn) hi j i) atol))))) (seq 2 (S - 4)) acc) l acc = Fin 0).
  { induction l as [|j l IH]; intros acc Hl ->; [reflexivity|]. cbn [fold_left].
    apply IH; [intros j' Hj'; apply Hl; right; exact Hj'|].
    apply Hin; [apply Hl; left; reflexivity| |reflexivity]. intros i Hi. apply in_seq in Hi. lia. }
  apply Ho; [|apply X_n0]. intros j Hj. apply in_seq in Hj. lia.
Qed.

Lemma propose0 : forall n (fr : nF XRn) d, asc_propose n fr (Fin 0 : nF XRn) (Fin 0 : nF XRn) (Fin d : nF XRn) = Fin (4 * d).
Proof.
  intros n fr d. unfold asc_propose. rewrite X_n0, X_n1, !X_ltb.
  destruct (Rlt_dec 0 0); [lra|]. destruct (Rlt_dec 0 1); [|lra].
  rewrite X_Z, X_mul, X_min. unfold Rmin. destruct (Rle_dec _ _); reflexivity.
Qed.

Lemma cap_min : forall (ts : timestep XRn) d t tn M, ts_dt ts = Fin d -> ts_t ts = Fin t -> ts_t_next ts = Fin tn -> ts_dt_max ts = Fin M -> 0 < tn ->
  ts_dt (cap_dt ts) = Fin (Rmin (Rmin d M) (tn - t)).
Proof.
  intros ts d t tn M Hd Ht Hn HM P. unfold cap_dt. cbn [ts_dt ts_set_dt ts_t ts_t_next ts_dt_max].
  rewrite Hd, HM, Ht, Hn, X_min, X_add, X_div, X_n1, X_ltb by lra.
  destruct (Rlt_dec 1 ((Rmin d M + t) / tn)) as [L|L]; cbn [ts_dt ts_set_dt].
  - rewrite X_sub. f_equal. symmetry. apply Rmin_right.
    apply Rmult_lt_compat_r with (r := tn) in L; [|exact P]. replace ((Rmin d M + t) / tn * tn) with (Rmin d M + t) in L by (field; lra). lra.
  - f_equal. symmetry. apply Rmin_left.
    assert (~ tn < Rmin d M + t); [|lra]. intro C. apply L.
    apply Rmult_lt_reg_r with tn; [exact P|]. replace ((Rmin d M + t) / tn * tn) with (Rmin d M + t) by (field; lra). lra.
Qed.

Lemma stages_nasc : forall A (N : numflux_impl A) val p S m dt u qs (k k' : rkf A) (h h' : rhs A N) o,
  rkf_stages val p S m dt u qs k h = (k', h', o) -> rk_n_asc k' = rk_n_asc k.
Proof.
  intros A N val p S m dt u qs. induction qs as [|q qs IH]; intros k k' h h' o H; cbn [rkf_stages] in H.
  - injection H as <- <- <-. reflexivity.
  - match type of H with context [rhs_update val p S h ?x m] => destruct (rhs_update val p S h x m) as [[h1 u1] o1] end.
    destruct o1 as [[]|e| |]; try (injection H as <- <- <-; reflexivity). apply IH in H. exact H.
Qed.

Lemma calc_err : forall A (N : numflux_impl A) val p S dt u (k k' : rkf A) (h h' : rhs A N) m x,
  calc_rkf_solution val p S dt u k h m = (k', h', Ok x) ->
  if rk_accepted k
  then x = dt /\ rk_err_new k' = rk_err_new k /\ rk_err_old k' = rk_err_old k /\ rk_n_asc k' = rk_n_asc k /\ rk_accepted k' = true
  else let e := asc_error (nE p) S (rk_rtol k) (rk_atol k) (cons (cent (rk_utilde k'))) (rk_low k') in
    rk_err_new k' = e /\ rk_err_old k' = e /\ rk_n_asc k' = rk_n_asc k /\ rk_accepted k' = false /\
    x = asc_propose (bt_order (rk_bt k)) (rk_friction k) e (rk_err_old k) dt.
Proof.
  intros A N val p S dt u k k' h h' m x E. unfold calc_rkf_solution in E.
  destruct (rkf_stages _ _ _ _ _ _ _ _ _) as [[l g] o] eqn:R.
  pose proof (stages_nasc _ _ _ _ _ _ _ _ _ _ _ _ _ _ R) as Rn.
  apply stages_static in R. destruct R as (R1 & R2 & R3 & R4 & R5 & R6). 
  destruct o as [[]|e| |]; try discriminate.
  cbn [rk_accepted rk_set_utilde rk_set_k] in *. rewrite R3 in E.
  destruct R1 as (Q1 & Q2 & Q3 & Q4). cbn [rk_bt rk_rtol rk_atol rk_friction rk_n_asc rk_set_k rk_err_old rk_err_new] in *.
  destruct (rk_accepted k) eqn:Ea.
  - destruct (if val then _ else _) as [[]|e| |] in E; try discriminate. injection E as <- <- <-.
    cbn. auto 10.
  - destruct (if val then _ else _) as [[]|e| |] in E; try discriminate. injection E as <- <- <-.
    cbn. rewrite Q2, Q3, Q4, R4, Rn. auto 10.
Qed.

Lemma four_min : forall d M r, 0 <= M -> 0 <= r -> Rmin (Rmin (4 * Rmin (Rmin d M) r) M) r = Rmin (Rmin (4 * d) M) r.
Proof.
  intros d M r HM Hr.
  unfold Rmin at 3 4. repeat (destruct (Rle_dec _ _)); unfold Rmin; repeat match goal with |- context [if Rle_dec ?a ?b then _ else _] =>
    lazymatch a with context [Rle_dec] => fail | _ => lazymatch b with context [Rle_dec] => fail | _ => destruct (Rle_dec a b) end end end; lra.
Qed.

Lemma inert_try : forall (N : numflux_impl XRn) p S m good val (c : rkf_config XRn) (s : sim XRn N) f (U : nat -> nat -> R) d1 k2 h2 x,
  (5 <= S)%nat -> memoryless N p S m good -> solver_ok p S good s -> rk_bt (s_rk s) = bt_new c ->
  embedded (rc_mode c) = true -> rhs_values p S m s f ->
  (forall j i, (j < nE p)%nat -> (2 <= i <= S - 3)%nat -> at2 (n0 XRn) (cons (cent (s_u s))) j i = Fin (U j i)) ->
  rk_err_old (s_rk s) = Fin 0 ->
  calc_rkf_solution val p S (Fin d1 : nF XRn) (s_u s) (rk_set_n_asc 0 (rk_set_accepted false (s_rk s))) (s_rhs s) m = (k2, h2, Ok x) ->
  rk_err_new k2 = Fin 0 /\ rk_err_old k2 = Fin 0 /\ rk_n_asc k2 = 0%nat /\ x = Fin (4 * d1).
Proof.
  intros N p S m good val c s f U d1 k2 h2 x HS Hm Hok Hb Hemb (val0 & h0' & w0 & Href & Hfin) HU He E2.
  destruct Hok as (Hu & Hg & SS).
  pose proof (same_setup_utilde XRn N p S good (s_rk s) (s_rhs s) (s_u s) Hu Hg SS) as SU.
  set (k0 := rk_set_utilde (s_u s) (s_rk s)) in *.
  assert (Href' : rhs_update val0 p S (s_rhs s) (stage_state XRn (cons (cent (s_u s))) (rk_utilde k0) (s_u s)) m = (h0', w0, Ok tt)).
  { unfold k0. cbn [rk_utilde rk_set_utilde]. rewrite state_eta. exact Href. }
  set (k1 := rk_set_n_asc 0 (rk_set_accepted false (s_rk s))) in *.
  assert (S1 : same_setup p S good k0 (s_rhs s) k1 (s_rhs s)).
  { eapply same_setup_trans; [apply same_setup_sym; exact SU|]. destruct SS. split; auto. }
  pose proof (calc_err _ _ _ _ _ _ _ _ _ _ _ _ _ E2) as Ce. change (rk_accepted k1) with false in Ce. cbv zeta iota in Ce.
  assert (Z : asc_error (nE p) S (rk_rtol k1) (rk_atol k1) (cons (cent (rk_utilde k2))) (rk_low k2) = Fin 0).
  { apply asc_err0. intros j i Hj Hi.
    destruct (calc_euler N p S m good HS Hm (s_u s) d1 f Hu k0 (s_rhs s) val0 h0' w0 Href' Hfin val c k1 (s_rhs s) k2 h2 x j i (U j i) Hb S1 E2 Hj ltac:(lia) (HU j i Hj Hi)) as (X1 & X2).
    specialize (X2 eq_refl). rewrite weight_high, embedded_high in X1 by exact Hemb. rewrite weight_low in X2 by exact Hemb.
    eexists. split; [exact X1|exact X2]. }
  rewrite Z in Ce. destruct Ce as (N1 & N2 & N3 & N4 & N5).
  change (rk_err_old k1) with (rk_err_old (s_rk s)) in N5. rewrite He, propose0 in N5. auto.
Qed.

(** the embedded estimate of a step of a mode whose weights both sum to one *)
Lemma asc_inert : forall (N : numflux_impl XRn) p S m good val fuel (c : rkf_config XRn) (s s' : sim XRn N) f (U : nat -> nat -> R) d t tn M,
  (5 <= S)%nat -> memoryless N p S m good -> solver_ok p S good s -> rk_bt (s_rk s) = bt_new c ->
  rc_asc c = true -> embedded (rc_mode c) = true -> rhs_values p S m s f ->
  (forall j i, (j < nE p)%nat -> (2 <= i <= S - 3)%nat -> at2 (n0 XRn) (cons (cent (s_u s))) j i = Fin (U j i)) ->
  rk_err_old (s_rk s) = Fin 0 ->
  st_calc_dt_cfl p S (s_u s) (ts_cfl (s_ts s)) m = Ok (Fin d : nF XRn) ->
  ts_t (s_ts s) = Fin t -> ts_t_next (s_ts s) = Fin tn -> ts_dt_max (s_ts s) = Fin M ->
  0 < tn -> 0 <= M -> t <= tn ->
  rkf_next val fuel p S m s = (s', Ok tt) ->
  ts_dt (s_ts s') = Fin (Rmin (Rmin (4 * d) M) (tn - t)) /\ rk_n_asc (s_rk s') = 1%nat /\
  rk_err_new (s_rk s') = Fin 0 /\ rk_err_old (s_rk s') = Fin 0.
Proof.
  intros N p S m good val fuel c s s' f U d t tn M HS Hm Hok Hb Ha Hemb Hf HU He Hd Ht Hn HM Ptn PM Le E.
  assert (Hba : bt_asc (rk_bt (s_rk s)) = true).
  { rewrite Hb. destruct c as [md asc rt at' fr]. cbn in Ha, Hemb. subst asc. destruct md; try discriminate; reflexivity. }
  unfold rkf_next in E.
  destruct (calc_dt_expl p S (ts_set_iter (ts_iter (s_ts s) + 1)%N (s_ts s)) (s_u s) m) as [ts1 p1] eqn:Ed.
  unfold calc_dt_expl in Ed. cbn [ts_cfl ts_set_iter] in Ed. rewrite Hd in Ed.
  destruct p1 as [[]|e| |]; try discriminate.
  destruct (nltb XRn (Fin d) _) in Ed; [discriminate|]. injection Ed as <-.
  match type of E with context [rkf_asc val fuel p S (cap_dt ?x) _ _ _ _] => set (ts1 := x) in * end.
  assert (C1 : ts_dt (cap_dt ts1) = Fin (Rmin (Rmin d M) (tn - t))) by (apply cap_min; auto).
  assert (St1 : ts_t (cap_dt ts1) = Fin t /\ ts_t_next (cap_dt ts1) = Fin tn /\ ts_dt_max (cap_dt ts1) = Fin M).
  { unfold cap_dt. destruct (nltb _ _ _); cbn; auto. }
  destruct St1 as (St1 & St2 & St3). set (d1 := Rmin (Rmin d M) (tn - t)) in *.
  set (ts2 := cap_dt ts1) in *. clearbody ts2. clear ts1.
  unfold rkf_asc in E. rewrite Hba in E.
  set (k1 := rk_set_n_asc 0 (rk_set_accepted false (s_rk s))) in *.
  destruct fuel as [|fuel]; [discriminate E|]. cbn [asc_loop] in E. change (rk_accepted k1) with false in E. cbn iota in E.
  destruct (calc_rkf_solution val p S (ts_dt ts2) (s_u s) k1 (s_rhs s) m) as [[k2 h2] o2] eqn:E2.
  destruct o2 as [x|e| |]; try discriminate E.
  rewrite C1 in E2. destruct (inert_try N p S m good val c s f U d1 k2 h2 x HS Hm Hok Hb Hemb Hf HU He E2) as (N1 & N2 & N3 & ->).
  rewrite N1, X_n1, X_ltb in E. destruct (Rlt_dec 0 1) as [_|]; [|lra].
  assert (C2 : ts_dt (cap_dt (ts_set_dt (Fin (4 * d1) : nF XRn) ts2)) = Fin (Rmin (Rmin (4 * d) M) (tn - t))).
  { rewrite (cap_min _ (4 * d1) t tn M); auto. f_equal. apply four_min; lra. }
  set (ts3 := cap_dt (ts_set_dt (Fin (4 * d1) : nF XRn) ts2)) in *.
  match type of E with context [asc_loop val fuel p S ts3 (s_u s) ?k h2 m] => set (k3 := k) in * end.
  assert (EL : asc_loop val fuel p S ts3 (s_u s) k3 h2 m = (ts3, k3, h2, Ok tt)) by (destruct fuel; reflexivity).
  rewrite EL in E. clear EL.
  destruct (calc_rkf_solution val p S (ts_dt ts3) (s_u s) k3 h2 m) as [[k4 h4] o4] eqn:E4.
  destruct o4 as [x|e| |]; try discriminate E.
  pose proof (calc_err _ _ _ _ _ _ _ _ _ _ _ _ _ E4) as Ce; change (rk_accepted k3) with true in Ce; cbv zeta iota in Ce;
       destruct Ce as (_ & M1 & M2 & M3 & _); change (rk_err_new k3) with (rk_err_new k2) in M1; change (rk_err_old k3) with (rk_err_old k2) in M2;
       change (rk_n_asc k3) with (Datatypes.S (rk_n_asc k2)) in M3; rewrite N1 in M1; rewrite N2 in M2; rewrite N3 in M3.
  destruct (st_update_from_cons _ _ _ _ _ _) as [u2|e| |]; try discriminate E.
  destruct (if val then _ else _) as [[]|e| |] in E; try discriminate E.
  apply (f_equal fst) in E; cbn [fst] in E; rewrite <- E; cbn [s_ts s_rk ts_set_t ts_dt]; auto.
Qed.

(** ** Reachable solvers *)
Lemma zero_at : forall A E S j i, (j < E)%nat -> (i < S)%nat -> at2 (n0 A) (zeros2 (A:=A) E S) j i = n0 A.
Proof. intros. unfold at2, zeros2. rewrite nth_repeat_lt by assumption. unfold zeros. apply nth_repeat. Qed.

Section Reach.
Variable A : Num.
Variable N : numflux_impl A.
Variables (p : phys) (S : nat) (m : mesh A) (good : nf_T N -> Prop).
Hypothesis HS : (5 <= S)%nat.
Hypothesis Hmem : memoryless N p S m good.

Lemma next_gamma : forall val fuel (s s' : sim A N) o, wsv A p S (cent (s_u s)) -> rkf_next val fuel p S m s = (s', o) ->
  gamma (cent (s_u s')) = gamma (cent (s_u s)).
Proof.
  intros val fuel s s' o Hw H. apply rkf_next_cases in H. destruct H as (_ & _ & _ & _ & [(_ & -> & _)|(k & H)]); [reflexivity|].
  cbn zeta in H.
  assert (Hc : wsv A p S (set_cons (rkf_combine (nE p) S (ts_dt (s_ts s')) (bt_high (rk_bt (s_rk s))) k (bt_order (rk_bt (s_rk s))) (cons (cent (s_u s)))) (cent (s_u s)))).
  { apply wsv_set_cons; [assumption|]. apply shape_combine. apply Hw. }
  destruct H as (_ & [(_ & -> & _)|(v & Hv & -> & _)]); [reflexivity|].
  destruct (update_from_cons_view A p S _ _ m _ v HS Hc Hv) as (_ & G & _). exact G.
Qed.

Lemma solver_ok_next : forall val fuel (s s' : sim A N) o, solver_ok p S good s -> rkf_next val fuel p S m s = (s', o) -> solver_ok p S good s'.
Proof.
  intros val fuel s s' o Hok E. pose proof (next_keep A N p S m good HS Hmem val fuel s s' o Hok E) as K.
  destruct Hok as ((W1 & W2 & W3) & (G1 & G2 & G3) & SS).
  pose proof (next_shape A N _ _ _ _ _ _ _ _ HS W1 E) as C. pose proof (next_gamma _ _ _ _ _ W1 E) as G.
  apply next_faces in E. destruct E as [Ew Ee].
  split; [split; [exact C|rewrite Ew, Ee; auto]|]. split.
  - destruct K as [_ _ _ (k1 & k2 & k3) _ _ _ _ _ _ _]. unfold same_gamma. rewrite G, Ew, Ee. repeat split; congruence.
  - eapply same_setup_trans; [apply same_setup_sym; exact K|exact K].
Qed.

Lemma reach_inv : forall s0 s : sim A N, evolves p S m s0 s -> solver_ok p S good s0 ->
  solver_ok p S good s /\ same_setup p S good (s_rk s0) (s_rhs s0) (s_rk s) (s_rhs s) /\ gamma (cent (s_u s)) = gamma (cent (s_u s0)).
Proof.
  intros s0 s He H. induction He as [s1|s1 s2 s3 val fuel o He IH Hn|s1 s2 ts He IH].
  - split; [exact H|]. split; [apply H|reflexivity].
  - specialize (IH H). apply solver_next_rkf in Hn. destruct Hn as (o' & Hn & _).
    destruct IH as (I1 & I2 & I3). split; [eapply solver_ok_next; eassumption|]. split.
    + eapply same_setup_trans; [exact I2|]. eapply next_keep; eassumption.
    + rewrite (next_gamma _ _ _ _ _ (proj1 (proj1 I1)) Hn). exact I3.
  - destruct (IH H) as (I1 & I2 & I3). split; [exact I1|]. split; [exact I2|exact I3].
Qed.

Lemma reached_ok : forall (c : config A) (s : sim A N), reached p S c m good s ->
  solver_ok p S good s /\ rk_bt (s_rk s) = bt_new (nc_time (cf_numerics c)) /\
  (forall j i, (j < nE p)%nat -> (i < S)%nat -> (i < 2 \/ S - 3 < i)%nat -> at2 (n0 A) (r_full (s_rhs s)) j i = n0 A) /\
  gamma (cent (s_u s)) = pc_gamma (cf_physics c) /\
  r_bw (s_rhs s) = init_bc (cf_bc_west c) (nE p) /\ r_be (s_rhs s) = init_bc (cf_bc_east c) (nE p).
Proof.
  intros c s (u0 & s0 & (Wu & G1 & G2 & G3) & Hn & Hg & He).
  unfold solver_new in Hn. destruct (rhs_new N p S c m) as [h0|e| |] eqn:Hr; try discriminate. cbn [bind] in Hn. apply Ok_inj in Hn. subst s0.
  unfold rhs_new in Hr. destruct (nf_new N p S (nc_numflux (cf_numerics c)) m) as [n|e| |]; try discriminate. cbn [bind] in Hr. apply Ok_inj in Hr. subst h0.
  set (s0 := mkSim _ _ _ _) in He.
  assert (Ok0 : solver_ok p S good s0).
  { assert (Wn : wss p S (state_new p S (cf_physics c))) by (repeat split; try apply wsv_new; apply (wsv_new A p S (cf_physics c))).
    split; [exact Wu|]. split.
    - split; [|split]; cbn [s_u s0]; cbn; congruence.
    - split; cbn [rk_bt s_rk rk_utilde rkf_new r_nf r_full s_rhs r_bw r_be s0]; auto; try apply shape_zeros2. repeat split. }
  destruct (reach_inv s0 s He Ok0) as (H1 & H2 & H3). change (s_u s0) with u0 in H3. rewrite G1 in H3.
  split; [exact H1|]. destruct H2. split; [symmetry; exact ss_bt|].
  split; [|split; [exact H3|split; [symmetry; exact ss_bw|symmetry; exact ss_be]]].
  intros j i Hj Hi Hgh. rewrite <- ss_ghost by assumption. cbn [s_rhs r_full s0]. apply zero_at; assumption.
Qed.
End Reach.

Lemma reached_rhs : forall (N : numflux_impl XRn) p S m good (c : config XRn) (s : sim XRn N) f,
  (5 <= S)%nat -> memoryless N p S m good -> reached p S c m good s -> slopes p S m s f ->
  rhs_values p S m s (fun j i => if ((2 <=? i) && (i <=? S - 3))%nat then f j i else 0).
Proof.
  intros N p S m good c s f HS Hm Hr (val & h & w & E & Hf).
  destruct (reached_ok XRn N p S m good HS Hm c s Hr) as (Hok & _ & Hgh & _).
  exists val, h, w. split; [exact E|]. intros j i Hj Hi.
  destruct ((2 <=? i) && (i <=? S - 3))%nat eqn:I.
  - apply andb_true_iff in I. destruct I as [I1 I2]. apply Nat.leb_le in I1, I2. apply Hf; [exact Hj|lia].
  - assert (G : (i < 2 \/ S - 3 < i)%nat).
    { apply andb_false_iff in I. destruct I as [I|I]; apply Nat.leb_gt in I; lia. }
    destruct Hok as (Hu & Hga & SS).
    pose proof (stage_keeps XRn N p S m good HS Hm val (cons (cent (s_u s))) (s_u s) (rk_set_utilde (s_u s) (s_rk s)) (s_rhs s) h w (Ok tt) Hu ltac:(apply Hu)) as K.
    cbn [rk_utilde rk_set_utilde] in K. rewrite state_eta in K.
    pose proof (same_setup_utilde XRn N p S good (s_rk s) (s_rhs s) (s_u s) Hu Hga SS) as SU.
    specialize (K ltac:(eapply same_setup_trans; [apply same_setup_sym; exact SU|exact SU]) E).
    destruct K as [_ _ _ _ _ _ _ _ Kg _ _]. rewrite <- Kg by assumption. rewrite Hgh by assumption. apply X_n0.
Qed.

Lemma ordinary_reached : forall (N : numflux_impl XRn) p S c m good (s : sim XRn N), ordinary_run p S c m good s -> reached p S c m good s.
Proof.
  intros N p S c m good s H. induction H as [u0 s Pu E G|s s' val fuel f U d t tn M H IH O E|s ts H IH].
  - exists u0, s. split; [exact Pu|]. split; [exact E|]. split; [exact G|apply ev_refl].
  - destruct IH as (u0 & s0 & P1 & P2 & P3 & P4). exists u0, s0. split; [exact P1|]. split; [exact P2|]. split; [exact P3|].
    exact (ev_step XRn N p S m s0 s s' val fuel (Ok tt) P4 E).
  - destruct IH as (u0 & s0 & P1 & P2 & P3 & P4). exists u0, s0. split; [exact P1|]. split; [exact P2|]. split; [exact P3|].
    exact (ev_time XRn N p S m s0 s ts P4).
Qed.

Lemma ordinary_step : forall (N : numflux_impl XRn) p S c m good val fuel (s s' : sim XRn N) f U d t tn M,
  (5 <= S)%nat -> memoryless N p S m good -> reached p S c m good s -> rk_err_old (s_rk s) = Fin 0 ->
  rc_asc (nc_time (cf_numerics c)) = true -> embedded (rc_mode (nc_time (cf_numerics c))) = true ->
  ordinary p S m s f U d t tn M -> solver_next val fuel p S m s = (s', Ok tt) ->
  ts_dt (s_ts s') = Fin (Rmin (Rmin (4 * d) M) (tn - t)) /\ rk_n_asc (s_rk s') = 1%nat /\
  rk_err_new (s_rk s') = Fin 0 /\ rk_err_old (s_rk s') = Fin 0.
Proof.
  intros N p S c m good val fuel s s' f U d t tn M HS Hm Hr He Ha Hemb (Hf & HU & Hd & Ht & Hn & HM & P1 & P2 & P3) E.
  apply next_of_solver in E. destruct (reached_ok XRn N p S m good HS Hm c s Hr) as (Hok & Hb & _).
  pose proof (reached_rhs N p S m good c s f HS Hm Hr Hf) as Hv.
  exact (asc_inert N p S m good val fuel _ s s' _ U d t tn M HS Hm Hok Hb Ha Hemb Hv HU He Hd Ht Hn HM P1 P2 P3 E).
Qed.

Lemma ordinary_err : forall (N : numflux_impl XRn) p S c m good (s : sim XRn N),
  (5 <= S)%nat -> memoryless N p S m good ->
  rc_asc (nc_time (cf_numerics c)) = true -> embedded (rc_mode (nc_time (cf_numerics c))) = true ->
  ordinary_run p S c m good s -> rk_err_old (s_rk s) = Fin 0.
Proof.
  intros N p S c m good s HS Hm Ha Hemb H. induction H as [u0 s Pu E G|s s' val fuel f U d t tn M H IH O E|s ts H IH].
  - unfold solver_new in E. destruct (rhs_new N p S c m) as [h0|e| |]; try discriminate. cbn [bind] in E. apply Ok_inj in E. subst s. apply X_n0.
  - exact (proj2 (proj2 (proj2 (ordinary_step N p S c m good val fuel s s' f U d t tn M HS Hm (ordinary_reached _ _ _ _ _ _ _ H) IH Ha Hemb O E)))).
  - exact IH.
Qed.
