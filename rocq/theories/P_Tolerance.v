(** C33: the tolerances of the step control; C02: the outputs of the default
    configuration. *)

From Coq Require Import Reals ZArith NArith QArith Qreals List Bool Lia Lra String.
From Flocq Require Import Core BinarySingleNaN.
From Verif Require Import SpecInit SpecTimes64 P_Times64 P_Panic.
From Verif Require Import Base Num XReal B64 Config Mesh State NumFlux Time Writer Runner Spec SpecFlow SpecStep SpecTableau SpecEuler SpecRun
  ConfigProofs MeshProofs BoundaryProofs PhysicsProofs FluxProofs UpdateProofs MeshB64 VanLeer StepProofs StepInv StepEq TimeProofs TimeMore TableauProofs AscProofs EulerStep EulerThms LinRun
  Demo RealRun P_Time P_Run.
Import ListNotations.
Local Open Scope R_scope.

(** ** The tolerances in use *)

Lemma evolves_rk : forall A (N : numflux_impl A) p S m (s s' : sim A N), evolves p S m s s' -> rk_static A (s_rk s) (s_rk s').
Proof.
  intros A N p S m. apply (evolves_inv A N (fun s s' => rk_static A (s_rk s) (s_rk s'))); cbn.
  - intros s. repeat split; reflexivity.
  - intros s s1 ts H. exact H.
  - intros s s1 s2 val fuel o (H1 & H2 & H3 & H4) Hn. apply rkf_next_cases in Hn. destruct Hn as ((B1 & B2 & B3 & B4) & _).
    repeat split; congruence.
Qed.

(** A solver uses the configured scheme, tolerances and friction at all times;
    every arithmetic. *)
Theorem C33_configured : forall A (N : numflux_impl A) p S c m u0 s0 s,
  solver_new N p S c m u0 = Ok s0 -> evolves p S m s0 s ->
  rk_bt (s_rk s) = bt_new (nc_time (cf_numerics c)) /\
  rk_rtol (s_rk s) = rc_rtol (nc_time (cf_numerics c)) /\ rk_atol (s_rk s) = rc_atol (nc_time (cf_numerics c)) /\
  rk_friction (s_rk s) = rc_friction (nc_time (cf_numerics c)).
Proof.
  intros A N p S c m u0 s0 s H He. apply evolves_rk in He. destruct He as (E1 & E2 & E3 & E4). rewrite E1, E2, E3, E4.
  unfold solver_new in H. apply bind_Ok in H. destruct H as (rh & _ & H). injection H as <-. cbn. auto.
Qed.
Print Assumptions C33_configured.

(** ** Acceptance *)

Lemma fold_max_lt : forall (g : nat -> R) l a, exists e,
  fold_left (fun acc i => nmax XRn acc (nabs XRn (Fin (g i)))) l (Fin a) = Fin e /\
  (e < 1 <-> a < 1 /\ forall i, In i l -> Rabs (g i) < 1).
Proof.
  intros g. induction l as [|i l IH]; intros a; cbn [fold_left].
  - exists a. split; [reflexivity|]. split; [intros H; split; [exact H|intros ? []]|tauto].
  - rewrite X_abs, X_max. destruct (IH (Rmax a (Rabs (g i)))) as (e & E & I). exists e. split; [exact E|]. rewrite I. split.
    + intros (H1 & H2). pose proof (Rmax_l a (Rabs (g i))). pose proof (Rmax_r a (Rabs (g i))).
      split; [lra|]. intros j [<-|Hj]; [lra|auto].
    + intros (H1 & H2). split; [apply Rmax_lub_lt; [exact H1|apply H2; left; reflexivity]|]. intros j Hj. apply H2. right. exact Hj.
Qed.

Lemma fold_ext2 : forall {B C} (f g : B -> C -> B) l a, (forall x y, In y l -> f x y = g x y) -> fold_left f l a = fold_left g l a.
Proof.
  intros B C f g. induction l as [|y l IH]; intros a H; cbn [fold_left]; [reflexivity|].
  rewrite H by (left; reflexivity). apply IH. intros x z Hz. apply H. right. exact Hz.
Qed.

(** The two solutions differ by less than the tolerances allow. *)
Definition within_tolerance (p : phys) (S : nat) (rtol atol : R) (h l : nat -> nat -> R) : Prop :=
  forall j i, (j < nE p)%nat -> (2 <= i <= S - 3)%nat -> Rabs (h j i - l j i) < Rabs (rtol * (h j i + atol)).

Lemma error_lt : forall p S rtol atol hi lo h l, (5 <= S)%nat ->
  (forall j i, (j < nE p)%nat -> (2 <= i <= S - 3)%nat -> at2 (n0 XRn) hi j i = Fin (h j i) /\ at2 (n0 XRn) lo j i = Fin (l j i) /\ rtol * (h j i + atol) <> 0) ->
  exists e, asc_error (A:=XRn) (nE p) S (Fin rtol) (Fin atol) hi lo = Fin e /\ (e < 1 <-> within_tolerance p S rtol atol h l).
Proof.
  intros p S rtol atol hi lo h l HS H. unfold asc_error.
  set (q := fun j i => (h j i - l j i) / (rtol * (h j i + atol))).
  assert (G : forall js a, (forall j, In j js -> (j < nE p)%nat) -> exists e,
    fold_left (fun acc j => fold_left (fun acc i => nmax XRn acc (nabs XRn (ndiv XRn (nsub XRn (at2 (n0 XRn) hi j i) (at2 (n0 XRn) lo j i)) (nmul XRn (Fin rtol) (nadd XRn (at2 (n0 XRn) hi j i) (Fin atol)))))) (seq 2 (S - 4)) acc) js (Fin a) = Fin e /\
    (e < 1 <-> a < 1 /\ forall j i, In j js -> In i (seq 2 (S - 4)) -> Rabs (q j i) < 1)).
  { induction js as [|j js IH]; intros a Hj; cbn [fold_left].
    - exists a. split; [reflexivity|]. split; [intros K; split; [exact K|intros ? ? []]|tauto].
    - rewrite (fold_ext2 _ (fun acc i => nmax XRn acc (nabs XRn (Fin (q j i)))) (seq 2 (S - 4))).
      2:{ intros x i Hi. apply in_seq in Hi. destruct (H j i ltac:(apply Hj; left; reflexivity) ltac:(lia)) as (E1 & E2 & E3).
          rewrite E1, E2, X_sub, X_add, X_mul, X_div by exact E3. reflexivity. }
      destruct (fold_max_lt (q j) (seq 2 (S - 4)) a) as (e1 & F1 & I1). cbn in F1 |- *. rewrite F1.
      destruct (IH e1 ltac:(intros k Hk; apply Hj; right; exact Hk)) as (e & F & I). exists e. split; [exact F|]. rewrite I, I1. split.
      + intros ((K1 & K2) & K3). split; [exact K1|]. intros k i [<-|Hk] Hi; auto.
      + intros (K1 & K2). split; [split; [exact K1|intros i Hi; apply K2; [left; reflexivity|exact Hi]]|intros k i Hk Hi; apply K2; [right; exact Hk|exact Hi]]. }
  change (n0 XRn) with (nZ XRn 0) at 1. destruct (G (seq 0 (nE p)) 0 ltac:(intros j Hj; apply in_seq in Hj; lia)) as (e & E & I).
  exists e. split; [exact E|]. rewrite I. unfold within_tolerance. 
  assert (Q : forall j i, (j < nE p)%nat -> (2 <= i <= S - 3)%nat -> (Rabs (q j i) < 1 <-> Rabs (h j i - l j i) < Rabs (rtol * (h j i + atol)))).
  { intros j i Hj Hi. destruct (H j i Hj Hi) as (_ & _ & D). unfold q, Rdiv. rewrite Rabs_mult, Rabs_inv. apply Rabs_pos_lt in D. split; intros K.
    - apply (Rmult_lt_compat_r _ _ _ D) in K. rewrite Rmult_assoc, Rinv_l, Rmult_1_r, Rmult_1_l in K by lra. exact K.
    - apply (Rmult_lt_reg_r _ _ _ D). rewrite Rmult_assoc, Rinv_l, Rmult_1_r, Rmult_1_l by lra. exact K. }
  split.
  - intros (_ & K) j i Hj Hi. apply Q; auto. apply K; apply in_seq; lia.
  - intros K. split; [lra|]. intros j i Hj Hi. apply in_seq in Hj, Hi. apply Q; [lia|lia|]. apply K; lia.
Qed.

(** the two solutions an evaluation compares *)
Lemma calc_pair : forall A (N : numflux_impl A) val p S dt u (k k' : rkf A) (h h' : rhs A N) m x,
  calc_rkf_solution val p S dt u k h m = (k', h', Ok x) -> rk_accepted k = false ->
  let comb := fun b => rkf_combine (nE p) S dt b (rk_k k') (bt_order (rk_bt k)) (cons (cent u)) in
  cons (cent (rk_utilde k')) = comb (bt_high (rk_bt k)) /\ rk_low k' = comb (bt_low (rk_bt k)) /\
  rk_err_new k' = asc_error (nE p) S (rk_rtol k) (rk_atol k) (cons (cent (rk_utilde k'))) (rk_low k').
Proof.
  intros A N val p S dt u k k' h h' m x E Ha. unfold calc_rkf_solution in E.
  destruct (rkf_stages _ _ _ _ _ _ _ _ _) as [[l g] o] eqn:R. apply stages_static in R. destruct R as ((R1 & R2 & R3 & R4) & _ & R5 & _).
  destruct o as [[]|e| |]; try discriminate.
  cbn [rk_accepted rk_set_utilde rk_set_k rk_bt rk_rtol rk_atol rk_friction rk_n_asc rk_err_old rk_err_new] in *.
  rewrite R5, Ha in E. destruct (if val then _ else _) as [[]|e| |] in E; try discriminate. injection E as <- <- <-.
  cbn. rewrite ?R1, ?R2, ?R3. auto.
Qed.

(** One evaluation with step control, with the configured tolerances, compares
    the solution with the high order weights and the one with the low order
    weights of the same slopes: its error estimate is below 1, which is what
    the loop accepts, exactly if they agree within the tolerances in all
    equations and computational cells. *)
Theorem C33_acceptance : forall (N : numflux_impl XRn) validation p S (c : config XRn) m u0 s0 (s : sim XRn N) d rh rk' rh' x rtol atol h l,
  (5 <= S)%nat -> solver_new N p S c m u0 = Ok s0 -> evolves p S m s0 s ->
  rc_rtol (nc_time (cf_numerics c)) = Fin rtol -> rc_atol (nc_time (cf_numerics c)) = Fin atol ->
  let bt := bt_new (nc_time (cf_numerics c)) in
  calc_rkf_solution (N:=N) validation p S d (s_u s) (rk_set_n_asc 0 (rk_set_accepted false (s_rk s))) rh m = (rk', rh', Ok x) ->
  (forall j i, (j < nE p)%nat -> (2 <= i <= S - 3)%nat ->
     at2 (n0 XRn) (rkf_combine (nE p) S d (bt_high bt) (rk_k rk') (bt_order bt) (cons (cent (s_u s)))) j i = Fin (h j i) /\
     at2 (n0 XRn) (rkf_combine (nE p) S d (bt_low bt) (rk_k rk') (bt_order bt) (cons (cent (s_u s)))) j i = Fin (l j i) /\
     rtol * (h j i + atol) <> 0) ->
  exists e, rk_err_new rk' = Fin e /\ (e < 1 <-> within_tolerance p S rtol atol h l).
Proof.
  intros N validation p S c m u0 s0 s d rh rk' rh' x rtol atol h l HS Hn He Hr Ha bt E HF.
  destruct (C33_configured _ _ _ _ _ _ _ _ _ Hn He) as (B & R & T & _).
  destruct (calc_pair _ _ _ _ _ _ _ _ _ _ _ _ _ E eq_refl) as (P1 & P2 & P3). cbn [rk_bt rk_rtol rk_atol rk_set_n_asc rk_set_accepted] in *.
  rewrite B in P1, P2. fold bt in P1, P2. rewrite P3, P1, P2, R, T, Hr, Ha. apply error_lt; assumption.
Qed.
Print Assumptions C33_acceptance.

(** An evaluation in the scope: du/dt = -u in the density, u = 1; both
    solutions are 1 - d = 3/4. *)
Example C33_acceptance_nonvacuous : forall md, embedded md = true ->
  let c := rcfg CHll md true (1 / 2) in let bt := bt_new (nc_time (cf_numerics c)) in
  exists u0 s0 (s : sim XRn Lin) rk' rh' x h l, solver_new Lin Isot 6 c (rmesh 6) u0 = Ok s0 /\ evolves Isot 6 (rmesh 6) s0 s /\
    rc_rtol (nc_time (cf_numerics c)) = Fin (1 / 1000) /\ rc_atol (nc_time (cf_numerics c)) = Fin (1 / 1000) /\
    calc_rkf_solution (N:=Lin) false Isot 6 (Fin (1 / 4) : nF XRn) (s_u s) (rk_set_n_asc 0 (rk_set_accepted false (s_rk s))) (s_rhs s) (rmesh 6) = (rk', rh', Ok x) /\
    (forall j i, (j < nE Isot)%nat -> (2 <= i <= 6 - 3)%nat ->
     at2 (n0 XRn) (rkf_combine (nE Isot) 6 (Fin (1 / 4) : nF XRn) (bt_high bt) (rk_k rk') (bt_order bt) (cons (cent (s_u s)))) j i = Fin (h j i) /\
    at2 (n0 XRn) (rkf_combine (nE Isot) 6 (Fin (1 / 4) : nF XRn) (bt_low bt) (rk_k rk') (bt_order bt) (cons (cent (s_u s)))) j i = Fin (l j i) /\
    1 / 1000 * (h j i + 1 / 1000) <> 0) /\ h 0%nat 2%nat = 3 / 4.
Proof.
  intros md Hemb c bt.
  destruct (lin_start md 1) as (v & W & G & C & Hx & _). destruct (Hx true) as (D & (val0 & h0' & w0 & Href & Hfin) & (Hu & Hg & SS)). clear Hx.
  set (s := rsim (N:=Lin) Isot 6 (rcfg CHll md true (1 / 2)) tt v 10) in *.
  set (k1 := rk_set_n_asc 0 (rk_set_accepted false (s_rk s))).
  destruct (total_calc XRn Lin Isot 6 (rmesh 6) (lin_total Isot 6 (rmesh 6)) (Fin (1 / 4) : nF XRn) (s_u s) k1 (s_rhs s) eq_refl eq_refl) as (rk' & rh' & x & E & _).
  set (h := fun j (i : nat) => match j with 0%nat => 3 / 4 | _ => 0 end : R).
  exists (one_state v), (mkSim (ts_new (cf_numerics c) (cf_output_max c)) (s_u s) (s_rk s) (s_rhs s)), s, rk', rh', x, h, h.
  split; [reflexivity|]. split; [apply (ev_time XRn Lin Isot 6 (rmesh 6) _ (mkSim (ts_new (cf_numerics c) (cf_output_max c)) (s_u s) (s_rk s) (s_rhs s)) (s_ts s)); apply ev_refl|].
  split; [reflexivity|]. split; [reflexivity|]. split; [exact E|]. split; [|reflexivity].
  pose proof (same_setup_utilde XRn Lin Isot 6 (fun _ => True) (s_rk s) (s_rhs s) (s_u s) Hu Hg SS) as SU.
  set (k0 := rk_set_utilde (s_u s) (s_rk s)) in *.
  assert (Href' : rhs_update val0 Isot 6 (s_rhs s) (stage_state XRn (cons (cent (s_u s))) (rk_utilde k0) (s_u s)) (rmesh 6) = (h0', w0, Ok tt)).
  { unfold k0. cbn [rk_utilde rk_set_utilde]. rewrite state_eta. exact Href. }
  assert (S1 : same_setup Isot 6 (fun _ => True) k0 (s_rhs s) k1 (s_rhs s)).
  { eapply same_setup_trans; [apply same_setup_sym; exact SU|]. destruct SS. split; auto. }
  destruct (calc_pair _ _ _ _ _ _ _ _ _ _ _ _ _ E eq_refl) as (P1 & P2 & _).
  intros j i Hj Hi. cbn [nE] in Hj.
  assert (HU : at2 (n0 XRn) (cons (cent (s_u s))) j i = Fin (match j with 0%nat => 1 | _ => 0 end)).
  { destruct (C i ltac:(lia)) as (C0 & C1). destruct j as [|[|j]]; [exact C0|exact C1|lia]. }
  destruct (calc_euler Lin Isot 6 (rmesh 6) (fun _ => True) ltac:(lia) (lin_memoryless Isot 6 (rmesh 6) ltac:(lia)) (s_u s) (1 / 4) _ Hu k0 (s_rhs s) val0 h0' w0 Href' Hfin false (nc_time (cf_numerics c)) k1 (s_rhs s) rk' rh' x j i _ eq_refl S1 E Hj ltac:(lia) HU) as (X1 & X2).
  specialize (X2 eq_refl). rewrite weight_high, embedded_high in X1 by exact Hemb. rewrite weight_low in X2 by exact Hemb.
  rewrite inner_true in X1, X2 by lia. rewrite P1 in X1. rewrite P2 in X2. 
  assert (Hh : match j with 0%nat => 1 | _ => 0 end - 1 / 4 * 1 * match j with 0%nat => 1 | _ => 0 end = h j i) by (unfold h; destruct j; lra).
  rewrite Hh in X1, X2. split; [exact X1|]. split; [exact X2|]. unfold h. destruct j; lra.
Qed.

(** ** Outputs of the default configuration *)

(** A successful run of the default configuration shows the start, at t = 0,
    and the end, within the smallest step before t_end, on the screen and in
    the files of the given name. *)
Theorem C02_default_outputs : forall (N : numflux_impl XRn) fmt validation meta banner isched init n E t folder file p S w w' k sched afuel fuel e,
  let c := default_riemann_test XRn n E (Fin t) folder file in
  (forall s m s' r, init s m = (s', r) -> s_ts s' = s_ts s /\ s_rk s' = s_rk s) -> / 1000000000000 <= t ->
  init_corries (N:=N) validation meta banner isched init p S c w = (w', Ok k) ->
  run_loop fmt validation sched afuel fuel p S (c_mesh k) (c_sim k) (c_writer k) w' = (e, Ok tt) ->
  (2 <= List.length (e_trace e) <= 3)%nat /\
  (forall x : snapshot XRn, nth_error (e_trace e) 0 = Some x -> ts_kind (fst x) <> KErrorDump -> exists t0, ts_t (fst x) = Fin t0 /\ - / 1000000000000 <= t0 <= 0) /\
  (forall x : snapshot XRn, nth_error (e_trace e) 1 = Some x -> ts_kind (fst x) <> KErrorDump -> exists t1, ts_t (fst x) = Fin t1 /\ t - / 1000000000000 <= t1 <= t) /\
  map oc_stream (cf_writer c) = [Stdout; File] /\
  forall o, In o (cf_writer c) -> oc_stream o = File -> oc_folder o = folder /\ oc_file o = file.
Proof.
  intros N fmt validation meta banner isched init n E t folder file p S w w' k sched afuel fuel e c Hi Ht I R.
  destruct (C40_at_start _ _ _ _ _ _ _ _ _ _ _ _ _ Hi I) as (V & Hs).
  assert (T : times c 0 t (/ 1000000000000) 1 t).
  { repeat match goal with |- times _ _ _ _ _ _ => unfold times | |- _ /\ _ => split end; try reflexivity; cbn; try lra.
    f_equal. unfold Q2R. cbn. lra. }
  destruct (C40_output_times _ _ _ _ _ _ _ _ _ _ _ _ _ _ _ _ _ _ _ _ V T Hs R) as (O & _).
  destruct (C40_output_count _ _ _ _ _ _ _ _ _ _ _ _ _ _ _ _ _ _ _ V T Hs R Ht) as (L & _).
  split; [cbn in L; lia|]. split; [|split; [|split]].
  - intros x Hx Hk. destruct (O _ _ Hx) as (ti & E1 & E2 & E3). specialize (E3 Hk). cbn [INR] in *. exists ti. split; [exact E1|]. lra.
  - intros x Hx Hk. destruct (O _ _ Hx) as (ti & E1 & E2 & E3). specialize (E3 Hk). cbn [INR] in *. exists ti. split; [exact E1|]. lra.
  - reflexivity.
  - intros o [<-|[<-|[]]] Ho; [discriminate Ho|split; reflexivity].
Qed.
Print Assumptions C02_default_outputs.

Lemma div_one : forall t : b64, is_finite t = true -> (0 < B2R t)%R -> b_div t (b_ofZ 1) = t.
Proof.
  intros t F P. unfold b_div.
  assert (N1 : B2R (b_ofZ 1) <> 0%R) by (replace (B2R (b_ofZ 1)) with 1%R by (vm_compute; lra); lra).
  pose proof (Bdiv_correct 53 1024 _ _ mode_NE t (b_ofZ 1) N1) as H.
  assert (E1 : (B2R t / B2R (b_ofZ 1) = B2R t)%R) by (replace (B2R (b_ofZ 1)) with 1%R by (vm_compute; lra); field).
  rewrite E1 in H. rewrite round_generic in H by (try apply valid_rnd_round_mode; apply generic_format_B2R).
  rewrite Rlt_bool_true in H by apply abs_B2R_lt_emax. destruct H as (H1 & H2 & _).
  apply B2R_inj; [| |exact H1].
  - apply is_finite_strict_B2R. rewrite H1. lra.
  - apply is_finite_strict_B2R. lra.
Qed.

Lemma default_interval : forall t : b64, is_finite t = true -> (0 < B2R t)%R ->
  interval (b_ofZ 0) t 1 = t /\ planned (b_ofZ 0) t 1 = t.
Proof.
  intros t F P. split.
  - unfold interval. replace (b_sub t (b_ofZ 0)) with t; [apply div_one; assumption|].
    destruct t as [s| | |s m e H]; try discriminate; [cbn in P; lra|]. reflexivity.
  - cbn [planned]. destruct t as [s| | |s m e H]; try discriminate; [cbn in P; lra|]. reflexivity.
Qed.

(** The same with binary64 numbers: the second output is not after t_end, or at
    the next number, and not before the rounded difference of t_end and the
    smallest step. *)
Theorem C02_default_outputs_b64 : forall bln bexp, let A := B64n bln bexp in
  forall (N : numflux_impl A) fmt validation meta banner isched init n E (t : b64) folder file p S w w' k sched afuel fuel e,
  let c := default_riemann_test A n E t folder file in
  (forall s m s' r, init s m = (s', r) -> s_ts s' = s_ts s /\ s_rk s' = s_rk s) ->
  is_finite t = true -> (0 < B2R t)%R ->
  init_corries (N:=N) validation meta banner isched init p S c w = (w', Ok k) ->
  run_loop fmt validation sched afuel fuel p S (c_mesh k) (c_sim k) (c_writer k) w' = (e, Ok tt) ->
  let P := planned (b_ofZ 0) t in let l := List.length (e_trace e) in
  is_finite (P (Datatypes.S l)) = true -> xlt (b2x (P l)) (b2x (P (Datatypes.S l))) ->
  forall x : snapshot A, nth_error (e_trace e) 1 = Some x ->
  at_most_next t (ts_t (fst x)) /\ (ts_kind (fst x) <> KErrorDump -> xle (b2x (b_sub t (nQ A (1 # 1000000000000)))) (b2x (ts_t (fst x)))).
Proof.
  intros bln bexp A N fmt validation meta banner isched init n E t folder file p S w w' k sched afuel fuel e c Hi F Pt I R P l HF HL x Hx.
  destruct (C40_at_start _ _ _ _ _ _ _ _ _ _ _ _ _ Hi I) as (V & Hs).
  destruct (default_interval t F Pt) as (I1 & I2).
  pose proof (C74_output_times_b64 bln bexp N fmt validation sched afuel fuel p S (c_mesh k) c (c_sim k) (c_writer k) w' e (Ok tt) V eq_refl Hs R) as H.
  cbv zeta in H. 
  change (interval (nc_t0 (cf_numerics c)) (nc_t_end (cf_numerics c)) (cf_output_max c)) with (interval (b_ofZ 0) t 1) in H. rewrite I1 in H.
  change (nc_t0 (cf_numerics c)) with (b_ofZ 0) in H.
  destruct (H HF HL) as (K & _). destruct (K 1%nat x Hx) as (_ & K1 & K2). rewrite I2 in K1, K2. split; [exact K1|exact K2].
Qed.
Print Assumptions C02_default_outputs_b64.

(** A run of the default configuration with two outputs. *)
Example C02_default_outputs_nonvacuous : forall bln bexp, let A := B64n bln bexp in let t : b64 := nQ A (1 # 64) in let c := default_riemann_test A THll 3 t "out" "sod" in
  exists w k e x, init_corries (A:=A) (N:=Hll A) true (fun _ => EmptyString) EmptyString [0; 1]%nat (on_state (init_sod Adiab 8)) Adiab 8 c no_world = (w, Ok k) /\
    run_loop (fun _ _ => EmptyString) true (fun _ => [0; 1]%nat) 0 3 Adiab 8 (c_mesh k) (c_sim k) (c_writer k) w = (e, Ok tt) /\
    List.length (e_trace e) = 2%nat /\ nth_error (e_trace e) 1 = Some x /\ b2x (ts_t (fst x)) = b2x t /\
    is_finite (planned (b_ofZ 0) t 3) = true /\ xlt (b2x (planned (b_ofZ 0) t 2)) (b2x (planned (b_ofZ 0) t 3)).
Proof.
  intros bln bexp A t c.
  destruct (init_corries (A:=A) (N:=Hll A) true (fun _ => EmptyString) EmptyString [0; 1]%nat (on_state (init_sod Adiab 8)) Adiab 8 c no_world) as [w r] eqn:Ei.
  assert (H : match init_corries (A:=A) (N:=Hll A) true (fun _ => EmptyString) EmptyString [0; 1]%nat (on_state (init_sod Adiab 8)) Adiab 8 c no_world with
    | (w, Ok k) => match run_loop (fun _ _ => EmptyString) true (fun _ => [0; 1]%nat) 0 3 Adiab 8 (c_mesh k) (c_sim k) (c_writer k) w with
        | (e, Ok tt) => match e_trace e with [_; x] => Beqb (ts_t (fst x)) t | _ => false end | _ => false end
    | _ => false end = true) by (vm_compute; reflexivity).
  rewrite Ei in H. destruct r as [k|er| |]; try discriminate H. exists w, k.
  destruct (run_loop (fun _ _ => EmptyString) true (fun _ => [0; 1]%nat) 0 3 Adiab 8 (c_mesh k) (c_sim k) (c_writer k) w) as [e r] eqn:Er.
  destruct r as [[]|er| |]; try discriminate H. destruct (e_trace e) as [|x0 [|x1 [|]]] eqn:Et; try discriminate H. exists e, x1.
  split; [reflexivity|]. split; [reflexivity|]. rewrite Et. split; [reflexivity|]. split; [reflexivity|].
  clear - H. split; [|split; [vm_compute; reflexivity|vm_compute; lra]].
  revert H. set (z := ts_t (fst x1) : b64). clearbody z. intros H.
  assert (Fz : is_finite z = true) by (destruct z as [[]|[]| |[] ? ? ?]; try reflexivity; discriminate H).
  rewrite Beqb_correct in H by (try exact Fz; vm_compute; reflexivity). 
  assert (Rz : B2R z = B2R t) by (destruct (Req_bool_spec (B2R z) (B2R t)); [assumption|discriminate]).
  assert (Z : z = t); [|rewrite Z; reflexivity].
  apply B2R_inj; [apply is_finite_strict_B2R; rewrite Rz; vm_compute; lra|reflexivity|exact Rz].
Qed.
