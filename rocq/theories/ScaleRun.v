(** A change of the units of mass and time: steps, runs, initialisation. *)

From Coq Require Import Reals ZArith NArith QArith Qreals List Bool Lia Lra String.
From Verif Require Import Base Num XReal Config Mesh State NumFlux Time Writer Runner ScaleBase ScaleState ScaleFlux.
Import ListNotations.
Local Open Scope string_scope.
Local Open Scope R_scope.

Section Scale.
Variables lam sig : R.
Hypothesis Hl : 0 < lam.
Hypothesis Hs : 0 < sig.
Notation fp := (fp lam sig).
Notation fc := (fc lam sig).
Notation ff := (ff lam sig).
Notation vs := (vs lam sig).
Notation us := (us lam sig).
Notation z := (n0 XRn).
Notation tau := (/ sig).

Lemma tau_pos : 0 < tau.
Proof using Hs. apply Rinv_0_lt_compat. exact Hs. Qed.

Record tss (t t' : timestep XRn) : Prop := mkTss {
  tss_iter : ts_iter t' = ts_iter t;
  tss_imax : ts_iter_max t' = ts_iter_max t;
  tss_t : sc tau (ts_t t) (ts_t t');
  tss_end : sc tau (ts_t_end t) (ts_t_end t');
  tss_dt : sc tau (ts_dt t) (ts_dt t');
  tss_min : sc tau (ts_dt_min t) (ts_dt_min t');
  tss_max : sc tau (ts_dt_max t) (ts_dt_max t');
  tss_cfl : ts_cfl t' = ts_cfl t;
  tss_kind : ts_kind t' = ts_kind t;
  tss_out : sc tau (ts_dt_output t) (ts_dt_output t');
  tss_next : sc tau (ts_t_next t) (ts_t_next t')
}.
Ltac tcl := constructor; cbn [ts_set_iter ts_set_t ts_set_dt ts_set_kind ts_set_next ts_iter ts_iter_max ts_t ts_t_end ts_dt ts_dt_min ts_dt_max ts_cfl ts_kind ts_dt_output ts_t_next]; try assumption; try congruence.

Lemma cap_scaled : forall t t', tss t t' -> tss (cap_dt t) (cap_dt t').
Proof using Hs.
  intros t t' [H1 H2 H3 H4 H5 H6 H7 H8 H9 H10 H11]. unfold cap_dt. cbv zeta.
  assert (X : tss (ts_set_dt (nmin XRn (ts_dt t) (ts_dt_max t)) t) (ts_set_dt (nmin XRn (ts_dt t') (ts_dt_max t')) t')).
  { tcl. apply sc_min; try assumption. apply tau_pos. }
  set (x := ts_set_dt (nmin XRn (ts_dt t) (ts_dt_max t)) t) in *. set (x' := ts_set_dt (nmin XRn (ts_dt t') (ts_dt_max t')) t') in *.
  clearbody x x'. clear H1 H2 H3 H4 H5 H6 H7 H8 H9 H10 H11 t t'. pose proof X as [H1 H2 H3 H4 H5 H6 H7 H8 H9 H10 H11].
  pose proof tau_pos as Ht.
  assert (Y : sc 1 ((ts_dt x + ts_t x) / ts_t_next x)%num ((ts_dt x' + ts_t x') / ts_t_next x')%num).
  { eapply (sc_div' tau tau); try assumption; [apply sc_add; assumption|field; lra]. }
  rewrite (sc_one _ _ Y). destruct (nltb XRn (n1 XRn) _); [|exact X]. tcl. apply sc_sub; assumption.
Qed.

Lemma dt_expl_scaled : forall p S t t' u u' m, tss t t' -> us u u' ->
  let '(t1, o) := calc_dt_expl p S t u m in let '(t1', o') := calc_dt_expl p S t' u' m in
  tss t1 t1' /\ o' = o.
Proof using Hl Hs.
  intros p S t t' u u' m Ht Hu. unfold calc_dt_expl. pose proof Ht as [H1 H2 H3 H4 H5 H6 H7 H8 H9 H10 H11]. rewrite H8.
  pose proof (us_dt lam sig Hl Hs p S u u' (ts_cfl t) m Hu) as X.
  destruct (st_calc_dt_cfl p S u (ts_cfl t) m) as [d|e| |], (st_calc_dt_cfl p S u' (ts_cfl t) m) as [d'|e'| |]; cbn [rres] in X; try contradiction; try (split; [assumption|congruence]).
  cbv zeta. cbn [ts_set_dt ts_dt_min]. rewrite (sc_ltb tau _ _ _ _ tau_pos X H6). destruct (nltb XRn d (ts_dt_min t)); (split; [tcl|reflexivity]).
Qed.

(** *** the Runge-Kutta scheme without step control *)
Definition kss (k k' : list (list (list (nF XRn)))) : Prop := forall q, rm ff (nth q k []) (nth q k' []).

Record rks (r r' : rkf XRn) : Prop := mkRks {
  rks_bt : rk_bt r' = rk_bt r;
  rks_asc : bt_asc (rk_bt r) = false;
  rks_k : kss (rk_k r) (rk_k r');
  rks_len : List.length (rk_k r') = List.length (rk_k r);
  rks_acc : rk_accepted r = true;
  rks_acc' : rk_accepted r' = true;
  rks_low : rm fc (rk_low r) (rk_low r');
  rks_ut : us (rk_utilde r) (rk_utilde r')
}.
Ltac rcl := constructor; cbn [rk_set_k rk_set_utilde rk_bt rk_k rk_accepted rk_low rk_utilde]; try assumption.

Lemma sub_scaled_scaled : forall E S d d' b k k' c c', sc tau d d' -> rm ff k k' -> rm fc c c' ->
  rm fc (sub_scaled (A:=XRn) E S (d * b)%num k c) (sub_scaled (A:=XRn) E S (d' * b)%num k' c').
Proof using Hl Hs.
  intros E S d d' b k k' c c' Hd Hk Hc. unfold sub_scaled. apply rm_mtab. intros j i _ _. apply sc_sub; [apply rm_at; exact Hc|].
  pose proof tau_pos. pose proof (ff_pos lam sig Hl Hs j). pose proof (fc_pos lam sig Hl Hs j).
  eapply (sc_mul' (tau * 1) (ff j)); [|apply rm_at; exact Hk| |lra|assumption].
  - eapply sc_mul'; [exact Hd|apply sc_refl1; reflexivity|reflexivity|assumption|lra].
  - unfold ScaleState.ff. field. lra.
Qed.

Lemma fold_scaled : forall E S d d' (b : nat -> nF XRn) k k' l c c', sc tau d d' -> kss k k' -> rm fc c c' ->
  rm fc (fold_left (fun c q => sub_scaled (A:=XRn) E S (d * b q)%num (nth q k []) c) l c)
        (fold_left (fun c q => sub_scaled (A:=XRn) E S (d' * b q)%num (nth q k' []) c) l c').
Proof using Hl Hs.
  intros E S d d' b k k' l. induction l as [|q t IH]; intros c c' Hd Hk Hc; cbn [fold_left]; [exact Hc|].
  apply IH; try assumption. apply sub_scaled_scaled; try assumption. apply Hk.
Qed.

Lemma kss_upd : forall q d d' k k', kss k k' -> List.length k' = List.length k -> rm ff d d' -> kss (upd q d k) (upd q d' k').
Proof using.
  intros q d d' k k' Hk L Hd i. rewrite !nth_upd, L. destruct ((i =? q)%nat && _)%bool; [exact Hd|apply Hk].
Qed.
Lemma kss_zero : forall E S n, kss (repeat (zeros2 (A:=XRn) E S) n) (repeat (zeros2 (A:=XRn) E S) n).
Proof using.
  intros E S n q. destruct (nth_in_or_default q (repeat (zeros2 (A:=XRn) E S) n) []) as [H|H].
  - apply repeat_spec in H. rewrite H. apply rm_zeros2.
  - rewrite H. split; [reflexivity|]. intros [|j]; reflexivity.
Qed.

Section Scheme.
Variable N : numflux_impl XRn.
Variable Rn : nf_T N -> nf_T N -> Prop.
Hypothesis HN : scales lam sig N Rn.
Notation rs := (rs lam sig N Rn).

Lemma stages_scaled : forall v p S m d d' u u' qs k k' r r', sc tau d d' -> us u u' -> rks k k' -> rs r r' ->
  let '(k1, r1, o) := rkf_stages v p S m d u qs k r in
  let '(k1', r1', o') := rkf_stages v p S m d' u' qs k' r' in
  rks k1 k1' /\ rs r1 r1' /\ o' = o.
Proof using Hl Hs HN.
  intros v p S m d d' u u' qs. induction qs as [|q t IH]; intros k k' r r' Hd Hu Hk Hr; cbn [rkf_stages]; [auto|]. cbv zeta.
  pose proof Hk as [K1 K2 K3 K4 K5 K6 K7 K8]. rewrite K1.
  set (ut := state_assign (rk_utilde k) u). set (ut' := state_assign (rk_utilde k') u').
  assert (Hut : us ut ut') by (apply us_assign; assumption).
  match goal with |- context [rhs_update v p S r ?x m] => set (x1 := x) end.
  match goal with |- context [rhs_update v p S r' ?x m] => set (x1' := x) end.
  assert (Hx : us x1 x1').
  { apply us_set_cons; [exact Hut|]. apply (fold_scaled (nE p) S d d' (fun pp => at2 z (bt_a (rk_bt k)) pp q)); try assumption. destruct Hut as (Hc & _). apply vs_cons. exact Hc. }
  clearbody x1 x1'. clear ut ut' Hut.
  pose proof (rhs_scaled lam sig Hl Hs N Rn HN v p S r r' x1 x1' m Hr Hx) as X.
  destruct (rhs_update v p S r x1 m) as [[r1 u1] o], (rhs_update v p S r' x1' m) as [[r1' u1'] o']. destruct X as (X1 & X2 & ->).
  assert (Y : rks (rk_set_utilde u1 k) (rk_set_utilde u1' k')) by rcl.
  destruct o as [[]|e| |]; [|auto..]. apply IH; try assumption. rcl.
  - apply kss_upd; try assumption. apply rs_full with (1 := X1).
  - rewrite !length_upd. exact K4.
Qed.

Lemma solution_scaled : forall v p S d d' u u' k k' r r' m, sc tau d d' -> us u u' -> rks k k' -> rs r r' ->
  let '(k1, r1, o) := calc_rkf_solution v p S d u k r m in
  let '(k1', r1', o') := calc_rkf_solution v p S d' u' k' r' m in
  rks k1 k1' /\ rs r1 r1' /\ rres (sc tau) o o'.
Proof using Hl Hs HN.
  intros v p S d d' u u' k k' r r' m Hd Hu Hk Hr. unfold calc_rkf_solution. cbv zeta. pose proof Hk as [K1 K2 K3 K4 K5 K6 K7 K8]. rewrite K1.
  assert (H0 : rks (rk_set_k (repeat (zeros2 (nE p) S) (bt_order (rk_bt k))) k) (rk_set_k (repeat (zeros2 (nE p) S) (bt_order (rk_bt k))) k')).
  { rcl. - apply kss_zero. - reflexivity. }
  pose proof (stages_scaled v p S m d d' u u' (seq 0 (bt_order (rk_bt k))) _ _ r r' Hd Hu H0 Hr) as X.
  destruct (rkf_stages v p S m d u _ _ r) as [[k1 r1] o], (rkf_stages v p S m d' u' _ _ r') as [[k1' r1'] o']. destruct X as (X1 & X2 & ->).
  destruct o as [[]|e| |]; [|cbn [rres]; auto..]. clear H0. pose proof X1 as [J1 J2 J3 J4 J5 J6 J7 J8].
  cbn [rk_set_utilde rk_accepted]. rewrite J5, J6.
  set (hi := rkf_combine (nE p) S d (bt_high (rk_bt k)) (rk_k k1) (bt_order (rk_bt k)) (cons (cent u))).
  set (hi' := rkf_combine (nE p) S d' (bt_high (rk_bt k)) (rk_k k1') (bt_order (rk_bt k)) (cons (cent u'))).
  assert (Hhi : rm fc hi hi').
  { apply (fold_scaled (nE p) S d d' (fun q => at1 z (bt_high (rk_bt k)) q)); try assumption. destruct Hu as (Hc & _). apply vs_cons. exact Hc. }
  set (k2 := rk_set_utilde (set_cent (set_cons hi (cent (rk_utilde k1))) (rk_utilde k1)) k1).
  set (k2' := rk_set_utilde (set_cent (set_cons hi' (cent (rk_utilde k1'))) (rk_utilde k1')) k1').
  assert (H2 : rks k2 k2') by (rcl; apply us_set_cons; assumption). clearbody k2 k2'.
  assert (V : rkf_validate k2' = rkf_validate k2).
  { unfold rkf_validate. rewrite (rm_all_fin2 _ _ _ (rks_low _ _ H2)), (us_validate _ _ _ _ (rks_ut _ _ H2)). reflexivity. }
  rewrite V. destruct (if v then rkf_validate k2 else Ok tt) as [[]|e| |]; cbn [rres]; auto.
Qed.

Record sims (s s' : sim XRn N) : Prop := mkSims {
  sims_ts : tss (s_ts s) (s_ts s');
  sims_u : us (s_u s) (s_u s');
  sims_rk : rks (s_rk s) (s_rk s');
  sims_rh : rs (s_rhs s) (s_rhs s')
}.

Lemma next_scaled : forall v fuel p S m s s', sims s s' ->
  let '(s1, o) := solver_next v fuel p S m s in let '(s1', o') := solver_next v fuel p S m s' in
  sims s1 s1' /\ o' = o.
Proof using Hl Hs HN.
  intros v fuel p S m s s' [Ht Hu Hk Hr].
  assert (X : let '(s1, o) := rkf_next v fuel p S m s in let '(s1', o') := rkf_next v fuel p S m s' in sims s1 s1' /\ o' = o).
  { unfold rkf_next. cbv zeta.
    assert (T1 : tss (ts_set_iter (ts_iter (s_ts s) + 1) (s_ts s)) (ts_set_iter (ts_iter (s_ts s') + 1) (s_ts s'))).
    { destruct Ht. tcl. }
    pose proof (dt_expl_scaled p S _ _ _ _ m T1 Hu) as X. clear T1.
    destruct (calc_dt_expl p S (ts_set_iter (ts_iter (s_ts s) + 1) (s_ts s)) (s_u s) m) as [t1 o].
    destruct (calc_dt_expl p S (ts_set_iter (ts_iter (s_ts s') + 1) (s_ts s')) (s_u s') m) as [t1' o']. destruct X as (X1 & ->).
    destruct o as [[]|e| |]; [|split; [constructor; assumption|reflexivity]..].
    apply cap_scaled in X1. unfold rkf_asc. pose proof Hk as [K1 K2 K3 K4 K5 K6 K7 K8]. rewrite K1, K2.
    pose proof (solution_scaled v p S _ _ _ _ _ _ _ _ m (tss_dt _ _ X1) Hu Hk Hr) as Y.
    destruct (calc_rkf_solution v p S (ts_dt (cap_dt t1)) (s_u s) (s_rk s) (s_rhs s) m) as [[k1 r1] o].
    destruct (calc_rkf_solution v p S (ts_dt (cap_dt t1')) (s_u s') (s_rk s') (s_rhs s') m) as [[k1' r1'] o']. destruct Y as (Y1 & Y2 & Y3).
    destruct o as [d|e| |], o' as [d'|e'| |]; cbn [rres] in Y3; try contradiction; try (split; [constructor; assumption|congruence]).
    pose proof Y2 as [Z1 Z2 Z3 Z4]. rewrite Z3, Z4.
    match goal with |- context [st_update_from_cons p S (r_bw r1) (r_be r1) m ?a] => match goal with |- context [st_update_from_cons p S (r_bw r1) (r_be r1) m ?b] =>
      lazymatch a with context [s_u s] => lazymatch b with context [s_u s'] => assert (U : us a b) end end end end.
    { apply us_set_cons; [exact Hu|]. destruct (rks_ut _ _ Y1) as (C & _). apply vs_cons. exact C. }
    match type of U with ScaleState.us _ _ ?a ?b => set (u1 := a) in *; set (u1' := b) in * end. clearbody u1 u1'.
    pose proof (us_from_cons lam sig Hl Hs p S (r_bw r1) (r_be r1) m u1 u1' U) as W.
    destruct (st_update_from_cons p S (r_bw r1) (r_be r1) m u1) as [u2|e| |], (st_update_from_cons p S (r_bw r1) (r_be r1) m u1') as [u2'|e'| |]; cbn [rres] in W; try contradiction;
      try (split; [constructor; assumption|congruence]).
    rewrite (us_validate _ _ _ _ W). destruct (if v then state_validate u2 else Ok tt) as [[]|e| |]; split; try reflexivity; constructor; try assumption.
    cbn [s_ts]. pose proof X1 as [T1 T2 T3 T4 T5 T6 T7 T8 T9 T10 T11]. tcl. apply sc_add; assumption. }
  unfold solver_next. destruct (rkf_next v fuel p S m s) as [s1 o], (rkf_next v fuel p S m s') as [s1' o']. destruct X as (X1 & ->).
  destruct o as [[]|e| |]; [|auto..]. destruct (sims_ts _ _ X1) as [T1 T2 T3 T4 T5 T6 T7 T8 T9 T10 T11]. rewrite T1, T2.
  destruct (ts_iter_max (s_ts s1) <=? ts_iter (s_ts s1))%N; auto.
Qed.

(** *** the writer: the same outcomes, only other numbers in the texts *)
Definition pls (a b : data_value XRn) : Prop :=
  match a, b with
  | VUsize n, VUsize n' => n' = n | VFloat _, VFloat _ => True | VVec v, VVec v' => List.length v' = List.length v
  | VString x, VString x' => x' = x | _, _ => False
  end.
Definition ds (d d' : data XRn) : Prop := d_name d' = d_name d /\ pls (d_payload d) (d_payload d').
Record os (o o' : output XRn) : Prop := mkOs {
  os_data : Forall2 ds (o_data o) (o_data o');
  os_eq : o' = o_set_data (o_data o') o
}.
Definition ws (w w' : world) : Prop := w_dirs w' = w_dirs w /\ w_bad w' = w_bad w.
Record wrs (a b : writer XRn) : Prop := mkWrs {
  wrs_out : Forall2 os (wr_outputs a) (wr_outputs b);
  wrs_count : wr_counter b = wr_counter a
}.

Lemma length_slice : forall off (v v' : list (nF XRn)), List.length v' = List.length v ->
  List.length (slice off v') = List.length (slice off v).
Proof using. intros off v v' E. unfold slice. rewrite !firstn_length, !skipn_length, E. reflexivity. Qed.

Lemma write_vector_same : forall v v' d d' off, List.length v' = List.length v -> ds d d' ->
  rres ds (write_vector v d off) (write_vector v' d' off).
Proof using.
  intros v v' d d' off L (N1 & P). unfold write_vector. destruct (d_payload d) as [n|x|w|x], (d_payload d') as [n'|x'|w'|x']; cbn [pls] in P; try contradiction; try reflexivity.
  destruct (off =? 0)%nat.
  - rewrite L, P. destruct (_ =? _)%nat; cbn [rres]; [split; cbn; auto|exact I].
  - rewrite (length_slice off v v' L), P. destruct (_ =? _)%nat; cbn [rres]; [split; cbn [d_name d_payload pls]; auto using length_slice|exact I].
Qed.

Lemma row_same : forall f M M' j, rm f M M' -> rres (fun a b => List.length b = List.length a) (row M j) (row M' j).
Proof using.
  intros f M M' j (L & H). unfold row. specialize (H j).
  destruct (nth_error M j) as [r|] eqn:E, (nth_error M' j) as [r'|] eqn:E'; cbn [rres]; try exact I.
  - rewrite (nth_error_nth _ _ [] E), (nth_error_nth _ _ [] E') in H. rewrite H. apply map_length.
  - apply nth_error_None in E'. assert (j < List.length M)%nat by (apply nth_error_Some; congruence). lia.
  - apply nth_error_None in E. assert (j < List.length M')%nat by (apply nth_error_Some; congruence). lia.
Qed.

Lemma collect_same : forall m v v' t t' off d d', vs v v' -> tss t t' -> ds d d' ->
  rres ds (collect m v t off d) (collect m v' t' off d').
Proof using.
  intros m v v' t t' off d d' Hv Ht Hd. pose proof Hd as (E & _). pose proof Hv as [V1 V2 V3 _ _ _ _].
  assert (Rw : forall f M M' j, rm f M M' -> rres ds (do r <- row M j; write_vector r d off) (do r <- row M' j; write_vector r d' off)).
  { intros f M M' j HM. pose proof (row_same f M M' j HM) as X. destruct (row M j), (row M' j); cbn [rres bind] in *; try contradiction; try assumption.
    apply write_vector_same; assumption. }
  unfold collect, collect_mesh, collect_vars, collect_time. rewrite E. destruct (d_name d); cbn [dn_assoc]; try reflexivity;
    try (apply write_vector_same; [reflexivity|assumption]); try (eapply Rw; eassumption).
  all: try (apply write_vector_same; [unfold rv in V3; rewrite V3; apply map_length|assumption]).
  all: split; [reflexivity|]; cbn; first [exact I | apply Ht | f_equal; apply Ht].
Qed.

Lemma try_each_same : forall X (P : X -> X -> Prop) (f f' : X -> X * res unit),
  (forall x x', P x x' -> let '(y, o) := f x in let '(y', o') := f' x' in P y y' /\ o' = o) ->
  forall l l', Forall2 P l l' -> let '(y, o) := try_each f l in let '(y', o') := try_each f' l' in Forall2 P y y' /\ o' = o.
Proof using.
  intros X P f f' H l l' F. induction F as [|x x' t t' Hx F IH]; cbn [try_each]; [auto|].
  pose proof (H x x' Hx) as Y. destruct (f x) as [y o], (f' x') as [y' o']. destruct Y as (Y & ->).
  destruct o as [[]|e| |]; [|auto..]. destruct (try_each f t) as [q o], (try_each f' t') as [q' o']. destruct IH as (IH & ->). auto.
Qed.

Lemma output_update_same : forall m v v' t t' o o', vs v v' -> tss t t' -> os o o' ->
  let '(y, r) := output_update m v t o in let '(y', r') := output_update m v' t' o' in os y y' /\ r' = r.
Proof using.
  intros m v v' t t' o o' Hv Ht [D E]. unfold output_update.
  assert (Off : o_offset o' = o_offset o) by (rewrite E; reflexivity). rewrite Off.
  assert (X := try_each_same _ ds (fun d => keep d (collect m v t (o_offset o) d)) (fun d => keep d (collect m v' t' (o_offset o) d))).
  assert (H : forall d d', ds d d' -> let '(y, r) := keep d (collect m v t (o_offset o) d) in let '(y', r') := keep d' (collect m v' t' (o_offset o) d') in ds y y' /\ r' = r).
  { intros d d' Hd. pose proof (collect_same m v v' t t' (o_offset o) d d' Hv Ht Hd) as Y.
    destruct (collect m v t (o_offset o) d), (collect m v' t' (o_offset o) d'); cbn [rres keep] in *; try contradiction; auto. split; [assumption|congruence]. }
  specialize (X H _ _ D). destruct (try_each _ (o_data o)) as [y r], (try_each _ (o_data o')) as [y' r']. destruct X as (X & ->).
  split; [|reflexivity]. constructor; [exact X|]. cbn [o_set_data o_data]. rewrite E. reflexivity.
Qed.

Lemma writer_update_same : forall m v v' t t' a b, vs v v' -> tss t t' -> wrs a b ->
  let '(y, r) := writer_update m v t a in let '(y', r') := writer_update m v' t' b in wrs y y' /\ r' = r.
Proof using.
  intros m v v' t t' a b Hv Ht [O C]. unfold writer_update.
  assert (X := try_each_same _ os (output_update m v t) (output_update m v' t') (fun o o' => output_update_same m v v' t t' o o' Hv Ht) _ _ O).
  destruct (try_each _ (wr_outputs a)) as [y r], (try_each _ (wr_outputs b)) as [y' r']. destruct X as (X & ->). split; [|reflexivity]. constructor; assumption.
Qed.

Variable fmt : nat -> nF XRn -> string.
Definition okk {X} (a b : res X) : Prop := rres (fun _ _ => True) a b.

Lemma format_same : forall o o' d d' j, os o o' -> ds d d' -> okk (format_data fmt o d j) (format_data fmt o' d' j).
Proof using.
  intros o o' d d' j _ (_ & P). unfold format_data. destruct (d_payload d) as [n|x|w|x], (d_payload d') as [n'|x'|w'|x']; cbn [pls] in P; try contradiction; try exact I.
  destruct (nth_error w j) eqn:E1, (nth_error w' j) eqn:E2; try exact I.
  - apply nth_error_None in E2. assert (j < List.length w)%nat by (apply nth_error_Some; congruence). lia.
  - apply nth_error_None in E1. assert (j < List.length w')%nat by (apply nth_error_Some; congruence). lia.
Qed.
Lemma rest_same : forall o o' j l l', os o o' -> Forall2 ds l l' -> okk (rest_of_line fmt o j l) (rest_of_line fmt o' j l').
Proof using.
  intros o o' j l l' Ho F. induction F as [|d d' t t' Hd F IH]; cbn [rest_of_line]; [exact I|].
  pose proof (format_same o o' d d' j Ho Hd) as X. unfold okk in *.
  destruct (format_data fmt o d j), (format_data fmt o' d' j); cbn [rres bind] in *; try contradiction; try assumption.
  destruct (rest_of_line fmt o j t), (rest_of_line fmt o' j t'); cbn [rres bind] in *; try contradiction; try assumption.
Qed.
Lemma line_same : forall o o' j, os o o' -> okk (line fmt o j) (line fmt o' j).
Proof using.
  intros o o' j Ho. unfold line, okk. pose proof (os_data _ _ Ho) as F. destruct F as [|d d' t t' Hd F]; [exact I|].
  pose proof (format_same o o' d d' j Ho Hd) as X. pose proof (rest_same o o' j t t' Ho F) as Y. unfold okk in *.
  destruct (format_data fmt o d j), (format_data fmt o' d' j); cbn [rres bind] in *; try contradiction; try assumption.
  destruct (rest_of_line fmt o j t), (rest_of_line fmt o' j t'); cbn [rres bind] in *; try contradiction; try assumption.
Qed.
Lemma lines_same : forall o o' l, os o o' -> okk (lines fmt o l) (lines fmt o' l).
Proof using.
  intros o o' l Ho. induction l as [|j t IH]; cbn [lines]; [exact I|]. pose proof (line_same o o' j Ho) as X. unfold okk in *.
  destruct (line fmt o j), (line fmt o' j); cbn [rres bind] in *; try contradiction; try assumption.
  destruct (lines fmt o t), (lines fmt o' t); cbn [rres bind] in *; try contradiction; try assumption.
Qed.
Lemma text_same : forall o o', os o o' -> okk (stream_text fmt o) (stream_text fmt o').
Proof using.
  intros o o' Ho. unfold stream_text, okk. assert (E : o_rows o' = o_rows o) by (rewrite (os_eq _ _ Ho); reflexivity). rewrite E.
  pose proof (lines_same o o' (seq 0 (o_rows o)) Ho) as X. unfold okk in X.
  destruct (lines fmt o _), (lines fmt o' _); cbn [rres bind] in *; try contradiction; try assumption.
Qed.

Lemma output_write_same : forall n o o' w w', os o o' -> ws w w' ->
  let '(y, v, r) := output_write fmt n o w in let '(y', v', r') := output_write fmt n o' w' in os y y' /\ ws v v' /\ r' = r.
Proof using.
  intros n o o' w w' Ho (W1 & W2). unfold output_write. pose proof (text_same o o' Ho) as X. pose proof Ho as [D E].
  assert (E1 : o_stream o' = o_stream o) by (rewrite E; reflexivity).
  assert (E2 : out_path o' n = out_path o n) by (rewrite E; reflexivity).
  assert (E3 : open_fails w' (out_path o n) = open_fails w (out_path o n)) by (unfold open_fails; rewrite W1, W2; reflexivity).
  assert (F1 : os (o_set_first false o) (o_set_first false o')) by (constructor; [exact D|rewrite E; reflexivity]).
  rewrite E1, E2, E3. unfold okk in X. destruct (o_stream o).
  - destruct (stream_text fmt o), (stream_text fmt o'); cbn [rres] in X; try contradiction; (split; [assumption|]); (split; [split; assumption|congruence]).
  - destruct (open_fails w (out_path o n)); [split; [exact Ho|split; [split; assumption|reflexivity]]|].
    destruct (stream_text fmt o), (stream_text fmt o'); cbn [rres] in X; try contradiction; (split; [assumption|]); (split; [split; assumption|congruence]).
Qed.

Lemma Forall2_nth_error : forall X (P : X -> X -> Prop) l l' i, Forall2 P l l' ->
  match nth_error l i, nth_error l' i with Some x, Some x' => P x x' | None, None => True | _, _ => False end.
Proof using. intros X P l l' i F. revert i. induction F as [|x x' t t' Hx F IH]; intros [|i]; cbn [nth_error]; auto. apply IH. Qed.
Lemma Forall2_upd : forall X (P : X -> X -> Prop) l l' i x x', Forall2 P l l' -> P x x' -> Forall2 P (upd i x l) (upd i x' l').
Proof using. intros X P l l' i x x' F Hx. revert i. induction F as [|y y' t t' Hy F IH]; intros [|i]; cbn [upd]; constructor; auto. Qed.

Lemma sched_same : forall n sch a b w w', Forall2 os a b -> ws w w' ->
  let '(y, v, r) := write_sched fmt n sch a w in let '(y', v', r') := write_sched fmt n sch b w' in Forall2 os y y' /\ ws v v' /\ r' = r.
Proof using.
  intros n sch. induction sch as [|i t IH]; intros a b w w' F W; cbn [write_sched]; [auto|].
  pose proof (Forall2_nth_error _ os a b i F) as X. destruct (nth_error a i) as [o|], (nth_error b i) as [o'|]; try contradiction; [|apply IH; assumption].
  pose proof (output_write_same n o o' w w' X W) as Y.
  destruct (output_write fmt n o w) as [[y v] r], (output_write fmt n o' w') as [[y' v'] r']. destruct Y as (Y1 & Y2 & ->).
  pose proof (Forall2_upd _ os a b i y y' F Y1) as Z. destruct r as [[]|e| |]; [|auto..]. apply IH; assumption.
Qed.

Lemma do_output_same : forall sch m s s' a b w w', sims s s' -> wrs a b -> ws w w' ->
  let '(y, v, r) := do_output fmt sch m s a w in let '(y', v', r') := do_output fmt sch m s' b w' in wrs y y' /\ ws v v' /\ r' = r.
Proof using.
  intros sch m s s' a b w w' [H1 H2 _ _] Hw W. unfold do_output. destruct H2 as (H2 & _ & _).
  pose proof (writer_update_same m _ _ _ _ a b H2 H1 Hw) as X.
  destruct (writer_update m (cent (s_u s)) (s_ts s) a) as [a1 r], (writer_update m (cent (s_u s')) (s_ts s') b) as [b1 r']. destruct X as (X & ->).
  destruct r as [[]|e| |]; [|auto..]. unfold writer_write. pose proof X as [O C]. rewrite C.
  pose proof (sched_same (wr_counter a1) (sch (wr_counter a1)) _ _ w w' O W) as Y.
  destruct (write_sched fmt (wr_counter a1) (sch (wr_counter a1)) (wr_outputs a1) w) as [[y v] r], (write_sched fmt (wr_counter a1) (sch (wr_counter a1)) (wr_outputs b1) w') as [[y' v'] r'].
  destruct Y as (Y1 & Y2 & ->). destruct r as [[]|e| |]; (split; [constructor; cbn [wr_outputs wr_counter]; [assumption|lia]|]); auto.
Qed.

(** *** the run *)
Definition snap (x x' : snapshot XRn) : Prop := tss (fst x) (fst x') /\ vs (snd x) (snd x').
Record ends (e e' : run_end XRn N) : Prop := mkEnds {
  ends_sim : sims (e_sim e) (e_sim e');
  ends_trace : Forall2 snap (e_trace e) (e_trace e')
}.

Lemma run_output_same : forall sch m s s' a b w w', sims s s' -> wrs a b -> ws w w' ->
  let '(s1, y, v, l, r) := run_output fmt sch m s a w in let '(s1', y', v', l', r') := run_output fmt sch m s' b w' in
  sims s1 s1' /\ wrs y y' /\ ws v v' /\ Forall2 snap l l' /\ r' = r.
Proof using Hs.
  intros sch m s s' a b w w' Hsim Hw W. unfold run_output. pose proof Hsim as [H1 H2 H3 H4]. pose proof H1 as [T1 T2 T3 T4 T5 T6 T7 T8 T9 T10 T11].
  pose proof tau_pos as Ht. cbv zeta.
  rewrite (sc_leb tau _ _ _ _ Ht (sc_sub _ _ _ _ _ T11 T6) T3). destruct (nleb XRn _ _); [|repeat match goal with |- _ /\ _ => split end; auto].
  assert (X : sims (sim_set_ts (ts_set_next (ts_t_next (s_ts s) + ts_dt_output (s_ts s))%num (s_ts s)) s)
                   (sim_set_ts (ts_set_next (ts_t_next (s_ts s') + ts_dt_output (s_ts s'))%num (s_ts s')) s')).
  { constructor; cbn [sim_set_ts s_ts s_u s_rk s_rhs]; try assumption. tcl. apply sc_add; assumption. }
  match type of X with sims ?x ?y => set (s1 := x) in *; set (s1' := y) in * end. clearbody s1 s1'.
  pose proof (do_output_same sch m s1 s1' a b w w' X Hw W) as Y.
  destruct (do_output fmt sch m s1 a w) as [[y v] r], (do_output fmt sch m s1' b w') as [[y' v'] r']. destruct Y as (Y1 & Y2 & ->).
  repeat match goal with |- _ /\ _ => split end; auto. constructor; [|constructor]. destruct X as [X1 (X2 & _) _ _]. split; assumption.
Qed.

Lemma run_same : forall v sch af fuel p S m s s' a b w w', sims s s' -> wrs a b -> ws w w' ->
  let '(e, r) := run_loop fmt v sch af fuel p S m s a w in let '(e', r') := run_loop fmt v sch af fuel p S m s' b w' in
  ends e e' /\ r' = r.
Proof using Hl Hs HN.
  intros v sch af fuel p S m. induction fuel as [|fuel IH]; intros s s' a b w w' Hsim Hw W; cbn [run_loop].
  - split; [|reflexivity]. constructor; cbn [e_sim e_trace]; [assumption|constructor].
  - pose proof (run_output_same sch m s s' a b w w' Hsim Hw W) as X.
    destruct (run_output fmt sch m s a w) as [[[[s1 a1] w1] l] r], (run_output fmt sch m s' b w') as [[[[s1' b1] w1'] l'] r'].
    destruct X as (X1 & X2 & X3 & X4 & ->).
    destruct r as [[]|e| |]; [|split; [constructor; assumption|reflexivity]..]. cbv zeta.
    pose proof (sims_ts _ _ X1) as [T1 T2 T3 T4 T5 T6 T7 T8 T9 T10 T11]. pose proof tau_pos as Ht.
    assert (Q : sc tau (ts_t (s_ts s1) + ts_dt_min (s_ts s1) * nQ XRn (1 # 100))%num (ts_t (s_ts s1') + ts_dt_min (s_ts s1') * nQ XRn (1 # 100))%num).
    { apply sc_add; [assumption|]. eapply sc_mul'; [exact T6|apply sc_refl1; reflexivity|ring|assumption|lra]. }
    rewrite (sc_leb tau _ _ _ _ Ht T4 Q). destruct (nleb XRn _ _); [split; [constructor; assumption|reflexivity]|].
    pose proof (next_scaled v af p S m s1 s1' X1) as Y.
    destruct (solver_next v af p S m s1) as [s2 r], (solver_next v af p S m s1') as [s2' r']. destruct Y as (Y1 & ->).
    destruct r as [[]|e| |].
    + pose proof (IH s2 s2' a1 b1 w1 w1' Y1 X2 X3) as Z.
      destruct (run_loop fmt v sch af fuel p S m s2 a1 w1) as [e r], (run_loop fmt v sch af fuel p S m s2' b1 w1') as [e' r']. destruct Z as ([Z1 Z2] & ->).
      split; [|reflexivity]. constructor; cbn [e_sim e_trace]; [assumption|]. apply Forall2_app; assumption.
    + assert (K : sims (sim_set_ts (ts_set_kind KErrorDump (s_ts s2)) s2) (sim_set_ts (ts_set_kind KErrorDump (s_ts s2')) s2')).
      { destruct Y1 as [K1 K2 K3 K4]. constructor; cbn [sim_set_ts s_ts s_u s_rk s_rhs]; try assumption. destruct K1. tcl. }
      match type of K with sims ?x ?y => set (s3 := x) in *; set (s3' := y) in * end. clearbody s3 s3'.
      pose proof (do_output_same sch m s3 s3' a1 b1 w1 w1' K X2 X3) as Z.
      destruct (do_output fmt sch m s3 a1 w1) as [[y v2] r], (do_output fmt sch m s3' b1 w1') as [[y' v2'] r']. destruct Z as (Z1 & Z2 & ->).
      split; [|reflexivity]. constructor; cbn [e_sim e_trace]; [assumption|]. apply Forall2_app; [assumption|]. constructor; [|constructor].
      destruct K as [G1 (G2 & _) _ _]. split; assumption.
    + split; [constructor; assumption|reflexivity].
    + split; [constructor; assumption|reflexivity].
Qed.

(** *** initialisation *)
(** times in the other units *)
Definition rescale_cfg (c : config XRn) : config XRn :=
  let n := cf_numerics c in
  mkCfg (cf_banner c) (cf_mesh c) (cf_physics c) (cf_bc_west c) (cf_bc_east c)
    (mkNC (nc_numflux n) (nc_time n) (nc_iter_max n) (xs tau (nc_t0 n)) (xs tau (nc_t_end n)) (xs tau (nc_dt_min n)) (xs tau (nc_dt_max n)) (nc_dt_cfl n))
    (cf_output_max c) (cf_writer c).

Lemma validate_scaled : forall c, cf_validate (rescale_cfg c) = cf_validate c.
Proof using Hs.
  intros c. pose proof tau_pos as Ht. unfold cf_validate, nc_validate. cbn [rescale_cfg cf_mesh cf_physics cf_numerics cf_writer nc_numflux nc_time nc_iter_max nc_t0 nc_t_end nc_dt_min nc_dt_max nc_dt_cfl].
  assert (P : forall x, check_pos (A:=XRn) (xs tau x) = check_pos (A:=XRn) x).
  { intros x. unfold check_pos. rewrite (sc_ltb tau (n0 XRn) x (n0 XRn) (xs tau x) Ht (sc_zero _) eq_refl). reflexivity. }
  rewrite !P. rewrite (sc_leb tau (n0 XRn) (nc_t0 (cf_numerics c)) (n0 XRn) _ Ht (sc_zero _) eq_refl).
  rewrite (sc_ltb tau (nc_t0 (cf_numerics c)) (nc_t_end (cf_numerics c)) _ _ Ht eq_refl eq_refl). reflexivity.
Qed.

Definition new_scales (c : config XRn) : Prop := forall p S m,
  rres Rn (nf_new N p S (nc_numflux (cf_numerics c)) m) (nf_new N p S (nc_numflux (cf_numerics c)) m).

Lemma solver_new_scaled : forall p S c m, new_scales c -> bt_asc (bt_new (nc_time (cf_numerics c))) = false ->
  rres sims (solver_new N p S c m (state_new p S (cf_physics c)))
            (solver_new N p S (rescale_cfg c) m (state_new p S (cf_physics (rescale_cfg c)))).
Proof using Hs.
  intros p S c m Hn Ha. pose proof tau_pos as Ht. unfold solver_new, rhs_new. cbn [rescale_cfg cf_numerics cf_physics cf_output_max cf_bc_west cf_bc_east nc_numflux].
  pose proof (Hn p S m) as X. destruct (nf_new N p S (nc_numflux (cf_numerics c)) m) as [x|e| |]; cbn [rres bind] in *; try assumption.
  constructor; cbn [s_ts s_u s_rk s_rhs].
  - constructor; cbn [ts_new nc_iter_max nc_t0 nc_t_end nc_dt_min nc_dt_max nc_dt_cfl ts_iter ts_iter_max ts_t ts_t_end ts_dt ts_dt_min ts_dt_max ts_cfl ts_kind ts_dt_output ts_t_next]; try reflexivity; try apply sc_zero.
    eapply sc_div'; [apply sc_sub; reflexivity|apply sc_refl1; reflexivity|field; lra|assumption|lra].
  - apply us_new. reflexivity.
  - constructor; cbn [rkf_new rk_bt rk_k rk_accepted rk_low rk_utilde cf_numerics nc_time cf_physics]; try reflexivity; try assumption.
    + apply kss_zero.
    + apply rm_zeros2.
    + apply us_new. reflexivity.
  - constructor; cbn [r_full r_nf r_bw r_be]; try reflexivity; [apply rm_zeros2|exact X].
Qed.

Lemma metadata_same : forall meta meta' sch a b w w', Forall2 os a b -> ws w w' ->
  let '(v, r) := writer_metadata (A:=XRn) meta sch a w in let '(v', r') := writer_metadata meta' sch b w' in ws v v' /\ r' = r.
Proof using.
  intros meta meta' sch a b. induction sch as [|i t IH]; intros w w' F W; cbn [writer_metadata]; [auto|].
  pose proof (Forall2_nth_error _ os a b i F) as X. destruct (nth_error a i) as [o|], (nth_error b i) as [o'|]; try contradiction; [|apply IH; assumption].
  assert (Y : let '(v, r) := output_write_metadata meta o w in let '(v', r') := output_write_metadata meta' o' w' in ws v v' /\ r' = r).
  { destruct X as [D E]. pose proof W as (W1 & W2). unfold output_write_metadata.
    assert (E0 : o_metadata o' = o_metadata o) by (rewrite E; reflexivity). assert (E1 : o_stream o' = o_stream o) by (rewrite E; reflexivity).
    assert (E2 : o_file_name o' = o_file_name o) by (rewrite E; reflexivity). rewrite E0, E1, E2.
    destruct (o_metadata o); [|auto]. destruct (o_stream o); [split; [split; assumption|reflexivity]|].
    replace (open_fails w' (o_file_name o ++ "_metadata.json")) with (open_fails w (o_file_name o ++ "_metadata.json")) by (unfold open_fails; rewrite W1, W2; reflexivity).
    destruct (open_fails w _); (split; [split; assumption|reflexivity]). }
  destruct (output_write_metadata meta o w) as [v r], (output_write_metadata meta' o' w') as [v' r']. destruct Y as (Y1 & ->).
  destruct r as [[]|e| |]; [|auto..]. apply IH; assumption.
Qed.

(** an initial condition: primitive variables and sound speed of the cells *)
Definition start (q : mesh XRn -> list (list (nF XRn))) (cs : mesh XRn -> list (nF XRn)) (r : mesh XRn -> res unit) (s : sim XRn N) (m : mesh XRn)
  : sim XRn N * res unit :=
  (mkSim (s_ts s) (set_cent (set_c_sound (cs m) (set_prim (q m) (cent (s_u s)))) (s_u s)) (s_rk s) (s_rhs s), r m).

Lemma os_refl : forall o, os o o.
Proof using.
  intros o. constructor; [|destruct o; reflexivity]. induction (o_data o) as [|d t IH]; constructor; [|exact IH].
  split; [reflexivity|]. destruct (d_payload d); cbn; auto.
Qed.

Lemma init_same : forall v meta banner ms q q' cs cs' r p S c w, new_scales c -> bt_asc (bt_new (nc_time (cf_numerics c))) = false ->
  (forall m, rm fp (q m) (q' m)) -> (forall m, rv sig (cs m) (cs' m)) ->
  let '(w1, o) := init_corries v meta banner ms (start q cs r) p S c w in
  let '(w1', o') := init_corries v meta banner ms (start q' cs' r) p S (rescale_cfg c) w in
  ws w1 w1' /\ rres (fun k k' => sims (c_sim k) (c_sim k') /\ c_mesh k' = c_mesh k /\ wrs (c_writer k) (c_writer k')) o o'.
Proof using Hl Hs.
  intros v meta banner ms q q' cs cs' r p S c w Hn Ha Hq Hcs. unfold init_corries. rewrite validate_scaled.
  assert (W0 : ws w w) by (split; reflexivity).
  destruct (cf_validate c) as [[]|e| |]; [|split; [assumption|reflexivity || exact I]..].
  change (cf_mesh (rescale_cfg c)) with (cf_mesh c). destruct (mesh_new v S (cf_mesh c)) as [m|e| |]; [|split; [assumption|reflexivity || exact I]..].
  pose proof (solver_new_scaled p S c m Hn Ha) as X. cbv zeta.
  destruct (solver_new N p S c m (state_new p S (cf_physics c))) as [s|e| |], (solver_new N p S (rescale_cfg c) m (state_new p S (cf_physics (rescale_cfg c)))) as [s'|e'| |];
    cbn [rres] in X; try contradiction; try (split; [assumption|cbn [rres]; congruence || exact I]).
  unfold writer_new. cbn [rescale_cfg cf_writer cf_output_max cf_banner].
  destruct (outputs_new S (cf_writer c) m (cf_output_max c) w) as [w1 [outs|e| |]]; cbn [bind]; try (split; [split; reflexivity|cbn [rres]; congruence || exact I]).
  cbn [wr_banner wr_meta wr_outputs].
  set (w2 := if cf_banner c then w_print banner w1 else w1).
  assert (F : Forall2 os outs outs) by (induction outs; constructor; [apply os_refl|assumption]).
  pose proof (metadata_same (meta c) (meta (rescale_cfg c)) ms outs outs w2 w2 F (conj eq_refl eq_refl)) as Y.
  change (mkCfg (cf_banner c) (cf_mesh c) (cf_physics c) (cf_bc_west c) (cf_bc_east c) (cf_numerics (rescale_cfg c)) (cf_output_max c) (cf_writer c)) with (rescale_cfg c).
  destruct (writer_metadata (meta c) ms outs w2) as [w3 o], (writer_metadata (meta (rescale_cfg c)) ms outs w2) as [w3' o']. destruct Y as (Y1 & ->).
  destruct o as [[]|e| |]; try (split; [assumption|cbn [rres]; congruence || exact I]).
  unfold start. cbn [s_ts s_u s_rk s_rhs]. split; [exact Y1|]. destruct (r m) as [[]|e| |]; cbn [bind rres]; try reflexivity; try exact I.
  destruct X as [X1 X2 X3 X4]. pose proof X4 as [Z1 Z2 Z3 Z4]. rewrite Z3, Z4.
  assert (U : us (set_cent (set_c_sound (cs m) (set_prim (q m) (cent (s_u s)))) (s_u s)) (set_cent (set_c_sound (cs' m) (set_prim (q' m) (cent (s_u s')))) (s_u s'))).
  { destruct X2 as ([V1 V2 V3 V4 V5 V6 V7] & V8 & V9). unfold ScaleState.us. cbn [set_cent cent west east]. split; [|split; assumption].
    constructor; cbn [set_c_sound set_prim prim cons c_sound eigen_vals flux gamma zero_vec]; auto. }
  pose proof (us_from_prim lam sig Hl Hs p S (r_bw (s_rhs s)) (r_be (s_rhs s)) m _ _ U) as T.
  destruct (st_update_from_prim p S (r_bw (s_rhs s)) (r_be (s_rhs s)) m (set_cent (set_c_sound (cs m) (set_prim (q m) (cent (s_u s)))) (s_u s))) as [u1|e| |],
           (st_update_from_prim p S (r_bw (s_rhs s)) (r_be (s_rhs s)) m (set_cent (set_c_sound (cs' m) (set_prim (q' m) (cent (s_u s')))) (s_u s'))) as [u1'|e'| |];
    cbn [rres bind] in *; try contradiction; try assumption.
  cbn [c_sim c_mesh c_writer]. split; [|split; [reflexivity|constructor; [exact F|reflexivity]]].
  constructor; cbn [s_ts s_u s_rk s_rhs]; try assumption. apply us_init_west_east. exact T.
Qed.
End Scheme.

Lemma hll_new_scales : forall c, new_scales (Hll XRn) (hs lam sig) c.
Proof using.
  intros c p S m. cbn [Hll nf_new]. destruct (nc_numflux (cf_numerics c)); cbn [hll_new rres]; [|reflexivity].
  constructor; cbn [h_sl h_sr h_inv h_srsl h_flux_num]; try apply rv_zeros. apply rm_zeros2.
Qed.
Lemma kt_new_scales : forall c, nc_numflux (cf_numerics c) <> CKt VanLeer -> new_scales (Kt XRn) (ks lam sig) c.
Proof using.
  intros c H p S m. cbn [Kt nf_new]. destruct (nc_numflux (cf_numerics c)) as [|l]; cbn [kt_new rres]; [reflexivity|].
  constructor; cbn [k_a_plus k_a_minus k_b k_c k_flux_num k_limiter]; try apply rv_zeros; try apply rm_zeros2; try reflexivity.
  destruct l; try reflexivity. contradiction H. reflexivity.
Qed.
End Scale.
