(** A user-defined flux scheme for the examples and counterexamples: the
    "flux difference" of a cell is its conserved variables, so the system to
    be solved is du/dt = -u.  Nothing here is a model of code. *)

From Coq Require Import Reals ZArith NArith QArith Qreals Qabs List Bool Lia Lra.
From Verif Require Import Base Num XReal Config Mesh State NumFlux Time Spec SpecFlow SpecStep SpecTableau SpecEuler
  MeshProofs BoundaryProofs PhysicsProofs FluxProofs UpdateProofs FluxReal FluxThms StepProofs StepInv StepEq TableauProofs
  TimeProofs TimeMore AscProofs EulerStep RealRun EulerThms.
Import ListNotations.
Local Open Scope R_scope.

Definition lin_d (p : phys) (S : nat) (c d : list (list (nF XRn))) : list (list (nF XRn)) :=
  mtab (nE p) S (fun j i => if ((2 <=? i) && (i <=? S - 3))%nat then at2 (n0 XRn) c j i else at2 (n0 XRn) d j i).
Definition Lin : numflux_impl XRn := mkNF unit (fun _ _ _ _ => Ok tt)
  (fun _ p S self d u m =>
     (self, lin_d p S (cons (cent u)) d, u, Ok tt)).

Lemma lin_total : forall p S m self d u, exists a b c, nf_calc Lin false p S self d u m = (a, b, c, Ok tt).
Proof. intros. cbn [nf_calc Lin]. eauto. Qed.

Lemma inner_true : forall S i, (2 <= i <= S - 3)%nat -> ((2 <=? i) && (i <=? S - 3))%nat = true.
Proof. intros S i H. apply andb_true_iff. split; apply Nat.leb_le; lia. Qed.
Lemma inner_false : forall S i, (i < 2 \/ S - 3 < i)%nat -> ((2 <=? i) && (i <=? S - 3))%nat = false.
Proof. intros S i H. apply andb_false_iff. destruct H; [left|right]; apply Nat.leb_gt; lia. Qed.

Lemma lin_memoryless : forall p S m, (5 <= S)%nat -> memoryless Lin p S m (fun _ => True).
Proof.
  intros p S m HS val1 val2 n1 n2 d1 d2 u1 u2 n1' d1' u1' o1 n2' d2' u2' o2 _ _ S1 S2 SU E1 E2. cbn [nf_calc Lin] in E1, E2.
  injection E1 as <- <- <- <-. injection E2 as <- <- <- <-.
  destruct SU as ((W1 & W2 & P & C & Cs & G) & Ev & (V1 & V2 & _) & (X1 & X2 & _)).
  repeat match goal with |- _ /\ _ => split end; auto; try apply shape_mtab.
  - split; [exact W1|split; assumption].
  - intros j i Hj Hi. unfold lin_d. rewrite !at2_mtab by lia. rewrite !inner_true by lia. rewrite C. reflexivity.
  - intros j i Hj Hi Hg. unfold lin_d. rewrite at2_mtab, inner_false by assumption. reflexivity.
Qed.

Lemma lin_rhs : forall S md asc cfl tn v vel, (6 <= S)%nat -> wsv XRn Isot S v -> gamma v = Fin (14 / 10) ->
  (forall i, (i < S)%nat -> at2 (n0 XRn) (cons v) 0 i = Fin 1 /\ at2 (n0 XRn) (cons v) 1 i = Fin vel) ->
  rhs_values Isot S (rmesh S) (rsim (N:=Lin) Isot S (rcfg CHll md asc cfl) tt v tn)
    (fun j i => if ((2 <=? i) && (i <=? S - 3))%nat then match j with 0%nat => 1 | _ => vel end else 0).
Proof.
  intros S md asc cfl tn v vel HS W G C.
  destruct (ng_update XRn Isot S (rmesh S) v) as [v' Hv].
  exists false. set (s := rsim (N:=Lin) Isot S (rcfg CHll md asc cfl) tt v tn).
  assert (E : st_update_from_cons Isot S (r_bw (s_rhs s)) (r_be (s_rhs s)) (rmesh S) (s_u s) = Ok (set_cent v' (s_u s))).
  { unfold st_update_from_cons. change (cent (s_u s)) with v. change (r_bw (s_rhs s)) with (ng Isot). change (r_be (s_rhs s)) with (ng Isot). rewrite Hv. reflexivity. }
  unfold rhs_update. rewrite E. cbn [nf_calc Lin]. eexists _, _. split; [reflexivity|].
  intros j i Hj Hi. cbn [r_full cent set_cent]. unfold lin_d. rewrite at2_mtab by assumption.
  destruct ((2 <=? i) && (i <=? S - 3))%nat eqn:I.
  - apply andb_true_iff in I. destruct I as [I1 I2]. apply Nat.leb_le in I1, I2.
    destruct (update_from_cons_view XRn Isot S _ _ (rmesh S) v v' ltac:(lia) W Hv) as (W' & G' & _ & _ & P' & C').
    rewrite G in P', C'. destruct (C' i Hi) as (C1 & _).
    rewrite C1 by exact Hj.
    rewrite (p2c_R Isot (14 / 10) (rprim Isot (14 / 10) (fun j => match j with 0%nat => 1 | _ => vel end))); [|discriminate|exact Hj|].
    + rewrite conserved_rprim; [reflexivity|lra|discriminate|exact Hj].
    + intros l Hl. rewrite (P' l i Hl ltac:(unfold interior; lia)). apply c2p_R; [lra|exact Hl|].
      intros l' Hl'. cbn [nE] in Hl'. destruct (C i Hi) as (Ca & Cb). destruct l' as [|[|l']]; [exact Ca|exact Cb|lia].
  - change (r_full (s_rhs s)) with (zeros2 (A:=XRn) (nE Isot) S). unfold at2, zeros2.
    rewrite nth_repeat_lt by assumption. unfold zeros. rewrite nth_repeat. apply X_n0.
Qed.

(** ** The genuine Runge-Kutta step for du/dt = -u, in rational numbers *)
Fixpoint qslopes (a : list (list Q)) (dt u : Q) (n : nat) : list Q :=
  match n with
  | O => []
  | S q => let ks := qslopes a dt u q in ks ++ [Qred (u - dt * qsum q (fun p => Qred (qat2 a q p * nth p ks 0)))%Q]
  end.
Definition qstep (n : nat) (a : list (list Q)) (b : list Q) (dt u : Q) : Q :=
  Qred (u - dt * qsum n (fun q => Qred (qat b q * nth q (qslopes a dt u n) 0)))%Q.

Lemma Q2R_red : forall q, Q2R (Qred q) = Q2R q.
Proof. intros. apply Qeq_eqR, Qred_correct. Qed.
Lemma Q2R_sum : forall n f g, (forall i, (i < n)%nat -> Q2R (f i) = g i) -> Q2R (qsum n f) = rsum n g.
Proof.
  induction n; intros f g H; cbn; [unfold Q2R; cbn; lra|]. rewrite Q2R_plus, (H n), (IHn f g) by (intros; try apply H; lia). reflexivity.
Qed.
Lemma qslopes_len : forall a dt u n, length (qslopes a dt u n) = n.
Proof. induction n; cbn; [reflexivity|]. rewrite app_length, IHn. cbn. lia. Qed.
Lemma slopes_R : forall a dt u n, map Q2R (qslopes a dt u n) = rk_slopes (fun x => x) a (Q2R dt) (Q2R u) n.
Proof.
  induction n; cbn [qslopes rk_slopes map]; [reflexivity|]. rewrite map_app, IHn. f_equal. cbn [map]. f_equal.
  rewrite Q2R_red, Q2R_minus, Q2R_mult. f_equal. f_equal. apply Q2R_sum.
  intros i Hi. rewrite Q2R_red, Q2R_mult, <- IHn. f_equal.
  replace 0 with (Q2R 0) by (unfold Q2R; cbn; lra). symmetry. apply map_nth.
Qed.
Lemma step_R : forall n a b dt u, rk_step (fun x => x) n a b (Q2R dt) (Q2R u) = Q2R (qstep n a b dt u).
Proof.
  intros. unfold rk_step, qstep. rewrite Q2R_red, Q2R_minus, Q2R_mult. f_equal. f_equal. symmetry. apply Q2R_sum.
  intros i Hi. rewrite Q2R_red, Q2R_mult, <- slopes_R. f_equal.
  replace 0 with (Q2R 0) by (unfold Q2R; cbn; lra). symmetry. apply map_nth.
Qed.

(** ** A step with automated step control that cannot fail *)
Lemma total_asc : forall (N : numflux_impl XRn) p S m good fuel (c : rkf_config XRn) (s : sim XRn N) f (U : nat -> nat -> R) d t tn M,
  (5 <= S)%nat -> (forall self d u, exists a b c, nf_calc N false p S self d u m = (a, b, c, Ok tt)) ->
  memoryless N p S m good -> solver_ok p S good s -> rk_bt (s_rk s) = bt_new c ->
  r_bw (s_rhs s) = ng p -> r_be (s_rhs s) = ng p ->
  rc_asc c = true -> embedded (rc_mode c) = true -> rhs_values p S m s f ->
  (forall j i, (j < nE p)%nat -> (2 <= i <= S - 3)%nat -> at2 (n0 XRn) (cons (cent (s_u s))) j i = Fin (U j i)) ->
  rk_err_old (s_rk s) = Fin 0 ->
  st_calc_dt_cfl p S (s_u s) (ts_cfl (s_ts s)) m = Ok (Fin d : nF XRn) -> nltb XRn (Fin d) (ts_dt_min (s_ts s)) = false ->
  ts_t (s_ts s) = Fin t -> ts_t_next (s_ts s) = Fin tn -> ts_dt_max (s_ts s) = Fin M -> 0 < tn ->
  exists s', rkf_next false (Datatypes.S fuel) p S m s = (s', Ok tt).
Proof.
  intros N p S m good fuel c s f U d t tn M HS Htot Hm Hok Hb Bw Be Ha Hemb Hf HU He Hd Hmin Ht Hn HM Ptn.
  assert (Hba : bt_asc (rk_bt (s_rk s)) = true).
  { rewrite Hb. destruct c as [md asc rt at' fr]. cbn in Ha, Hemb. subst asc. destruct md; try discriminate; reflexivity. }
  unfold rkf_next, calc_dt_expl, rkf_asc. cbn [ts_cfl ts_set_iter]. rewrite Hd. cbn [ts_dt_min ts_set_dt ts_set_iter]. rewrite Hmin, Hba.
  match goal with |- context [asc_loop false _ p S (cap_dt ?x) _ _ _ _] => set (ts1 := x) end.
  assert (C1 : ts_dt (cap_dt ts1) = Fin (Rmin (Rmin d M) (tn - t))) by (apply cap_min; auto).
  set (ts2 := cap_dt ts1) in *. clearbody ts2.
  cbn [asc_loop]. change (rk_accepted (rk_set_n_asc 0 (rk_set_accepted false (s_rk s)))) with false. cbn iota.
  rewrite C1.
  destruct (total_calc XRn N p S m Htot (Fin (Rmin (Rmin d M) (tn - t)) : nF XRn) (s_u s) (rk_set_n_asc 0 (rk_set_accepted false (s_rk s))) (s_rhs s) Bw Be) as (k2 & h2 & x & E2 & B1 & B2).
  rewrite E2.
  destruct (inert_try N p S m good false c s f U _ k2 h2 x HS Hm Hok Hb Hemb Hf HU He E2) as (N1 & N2 & N3 & ->).
  rewrite N1, X_n1, X_ltb. destruct (Rlt_dec 0 1) as [_|]; [|lra].
  match goal with |- context [asc_loop false fuel p S ?t (s_u s) ?k h2 m] => set (k3 := k); set (ts3 := t);
    assert (EL : asc_loop false fuel p S ts3 (s_u s) k3 h2 m = (ts3, k3, h2, Ok tt)) by (destruct fuel; reflexivity) end.
  rewrite EL.
  destruct (total_calc XRn N p S m Htot (ts_dt ts3) (s_u s) k3 h2 B1 B2) as (k4 & h4 & x & E4 & B3 & B4). rewrite E4.
  unfold st_update_from_cons. rewrite B3, B4.
  match goal with |- context [update_vars_from_cons p S (ng p) (ng p) m ?v] => destruct (ng_update XRn p S m v) as [v' Hv]; rewrite Hv end.
  cbn [bind]. eauto.
Qed.

(** The linear problem with and without step control: six cells (two of them
    computational), density one at rest, sound speed one; Courant number 1/2, CFL step 1/4. *)
Lemma lin_start : forall md fuel, exists v,
  wsv XRn Isot 6 v /\ gamma v = Fin (14 / 10) /\
  (forall i, (i < 6)%nat -> at2 (n0 XRn) (cons v) 0 i = Fin 1 /\ at2 (n0 XRn) (cons v) 1 i = Fin 0) /\
  (forall asc, st_calc_dt_cfl Isot 6 (one_state v) (Fin (1 / 2) : nF XRn) (rmesh 6) = Ok (Fin (1 / 4) : nF XRn) /\
     rhs_values Isot 6 (rmesh 6) (rsim (N:=Lin) Isot 6 (rcfg CHll md asc (1 / 2)) tt v 10)
       (fun j i => if ((2 <=? i) && (i <=? 6 - 3))%nat then match j with 0%nat => 1 | _ => 0 end else 0) /\
     solver_ok Isot 6 (fun _ => True) (rsim (N:=Lin) Isot 6 (rcfg CHll md asc (1 / 2)) tt v 10)) /\
  exists s', solver_next false fuel Isot 6 (rmesh 6) (rsim (N:=Lin) Isot 6 (rcfg CHll md false (1 / 2)) tt v 10) = (s', Ok tt).
Proof.
  intros md fuel.
  assert (I2 : INR (6 - 4) = 2) by (cbn; lra).
  assert (A1 : Rabs (0 + 1) = 1) by (rewrite Rplus_0_l; apply Rabs_R1).
  destruct (rsim_step Lin 6 CHll md (1 / 2) tt 0 1 10 fuel ltac:(lia) (fun self d u => lin_total Isot 6 (rmesh 6) self d u) ltac:(lra) ltac:(rewrite I2, A1; lra) ltac:(lra))
    as (v & W & G & Co & P & D & s' & E & _).
  exists v. assert (Cv : forall i, (i < 6)%nat -> at2 (n0 XRn) (cons v) 0 i = Fin 1 /\ at2 (n0 XRn) (cons v) 1 i = Fin 0).
  { intros i Hi. destruct (P i Hi) as (P0 & P1 & _).
    rewrite (cst_cons _ _ _ _ _ _ _ Co 0 i), (cst_cons _ _ _ _ _ _ _ Co 1 i) by (cbn; lia). unfold cons_of.
    rewrite P0, P1, X_mul. split; [reflexivity|]. f_equal. ring. }
  split; [exact W|]. split; [exact G|]. split; [exact Cv|]. split; [|exists s'; exact E].
  intros asc. split; [|split].
  - rewrite I2, A1 in D. replace (1 / 2 * (1 / 2) / 1) with (1 / 4) in D by field. exact D.
  - apply lin_rhs; auto.
  - apply rsim_ok; auto.
Qed.

Lemma lin_reached : forall md asc v tn, wsv XRn Isot 6 v -> gamma v = Fin (14 / 10) ->
  reached Isot 6 (rcfg CHll md asc (1 / 2)) (rmesh 6) (fun _ => True) (rsim (N:=Lin) Isot 6 (rcfg CHll md asc (1 / 2)) tt v tn).
Proof.
  intros md asc v tn W G. eexists (one_state v), _. split; [|split; [|split]].
  - split; [split; [exact W|split; exact W]|]. cbn. auto.
  - unfold solver_new, rhs_new. cbn [nf_new Lin bind]. reflexivity.
  - exact I.
  - match goal with |- evolves _ _ _ ?a _ => apply (ev_time XRn Lin Isot 6 (rmesh 6) a a (ts_set_next (Fin tn : nF XRn) (s_ts a)) (ev_refl XRn Lin _ _ _ a)) end.
Qed.

Lemma plain_dt : forall (N : numflux_impl XRn) p S m val fuel (s s' : sim XRn N) d t tn M,
  bt_asc (rk_bt (s_rk s)) = false -> st_calc_dt_cfl p S (s_u s) (ts_cfl (s_ts s)) m = Ok (Fin d : nF XRn) ->
  ts_t (s_ts s) = Fin t -> ts_t_next (s_ts s) = Fin tn -> ts_dt_max (s_ts s) = Fin M -> 0 < tn ->
  rkf_next val fuel p S m s = (s', Ok tt) -> ts_dt (s_ts s') = Fin (Rmin (Rmin d M) (tn - t)).
Proof.
  intros N p S m val fuel s s' d t tn M Ha Hd Ht Hn HM P E. unfold rkf_next in E.
  destruct (calc_dt_expl p S (ts_set_iter (ts_iter (s_ts s) + 1)%N (s_ts s)) (s_u s) m) as [ts1 p1] eqn:Ed.
  unfold calc_dt_expl in Ed. cbn [ts_cfl ts_set_iter] in Ed. rewrite Hd in Ed.
  destruct p1 as [[]|e| |]; try discriminate.
  destruct (nltb XRn (Fin d) _) in Ed; [discriminate|]. injection Ed as <-.
  unfold rkf_asc in E. rewrite Ha in E.
  match type of E with context [calc_rkf_solution val p S (ts_dt (cap_dt ?x)) _ _ _ _] => set (ts1 := x) in * end.
  assert (C1 : ts_dt (cap_dt ts1) = Fin (Rmin (Rmin d M) (tn - t))) by (apply cap_min; auto).
  destruct (calc_rkf_solution val p S (ts_dt (cap_dt ts1)) (s_u s) (s_rk s) (s_rhs s) m) as [[k4 h4] o4] eqn:E4.
  destruct o4 as [x|e| |]; try discriminate E.
  destruct (st_update_from_cons _ _ _ _ _ _) as [u2|e| |]; try discriminate E.
  destruct (if val then _ else _) as [[]|e| |] in E; try discriminate E.
  apply (f_equal fst) in E; cbn [fst] in E; rewrite <- E; cbn [s_ts s_rk ts_set_t ts_dt]; auto.
Qed.

Lemma lin_dt : forall md val fuel v s', st_calc_dt_cfl Isot 6 (one_state v) (Fin (1 / 2) : nF XRn) (rmesh 6) = Ok (Fin (1 / 4) : nF XRn) ->
  solver_next val fuel Isot 6 (rmesh 6) (rsim (N:=Lin) Isot 6 (rcfg CHll md false (1 / 2)) tt v 10) = (s', Ok tt) ->
  ts_dt (s_ts s') = Fin (1 / 4).
Proof.
  intros md val fuel v s' D E. apply next_of_solver in E.
  rewrite (plain_dt Lin Isot 6 (rmesh 6) val fuel (rsim (N:=Lin) Isot 6 (rcfg CHll md false (1 / 2)) tt v 10) s' (1 / 4) 0 10 1000); auto; try lra.
  - f_equal. rewrite (Rmin_left (1 / 4) 1000) by lra. rewrite Rmin_left; lra.
  - destruct md; reflexivity.
Qed.
