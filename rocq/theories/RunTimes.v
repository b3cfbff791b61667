(** Times of a run in exact arithmetic. *)

From Coq Require Import Reals ZArith NArith QArith Qreals List Bool Lia Lra String.
From Verif Require Import Base Num XReal Config Mesh State NumFlux Time Writer Runner Spec SpecFlow SpecStep StepProofs StepInv TimeProofs TimeMore AscProofs SpecRun RunProofs.
Import ListNotations.
Local Open Scope R_scope.

(** ** Step control never proposes a negative step *)
Lemma Q2R_tenth : Q2R (9 # 10) = 9 / 10. Proof. unfold Q2R. cbn. lra. Qed.
Lemma Q2R_quarter : Q2R (1 # 4) = / 4. Proof. unfold Q2R. cbn. lra. Qed.

(** a number that is not negative (NaN allowed) *)
Definition nneg_or_nan (x : XR) : Prop := match x with Fin r => 0 <= r | PInf => True | NInf => False | XNaN => True end.

Lemma exp_nneg : forall x : XR, nneg_or_nan (xexp x).
Proof. intros [r| | |]; cbn; auto; [left; apply exp_pos|lra]. Qed.

Lemma mul_nneg : forall x y, nneg_or_nan x -> nneg_or_nan y -> nneg_or_nan (xmul x y).
Proof.
  intros [x| | |] [y| | |] Hx Hy; cbn in *; auto; try contradiction.
  - nra.
  - unfold xinf_sgn. destruct (Rlt_dec 0 x); [exact I|]. destruct (Rlt_dec x 0); [lra|exact I].
  - unfold xinf_sgn. destruct (Rlt_dec 0 y); [exact I|]. destruct (Rlt_dec y 0); [lra|exact I].
Qed.

Lemma propose_nneg : forall order f e eo d, (0 < order)%nat -> xle (Fin 0) e -> 0 <= d ->
  exists d', asc_propose (A:=XRn) order f e eo (Fin d) = Fin d' /\ 0 <= d'.
Proof.
  intros order f e eo d Ho He Hd. unfold asc_propose. rewrite X_n0, X_n1.
  set (y := nexp XRn (nmul XRn (nmul XRn (nZ XRn (-1)) f) (nln XRn (ndiv XRn eo e)))).
  assert (Hy : nneg_or_nan y) by apply exp_nneg.
  assert (Ht : exists t, (if nltb XRn (Fin 0) e then nmul XRn (nmul XRn (nQ XRn (9 # 10)) (Fin d)) (nexp XRn (ndiv XRn (nmul XRn (nZ XRn (-1)) (nln XRn e)) (nZ XRn (Z.of_nat order))))
                  else nmul XRn (nZ XRn 4) (Fin d)) = Fin t /\ 0 <= t).
  { assert (Hord : 0 < IZR (Z.of_nat order)) by (apply IZR_lt; lia).
    destruct e as [e| | |]; cbn in He; try contradiction.
    - rewrite X_ltb. destruct (Rlt_dec 0 e).
      + rewrite X_ln by assumption. rewrite X_Q, !X_Z, !X_mul, X_div by lra. rewrite X_exp, X_mul. eexists. split; [reflexivity|].
        rewrite Q2R_tenth. pose proof (exp_pos (-1 * ln e / IZR (Z.of_nat order))). nra.
      + rewrite X_Z, X_mul. eexists. split; [reflexivity|lra].
    - cbn. unfold xinf_sgn. destruct (Rlt_dec 0 (-1)); [lra|]. destruct (Rlt_dec (-1) 0); [|lra]. cbn.
      destruct (Rlt_dec (IZR (Z.of_nat order)) 0); [lra|]. cbn. eexists. split; [reflexivity|]. lra. }
  destruct Ht as (t & -> & Ht).
  match goal with |- context [if nltb XRn (Fin 0) eo then ?a else ?b] => set (x := if nltb XRn (Fin 0) eo then a else b) end.
  assert (Hx : nneg_or_nan x).
  { unfold x. destruct (nltb XRn (Fin 0) eo); [|exact Ht]. apply mul_nneg; [exact Ht|exact Hy]. }
  clearbody x.
  destruct (nltb XRn e (Fin 1)).
  - rewrite X_Z, X_mul. destruct x as [x| | |]; cbn in Hx; try contradiction.
    + rewrite X_min. eexists. split; [reflexivity|]. apply Rmin_glb; lra.
    + cbn. eexists. split; [reflexivity|lra].
    + cbn. eexists. split; [reflexivity|lra].
  - rewrite X_Q, X_mul, Q2R_quarter.
    assert (exists z, (if nltb XRn (Fin d) x then Fin t : nF XRn else x) = z /\ (z = XNaN \/ exists r, z = Fin r /\ 0 <= r)) as (z & -> & Hz).
    { destruct x as [x| | |]; cbn in Hx; try contradiction.
      - eexists. split; [reflexivity|]. right. rewrite X_ltb. destruct (Rlt_dec d x); eauto.
      - cbn. eauto 10.
      - cbn. eauto 10. }
    destruct Hz as [->|(r & -> & Hr)].
    + cbn. eexists. split; [reflexivity|lra].
    + rewrite X_max. eexists. split; [reflexivity|]. eapply Rle_trans; [exact Hr|apply Rmax_l].
Qed.

Definition err_ok (rk : rkf XRn) : Prop := xle (Fin 0) (rk_err_old rk) /\ (0 < bt_order (rk_bt rk))%nat.

Section Times.
Variable N : numflux_impl XRn.

Lemma stages_bt : forall val p S m dt u qs rk rh rk' rh' o,
  rkf_stages (N:=N) val p S m dt u qs rk rh = (rk', rh', o) -> rk_bt rk' = rk_bt rk.
Proof. intros. apply stages_static in H. destruct H as ((H & _) & _). exact H. Qed.

(** one evaluation *)
Lemma calc_nneg : forall val p S d u rk rh m rk' rh' o, calc_rkf_solution (N:=N) val p S (Fin d : nF XRn) u rk rh m = (rk', rh', o) ->
  err_ok rk -> 0 <= d -> err_ok rk' /\ forall dt, o = Ok dt -> exists d', dt = Fin d' /\ 0 <= d'.
Proof.
  intros val p S d u rk rh m rk' rh' o H (He & Ho) Hd. unfold calc_rkf_solution in H.
  match type of H with context [rkf_stages ?a ?b ?c ?d ?e ?f ?g ?h ?i] => destruct (rkf_stages a b c d e f g h i) as [[k h1] o1] eqn:E end.
  pose proof (stages_bt _ _ _ _ _ _ _ _ _ _ _ _ E) as B. destruct (stages_fields _ _ _ _ _ _ _ _ _ _ _ _ _ _ E) as (_ & _ & F). cbn [rk_bt rk_err_old rk_set_k] in B, F.
  assert (K : err_ok k) by (unfold err_ok; rewrite B, F; auto).
  destruct o1 as [[]|e| |]; try (injection H as <- <- <-; split; [exact K|discriminate]).
  cbv zeta in H. cbn [rk_accepted rk_set_utilde] in H.
  destruct (rk_accepted k).
  - match type of H with context [if val then ?x else _] => destruct (if val then x else Ok tt) as [[]|e| |] end; injection H as <- <- <-; (split; [exact K|]); try discriminate.
    intros dt Q. injection Q as <-. eauto.
  - assert (P : forall (x : nF XRn) lo r, xle (Fin 0) x -> err_ok r -> err_ok (rk_set_err x lo r)) by (intros x lo r Hx (_ & Hr); split; [exact Hx|exact Hr]).
    match type of H with context [if val then ?x else _] => destruct (if val then x else Ok tt) as [[]|e| |] end; injection H as <- <- <-;
      (split; [apply P; [apply asc_error_pos|exact K]|]); try discriminate.
    intros dt Q. injection Q as <-. apply propose_nneg; [exact Ho|apply asc_error_pos|exact Hd].
Qed.

(** the step control loop ends with a capped step *)
Lemma asc_times : forall val fuel p S ts u rk rh m ts' rk' rh' o d t tn,
  asc_loop (N:=N) val fuel p S ts u rk rh m = (ts', rk', rh', o) -> err_ok rk ->
  ts_dt ts = Fin d -> 0 <= d -> ts_t ts = Fin t -> ts_t_next ts = Fin tn -> 0 <= t <= tn -> 0 < tn -> xle (Fin 0) (ts_dt_max ts) ->
  (rk_accepted rk = true -> t + d <= tn) ->
  err_ok rk' /\ (o = Ok tt -> exists d', ts_dt ts' = Fin d' /\ 0 <= d' /\ t + d' <= tn).
Proof.
  intros val fuel p S. induction fuel as [|fuel IH]; intros ts u rk rh m ts' rk' rh' o d t tn H He Ed Hd Et En Ht Hn HM Hc; cbn [asc_loop] in H.
  - destruct (rk_accepted rk); injection H as <- <- <- <-; (split; [exact He|]); [eauto|discriminate].
  - destruct (rk_accepted rk) eqn:Ea; [injection H as <- <- <- <-; split; [exact He|eauto]|]. rewrite Ed in H.
    destruct (calc_rkf_solution val p S (Fin d : nF XRn) u rk rh m) as [[rk1 rh1] o1] eqn:E.
    destruct (calc_nneg _ _ _ _ _ _ _ _ _ _ _ E He Hd) as (He1 & Hdt).
    destruct o1 as [dt|e| |]; try (injection H as <- <- <- <-; split; [exact He1|discriminate]).
    destruct (Hdt _ eq_refl) as (d1 & -> & Hd1).
    assert (Acc1 : rk_accepted rk1 = false).
    { apply calc_static in E. destruct E as (_ & _ & E & _). congruence. }
    destruct (nltb XRn (rk_err_new rk1) (n1 XRn)).
    + destruct (cap_R (ts_set_dt (Fin d1 : nF XRn) ts) d1 t tn eq_refl Et En Ht Hd1 HM (or_introl Hn)) as (d2 & C1 & C2 & C3 & _).
      destruct (cap_static XRn (ts_set_dt (Fin d1 : nF XRn) ts)) as (CS & CT & _).
      destruct CS as (_ & _ & _ & CM & _ & _ & CN).
      eapply IH with (d := d2) (t := t) (tn := tn) in H; auto.
      * rewrite CT. exact Et.
      * rewrite CN. exact En.
      * rewrite CM. exact HM.
    + eapply IH with (d := d1) (t := t) (tn := tn) in H; auto. intros Q. cbn in Q. congruence.
Qed.

(** Where a step leaves the time. *)
Lemma step_time : forall val fuel p S m (s s' : sim XRn N) o t tn dmin,
  solver_next val fuel p S m s = (s', o) -> err_ok (s_rk s) ->
  ts_t (s_ts s) = Fin t -> ts_t_next (s_ts s) = Fin tn -> 0 <= t <= tn -> 0 < tn ->
  ts_dt_min (s_ts s) = Fin dmin -> 0 < dmin -> xlt (Fin 0) (ts_dt_max (s_ts s)) ->
  err_ok (s_rk s') /\ exists t', ts_t (s_ts s') = Fin t' /\ t <= t' <= tn.
Proof.
  intros val fuel p S m s s' o t tn dmin H He Et En Ht Hn Hm Hmp HM.
  unfold solver_next in H. destruct (rkf_next val fuel p S m s) as [s1 o1] eqn:E1.
  assert (Es : s' = s1).
  { destruct o1 as [[]|e| |]; try (apply (f_equal fst) in H; cbn [fst] in H; congruence).
    destruct (ts_iter_max (s_ts s1) <=? ts_iter (s_ts s1))%N; apply (f_equal fst) in H; cbn [fst] in H; congruence. }
  subst s'. clear H.
  assert (HM' : xle (Fin 0) (ts_dt_max (s_ts s))) by (destruct (ts_dt_max (s_ts s)); cbn [xlt xle] in *; auto; lra).
  assert (K : err_ok (s_rk s1) /\ (o1 = Ok tt -> exists d', ts_dt (s_ts s1) = Fin d' /\ 0 <= d' /\ t + d' <= tn)).
  { unfold rkf_next, calc_dt_expl in E1. cbn [ts_cfl ts_set_iter] in E1.
    destruct (st_calc_dt_cfl p S (s_u s) (ts_cfl (s_ts s)) m) as [dt|e| |] eqn:Ec; try (injection E1 as <- <-; split; [exact He|discriminate]).
    cbn [ts_dt_min ts_set_dt ts_set_iter] in E1. destruct (nltb XRn dt (ts_dt_min (s_ts s))) eqn:L; [injection E1 as <- <-; split; [exact He|discriminate]|].
    apply cfl_fin in Ec. apply xfin_inv in Ec. destruct Ec as (d & ->). rewrite Hm, X_ltb in L.
    assert (Hd : 0 <= d) by (destruct (Rlt_dec d dmin); [discriminate|lra]).
    match type of E1 with context [cap_dt ?x] => set (ts0 := x) in * end.
    destruct (cap_R ts0 d t tn eq_refl Et En Ht Hd HM' (or_introl Hn)) as (d2 & C1 & C2 & C3 & _).
    destruct (cap_static XRn ts0) as (CS & CT & _). destruct CS as (_ & _ & _ & CM & _ & _ & CN).
    destruct (rkf_asc val fuel p S (cap_dt ts0) (s_u s) (s_rk s) (s_rhs s) m) as [[[ts2 rk2] rh2] o2] eqn:E2.
    assert (K : err_ok rk2 /\ (o2 = Ok tt -> exists d', ts_dt ts2 = Fin d' /\ 0 <= d' /\ t + d' <= tn)).
    { unfold rkf_asc in E2. destruct (bt_asc (rk_bt (s_rk s))).
      - eapply asc_times with (d := d2) (t := t) (tn := tn) in E2; auto.
        + rewrite CT. exact Et.
        + rewrite CN. exact En.
        + rewrite CM. exact HM'.
      - apply (f_equal fst) in E2 as Q. cbn [fst] in Q. injection Q as <- <- <-. split; [exact He|]. intros _. eauto. }
    destruct K as (K1 & K2). destruct o2 as [[]|e| |]; try (injection E1 as <- <-; split; [exact K1|discriminate]).
    destruct (K2 eq_refl) as (d3 & D1 & D2 & D3). rewrite D1 in E1.
    destruct (calc_rkf_solution val p S (Fin d3 : nF XRn) (s_u s) rk2 rh2 m) as [[rk3 rh3] o3] eqn:E3.
    destruct (calc_nneg _ _ _ _ _ _ _ _ _ _ _ E3 K1 D2) as (He3 & _).
    destruct o3 as [x|e| |]; try (injection E1 as <- <-; split; [exact He3|discriminate]).
    match type of E1 with context [st_update_from_cons ?a ?b ?c ?d ?e ?f] => destruct (st_update_from_cons a b c d e f) as [u2|e2| |] end;
      try (injection E1 as <- <-; split; [exact He3|discriminate]).
    match type of E1 with context [if val then ?a else ?b] => destruct (if val then a else b) as [[]|e3| |] end;
      try (injection E1 as <- <-; split; [exact He3|discriminate]).
    apply (f_equal fst) in E1. cbn [fst] in E1. subst s1. cbn [s_rk s_ts ts_set_t ts_dt]. split; [exact He3|]. intros _. eauto. }
  destruct K as (K1 & K2). split; [exact K1|].
  destruct (rkf_next_cases _ _ _ _ _ _ _ _ _ _ E1) as (_ & _ & _ & _ & [(_ & _ & T)|(k & _ & [(_ & _ & T)|(v & _ & _ & [(e & _ & _ & _ & T)|(-> & _ & T)])])]).
  1-3: exists t; split; [congruence|lra].
  destruct (K2 eq_refl) as (d' & D1 & D2 & D3). rewrite D1, Et, X_add in T. exists (t + d'). split; [exact T|lra].
Qed.

(** ** The invariant of a run *)
Variables (c : config XRn) (t0 t1 dmin D : R) (M : BinNums.N).
Hypothesis Hv : valid_config (A:=XRn) (fun x => x) c.
Hypothesis HT : times c t0 t1 dmin M D.
Hypothesis HD : 0 < D.

(** after [k] outputs; [t] is the time *)
Record inv (s : sim XRn N) (k : nat) (t : R) : Prop := {
  iv_t : ts_t (s_ts s) = Fin t;
  iv_next : ts_t_next (s_ts s) = Fin (t0 + INR k * D);
  iv_le : t0 <= t <= t0 + INR k * D;
  iv_dmin : ts_dt_min (s_ts s) = Fin dmin;
  iv_dmax : ts_dt_max (s_ts s) = nc_dt_max (cf_numerics c);
  iv_end : ts_t_end (s_ts s) = Fin t1;
  iv_out : ts_dt_output (s_ts s) = Fin D;
  iv_err : err_ok (s_rk s) }.

Lemma t0_pos : 0 <= t0.
Proof. destruct HT as (E & _). pose proof (vc_t0 _ _ _ Hv) as H. cbv beta in H. rewrite E in H. exact H. Qed.
Lemma dmin_pos : 0 < dmin.
Proof. destruct HT as (_ & _ & E & _). pose proof (vc_dt_min _ _ _ Hv) as H. cbv beta in H. rewrite E in H. exact H. Qed.
Lemma dmax_pos : xlt (Fin 0) (nc_dt_max (cf_numerics c)).
Proof. exact (vc_dt_max _ _ _ Hv). Qed.

Lemma inv_start : forall p S (s : sim XRn N), at_start p S c s -> inv s 0 t0.
Proof.
  intros p S s (E1 & E2). destruct HT as (T1 & T2 & T3 & T4 & T5 & T6).
  assert (HM : IZR (Z.of_N M) <> 0) by (apply IZR_neq; lia).
  assert (Z0 : t0 + INR 0 * D = t0) by (cbn; ring).
  split; rewrite ?E1, ?E2, ?Z0; cbn [ts_new ts_t ts_t_next ts_dt_min ts_dt_max ts_t_end ts_dt_output]; auto; try lra.
  - rewrite T2, T1, X_sub, T4, X_Z, X_div by exact HM. f_equal. rewrite <- T6. field. exact HM.
  - split; [cbn; lra|]. unfold rkf_new. cbn [rk_bt]. unfold bt_new. destruct (rc_mode (nc_time (cf_numerics c))); cbn; lia.
Qed.

Lemma inv_moved : forall s k t, inv s k t -> inv (moved_on s) (Datatypes.S k) t.
Proof.
  intros s k t [I1 I2 I3 I4 I5 I6 I7 I8]. split; auto; cbn [moved_on s_ts ts_set_next ts_t_next].
  - rewrite I2, I7, X_add, S_INR. f_equal. ring.
  - rewrite S_INR. lra.
Qed.

Lemma inv_step : forall val fuel p S m s s' o k t, inv s (Datatypes.S k) t -> solver_next val fuel p S m s = (s', o) ->
  exists t', inv s' (Datatypes.S k) t' /\ t <= t'.
Proof.
  intros val fuel p S m s s' o k t [I1 I2 I3 I4 I5 I6 I7 I8] E. pose proof t0_pos. pose proof dmin_pos. pose proof dmax_pos.
  assert (0 < t0 + INR (Datatypes.S k) * D). { rewrite S_INR. pose proof (pos_INR k). nra. }
  destruct (step_time _ _ _ _ _ _ _ _ _ _ dmin E I8 I1 I2) as (K1 & t' & K2 & K3); auto; try lra; [rewrite I5; assumption|].
  exists t'. split; [|lra].
  assert (ST : ts_static XRn (s_ts s) (s_ts s')).
  { unfold solver_next in E. destruct (rkf_next val fuel p S m s) as [s1 o1] eqn:E1.
    assert (Es : s' = s1).
    { destruct o1 as [[]|e| |]; try (apply (f_equal fst) in E; cbn [fst] in E; congruence).
      destruct (ts_iter_max (s_ts s1) <=? ts_iter (s_ts s1))%N; apply (f_equal fst) in E; cbn [fst] in E; congruence. }
    subst s1. destruct (rkf_next_cases _ _ _ _ _ _ _ _ _ _ E1) as (_ & _ & T & _). exact T. }
  destruct ST as (X1 & X2 & X3 & X4 & X5 & X6 & X7). split; auto; try congruence. lra.
Qed.

(** [tr] is a list of outputs at the right times, the last not after [t]. *)
Inductive good_trace : list (snapshot XRn) -> nat -> R -> Prop :=
| gt_nil : forall t, t0 <= t -> good_trace [] 0 t
| gt_snoc : forall tr k t (x : snapshot XRn) t', good_trace tr k t -> ts_t (fst x) = Fin t -> ts_kind (fst x) <> KErrorDump ->
    t0 + INR k * D - dmin <= t <= t0 + INR k * D -> t <= t' -> good_trace (tr ++ [x]) (Datatypes.S k) t'.

Lemma good_mono : forall tr k t t', good_trace tr k t -> t <= t' -> good_trace tr k t'.
Proof. intros tr k t t' H. destruct H; intros; [apply gt_nil; lra|]. eapply gt_snoc; eauto. lra. Qed.

Lemma good_length : forall tr k t, good_trace tr k t -> List.length tr = k.
Proof. intros tr k t H. induction H; [reflexivity|]. rewrite app_length. cbn. lia. Qed.

Lemma good_nth : forall tr k t, good_trace tr k t -> forall i x, nth_error tr i = Some x ->
  exists ti, ts_t (fst x) = Fin ti /\ t0 + INR i * D - dmin <= ti <= t0 + INR i * D /\ ts_kind (fst x) <> KErrorDump /\ ti <= t.
Proof.
  intros tr k t H. induction H as [|tr k t x t' H IH Ex Kx B L]; intros i y E.
  - destruct i; discriminate.
  - pose proof (good_length _ _ _ H) as Len. destruct (lt_dec i (List.length tr)) as [Hi|Hi].
    + rewrite nth_error_app1 in E by exact Hi. destruct (IH _ _ E) as (ti & P1 & P2 & P3 & P4). exists ti. repeat match goal with |- _ /\ _ => split end; auto; lra.
    + rewrite nth_error_app2 in E by lia. destruct (i - List.length tr)%nat as [|j] eqn:Ej; [|destruct j; discriminate]. cbn in E. injection E as <-.
      assert (i = k) by lia. subst i. exists t. repeat match goal with |- _ /\ _ => split end; auto; lra.
Qed.

Lemma good_sorted : forall tr k t, good_trace tr k t -> forall i j x y ti tj, (i <= j)%nat -> nth_error tr i = Some x -> nth_error tr j = Some y ->
  ts_t (fst x) = Fin ti -> ts_t (fst y) = Fin tj -> ti <= tj.
Proof.
  intros tr k t H. induction H as [|tr k t z t' H IH Ex Kx B L]; intros i j x y ti tj Hij Ei Ej Ti Tj.
  - destruct i; discriminate.
  - destruct (lt_dec j (List.length tr)) as [Hj|Hj].
    + rewrite nth_error_app1 in Ei by lia. rewrite nth_error_app1 in Ej by lia. exact (IH i j x y ti tj Hij Ei Ej Ti Tj).
    + rewrite nth_error_app2 in Ej by lia. destruct (j - List.length tr)%nat as [|q] eqn:Eq; [|destruct q; discriminate]. cbn in Ej. injection Ej as <-.
      rewrite Ex in Tj. injection Tj as <-.
      destruct (lt_dec i (List.length tr)) as [Hi|Hi].
      * rewrite nth_error_app1 in Ei by exact Hi. destruct (good_nth _ _ _ H _ _ Ei) as (ti' & P1 & _ & _ & P4). rewrite P1 in Ti. injection Ti as <-. exact P4.
      * assert (i = j) by lia. subst j. rewrite nth_error_app2, Eq in Ei by lia. cbn in Ei. injection Ei as <-. rewrite Ex in Ti. injection Ti as <-. lra.
Qed.

Lemma due_R : forall s k t, inv s k t -> due s = true <-> t0 + INR k * D - dmin <= t.
Proof.
  intros s k t [I1 I2 I3 I4 I5 I6 I7 I8]. unfold due. rewrite I2, I4, I1, X_sub, X_leb. destruct (Rle_dec _ _); split; auto; try discriminate; lra.
Qed.

Lemma finished_R : forall s k t, inv s k t -> finished s = true <-> t1 <= t + dmin / 100.
Proof.
  intros s k t [I1 I2 I3 I4 I5 I6 I7 I8]. unfold finished. rewrite I6, I4, I1, X_Q, X_mul, X_add, X_leb.
  replace (dmin * Q2R (1 # 100)) with (dmin / 100) by (unfold Q2R; cbn; lra). destruct (Rle_dec _ _); split; auto; try discriminate; lra.
Qed.

Section Loop.
Variable fmt : nat -> nF XRn -> string.
Variables (val : bool) (sched : BinNums.N -> list nat) (afuel : nat) (p : phys) (S : nat) (m : mesh XRn).
Variables (s0 : sim XRn N) (wr0 : writer XRn) (w0 : world).
Hypothesis Hs : at_start p S c s0.
Notation af := (after (N:=N) fmt val sched afuel p S m s0 wr0 w0).
Notation rd := (ready (N:=N) fmt val sched afuel p S m s0 wr0 w0).

(** At the beginning of an iteration.  [tp] is the time of the iteration
    before, which did not end the run. *)
Lemma after_inv : forall n s wr w tr, af n s wr w tr -> exists k t, inv s k t /\ good_trace tr k t /\ ts_kind (s_ts s) <> KErrorDump /\
  ((n = 0 /\ k = 0)%nat \/ exists tp, good_trace tr k tp /\ tp <= t /\ tp + dmin / 100 < t1 /\ (0 < k)%nat).
Proof.
  intros n s wr w tr H. induction H as [|n s wr w tr wr1 w1 s2 H (k & t & I & G & K & P) Du O F X|n s wr w tr s2 H (k & t & I & G & K & P) Du F X].
  - exists 0%nat, t0. split; [eapply inv_start; eauto|]. split; [apply gt_nil; lra|]. split; [|left; auto].
    destruct Hs as (E & _). rewrite E. discriminate.
  - pose proof (inv_moved _ _ _ I) as I2. destruct (inv_step _ _ _ _ _ _ _ _ _ _ I2 X) as (t' & I3 & L).
    exists (Datatypes.S k), t'. split; [exact I3|].
    apply (due_R _ _ _ I) in Du. destruct (iv_le _ _ _ I).
    assert (G2 : good_trace (tr ++ [(s_ts (moved_on s), cent (s_u s))]) (Datatypes.S k) t).
    { eapply gt_snoc; [exact G|exact (iv_t _ _ _ I)|exact K| |]; lra. }
    split; [eapply good_mono; [exact G2|exact L]|]. split; [eapply (next_kind XRn N); eauto|]. right. exists t. split; [exact G2|]. split; [exact L|].
    split; [|lia]. destruct (Rlt_le_dec (t + dmin / 100) t1) as [?|Q]; [assumption|]. apply (finished_R _ _ _ I) in Q. congruence.
  - assert (Hk : (0 < k)%nat).
    { destruct P as [(-> & ->)|(tp & _ & _ & _ & ?)]; [|assumption]. exfalso.
      assert (due s = true); [|congruence]. apply (due_R _ _ _ I). pose proof dmin_pos. destruct (iv_le _ _ _ I). cbn. lra. }
    destruct k as [|k]; [lia|]. destruct (inv_step _ _ _ _ _ _ _ _ _ _ I X) as (t' & I3 & L).
    exists (Datatypes.S k), t'. split; [exact I3|]. split; [eapply good_mono; eauto|]. split; [eapply (next_kind XRn N); eauto|]. right. exists t.
    split; [exact G|]. split; [exact L|]. split; [|lia].
    destruct (Rlt_le_dec (t + dmin / 100) t1) as [?|Q]; [assumption|]. apply (finished_R _ _ _ I) in Q. congruence.
Qed.

Lemma after_start_due : forall n s wr w tr k t, af n s wr w tr -> inv s k t -> due s = false -> (0 < k)%nat.
Proof.
  intros n s wr w tr k t H I Du. destruct k; [|lia]. exfalso. assert (due s = true); [|congruence].
  apply (due_R _ _ _ I). pose proof dmin_pos. destruct (iv_le _ _ _ I). cbn. lra.
Qed.

(** The outputs of a run, whatever its outcome. *)
Lemma ready_inv : forall n s wr w tr, rd n s wr w tr -> exists k t, inv s (Datatypes.S k) t /\ good_trace tr (Datatypes.S k) t.
Proof.
  intros n s wr w tr [s1 wr1 w1 tr1 wr2 w2 H Du O|s1 wr1 w1 tr1 H Du].
  - destruct (after_inv _ _ _ _ _ H) as (k & t & I & G & K & _). exists k, t. split; [apply inv_moved; exact I|].
    apply (due_R _ _ _ I) in Du. destruct (iv_le _ _ _ I). eapply gt_snoc; [exact G|exact (iv_t _ _ _ I)|exact K| |]; lra.
  - destruct (after_inv _ _ _ _ _ H) as (k & t & I & G & K & _). pose proof (after_start_due _ _ _ _ _ _ _ H I Du).
    destruct k as [|k]; [lia|]. exists k, t. auto.
Qed.

(** [tr] are the outputs of a run. *)
Definition run_trace (tr : list (snapshot XRn)) : Prop :=
  exists tr1 k t, good_trace tr1 k t /\
    (tr = tr1 \/ exists x t', tr = tr1 ++ [x] /\ ts_t (fst x) = Fin t' /\ t <= t' <= t0 + INR k * D /\ ts_kind (fst x) = KErrorDump).

Lemma run_trace_loop : forall fuel e r, run_loop fmt val sched afuel fuel p S m s0 wr0 w0 = (e, r) -> run_trace (e_trace e).
Proof.
  intros fuel e r E. apply loop_ends in E.
  destruct E as [s1 wr1 w1 tr1 H|n s1 wr1 w1 tr1 wr2 w2 r Hn H Du O NO|n s1 wr1 w1 tr1 Hn H F|n s1 wr1 w1 tr1 s2 er s3 wr2 w2 r Hn H F X -> O|n s1 wr1 w1 tr1 s2 r Hn H F X R]; cbn [e_trace].
  - destruct (after_inv _ _ _ _ _ H) as (k & t & I & G & K & _). exists tr1, k, t. auto.
  - destruct (after_inv _ _ _ _ _ H) as (k & t & I & G & K & _). apply (due_R _ _ _ I) in Du. destruct (iv_le _ _ _ I).
    exists (tr1 ++ [(s_ts (moved_on s1), cent (s_u s1))]), (Datatypes.S k), t. split; [|auto].
    eapply gt_snoc; [exact G|exact (iv_t _ _ _ I)|exact K| |]; lra.
  - destruct (ready_inv _ _ _ _ _ H) as (k & t & I & G). exists tr1, (Datatypes.S k), t. auto.
  - destruct (ready_inv _ _ _ _ _ H) as (k & t & I & G). exists tr1, (Datatypes.S k), t. split; [exact G|]. right.
    destruct (inv_step _ _ _ _ _ _ _ _ _ _ I X) as (t' & I' & L). do 2 eexists. split; [reflexivity|]. cbn [fst]. split; [exact (iv_t _ _ _ I')|].
    destruct (iv_le _ _ _ I'). split; [lra|reflexivity].
  - destruct (ready_inv _ _ _ _ _ H) as (k & t & I & G). exists tr1, (Datatypes.S k), t. auto.
Qed.

Lemma run_trace_nth : forall tr, run_trace tr -> forall i (x : snapshot XRn), nth_error tr i = Some x ->
  exists ti, ts_t (fst x) = Fin ti /\ ti <= t0 + INR i * D /\ (ts_kind (fst x) <> KErrorDump -> t0 + INR i * D - dmin <= ti).
Proof.
  intros tr (tr1 & k & t & G & C) i x E. destruct C as [->|(y & t' & -> & Ey & B & Ky)].
  - destruct (good_nth _ _ _ G _ _ E) as (ti & P1 & P2 & _). exists ti. split; [exact P1|]. split; [lra|]. intros _. lra.
  - pose proof (good_length _ _ _ G). destruct (lt_dec i (List.length tr1)) as [Hi|Hi].
    + rewrite nth_error_app1 in E by exact Hi. destruct (good_nth _ _ _ G _ _ E) as (ti & P1 & P2 & _). exists ti. split; [exact P1|]. split; [lra|]. intros _. lra.
    + rewrite nth_error_app2 in E by lia. destruct (i - List.length tr1)%nat as [|q] eqn:Eq; [|destruct q; discriminate]. cbn in E. injection E as <-.
      exists t'. split; [exact Ey|]. replace i with k by lia. split; [lra|]. intros Q. contradiction.
Qed.

Lemma run_trace_sorted : forall tr, run_trace tr -> forall i j (x y : snapshot XRn) ti tj, (i <= j)%nat -> nth_error tr i = Some x -> nth_error tr j = Some y ->
  ts_t (fst x) = Fin ti -> ts_t (fst y) = Fin tj -> ti <= tj.
Proof.
  intros tr (tr1 & k & t & G & C) i j x y ti tj Hij Ei Ej Ti Tj. destruct C as [->|(z & t' & -> & Ez & B & Kz)].
  - exact (good_sorted _ _ _ G i j x y ti tj Hij Ei Ej Ti Tj).
  - destruct (lt_dec j (List.length tr1)) as [Hj|Hj].
    + rewrite nth_error_app1 in Ei by lia. rewrite nth_error_app1 in Ej by lia. exact (good_sorted _ _ _ G i j x y ti tj Hij Ei Ej Ti Tj).
    + rewrite nth_error_app2 in Ej by lia. destruct (j - List.length tr1)%nat as [|q] eqn:Eq; [|destruct q; discriminate]. cbn in Ej. injection Ej as <-.
      rewrite Ez in Tj. injection Tj as <-. destruct (lt_dec i (List.length tr1)) as [Hi|Hi].
      * rewrite nth_error_app1 in Ei by exact Hi. destruct (good_nth _ _ _ G _ _ Ei) as (ti' & P1 & _ & _ & P4). rewrite P1 in Ti. injection Ti as <-. lra.
      * assert (i = j) by lia. subst j. rewrite nth_error_app2, Eq in Ei by lia. cbn in Ei. injection Ei as <-. rewrite Ez in Ti. injection Ti as <-. lra.
Qed.

(** The end of a successful run. *)
Lemma run_ok_end : forall fuel e, run_loop fmt val sched afuel fuel p S m s0 wr0 w0 = (e, Ok tt) ->
  exists t, inv (e_sim e) (List.length (e_trace e)) t /\ t1 <= t + dmin / 100 /\
    (dmin / 100 < D -> IZR (Z.of_N M) < INR (List.length (e_trace e))) /\
    (dmin <= D -> INR (List.length (e_trace e)) < IZR (Z.of_N M) + 3 /\ t <= t1 + D) /\
    (dmin < D -> due (e_sim e) = false).
Proof.
  intros fuel e E. apply loop_ends in E. pose proof dmin_pos as Dm. pose proof t0_pos as T0.
  assert (TE : D * IZR (Z.of_N M) = t1 - t0) by apply HT.
  assert (MP : 1 <= IZR (Z.of_N M)) by (destruct HT as (_ & _ & _ & _ & HM & _); apply IZR_le; lia).
  (* a lower bound on a number of intervals gives one on integers *)
  remember (Ok tt : res unit) as r eqn:Er. destruct E as [s1 wr1 w1 tr1 H|n s1 wr1 w1 tr1 wr2 w2 r Hn H Du O NO|n s1 wr1 w1 tr1 Hn H F|n s1 wr1 w1 tr1 s2 er s3 wr2 w2 r Hn H F X -> O|n s1 wr1 w1 tr1 s2 r Hn H F X R].
  - discriminate.
  - contradiction.
  - clear Er. cbn [e_sim e_trace]. destruct H as [s1 wr1 w1 tr1 wr2 w2 H Du O|s1 wr1 w1 tr1 H Du].
    + destruct (after_inv _ _ _ _ _ H) as (k & t & I & G & K & P). rewrite finished_moved in F. apply (finished_R _ _ _ I) in F.
      exists t. rewrite app_length, (good_length _ _ _ G). cbn [List.length]. rewrite Nat.add_1_r. pose proof (inv_moved _ _ _ I) as I2.
      split; [exact I2|]. split; [exact F|]. destruct (iv_le _ _ _ I) as (L1 & L2). rewrite S_INR.
      split; [intros Q; nra|].
      assert (Kb : dmin <= D -> INR k < IZR (Z.of_N M) + 2).
      { intros Q. destruct P as [(_ & ->)|(tp & G2 & T1 & T2 & Hk)]; [cbn; lra|].
        destruct G2 as [|tr2 k2 t2 x t3 G2 Ex Kx B L]; [lia|]. rewrite S_INR. nra. }
      split.
      * intros Q. specialize (Kb Q). split; [lra|].
        assert (INR k <= IZR (Z.of_N M) + 1).
        { rewrite INR_IZR_INZ in *. rewrite <- (plus_IZR _ 2) in Kb. apply lt_IZR in Kb. rewrite <- (plus_IZR _ 1). apply IZR_le. lia. }
        nra.
      * intros Q. apply not_true_is_false. intros Y. apply (due_R _ _ _ I2) in Y. rewrite S_INR in Y. nra.
    + destruct (after_inv _ _ _ _ _ H) as (k & t & I & G & K & P). apply (finished_R _ _ _ I) in F.
      exists t. rewrite (good_length _ _ _ G). split; [exact I|]. split; [exact F|].
      destruct (iv_le _ _ _ I) as (L1 & L2).
      assert (Nd : t < t0 + INR k * D - dmin).
      { destruct (Rlt_le_dec t (t0 + INR k * D - dmin)) as [?|Y]; [assumption|]. apply (due_R _ _ _ I) in Y. congruence. }
      split; [intros Q; nra|]. pose proof (after_start_due _ _ _ _ _ _ _ H I Du) as Hk0.
      destruct P as [(_ & ->)|(tp & G2 & T1 & T2 & Hk)]; [lia|].
      assert (Kb : dmin <= D -> INR k < IZR (Z.of_N M) + 2).
      { intros Q. destruct G2 as [|tr2 k2 t2 x t3 G2 Ex Kx B L]; [lia|]. rewrite S_INR. nra. }
      split; [|intros _; exact Du].
      intros Q. specialize (Kb Q). split; [lra|].
      assert (INR k <= IZR (Z.of_N M) + 1).
      { rewrite INR_IZR_INZ in *. rewrite <- (plus_IZR _ 2) in Kb. apply lt_IZR in Kb. rewrite <- (plus_IZR _ 1). apply IZR_le. lia. }
      nra.
  - exfalso. destruct r as [[]|?| |]; discriminate.
  - exfalso. destruct R; congruence.
Qed.
End Loop.
End Times.
