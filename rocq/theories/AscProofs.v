(** Automated step control: bounds on the proposed step. *)

From Coq Require Import Reals ZArith NArith QArith Qreals List Bool Lia Lra.
From Verif Require Import Base Num XReal Config Mesh State NumFlux Time Spec SpecFlow.
Import ListNotations.
Local Open Scope R_scope.

Section Propose.
Variables (order : nat) (f d : R).
Hypothesis Ho : (0 < order)%nat.
Hypothesis Hf : 0 < f.
Hypothesis Hd : 0 < d.

Let nine : Q2R (9 # 10) = 9 / 10. Proof. unfold Q2R. cbn. lra. Qed.
Let quarter : Q2R (1 # 4) = / 4. Proof. unfold Q2R. cbn. lra. Qed.
Let Hord : IZR (Z.of_nat order) <> 0. Proof. apply IZR_neq. lia. Qed.
Let Hordp : 0 < IZR (Z.of_nat order). Proof. apply IZR_lt. lia. Qed.

Definition p_ctl (e : R) : R := 9 / 10 * d * exp (-1 * ln e / IZR (Z.of_nat order)).
Definition pi_ctl (e eo : R) : R := p_ctl e * exp (-1 * f * ln (eo / e)).

Lemma p_ctl_pos : forall e, 0 < p_ctl e.
Proof. intros. unfold p_ctl. pose proof (exp_pos (-1 * ln e / IZR (Z.of_nat order))). nra. Qed.
Lemma pi_ctl_pos : forall e eo, 0 < pi_ctl e eo.
Proof. intros. unfold pi_ctl. pose proof (exp_pos (-1 * f * ln (eo / e))). pose proof (p_ctl_pos e). nra. Qed.

Lemma p_ctl_shrinks : forall e, 1 <= e -> p_ctl e <= 9 / 10 * d.
Proof.
  intros e He. unfold p_ctl. assert (exp (-1 * ln e / IZR (Z.of_nat order)) <= 1).
  { rewrite <- exp_0. destruct (Req_dec e 1) as [->|N]; [rewrite ln_1; right; f_equal; field; exact Hord|].
    left. apply exp_increasing. assert (0 < ln e) by (rewrite <- ln_1; apply ln_increasing; lra).
    unfold Rdiv. pose proof (Rinv_0_lt_compat _ Hordp). nra. }
  nra.
Qed.

Lemma propose_small : forall e eo, 0 <= e < 1 -> 0 <= eo ->
  exists d', asc_propose (A:=XRn) order (Fin f) (Fin e) (Fin eo) (Fin d) = Fin d' /\ 0 <= d' <= 4 * d.
Proof.
  intros e eo He Heo. unfold asc_propose. rewrite X_n0, X_n1, !X_ltb.
  destruct (Rlt_dec e 1); [|lra].
  destruct (Rlt_dec 0 e) as [E|E].
  - rewrite X_ln by exact E. rewrite !X_Z, !X_Q, !X_mul, X_div by exact Hord. rewrite X_exp, X_mul.
    rewrite nine. fold (p_ctl e). destruct (Rlt_dec 0 eo) as [O|O].
    + rewrite X_div by lra. rewrite X_ln by (apply Rdiv_lt_0_compat; lra). rewrite !X_mul, X_exp, X_mul. fold (pi_ctl e eo).
      rewrite X_min. eexists. split; [reflexivity|]. pose proof (pi_ctl_pos e eo). unfold Rmin. destruct (Rle_dec (pi_ctl e eo) (4 * d)); lra.
    + rewrite X_min. eexists. split; [reflexivity|]. pose proof (p_ctl_pos e). unfold Rmin. destruct (Rle_dec (p_ctl e) (4 * d)); lra.
  - assert (e = 0) by lra. subst e. rewrite X_Z, X_mul. destruct (Rlt_dec 0 eo) as [O|O].
    + cbn [ndiv XRn xdiv]. destruct (Req_EM_T 0 0); [|lra]. unfold xinf_sgn. destruct (Rlt_dec 0 eo); [|lra].
      cbn. destruct (Rlt_dec 0 (-1 * f)) as [?|?]; [lra|].
      unfold xinf_sgn. destruct (Rlt_dec 0 (-1 * f)); [lra|]. destruct (Rlt_dec (-1 * f) 0); [|lra]. cbn. unfold xinf_sgn.
      destruct (Rlt_dec (4 * d * 0) (4 * d)); [|lra]. exists (4 * d * 0). split; [reflexivity|]. lra.
    + rewrite X_min. exists (4 * d). rewrite Rmin_left by lra. split; [reflexivity|lra].
Qed.

Lemma propose_large : forall e eo, 1 <= e -> 0 <= eo ->
  exists d', asc_propose (A:=XRn) order (Fin f) (Fin e) (Fin eo) (Fin d) = Fin d' /\ d / 4 <= d' <= d /\
             (eo = 0 \/ eo = e -> d' <= 9 / 10 * d).
Proof.
  intros e eo He Heo. unfold asc_propose. rewrite X_n0, X_n1, !X_ltb.
  destruct (Rlt_dec e 1); [lra|]. destruct (Rlt_dec 0 e) as [E|E]; [|lra].
  rewrite X_ln by exact E. rewrite !X_Z, !X_Q, !X_mul, X_div by exact Hord. rewrite X_exp, X_mul.
  rewrite nine, quarter. fold (p_ctl e). pose proof (p_ctl_shrinks e He) as Sh. pose proof (p_ctl_pos e).
  destruct (Rlt_dec 0 eo) as [O|O].
  - rewrite X_div by lra. rewrite X_ln by (apply Rdiv_lt_0_compat; lra). rewrite !X_mul, X_exp, X_mul. fold (pi_ctl e eo).
    rewrite X_ltb. destruct (Rlt_dec d (pi_ctl e eo)) as [L|L].
    + rewrite X_max. eexists. split; [reflexivity|]. unfold Rmax. destruct (Rle_dec (p_ctl e) (/ 4 * d)); split; intros; lra.
    + rewrite X_max. eexists. split; [reflexivity|]. split; [unfold Rmax; destruct (Rle_dec (pi_ctl e eo) (/ 4 * d)); lra|].
      intros [Z|Z]; [lra|]. subst eo. unfold pi_ctl. replace (e / e) with 1 by (field; lra). rewrite ln_1, Rmult_0_r, exp_0, Rmult_1_r.
      unfold Rmax. destruct (Rle_dec (p_ctl e) (/ 4 * d)); lra.
  - rewrite X_ltb. destruct (Rlt_dec d (p_ctl e)); [lra|]. rewrite X_max. eexists. split; [reflexivity|].
    unfold Rmax. destruct (Rle_dec (p_ctl e) (/ 4 * d)); split; intros; lra.
Qed.

(** an infinite error: the smallest allowed step *)
Lemma propose_inf : forall eo, 0 <= eo ->
  asc_propose (A:=XRn) order (Fin f) PInf (Fin eo) (Fin d) = Fin (/ 4 * d).
Proof.
  intros eo Heo. unfold asc_propose. cbn. unfold xinf_sgn. 
  destruct (Rlt_dec 0 (-1)); [lra|]. destruct (Rlt_dec (-1) 0); [|lra]. cbn.
  destruct (Rlt_dec (IZR (Z.of_nat order)) 0); [lra|]. cbn.
  rewrite quarter. assert (K9 : Q2R (9 # 10) * d * 0 = 0) by ring.
  destruct (Rlt_dec 0 eo) as [O|O]; cbn.
  - destruct (Rlt_dec 0 0); [lra|]. destruct (Rlt_dec 0 (-1 * f)); [lra|]. destruct (Rlt_dec (-1 * f) 0); [|lra]. cbn. unfold xinf_sgn.
    match goal with |- context [Rlt_dec 0 ?x] => destruct (Rlt_dec 0 x) as [B|B]; [exfalso; revert B; rewrite K9; lra|] end.
    match goal with |- context [Rlt_dec ?x 0] => destruct (Rlt_dec x 0) as [B2|B2]; [exfalso; revert B2; rewrite K9; lra|] end.
    reflexivity.
  - match goal with |- context [Rlt_dec d ?x] => destruct (Rlt_dec d x) as [B|B]; [exfalso; revert B; rewrite K9; lra|] end.
    cbn. match goal with |- context [Rlt_dec ?y ?x] => destruct (Rlt_dec y x) as [B2|B2]; [exfalso; revert B2; rewrite K9; lra|] end.
    reflexivity.
Qed.
End Propose.

(** The error estimate is never negative (or not a number). *)
Lemma asc_error_pos : forall E S rtol atol hi lo, xle (Fin 0) (asc_error (A:=XRn) E S rtol atol hi lo).
Proof.
  intros. unfold asc_error.
  assert (K : forall l a g, xle (Fin 0) a -> xle (Fin 0) (fold_left (fun acc (i : nat) => nmax XRn acc (nabs XRn (g i))) l a)).
  { induction l as [|i l IH]; intros a g Ha; cbn [fold_left]; [exact Ha|]. apply IH.
    destruct a as [a| | |]; cbn in Ha; try contradiction; destruct (g i) as [x| | |]; cbn; auto; try lra.
    destruct (Rlt_dec (Rabs x) a); cbn; [lra|apply Rabs_pos]. }
  assert (G : forall l a, xle (Fin 0) a -> xle (Fin 0) (fold_left (fun acc j => fold_left (fun acc i => nmax XRn acc
     (nabs XRn (ndiv XRn (nsub XRn (at2 (n0 XRn) hi j i) (at2 (n0 XRn) lo j i)) (nmul XRn rtol (nadd XRn (at2 (n0 XRn) hi j i) atol))))) (seq 2 (S - 4)) acc) l a)).
  { induction l as [|j l IH]; intros a Ha; cbn [fold_left]; [exact Ha|]. apply IH. apply (K (seq 2 (S - 4)) a _ Ha). }
  apply G. cbn. lra.
Qed.

(** What one evaluation with automated step control proposes. *)
Lemma calc_propose : forall A (N : numflux_impl A) val p S dt u rk rh m rk' rh' dt',
  calc_rkf_solution (N:=N) val p S dt u rk rh m = (rk', rh', Ok dt') -> rk_accepted rk = false ->
  (forall rk0 rh0 qs o rk1 rh1, rkf_stages (N:=N) val p S m dt u qs rk0 rh0 = (rk1, rh1, o) ->
     rk_accepted rk1 = rk_accepted rk0 /\ rk_friction rk1 = rk_friction rk0 /\ rk_err_old rk1 = rk_err_old rk0) ->
  dt' = asc_propose (bt_order (rk_bt rk)) (rk_friction rk) (rk_err_new rk') (rk_err_old rk) dt /\
  exists E S rt at_ hi lo, rk_err_new rk' = asc_error E S rt at_ hi lo.
Proof.
  intros A N val p S dt u rk rh m rk' rh' dt' H Ha Hst. unfold calc_rkf_solution in H.
  destruct (rkf_stages val p S m dt u (seq 0 (bt_order (rk_bt rk))) (rk_set_k (repeat (zeros2 (nE p) S) (bt_order (rk_bt rk))) rk) rh) as [[k h] o] eqn:E.
  destruct (Hst _ _ _ _ _ _ E) as (S1 & S2 & S3). cbn [rk_accepted rk_friction rk_err_old rk_set_k] in S1, S2, S3.
  destruct o as [[]|e| |]; try discriminate. cbn [rk_accepted rk_set_utilde] in H. rewrite S1, Ha in H.
  match type of H with context [if val then ?x else _] => destruct (if val then x else Ok tt) as [[]|e| |] end; try discriminate.
  injection H as <- <- <-. cbn [rk_err_new rk_set_err rk_friction rk_err_old rk_set_utilde]. rewrite S2, S3. split; [reflexivity|].
  do 6 eexists. reflexivity.
Qed.

Lemma stages_fields : forall A (N : numflux_impl A) val p S m dt u qs rk rh rk' rh' o,
  rkf_stages (N:=N) val p S m dt u qs rk rh = (rk', rh', o) ->
  rk_accepted rk' = rk_accepted rk /\ rk_friction rk' = rk_friction rk /\ rk_err_old rk' = rk_err_old rk.
Proof.
  induction qs as [|q qs IH]; intros rk rh rk' rh' o H; cbn [rkf_stages] in H; [injection H as <- <- <-; auto|].
  match type of H with context [rhs_update ?a ?b ?c ?d ?e ?f] => destruct (rhs_update a b c d e f) as [[h w] r] end.
  destruct r as [[]|e| |]; try (injection H as <- <- <-; auto). apply IH in H. exact H.
Qed.

Lemma asc_bounds : forall (N : numflux_impl XRn) val p S d u rk rh m rk' rh' dt' f eo,
  calc_rkf_solution (N:=N) val p S (Fin d : nF XRn) u rk rh m = (rk', rh', Ok dt') -> rk_accepted rk = false ->
  (0 < bt_order (rk_bt rk))%nat -> 0 < d -> rk_friction rk = Fin f -> 0 < f -> rk_err_old rk = Fin eo -> 0 <= eo ->
  exists d', dt' = Fin d' /\
    match rk_err_new rk' with
    | Fin e => 0 <= e /\ (e < 1 -> 0 <= d' <= 4 * d) /\ (1 <= e -> d / 4 <= d' <= d) /\ (1 <= e -> eo = 0 \/ eo = e -> d' <= 9 / 10 * d)
    | PInf => d' = d / 4
    | _ => False
    end.
Proof.
  intros N val p S d u rk rh m rk' rh' dt' f eo H Ha Ho Hd Ff Hf Fe He.
  destruct (calc_propose XRn N _ _ _ _ _ _ _ _ _ _ _ H Ha (fun rk0 rh0 qs o rk1 rh1 X => stages_fields XRn N _ _ _ _ _ _ _ _ _ _ _ _ X)) as (E & e1 & e2 & e3 & e4 & e5 & e6 & Q).
  pose proof (asc_error_pos e1 e2 e3 e4 e5 e6) as P. rewrite <- Q in P. rewrite Ff, Fe in E.
  destruct (rk_err_new rk') as [e| | |]; cbn in P; try contradiction.
  - destruct (Rlt_le_dec e 1) as [L|L].
    + destruct (propose_small (bt_order (rk_bt rk)) f d Ho Hf Hd e eo ltac:(lra) He) as (d' & E' & B). exists d'. split; [congruence|].
      split; [exact P|]. split; [auto|]. split; intros; lra.
    + destruct (propose_large (bt_order (rk_bt rk)) f d Ho Hd e eo L He) as (d' & E' & B1 & B2). exists d'. split; [congruence|].
      split; [exact P|]. split; [intros; lra|]. auto.
  - exists (d / 4). split; [|reflexivity]. rewrite E. rewrite propose_inf by assumption. f_equal. lra.
Qed.
