(** Every Runge-Kutta mode is a forward Euler step: proofs. *)

From Coq Require Import Reals ZArith NArith QArith Qreals List Bool Lia Lra.
From Verif Require Import Base Num XReal Config Mesh State NumFlux Time Spec SpecFlow SpecStep SpecTableau
  MeshProofs BoundaryProofs PhysicsProofs FluxProofs UpdateProofs FluxReal FluxThms StepProofs StepInv StepEq TableauProofs.
Import ListNotations.
Local Open Scope nat_scope.

Section Setup.
Variable A : Num.
Variable N : numflux_impl A.
Variables (p : phys) (S : nat) (m : mesh A) (good : nf_T N -> Prop).
Hypothesis HS : 5 <= S.
Hypothesis Hmem : memoryless N p S m good.

Lemma same_setup_sym : forall (k1 k2 : rkf A) (h1 h2 : rhs A N), same_setup p S good k1 h1 k2 h2 -> same_setup p S good k2 h2 k1 h1.
Proof.
  intros k1 k2 h1 h2 [a1 a2 a3 a4 a5 a6 a7 a8 a9 a10 a11]. destruct a4 as (g1 & g2 & g3).
  split; auto; [split; auto|]. intros j i Hj Hi Hg. symmetry. auto.
Qed.
Lemma same_setup_trans : forall (k1 k2 k3 : rkf A) (h1 h2 h3 : rhs A N), same_setup p S good k1 h1 k2 h2 -> same_setup p S good k2 h2 k3 h3 -> same_setup p S good k1 h1 k3 h3.
Proof.
  intros k1 k2 k3 h1 h2 h3 [a1 a2 a3 a4 a5 a6 a7 a8 a9 a10 a11] [b1 b2 b3 b4 b5 b6 b7 b8 b9 b10 b11].
  destruct a4 as (g1 & g2 & g3), b4 as (q1 & q2 & q3).
  split; auto; try congruence; [split; [congruence|split; congruence]|].
  intros j i Hj Hi Hg. rewrite a9 by assumption. auto.
Qed.

Lemma stage_keeps : forall val c u (k : rkf A) (h : rhs A N) h' w o,
  wss p S u -> shape (nE p) S c -> same_setup p S good k h k h ->
  rhs_update val p S h (stage_state A c (rk_utilde k) u) m = (h', w, o) ->
  same_setup p S good k h (rk_set_utilde w k) h'.
Proof.
  intros val c u k h h' w o Hu Hc SS E. destruct SS as [Sb S1 S2 Sg G1 G2 F1 F2 Fg Bw Be].
  destruct (same_stage A p S c _ _ u Hu S1 S2 Sg Hc) as (X1 & X2 & X3).
  set (t := stage_state A c (rk_utilde k) u) in *.
  assert (T1 : wss p S t) by (split; [apply X1|split; [apply X2|apply X3]]).
  assert (Tg : same_gamma (rk_utilde k) t) by (repeat split).
  unfold rhs_update, st_update_from_cons in E.
  pose proof (same_update A p S (r_bw h) (r_be h) m (cent t) (cent t) HS X1) as SU.
  destruct (update_vars_from_cons p S (r_bw h) (r_be h) m (cent t)) as [v| | |]; try contradiction; cbn [bind] in E.
  - destruct SU as (SU & _ & SG).
    destruct (nf_calc N val p S (r_nf h) (r_full h) (set_cent v t) m) as [[[n1 d1] x1] p1] eqn:N1.
    injection E as <- <- <-.
    assert (SST : same_state p S (set_cent v t) (set_cent v t)) by (split; [exact SU|]; split; [reflexivity|]; split; [exact X2|exact X3]).
    destruct (Hmem _ _ _ _ _ _ _ _ _ _ _ _ _ _ _ _ G1 G1 F1 F1 SST N1 N1) as (M1 & M2 & M3 & M4 & M5 & M6 & M7 & M8 & M9).
    split; cbn [rk_utilde rk_bt rk_set_utilde r_nf r_full r_bw r_be]; auto.
    + destruct Tg as (g1 & g2 & g3). unfold same_gamma. rewrite M4, M5, M6. cbn [cent west east set_cent]. rewrite SG. auto.
    + intros j i Hj Hi Hgh. symmetry. apply M8; assumption.
  - injection E as <- <- <-. split; cbn [rk_utilde rk_bt rk_set_utilde]; auto.
Qed.

(** evaluating at [u] itself *)
Lemma state_eta : forall u : state A, stage_state A (cons (cent u)) u u = u.
Proof. intros [[] [] []]. reflexivity. Qed.

Lemma same_setup_utilde : forall (k : rkf A) (h : rhs A N) u, wss p S u -> same_gamma (rk_utilde k) u -> same_setup p S good k h k h ->
  same_setup p S good k h (rk_set_utilde u k) h.
Proof.
  intros k h u Hu Hg [a1 a2 a3 a4 a5 a6 a7 a8 a9 a10 a11]. split; cbn [rk_utilde rk_bt rk_set_utilde]; auto.
Qed.
Lemma stages_keep : forall val dt u, wss p S u -> forall qs (k : rkf A) (h : rhs A N) k' h' o,
  same_setup p S good k h k h -> rkf_stages val p S m dt u qs k h = (k', h', o) -> same_setup p S good k h k' h'.
Proof.
  intros val dt u Hu. induction qs as [|q qs IH]; intros k h k' h' o SS E; cbn [rkf_stages] in E.
  - injection E as <- <- <-. exact SS.
  - cbn [cent state_assign] in E. cbn [cons vars_assign set_c_sound set_cons set_prim] in E.
    set (c := fold_left (fun c pp => sub_scaled (nE p) S (nmul A dt (at2 (n0 A) (bt_a (rk_bt k)) pp q)) (nth pp (rk_k k) []) c) (seq 0 q) (cons (cent u))) in *.
    assert (Hc : shape (nE p) S c).
    { unfold c. assert (G : forall l x, shape (nE p) S x -> shape (nE p) S (fold_left (fun c pp => sub_scaled (nE p) S (nmul A dt (at2 (n0 A) (bt_a (rk_bt k)) pp q)) (nth pp (rk_k k) []) c) l x)).
      { induction l as [|y l IHl]; intros x Hx; cbn [fold_left]; [exact Hx|]. apply IHl. apply shape_mtab. }
      apply G. apply Hu. }
    change (set_cent (set_cons c (vars_assign (cent (rk_utilde k)) (cent u))) (state_assign (rk_utilde k) u)) with (stage_state A c (rk_utilde k) u) in E.
    destruct (rhs_update val p S h (stage_state A c (rk_utilde k) u) m) as [[g w] o1] eqn:R.
    pose proof (stage_keeps val c u k h g w o1 Hu Hc SS R) as Kp.
    destruct o1 as [[]|e| |].
    2,3,4: injection E as <- <- <-; exact Kp.
    assert (K2 : same_setup p S good k h (rk_set_k (upd q (r_full g) (rk_k (rk_set_utilde w k))) (rk_set_utilde w k)) g).
    { destruct Kp as [a1 a2 a3 a4 a5 a6 a7 a8 a9 a10 a11]. split; cbn [rk_utilde rk_bt rk_set_utilde rk_set_k] in *; auto. }
    eapply same_setup_trans; [exact K2|]. eapply IH; [|exact E].
    eapply same_setup_trans; [apply same_setup_sym; exact K2|exact K2].
Qed.

Lemma calc_keep : forall val dt u (k : rkf A) (h : rhs A N) k' h' o, wss p S u ->
  same_setup p S good k h k h -> calc_rkf_solution val p S dt u k h m = (k', h', o) -> same_setup p S good k h k' h'.
Proof.
  intros val dt u k h k' h' o Hu SS E. unfold calc_rkf_solution in E.
  set (z := repeat (zeros2 (A:=A) (nE p) S) (bt_order (rk_bt k))) in *.
  assert (SZ : same_setup p S good k h (rk_set_k z k) h) by (destruct SS; split; cbn [rk_utilde rk_bt rk_set_k] in *; auto).
  destruct (rkf_stages val p S m dt u (seq 0 (bt_order (rk_bt k))) (rk_set_k z k) h) as [[l g] o1] eqn:R.
  apply stages_keep in R; [|exact Hu|eapply same_setup_trans; [apply same_setup_sym; exact SZ|exact SZ]].
  pose proof (same_setup_trans _ _ _ _ _ _ SZ R) as SL.
  destruct o1 as [[]|e| |]; [|injection E as <- <- <-; exact SL..].
  set (hi := rkf_combine (nE p) S dt (bt_high (rk_bt k)) (rk_k l) (bt_order (rk_bt k)) (cons (cent u))) in *.
  assert (Hh : shape (nE p) S hi) by (apply shape_combine; apply Hu).
  assert (SF : same_setup p S good k h (rk_set_utilde (set_cent (set_cons hi (cent (rk_utilde l))) (rk_utilde l)) l) g).
  { destruct SL as [a1 a2 a3 a4 a5 a6 a7 a8 a9 a10 a11]. split; cbn [rk_bt rk_utilde rk_set_utilde]; auto.
    destruct a3 as (b1 & b2 & b3). split; [apply wsv_set_cons; assumption|]. auto. }
  assert (SF' : forall x y, same_setup p S good k h (rk_set_err x y (rk_set_utilde (set_cent (set_cons hi (cent (rk_utilde l))) (rk_utilde l)) l)) g).
  { intros x y. destruct SF as [a1 a2 a3 a4 a5 a6 a7 a8 a9 a10 a11]. split; cbn [rk_bt rk_utilde rk_set_err]; auto. }
  cbn [rk_accepted rk_set_utilde] in E.
  destruct (rk_accepted l);
  match type of E with context [if val then ?x else _] => destruct (if val then x else Ok tt) as [[]|e1| |] end;
  injection E as <- <- <-; first [exact SF | apply SF'].
Qed.

Lemma asc_keep : forall val u, wss p S u -> forall fuel ts (k : rkf A) (h : rhs A N) ts' k' h' o,
  same_setup p S good k h k h -> asc_loop val fuel p S ts u k h m = (ts', k', h', o) -> same_setup p S good k h k' h'.
Proof.
  intros val u Hu. induction fuel as [|fuel IH]; intros ts k h ts' k' h' o SS E; cbn [asc_loop] in E.
  - destruct (rk_accepted k); injection E as <- <- <- <-; exact SS.
  - destruct (rk_accepted k); [injection E as <- <- <- <-; exact SS|].
    destruct (calc_rkf_solution val p S (ts_dt ts) u k h m) as [[l g] o1] eqn:C.
    apply calc_keep in C; [|exact Hu|exact SS].
    destruct o1 as [x|e| |]; [|injection E as <- <- <- <-; exact C..].
    assert (C' : forall n b, same_setup p S good k h (rk_set_n_asc n (rk_set_accepted b l)) g /\ same_setup p S good k h (rk_set_n_asc n l) g).
    { intros n b. destruct C as [a1 a2 a3 a4 a5 a6 a7 a8 a9 a10 a11]. split; split; cbn [rk_bt rk_utilde rk_set_n_asc rk_set_accepted]; auto. }
    destruct (nltb A (rk_err_new l) (n1 A)).
    + destruct (C' (Datatypes.S (rk_n_asc (rk_set_accepted true l))) true) as (D & _).
      eapply same_setup_trans; [exact D|]. eapply IH; [|exact E]. eapply same_setup_trans; [apply same_setup_sym; exact D|exact D].
    + destruct (C' (Datatypes.S (rk_n_asc l)) true) as (_ & D).
      eapply same_setup_trans; [exact D|]. eapply IH; [|exact E]. eapply same_setup_trans; [apply same_setup_sym; exact D|exact D].
Qed.

Lemma rkf_asc_keep : forall val u fuel ts (k : rkf A) (h : rhs A N) ts' k' h' o, wss p S u ->
  same_setup p S good k h k h -> rkf_asc val fuel p S ts u k h m = (ts', k', h', o) -> same_setup p S good k h k' h'.
Proof.
  intros val u fuel ts k h ts' k' h' o Hu SS E. unfold rkf_asc in E.
  destruct (bt_asc (rk_bt k)); [|injection E as <- <- <- <-; exact SS].
  assert (D : same_setup p S good k h (rk_set_n_asc 0 (rk_set_accepted false k)) h) by (destruct SS; split; cbn [rk_bt rk_utilde rk_set_n_asc rk_set_accepted] in *; auto).
  eapply same_setup_trans; [exact D|]. eapply asc_keep; [exact Hu| |exact E]. eapply same_setup_trans; [apply same_setup_sym; exact D|exact D].
Qed.

Lemma next_keep : forall val fuel (s s' : sim A N) o, solver_ok p S good s -> rkf_next val fuel p S m s = (s', o) ->
  same_setup p S good (s_rk s) (s_rhs s) (s_rk s') (s_rhs s').
Proof.
  intros val fuel s s' o (Hu & Hg & SS) E. unfold rkf_next in E.
  destruct (calc_dt_expl p S (ts_set_iter (ts_iter (s_ts s) + 1)%N (s_ts s)) (s_u s) m) as [ts1 p1].
  destruct p1 as [[]|e| |]; [|injection E as <- <-; exact SS..].
  destruct (rkf_asc val fuel p S (cap_dt ts1) (s_u s) (s_rk s) (s_rhs s) m) as [[[ts2 k] h] o2] eqn:E2.
  apply rkf_asc_keep in E2; [|exact Hu|exact SS].
  destruct o2 as [[]|e| |]; [|injection E as <- <-; exact E2..].
  destruct (calc_rkf_solution val p S (ts_dt ts2) (s_u s) k h m) as [[k3 h3] o3] eqn:E3.
  apply calc_keep in E3; [|exact Hu|eapply same_setup_trans; [apply same_setup_sym; exact E2|exact E2]].
  pose proof (same_setup_trans _ _ _ _ _ _ E2 E3) as R.
  destruct o3 as [x|e| |]; [|injection E as <- <-; exact R..].
  match type of E with context [st_update_from_cons ?a ?b ?c ?d ?e ?f] => destruct (st_update_from_cons a b c d e f) as [u2| | |] end;
    [|injection E as <- <-; exact R..].
  match type of E with context [if val then ?x else _] => destruct (if val then x else Ok tt) as [[]|e1| |] end; injection E as <- <-; exact R.
Qed.
End Setup.

Local Open Scope R_scope.

Lemma nth_repeat_lt : forall X (x d : X) n i, (i < n)%nat -> nth i (repeat x n) d = x.
Proof. intros X x d n i H. rewrite nth_indep with (d' := x) by (rewrite repeat_length; exact H). apply nth_repeat. Qed.

Lemma x_sub0 : forall x : XR, nsub XRn x (Fin 0) = x.
Proof. intros [a| | |]; cbn; try reflexivity. f_equal. ring. Qed.

Section Euler.
Variable N : numflux_impl XRn.
Variables (p : phys) (S : nat) (m : mesh XRn) (good : nf_T N -> Prop).
Hypothesis HS : (5 <= S)%nat.
Hypothesis Hmem : memoryless N p S m good.
Variables (u : state XRn) (d : R) (f : nat -> nat -> R).
Hypothesis Hu : wss p S u.

Variables (k0 : rkf XRn) (h0 : rhs XRn N) (val0 : bool) (h0' : rhs XRn N) (w0 : state XRn).
Hypothesis Href : rhs_update val0 p S h0 (stage_state XRn (cons (cent u)) (rk_utilde k0) u) m = (h0', w0, Ok tt).
Hypothesis Hfin : forall j i, (j < nE p)%nat -> (i < S)%nat -> at2 (n0 XRn) (r_full h0') j i = Fin (f j i).
Hypothesis Hset : same_setup p S good k0 h0 k0 h0.

Definition fin_mat (k : list (list XR)) : Prop :=
  forall j i, (j < nE p)%nat -> (i < S)%nat -> exists x, at2 (n0 XRn) (k : list (list (nF XRn))) j i = Fin x.

Lemma zero_stage : forall a (ks : list (list (list (nF XRn)))) l c, shape (nE p) S c ->
  (forall pp, In pp l -> a pp = (Fin 0 : nF XRn)) -> (forall pp, In pp l -> fin_mat (nth pp ks [])) ->
  fold_left (fun c pp => sub_scaled (nE p) S (nmul XRn (Fin d : nF XRn) (a pp)) (nth pp ks []) c) l c = c.
Proof.
  intros a ks. induction l as [|q l IH]; intros c Hc Ha Hk; cbn [fold_left]; [reflexivity|].
  assert (E : sub_scaled (nE p) S (nmul XRn (Fin d : nF XRn) (a q)) (nth q ks []) c = c).
  { apply mat_ext with (e := nE p) (n := S) (d := n0 XRn); [apply shape_mtab|exact Hc|]. intros j i Hj Hi.
    unfold sub_scaled. rewrite at2_mtab by assumption. rewrite Ha by (left; reflexivity).
    destruct (Hk q (or_introl eq_refl) j i Hj Hi) as (x & ->). rewrite !X_mul. replace (d * 0 * x) with 0 by ring. apply x_sub0. }
  rewrite E. apply IH; [exact Hc| |]; intros pp Hp; [apply Ha|apply Hk]; right; exact Hp.
Qed.

Lemma stages_euler : forall val qs (k : rkf XRn) (h : rhs XRn N) k' h',
  same_setup p S good k0 h0 k h ->
  (forall q, In q qs -> forall pp, (pp < q)%nat -> at2 (n0 XRn) (bt_a (rk_bt k0)) pp q = Fin 0) ->
  (forall q, In q qs -> (q < length (rk_k k))%nat) ->
  (forall q, (q < length (rk_k k))%nat -> fin_mat (nth q (rk_k k) [])) ->
  rkf_stages val p S m (Fin d : nF XRn) u qs k h = (k', h', Ok tt) ->
  same_setup p S good k0 h0 k' h' /\ length (rk_k k') = length (rk_k k) /\
  (forall q, In q qs -> nth q (rk_k k') [] = r_full h0') /\
  (forall q, ~ In q qs -> nth q (rk_k k') [] = nth q (rk_k k) []).
Proof.
  intros val. induction qs as [|q qs IH]; intros k h k' h' SS Ha Hl Hk E; cbn [rkf_stages] in E.
  - injection E as <- <-. repeat match goal with |- _ /\ _ => split end; auto. intros q [].
  - cbn [cent state_assign] in E. cbn [cons vars_assign set_c_sound set_cons set_prim] in E.
    rewrite zero_stage in E.
    2:{ apply Hu. }
    2:{ intros pp Hp. apply in_seq in Hp. assert (Bt : rk_bt k0 = rk_bt k) by (destruct SS; assumption). rewrite <- Bt. apply Ha; [left; reflexivity|lia]. }
    2:{ intros pp Hp. apply in_seq in Hp. apply Hk. specialize (Hl q (or_introl eq_refl)). lia. }
    change (set_cent (set_cons (cons (cent u)) (vars_assign (cent (rk_utilde k)) (cent u))) (state_assign (rk_utilde k) u))
      with (stage_state XRn (cons (cent u)) (rk_utilde k) u) in E.
    destruct (rhs_update val p S h (stage_state XRn (cons (cent u)) (rk_utilde k) u) m) as [[g w] o] eqn:R.
    destruct o as [[]|e| |]; try discriminate.
    assert (Hc : shape (nE p) S (cons (cent u))) by apply Hu.
    destruct (stage_eq XRn N p S m good HS Hmem val0 val (cons (cent u)) u k0 k h0 h h0' w0 (Ok tt) g w (Ok tt) Hu Hc SS Href R) as (_ & Q2 & Q3).
    specialize (Q3 ltac:(eauto)).
    assert (Self : same_setup p S good k h k h) by (eapply same_setup_trans; [apply same_setup_sym; exact SS|exact SS]).
    pose proof (stage_keeps XRn N p S m good HS Hmem val (cons (cent u)) u k h g w (Ok tt) Hu Hc Self R) as Kp.
    pose proof (same_setup_trans XRn N p S good _ _ _ _ _ _ SS Kp) as SS1.
    assert (SS2 : same_setup p S good k0 h0 (rk_set_k (upd q (r_full g) (rk_k (rk_set_utilde w k))) (rk_set_utilde w k)) g).
    { destruct SS1 as [a1 a2 a3 a4 a5 a6 a7 a8 a9 a10 a11]. split; cbn [rk_utilde rk_bt rk_set_utilde rk_set_k] in *; auto. }
    cbn [rk_k rk_set_utilde] in *.
    destruct (IH _ _ k' h' SS2) as (I1 & I2 & I3 & I4).
    + intros q' Hq'. apply Ha. right. exact Hq'.
    + intros q' Hq'. cbn [rk_k rk_set_k]. rewrite length_upd. apply Hl. right. exact Hq'.
    + intros q'. cbn [rk_k rk_set_k]. rewrite length_upd. intros Hq'.
      destruct (Nat.eq_dec q q') as [->|Hne].
      * rewrite nth_upd_eq by exact Hq'. intros j i Hj Hi. rewrite <- Q3. eauto.
      * rewrite nth_upd_ne by congruence. apply Hk. exact Hq'.
    + exact E.
    + cbn [rk_k rk_set_k] in I2, I4. rewrite length_upd in I2. split; [exact I1|]. split; [exact I2|]. split.
      * intros q' [<-|Hq']; [|apply I3; exact Hq'].
        destruct (in_dec Nat.eq_dec q qs) as [Hin|Hn]; [apply I3; exact Hin|].
        rewrite I4 by exact Hn. rewrite nth_upd_eq by (apply Hl; left; reflexivity). symmetry. exact Q3.
      * intros q' Hq'. rewrite I4 by (intros X; apply Hq'; right; exact X). apply nth_upd_ne. intros ->. apply Hq'. left. reflexivity.
Qed.

(** the weighted sum *)
Lemma combine_at : forall (b : list (nF XRn)) beta (k : list (list (list (nF XRn)))) order c j i x,
  (j < nE p)%nat -> (i < S)%nat -> shape (nE p) S c -> at2 (n0 XRn) c j i = Fin x ->
  (forall q, (q < order)%nat -> at1 (n0 XRn) b q = Fin (Q2R (qat beta q)) /\ nth q k [] = r_full h0') ->
  at2 (n0 XRn) (rkf_combine (nE p) S (Fin d : nF XRn) b k order c) j i = Fin (x - d * Q2R (qsum order (qat beta)) * f j i).
Proof.
  intros b beta k order c j i x Hj Hi Hc Hx Hb. unfold rkf_combine.
  induction order as [|n IH]; [cbn [seq fold_left qsum]; rewrite Hx; f_equal; unfold Q2R; cbn; ring|].
  rewrite seq_S, fold_left_app. cbn [fold_left Nat.add]. unfold sub_scaled at 1. rewrite at2_mtab by assumption.
  rewrite IH by (intros q Hq; apply Hb; lia). destruct (Hb n ltac:(lia)) as (-> & ->). rewrite Hfin by assumption.
  rewrite !X_mul, X_sub. f_equal. cbn [qsum]. rewrite Q2R_plus. ring.
Qed.

Lemma at1_map_R : forall (l : list Q) q, at1 (n0 XRn) (map (fun x => Fin (Q2R x) : nF XRn) l) q = Fin (Q2R (qat l q)).
Proof.
  intros l q. unfold at1, qat. revert q. induction l as [|x l IH]; intros [|q]; cbn [map nth].
  - rewrite X_n0. f_equal. unfold Q2R; cbn; lra.
  - rewrite X_n0. f_equal. unfold Q2R; cbn; lra.
  - reflexivity.
  - apply IH.
Qed.

(** the stage coefficients the code looks up: all zero, in every mode *)
Lemma looked_up_zero : forall (c : rkf_config XRn) q pp, (pp < q)%nat -> at2 (n0 XRn) (bt_a (bt_new c)) pp q = Fin 0.
Proof.
  intros c q pp H. destruct (tab_real c) as (_ & Ea & _). rewrite Ea.
  assert (G : forall pp q, (pp < q)%nat -> at2 (n0 XRn) (map (map (fun x => Fin (Q2R x) : nF XRn)) (bt_a (qtab (rc_mode c)))) pp q = Fin 0).
  { clear. intros pp q H. unfold at2.
    assert (X : forall l : list Q, nth q l 0%Q = 0%Q -> nth q (map (fun x => Fin (Q2R x) : nF XRn) l) (n0 XRn) = Fin 0).
    { intros l Hl. pose proof (at1_map_R l q) as E. unfold at1, qat in E. rewrite E, Hl. f_equal. unfold Q2R; cbn; lra. }
    assert (Y : nth q (nth pp (bt_a (qtab (rc_mode c))) []) 0%Q = 0%Q).
    { destruct (rc_mode c); unfold qtab, bt_new; cbn [rc_mode bt_a get_order];
        do 7 (destruct pp as [|pp]; [do 7 (destruct q as [|q]; [try lia; try reflexivity|]); cbn; destruct q; reflexivity|]);
        destruct pp; destruct q; reflexivity. }
    set (tb := bt_a (qtab (rc_mode c))) in *.
    destruct (Nat.lt_ge_cases pp (length tb)) as [L|L].
    - rewrite nth_indep with (d' := map (fun x => Fin (Q2R x) : nF XRn) []) by (rewrite map_length; exact L).
      rewrite map_nth. apply X. exact Y.
    - rewrite nth_overflow with (l := map _ _) by (rewrite map_length; exact L). destruct q; reflexivity. }
  apply G. exact H.
Qed.

(** the solution of the scheme: [U - dt * (sum of the weights) * f] *)
Lemma calc_euler : forall val (c : rkf_config XRn) (k : rkf XRn) (h : rhs XRn N) k' h' x j i U, rk_bt k0 = bt_new c ->
  same_setup p S good k0 h0 k h ->
  calc_rkf_solution val p S (Fin d : nF XRn) u k h m = (k', h', Ok x) ->
  (j < nE p)%nat -> (i < S)%nat -> at2 (n0 XRn) (cons (cent u)) j i = Fin U ->
  at2 (n0 XRn) (cons (cent (rk_utilde k'))) j i =
    Fin (U - d * Q2R (qsum (bt_order (qtab (rc_mode c))) (qat (bt_high (qtab (rc_mode c))))) * f j i) /\
  (rk_accepted k = false -> at2 (n0 XRn) (rk_low k') j i =
    Fin (U - d * Q2R (qsum (bt_order (qtab (rc_mode c))) (qat (bt_low (qtab (rc_mode c))))) * f j i)).
Proof.
  intros val c k h k' h' x j i U Hb SS E Hj Hi HU. unfold calc_rkf_solution in E.
  assert (Bt : rk_bt k = bt_new c) by (destruct SS; congruence). rewrite Bt in E.
  destruct (tab_real c) as (T1 & T2 & T3 & T4 & T5).
  set (z := repeat (zeros2 (A:=XRn) (nE p) S) (bt_order (bt_new c))) in *.
  assert (SZ : same_setup p S good k0 h0 (rk_set_k z k) h) by (destruct SS; split; cbn [rk_utilde rk_bt rk_set_k] in *; auto).
  destruct (rkf_stages val p S m (Fin d : nF XRn) u (seq 0 (bt_order (bt_new c))) (rk_set_k z k) h) as [[l g] o1] eqn:R.
  destruct o1 as [[]|e| |]; try discriminate.
  destruct (fun a b c => stages_euler val _ _ _ _ _ SZ a b c R) as (I1 & I2 & I3 & I4).
  - intros q Hq pp Hp. rewrite Hb. apply looked_up_zero. exact Hp.
  - intros q Hq. apply in_seq in Hq. cbn [rk_k rk_set_k]. unfold z. rewrite repeat_length. lia.
  - intros q Hq j' i' Hj' Hi'. cbn [rk_k rk_set_k] in *. unfold z in *. rewrite repeat_length in Hq.
    assert (Hr : nth q (repeat (zeros2 (A:=XRn) (nE p) S) (bt_order (bt_new c))) [] = zeros2 (A:=XRn) (nE p) S).
    { rewrite nth_indep with (d' := zeros2 (A:=XRn) (nE p) S) by (rewrite repeat_length; exact Hq). apply nth_repeat. }
    rewrite Hr. exists 0. unfold at2, zeros2. rewrite nth_repeat_lt by assumption. unfold zeros. rewrite nth_repeat. apply X_n0.
  - assert (Cb : forall b beta, b = map (fun x => Fin (Q2R x) : nF XRn) beta ->
      at2 (n0 XRn) (rkf_combine (nE p) S (Fin d : nF XRn) b (rk_k l) (bt_order (bt_new c)) (cons (cent u))) j i =
      Fin (U - d * Q2R (qsum (bt_order (bt_new c)) (qat beta)) * f j i)).
    { intros b beta ->. apply combine_at; auto; [apply Hu|]. intros q Hq. split; [apply at1_map_R|apply I3; apply in_seq; lia]. }
    rewrite <- T1.
    pose proof (Cb _ _ T3) as Ch. pose proof (Cb _ _ T4) as Cl.
    assert (La : rk_accepted l = rk_accepted k) by (apply stages_static in R; destruct R as (_ & _ & X & _); exact X).
    cbn [rk_accepted rk_set_utilde] in E. rewrite La in E.
    destruct (rk_accepted k) eqn:Ac;
    match type of E with context [if val then ?x else _] => destruct (if val then x else Ok tt) as [[]|e1| |] end;
    try discriminate; apply (f_equal fst) in E; cbn [fst] in E; apply (f_equal fst) in E; cbn [fst] in E; subst k'; cbn [rk_utilde rk_set_utilde rk_set_err rk_low cent cons set_cent set_cons].
    + split; [exact Ch|discriminate].
    + split; [exact Ch|]. intros _. exact Cl.
Qed.
End Euler.

(** One step of any mode, with or without step control. *)
Lemma euler_step : forall (N : numflux_impl XRn) p S m good val fuel (c : rkf_config XRn) (s s' : sim XRn N) f dt,
  (5 <= S)%nat -> memoryless N p S m good -> solver_ok p S good s -> rk_bt (s_rk s) = bt_new c ->
  rhs_values p S m s f -> rkf_next val fuel p S m s = (s', Ok tt) -> ts_dt (s_ts s') = Fin dt ->
  exists v0, update_vars_from_cons p S (r_bw (s_rhs s)) (r_be (s_rhs s)) m v0 = Ok (cent (s_u s')) /\
    wsv XRn p S v0 /\ gamma v0 = gamma (cent (s_u s)) /\
    (val = true -> vars_validate (cent (s_u s')) = Ok tt) /\
    forall j i U, (j < nE p)%nat -> (i < S)%nat -> at2 (n0 XRn) (cons (cent (s_u s))) j i = Fin U ->
      at2 (n0 XRn) (cons v0) j i = Fin (U - dt * Q2R (qsum (bt_order (qtab (rc_mode c))) (qat (bt_high (qtab (rc_mode c))))) * f j i).
Proof.
  intros N p S m good val fuel c s s' f dt HS Hm Hok Hb (val0 & h0' & w0 & Href & Hfin) E Hdt.
  pose proof (next_keep XRn N p S m good HS Hm val fuel s s' (Ok tt) Hok E) as Kp.
  destruct Hok as (Hu & Hg & SS).
  pose proof (same_setup_utilde XRn N p S good (s_rk s) (s_rhs s) (s_u s) Hu Hg SS) as SU.
  set (k0 := rk_set_utilde (s_u s) (s_rk s)) in *.
  assert (Href' : rhs_update val0 p S (s_rhs s) (stage_state XRn (cons (cent (s_u s))) (rk_utilde k0) (s_u s)) m = (h0', w0, Ok tt)).
  { unfold k0. cbn [rk_utilde rk_set_utilde]. rewrite state_eta. exact Href. }
  assert (S00 : same_setup p S good k0 (s_rhs s) k0 (s_rhs s)) by (eapply same_setup_trans; [apply same_setup_sym; exact SU|exact SU]).
  unfold rkf_next in E.
  destruct (calc_dt_expl p S (ts_set_iter (ts_iter (s_ts s) + 1)%N (s_ts s)) (s_u s) m) as [ts1 p1].
  destruct p1 as [[]|e| |]; try discriminate.
  destruct (rkf_asc val fuel p S (cap_dt ts1) (s_u s) (s_rk s) (s_rhs s) m) as [[[ts2 k] h] o2] eqn:E2.
  pose proof (rkf_asc_keep XRn N p S m good HS Hm val (s_u s) fuel (cap_dt ts1) (s_rk s) (s_rhs s) ts2 k h o2 Hu SS E2) as K2.
  destruct o2 as [[]|e| |]; try discriminate.
  destruct (calc_rkf_solution val p S (ts_dt ts2) (s_u s) k h m) as [[k3 h3] o3] eqn:E3.
  destruct o3 as [x|e| |]; try discriminate.
  pose proof (calc_static _ _ _ _ _ _ _ _ _ _ _ _ _ E3) as (_ & (B1 & B2) & _).
  set (u1 := set_cent (set_cons (cons (cent (rk_utilde k3))) (cent (s_u s))) (s_u s)) in *.
  destruct (st_update_from_cons p S (r_bw h3) (r_be h3) m u1) as [u2| | |] eqn:E4; try discriminate.
  apply st_update_Ok in E4. destruct E4 as (v & E4 & ->).
  destruct (if val then state_validate (set_cent v u1) else Ok tt) as [[]|e1| |] eqn:E5; try discriminate.
  apply (f_equal fst) in E. cbn [fst] in E. subst s'. cbn [s_u s_ts ts_dt ts_set_t cent set_cent] in *.
  assert (Sk : same_setup p S good k0 (s_rhs s) k h) by (eapply same_setup_trans; [apply same_setup_sym; exact SU|exact K2]).
  assert (Bw : r_bw h = r_bw (s_rhs s) /\ r_be h = r_be (s_rhs s)) by (destruct K2; split; congruence).
  destruct Bw as (Bw & Be). rewrite B1, B2, Bw, Be in E4.
  assert (Hk3 : wss p S (rk_utilde k3)) by (destruct Kp; assumption).
  exists (set_cons (cons (cent (rk_utilde k3))) (cent (s_u s))).
  split; [exact E4|]. split; [apply wsv_set_cons; [apply Hu|apply Hk3]|]. split; [reflexivity|].
  split; [intros ->; unfold state_validate in E5; exact E5|].
  intros j i U Hj Hi HU. rewrite Hdt in E3.
  apply (calc_euler N p S m good HS Hm (s_u s) dt f Hu k0 (s_rhs s) val0 h0' w0 Href' Hfin val c k h k3 h3 x j i U Hb Sk E3 Hj Hi HU).
Qed.
