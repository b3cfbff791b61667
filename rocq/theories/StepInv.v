(** Invariants over any number of steps, for every arithmetic and scheme. *)

From Coq Require Import Reals ZArith NArith List Bool Lia String.
From Verif Require Import Base Num XReal Config Mesh State NumFlux Time Writer Runner Spec SpecFlow SpecStep BoundaryProofs PhysicsProofs FluxProofs UpdateProofs StepProofs.
Import ListNotations.
Local Open Scope nat_scope.

Section Inv.
Variable A : Num.
Variable N : numflux_impl A.
Implicit Types s : sim A N.

Lemma shape_combine : forall E S dt b (k : list (list (list (nF A)))) o c, shape E S c -> shape E S (rkf_combine (A:=A) E S dt b k o c).
Proof.
  intros E S dt b k o c. unfold rkf_combine. generalize (seq 0 o) as l. intros l. revert c.
  induction l as [|q l IH]; intros c H; cbn [fold_left]; [assumption|]. apply IH. apply shape_mtab.
Qed.

Lemma iso_sound : forall S bw be m (v v' : vars A), update_vars_from_cons Isot S bw be m v = Ok v' -> c_sound v' = c_sound v.
Proof.
  intros S bw be m v v' H. unfold update_vars_from_cons, update_vars_from_prim in H.
  apply bind_Ok in H. destruct H as (x & Hx & H). apply bind_Ok in H. destruct H as (y & Hy & H). injection H as <-.
  apply bc_apply_Ok in Hx. destruct Hx as (q & _ & ->). apply bc_apply_Ok in Hy. destruct Hy as (q' & _ & ->). reflexivity.
Qed.

Lemma next_sound : forall val fuel S m s s' o, rkf_next val fuel Isot S m s = (s', o) -> c_sound (cent (s_u s')) = c_sound (cent (s_u s)).
Proof.
  intros val fuel S m s s' o H. apply rkf_next_cases in H. destruct H as (_ & _ & _ & _ & [(_ & -> & _)|(k & H)]); [reflexivity|].
  cbn zeta in H. destruct H as (_ & [(_ & -> & _)|(v & Hv & -> & _)]); [reflexivity|]. apply iso_sound in Hv. exact Hv.
Qed.

Lemma next_faces : forall val fuel p S m s s' o, rkf_next val fuel p S m s = (s', o) ->
  west (s_u s') = west (s_u s) /\ east (s_u s') = east (s_u s).
Proof.
  intros val fuel p S m s s' o H. apply rkf_next_cases in H. destruct H as (_ & _ & _ & _ & [(_ & -> & _)|(k & H)]); [auto|].
  cbn zeta in H. destruct H as (_ & [(_ & -> & _)|(v & Hv & -> & _)]); auto.
Qed.

Lemma solver_next_rkf : forall val fuel p S m s s' o, solver_next val fuel p S m s = (s', o) ->
  exists o', rkf_next val fuel p S m s = (s', o') /\ 
    (o = o' /\ (o = Ok tt -> (ts_iter (s_ts s') < ts_iter_max (s_ts s'))%N) \/ o = Err EIterMax /\ o' = Ok tt /\ (ts_iter_max (s_ts s') <= ts_iter (s_ts s'))%N).
Proof.
  intros val fuel p S m s s' o H. unfold solver_next in H. destruct (rkf_next val fuel p S m s) as [s1 o1].
  destruct o1 as [[]|e| |].
  - destruct (N.leb_spec (ts_iter_max (s_ts s1)) (ts_iter (s_ts s1))); injection H as <- <-; eexists; (split; [reflexivity|]).
    + right. auto.
    + left. auto.
  - injection H as <- <-. eexists. split; [reflexivity|]. left. split; [reflexivity|discriminate].
  - injection H as <- <-. eexists. split; [reflexivity|]. left. split; [reflexivity|discriminate].
  - injection H as <- <-. eexists. split; [reflexivity|]. left. split; [reflexivity|discriminate].
Qed.

(** An invariant of [rkf_next] on everything but the time data is an invariant
    of every evolution. *)
Lemma evolves_inv : forall (P : sim A N -> sim A N -> Prop) p S m,
  (forall s, P s s) ->
  (forall s s1 ts, P s s1 -> P s (mkSim ts (s_u s1) (s_rk s1) (s_rhs s1))) ->
  (forall s s1 s2 val fuel o, P s s1 -> rkf_next val fuel p S m s1 = (s2, o) -> P s s2) ->
  forall s s', evolves p S m s s' -> P s s'.
Proof.
  intros P p S m H1 H2 H3 s s' H. induction H as [s|s s1 s2 val fuel o He IH Hn|s s1 ts He IH]; auto.
  apply solver_next_rkf in Hn. destruct Hn as (o' & Hn & _). eauto.
Qed.

Lemma evolves_sound : forall S m s s', evolves Isot S m s s' -> c_sound (cent (s_u s')) = c_sound (cent (s_u s)).
Proof.
  intros S m. apply (evolves_inv (fun s s' => c_sound (cent (s_u s')) = c_sound (cent (s_u s)))); cbn; auto.
  intros s s1 s2 val fuel o H Hn. apply next_sound in Hn. congruence.
Qed.

Lemma evolves_faces : forall p S m s s', evolves p S m s s' -> west (s_u s') = west (s_u s) /\ east (s_u s') = east (s_u s).
Proof.
  intros p S m. apply (evolves_inv (fun s s' => west (s_u s') = west (s_u s) /\ east (s_u s') = east (s_u s))); cbn; auto.
  intros s s1 s2 val fuel o [H1 H2] Hn. apply next_faces in Hn. destruct Hn. split; congruence.
Qed.

Lemma evolves_trans : forall p S m s1 s2 s3, evolves p S m s1 s2 -> evolves (N:=N) p S m s2 s3 -> evolves p S m s1 s3.
Proof. intros p S m s1 s2 s3 H1 H2. revert H1. induction H2; intros H1; [assumption|eapply ev_step; [apply IHevolves; exact H1|eassumption]|apply ev_time; auto]. Qed.

(** ** Shapes and consistency *)
Lemma wsv_update_from_cons : forall p S bw be m (v v' : vars A), 5 <= S -> wsv A p S v ->
  update_vars_from_cons p S bw be m v = Ok v' -> wsv A p S v'.
Proof. intros p S bw be m v v' HS Hw H. exact (proj1 (update_from_cons_view A p S bw be m v v' HS Hw H)). Qed.

Lemma next_shape : forall val fuel p S m s s' o, 5 <= S -> wsv A p S (cent (s_u s)) ->
  rkf_next val fuel p S m s = (s', o) -> wsv A p S (cent (s_u s')).
Proof.
  intros val fuel p S m s s' o HS Hw H. apply rkf_next_cases in H. destruct H as (_ & _ & _ & _ & [(_ & -> & _)|(k & H)]); [assumption|].
  cbn zeta in H.
  assert (Hc : wsv A p S (set_cons (rkf_combine (nE p) S (ts_dt (s_ts s')) (bt_high (rk_bt (s_rk s))) k (bt_order (rk_bt (s_rk s))) (cons (cent (s_u s)))) (cent (s_u s)))).
  { apply wsv_set_cons; [assumption|]. apply shape_combine. apply Hw. }
  destruct H as (_ & [(_ & -> & _)|(v & Hv & -> & _)]); [exact Hc|]. eapply wsv_update_from_cons; eauto.
Qed.

Lemma evolves_shape : forall p S m s s', 5 <= S -> evolves p S m s s' -> wsv A p S (cent (s_u s)) -> wsv A p S (cent (s_u s')).
Proof.
  intros p S m s s' HS. revert s s'. apply (evolves_inv (fun s s' => wsv A p S (cent (s_u s)) -> wsv A p S (cent (s_u s')))); cbn; auto.
  intros s s1 s2 val fuel o H Hn Hw. eapply next_shape; [exact HS| |exact Hn]; auto.
Qed.

Lemma evolves_static : forall p S m s s', evolves p S m s s' ->
  r_bw (s_rhs s') = r_bw (s_rhs s) /\ r_be (s_rhs s') = r_be (s_rhs s) /\ rk_bt (s_rk s') = rk_bt (s_rk s).
Proof.
  intros p S m. apply (evolves_inv (fun s s' => r_bw (s_rhs s') = r_bw (s_rhs s) /\ r_be (s_rhs s') = r_be (s_rhs s) /\ rk_bt (s_rk s') = rk_bt (s_rk s))); cbn; auto.
  intros s s1 s2 val fuel o (H1 & H2 & H3) Hn. apply rkf_next_cases in Hn. destruct Hn as ((B & _) & (W & E) & _).
  rewrite B, W, E. auto.
Qed.

Lemma prim_consistent : forall p S bw be m (v v' : vars A), 6 <= S -> wsv A p S v ->
  update_vars_from_prim p S bw be m v = Ok v' -> consistent p S bw be m v'.
Proof.
  intros p S bw be m v v' HS Hw H.
  destruct (update_from_prim_view A p S bw be m v v' ltac:(lia) Hw H) as (W & G & _ & Hi & _ & V).
  assert (E2 : 2 <= nE p) by (destruct p; cbn; lia).
  unfold update_vars_from_prim in H. apply bind_Ok in H. destruct H as (x & Hx & H). apply bind_Ok in H. destruct H as (y & Hy & H).
  injection H as Hv'.
  assert (Px : shape (nE p) S (prim x)).
  { destruct (bc_frame A West p S m bw v x ltac:(lia) Hx) as (_ & _ & _ & _ & _ & _ & F & _). apply F. apply Hw. }
  assert (Ex : bc_apply East p S m be v' = Ok v').
  { pose proof (bc_idempotent A East p S m be x y ltac:(lia) Px Hy) as I.
    assert (P' : prim v' = prim y).
    { rewrite <- Hv'. destruct (derived_fields A p S (update_cons p S y)) as (D & _).
      rewrite D. apply update_cons_fields. }
    unfold bc_apply in *. rewrite P'. apply bind_Ok in I. destruct I as (q & Hq & I). rewrite Hq. cbn [bind].
    assert (q = prim y) as -> by (injection I as I; exact (f_equal (@prim A) I)). rewrite <- P'. f_equal. destruct v'; reflexivity. }
  assert (Wx : bc_apply West p S m bw v' = Ok v').
  { assert (P' : prim v' = prim y).
    { rewrite <- Hv'. destruct (derived_fields A p S (update_cons p S y)) as (D & _).
      rewrite D. apply update_cons_fields. }
    pose proof (bc_idempotent A West p S m bw v x ltac:(lia) (proj1 Hw) Hx) as I.
    pose proof (bc_commute A p S m bw be x x y HS Px I Hy) as C. rewrite Hy in C. symmetry in C.
    unfold bc_apply in C |- *. rewrite P'. apply bind_Ok in C. destruct C as (q & Hq & C). rewrite Hq. cbn [bind].
    assert (q = prim y) as -> by (injection C as C; exact (f_equal (@prim A) C)). rewrite <- P'. f_equal. destruct v'; reflexivity. }
  split.
  - intros j i Hj Hi'. destruct (V i Hi') as (V1 & _). rewrite (V1 j Hj), G.
    destruct p; cbn [nE] in Hj; destruct j as [|[|[|j]]]; try lia; reflexivity.
  - intros i -> Hi'. destruct (V i Hi') as (_ & V2 & _). rewrite V2, G. reflexivity.
  - intros i Hi'. destruct (V i Hi') as (_ & _ & V3). rewrite V3 by lia. reflexivity.
  - intros i Hi'. destruct (V i Hi') as (_ & _ & V3). rewrite V3 by lia. destruct p; reflexivity.
  - intros i -> Hi'. destruct (V i Hi') as (_ & _ & V3). rewrite V3 by (cbn; lia). reflexivity.
  - exact Wx.
  - exact Ex.
Qed.

Lemma cons_consistent : forall p S bw be m (v v' : vars A), 6 <= S -> wsv A p S v ->
  update_vars_from_cons p S bw be m v = Ok v' -> consistent p S bw be m v'.
Proof.
  intros p S bw be m v v' HS Hw H. unfold update_vars_from_cons in H.
  eapply prim_consistent; [exact HS| |exact H]. apply wsv_update_prim. exact Hw.
Qed.

Lemma next_consistent : forall val fuel p S m s s', 6 <= S -> wsv A p S (cent (s_u s)) ->
  rkf_next val fuel p S m s = (s', Ok tt) -> consistent p S (r_bw (s_rhs s')) (r_be (s_rhs s')) m (cent (s_u s')).
Proof.
  intros val fuel p S m s s' HS Hw H. apply rkf_next_cases in H.
  destruct H as (_ & (Rw & Re) & _ & _ & [(H & _)|(k & H)]); [contradiction|]. cbn zeta in H.
  destruct H as (_ & [(H & _)|(v & Hv & -> & _)]); [discriminate|]. cbn [cent set_cent] in Hv |- *. rewrite Rw, Re.
  eapply cons_consistent; [exact HS| |exact Hv].
  apply wsv_set_cons; [assumption|]. apply shape_combine. apply Hw.
Qed.

(** ** The run loop is an evolution *)
Lemma run_evolves : forall fmt val sched afuel fuel p S m s wr w e o,
  run_loop (A:=A) (N:=N) fmt val sched afuel fuel p S m s wr w = (e, o) -> evolves p S m s (e_sim e).
Proof.
  intros fmt val sched afuel fuel p S m. induction fuel as [|fuel IH]; intros s wr w e o H; cbn [run_loop] in H.
  - injection H as <- <-. constructor.
  - destruct (run_output fmt sched m s wr w) as [[[[s1 wr1] w1] tr] r] eqn:E.
    assert (E1 : evolves p S m s s1).
    { unfold run_output in E. destruct (nleb A _ _) in E.
      - destruct (do_output fmt sched m _ wr w) as [[wr2 w2] r2] in E. injection E as <- <- <- <- <-. apply ev_time. constructor.
      - injection E as <- <- <- <- <-. constructor. }
    destruct r as [[]|er| |]; try (injection H as <- <-; exact E1).
    destruct (nleb A _ _) in H; [injection H as <- <-; exact E1|].
    destruct (solver_next val afuel p S m s1) as [s2 r2] eqn:E2.
    assert (E3 : evolves p S m s s2) by (eapply ev_step; eauto).
    destruct r2 as [[]|er| |].
    + destruct (run_loop fmt val sched afuel fuel p S m s2 wr1 w1) as [e' r'] eqn:E4. injection H as <- <-.
      cbn [e_sim]. eapply evolves_trans; [exact E3|]. eapply IH; eauto.
    + destruct (do_output fmt sched m _ wr1 w1) as [[wr2 w2] r2] in H. injection H as <- <-. cbn [e_sim]. apply ev_time. exact E3.
    + injection H as <- <-. exact E3.
    + injection H as <- <-. exact E3.
Qed.

(** ** Finite values *)
Lemma validate_finite : forall p S (v : vars A), wsv A p S v -> vars_validate v = Ok tt ->
  forall j i, j < nE p -> i < S -> nfin A (at2 (n0 A) (prim v) j i) = true /\ nfin A (at2 (n0 A) (cons v) j i) = true.
Proof.
  intros p S v (P & C & _) H j i Hj Hi. unfold vars_validate, ensure in H.
  destruct (all_fin2 (prim v)) eqn:E1; cbn [bind] in H; [|discriminate].
  destruct (all_fin2 (cons v)) eqn:E2; [|discriminate].
  assert (G : forall mt : list (list (nF A)), shape (nE p) S mt -> all_fin2 mt = true -> nfin A (at2 (n0 A) mt j i) = true).
  { intros mt [L R] E. unfold all_fin2 in E. rewrite forallb_forall in E.
    assert (I : In (nth j mt []) mt) by (apply nth_In; lia). specialize (E _ I). unfold all_fin in E. rewrite forallb_forall in E.
    apply E. apply nth_In. rewrite R; assumption. }
  split; apply G; assumption.
Qed.
Lemma validate_nonfinite : forall p S (v : vars A) e, wsv A p S v -> vars_validate v = Err e ->
  exists j i, j < nE p /\ i < S /\ (nfin A (at2 (n0 A) (prim v) j i) = false \/ nfin A (at2 (n0 A) (cons v) j i) = false).
Proof.
  intros p S v e (P & C & _) H.
  assert (G : forall mt : list (list (nF A)), shape (nE p) S mt -> all_fin2 mt = false -> exists j i, j < nE p /\ i < S /\ nfin A (at2 (n0 A) mt j i) = false).
  { intros mt [L R] E.
    assert (FB : forall X (f : X -> bool) l, forallb f l = false -> exists k, k < List.length l /\ forall d, f (nth k l d) = false).
    { clear. intros X f l. induction l as [|x l IH]; cbn; [discriminate|]. intros H. apply andb_false_iff in H. destruct H as [H|H].
      - exists 0. split; [lia|auto].
      - destruct (IH H) as (k & K1 & K2). exists (Datatypes.S k). split; [lia|auto]. }
    destruct (FB _ _ _ E) as (j & J1 & J2). specialize (J2 []). destruct (FB _ _ _ J2) as (i & I1 & I2).
    rewrite L in J1. rewrite R in I1 by assumption. exists j, i. split; [assumption|]. split; [assumption|]. exact (I2 (n0 A)). }
  unfold vars_validate, ensure in H.
  destruct (all_fin2 (prim v)) eqn:E1; cbn [bind] in H.
  - destruct (all_fin2 (cons v)) eqn:E2; [discriminate|]. destruct (G _ C E2) as (j & i & ? & ? & ?). eauto 8.
  - destruct (G _ P E1) as (j & i & ? & ? & ?). eauto 8.
Qed.
End Inv.
