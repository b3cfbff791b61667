(** The validation feature only checks: whatever succeeds with it gives the
    same result without it. *)

From Coq Require Import Reals ZArith NArith List Bool Lia String.
From Verif Require Import Base Num XReal Config Mesh State NumFlux Time Writer Runner Spec SpecFlow SpecStep.
Import ListNotations.
Local Open Scope nat_scope.

Section Val.
Variable A : Num.
Variable N : numflux_impl A.
Hypothesis HN : checks_only N.
Variables (p : phys) (S : nat) (m : mesh A).

Lemma rhs_update_val : forall (r : rhs A N) u r' u',
  rhs_update true p S r u m = (r', u', Ok tt) -> rhs_update false p S r u m = (r', u', Ok tt).
Proof.
  intros r u r' u' H. unfold rhs_update in *. destruct (st_update_from_cons p S (r_bw r) (r_be r) m u) as [u1|e| |]; try discriminate.
  destruct (nf_calc N true p S (r_nf r) (r_full r) u1 m) as [[[nf full] u2] o] eqn:E. injection H as <- <- ->.
  apply HN in E. rewrite E. reflexivity.
Qed.

Lemma stages_val : forall dt u qs rk (rh : rhs A N) rk' rh',
  rkf_stages true p S m dt u qs rk rh = (rk', rh', Ok tt) -> rkf_stages false p S m dt u qs rk rh = (rk', rh', Ok tt).
Proof.
  intros dt u qs. induction qs as [|q qs IH]; intros rk rh rk' rh' H; cbn [rkf_stages] in *; [exact H|].
  match type of H with context [rhs_update true p S rh ?x m] => set (ut := x) in * end.
  destruct (rhs_update true p S rh ut m) as [[rh1 ut1] o1] eqn:E. destruct o1 as [[]|e| |]; try discriminate.
  apply rhs_update_val in E. rewrite E. apply IH. exact H.
Qed.

Lemma calc_val : forall dt u rk (rh : rhs A N) rk' rh' x,
  calc_rkf_solution true p S dt u rk rh m = (rk', rh', Ok x) -> calc_rkf_solution false p S dt u rk rh m = (rk', rh', Ok x).
Proof.
  intros dt u rk rh rk' rh' x H. unfold calc_rkf_solution in *.
  match type of H with context [rkf_stages true p S m dt u ?q ?r rh] =>
    destruct (rkf_stages true p S m dt u q r rh) as [[rk1 rh1] o1] eqn:E end.
  destruct o1 as [[]|e| |]; try discriminate. apply stages_val in E. rewrite E.
  match type of H with context [if rk_accepted ?r then ?a else ?b] => destruct (if rk_accepted r then a else b) as [rk2 dt2] end.
  destruct (rkf_validate rk2) as [[]|e| |]; try discriminate. exact H.
Qed.

Lemma asc_val : forall fuel ts u rk (rh : rhs A N) ts' rk' rh',
  asc_loop true fuel p S ts u rk rh m = (ts', rk', rh', Ok tt) -> asc_loop false fuel p S ts u rk rh m = (ts', rk', rh', Ok tt).
Proof.
  induction fuel as [|fuel IH]; intros ts u rk rh ts' rk' rh' H; cbn [asc_loop] in *.
  - destruct (rk_accepted rk); [exact H|discriminate].
  - destruct (rk_accepted rk); [exact H|].
    destruct (calc_rkf_solution true p S (ts_dt ts) u rk rh m) as [[rk1 rh1] o1] eqn:E.
    destruct o1 as [dt|e| |]; try discriminate. apply calc_val in E. rewrite E.
    match type of H with context [if nltb A ?y ?z then ?a else ?b] => destruct (if nltb A y z then a else b) as [ts2 rk2] end.
    apply IH. exact H.
Qed.

Lemma rkf_next_val : forall fuel (s s' : sim A N),
  rkf_next true fuel p S m s = (s', Ok tt) -> rkf_next false fuel p S m s = (s', Ok tt).
Proof.
  intros fuel s s' H. unfold rkf_next in *.
  destruct (calc_dt_expl p S (ts_set_iter (ts_iter (s_ts s) + 1)%N (s_ts s)) (s_u s) m) as [ts1 o1].
  destruct o1 as [[]|e| |]; try discriminate.
  destruct (rkf_asc true fuel p S (cap_dt ts1) (s_u s) (s_rk s) (s_rhs s) m) as [[[ts2 rk2] rh2] o2] eqn:E2.
  destruct o2 as [[]|e| |]; try discriminate.
  assert (E2' : rkf_asc false fuel p S (cap_dt ts1) (s_u s) (s_rk s) (s_rhs s) m = (ts2, rk2, rh2, Ok tt)).
  { unfold rkf_asc in *. destruct (bt_asc (rk_bt (s_rk s))); [apply asc_val; exact E2|exact E2]. }
  rewrite E2'.
  destruct (calc_rkf_solution true p S (ts_dt ts2) (s_u s) rk2 rh2 m) as [[rk3 rh3] o3] eqn:E3.
  destruct o3 as [x|e| |]; try discriminate. apply calc_val in E3. rewrite E3.
  match type of H with context [match st_update_from_cons ?a ?b ?c ?d ?e ?f with _ => _ end] => destruct (st_update_from_cons a b c d e f) as [u'|er| |] end; try discriminate.
  destruct (state_validate u') as [[]|e| |]; try discriminate. exact H.
Qed.

(** Also when the step completes but the iteration limit is reached. *)
Lemma solver_next_val : forall fuel (s s' : sim A N) o,
  solver_next true fuel p S m s = (s', o) -> o = Ok tt \/ rkf_next true fuel p S m s = (s', Ok tt) -> solver_next false fuel p S m s = (s', o).
Proof.
  intros fuel s s' o H Hc. unfold solver_next in *. destruct (rkf_next true fuel p S m s) as [s1 o1] eqn:E.
  assert (o1 = Ok tt) as ->.
  { destruct Hc as [-> | Hc].
    - destruct o1 as [[]|e| |]; try discriminate; reflexivity.
    - injection Hc as _ ->. reflexivity. }
  apply rkf_next_val in E. rewrite E. exact H.
Qed.

Variable fmt : nat -> nF A -> string.

Lemma run_val : forall sched afuel fuel (s : sim A N) wr w e,
  run_loop fmt true sched afuel fuel p S m s wr w = (e, Ok tt) -> run_loop fmt false sched afuel fuel p S m s wr w = (e, Ok tt).
Proof.
  intros sched afuel fuel. induction fuel as [|fuel IH]; intros s wr w e H; cbn [run_loop] in *; [discriminate|].
  destruct (run_output fmt sched m s wr w) as [[[[s1 wr1] w1] tr] r]. destruct r as [[]|er| |]; try discriminate.
  destruct (nleb A _ _); [exact H|].
  destruct (solver_next true afuel p S m s1) as [s2 r2] eqn:E. destruct r2 as [[]|er| |]; try discriminate.
  - rewrite (solver_next_val _ _ _ _ E (or_introl eq_refl)).
    destruct (run_loop fmt true sched afuel fuel p S m s2 wr1 w1) as [e' r'] eqn:E'. injection H as <- ->.
    rewrite (IH _ _ _ _ E'). reflexivity.
  - destruct (do_output fmt sched m _ wr1 w1) as [[wr2 w2] r2] in H. destruct r2; discriminate.
Qed.
End Val.
