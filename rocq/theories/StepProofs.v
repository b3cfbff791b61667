(** Facts about one call of next_solution that hold for every arithmetic and
    every flux scheme. *)

From Coq Require Import Reals ZArith NArith List Bool Lia.
From Verif Require Import Base Num XReal Config Mesh State NumFlux Time Spec SpecFlow SpecStep BoundaryProofs PhysicsProofs FluxProofs UpdateProofs.
Import ListNotations.
Local Open Scope nat_scope.

Section Step.
Variable A : Num.
Variable N : numflux_impl A.
Implicit Types s : sim A N.

(** ** What never changes *)
Definition rk_static (r r' : rkf A) : Prop :=
  rk_bt r' = rk_bt r /\ rk_rtol r' = rk_rtol r /\ rk_atol r' = rk_atol r /\ rk_friction r' = rk_friction r.
Definition rhs_static (r r' : rhs A N) : Prop := r_bw r' = r_bw r /\ r_be r' = r_be r.
Definition ts_static (t t' : timestep A) : Prop :=
  ts_iter_max t' = ts_iter_max t /\ ts_t_end t' = ts_t_end t /\ ts_dt_min t' = ts_dt_min t /\
  ts_dt_max t' = ts_dt_max t /\ ts_cfl t' = ts_cfl t /\ ts_dt_output t' = ts_dt_output t /\ ts_t_next t' = ts_t_next t.

Lemma rk_static_refl : forall r, rk_static r r. Proof. intros r. repeat split. Qed.
Lemma rk_static_trans : forall a b c, rk_static a b -> rk_static b c -> rk_static a c.
Proof. intros a b c (A1 & A2 & A3 & A4) (B1 & B2 & B3 & B4). unfold rk_static. rewrite B1, B2, B3, B4. auto. Qed.
Lemma rhs_static_trans : forall a b c, rhs_static a b -> rhs_static b c -> rhs_static a c.
Proof. intros a b c (A1 & A2) (B1 & B2). unfold rhs_static. rewrite B1, B2. auto. Qed.
Lemma ts_static_trans : forall a b c, ts_static a b -> ts_static b c -> ts_static a c.
Proof.
  intros a b c (A1 & A2 & A3 & A4 & A5 & A6 & A7) (B1 & B2 & B3 & B4 & B5 & B6 & B7).
  unfold ts_static. rewrite B1, B2, B3, B4, B5, B6, B7. auto 10.
Qed.

Lemma rhs_update_static : forall val p S (r : rhs A N) u m r' u' o,
  rhs_update val p S r u m = (r', u', o) -> rhs_static r r'.
Proof.
  intros val p S r u m r' u' o H. unfold rhs_update in H.
  destruct (st_update_from_cons p S (r_bw r) (r_be r) m u) as [s|e| |].
  - destruct (nf_calc N val p S (r_nf r) (r_full r) s m) as [[[nf full] u2] o2]. injection H as <- <- <-. split; reflexivity.
  - injection H as <- <- <-. split; reflexivity.
  - injection H as <- <- <-. split; reflexivity.
  - injection H as <- <- <-. split; reflexivity.
Qed.

Lemma stages_static : forall val p S m dt u qs rk rh rk' rh' o,
  rkf_stages (N:=N) val p S m dt u qs rk rh = (rk', rh', o) ->
  rk_static rk rk' /\ rhs_static rh rh' /\ rk_accepted rk' = rk_accepted rk /\ rk_err_old rk' = rk_err_old rk /\
  rk_err_new rk' = rk_err_new rk /\ rk_low rk' = rk_low rk.
Proof.
  intros val p S m dt u qs. induction qs as [|q qs IH]; intros rk rh rk' rh' o H.
  - cbn [rkf_stages] in H. injection H as <- <- <-. repeat split.
  - cbn [rkf_stages] in H. match type of H with context [rhs_update val p S rh ?x m] => set (ut := x) in * end.
    destruct (rhs_update val p S rh ut m) as [[rh1 ut1] o1] eqn:E.
    pose proof (rhs_update_static _ _ _ _ _ _ _ _ _ E) as St.
    destruct o1 as [[]|e| |].
    + apply IH in H. destruct H as (H1 & H2 & H3 & H4 & H5 & H6).
      split; [eapply rk_static_trans; [|exact H1]; repeat split|]. split; [eapply rhs_static_trans; eauto|]. auto.
    + injection H as <- <- <-. split; [repeat split|]. auto.
    + injection H as <- <- <-. split; [repeat split|]. auto.
    + injection H as <- <- <-. split; [repeat split|]. auto.
Qed.

Lemma calc_static : forall val p S dt u rk rh m rk' rh' o,
  calc_rkf_solution (N:=N) val p S dt u rk rh m = (rk', rh', o) ->
  rk_static rk rk' /\ rhs_static rh rh' /\ rk_accepted rk' = rk_accepted rk /\
  (forall x, o = Ok x -> cons (cent (rk_utilde rk')) =
     rkf_combine (nE p) S dt (bt_high (rk_bt rk)) (rk_k rk') (bt_order (rk_bt rk)) (cons (cent u))).
Proof.
  intros val p S dt u rk rh m rk' rh' o H. unfold calc_rkf_solution in H.
  match type of H with context [rkf_stages val p S m dt u ?q ?r rh] =>
    destruct (rkf_stages val p S m dt u q r rh) as [[rk1 rh1] o1] eqn:E end.
  apply stages_static in E. destruct E as (E1 & E2 & E3 & _). cbn in E3.
  assert (E1' : rk_static rk rk1) by (eapply rk_static_trans; [|exact E1]; repeat split).
  destruct o1 as [[]|e| |]; try (injection H as <- <- <-; split; [exact E1'|]; split; [assumption|]; split; [assumption|]; discriminate).
  cbn [rk_accepted rk_set_utilde] in H.
  destruct (rk_accepted rk1) eqn:Ea.
  - destruct (if val then _ else _) as [[]|e| |] in H; injection H as <- <- <-; (split; [eapply rk_static_trans; [exact E1'|repeat split]|]; split; [assumption|]; split; [cbn; congruence|]; (discriminate || reflexivity)).
  - destruct (if val then _ else _) as [[]|e| |] in H; injection H as <- <- <-; (split; [eapply rk_static_trans; [exact E1'|repeat split]|]; split; [assumption|]; split; [cbn; congruence|]; (discriminate || reflexivity)).
Qed.

Lemma cap_static : forall t : timestep A, ts_static t (cap_dt t) /\ ts_t (cap_dt t) = ts_t t /\ ts_iter (cap_dt t) = ts_iter t /\ ts_kind (cap_dt t) = ts_kind t.
Proof. intros t. unfold cap_dt. destruct (nltb A _ _); repeat split. Qed.

Lemma asc_static : forall val fuel p S ts u rk rh m ts' rk' rh' o,
  asc_loop (N:=N) val fuel p S ts u rk rh m = (ts', rk', rh', o) ->
  rk_static rk rk' /\ rhs_static rh rh' /\ ts_static ts ts' /\ ts_t ts' = ts_t ts /\ ts_iter ts' = ts_iter ts /\ ts_kind ts' = ts_kind ts /\
  (o = Ok tt -> rk_accepted rk' = true).
Proof.
  intros val fuel p S. induction fuel as [|fuel IH]; intros ts u rk rh m ts' rk' rh' o H; cbn [asc_loop] in H.
  - destruct (rk_accepted rk) eqn:Ea.
    + injection H as <- <- <- <-. repeat split; auto.
    + injection H as <- <- <- <-. repeat split. discriminate.
  - destruct (rk_accepted rk) eqn:Ea.
    { injection H as <- <- <- <-. repeat split; auto. }
    destruct (calc_rkf_solution val p S (ts_dt ts) u rk rh m) as [[rk1 rh1] o1] eqn:E.
    apply calc_static in E. destruct E as (E1 & E2 & E3 & _).
    destruct o1 as [dt|e| |]; try (injection H as <- <- <- <-; split; [exact E1|]; split; [exact E2|]; repeat split; discriminate).
    destruct (nltb A (rk_err_new rk1) (n1 A)).
    + apply IH in H. destruct H as (H1 & H2 & H3 & H4 & H5 & H6 & H7).
      destruct (cap_static (ts_set_dt dt ts)) as (C1 & C2 & C3 & C4).
      split; [eapply rk_static_trans; [exact E1|]; eapply rk_static_trans; [|exact H1]; repeat split|].
      split; [eapply rhs_static_trans; eauto|].
      split; [eapply ts_static_trans; [|exact H3]; eapply ts_static_trans; [|exact C1]; repeat split|].
      rewrite H4, H5, H6, C2, C3, C4. repeat split. exact H7.
    + apply IH in H. destruct H as (H1 & H2 & H3 & H4 & H5 & H6 & H7).
      split; [eapply rk_static_trans; [exact E1|]; eapply rk_static_trans; [|exact H1]; repeat split|].
      split; [eapply rhs_static_trans; eauto|].
      split; [eapply ts_static_trans; [|exact H3]; repeat split|].
      rewrite H4, H5, H6. repeat split. exact H7.
Qed.

Lemma rkf_asc_static : forall val fuel p S ts u rk rh m ts' rk' rh' o,
  rkf_asc (N:=N) val fuel p S ts u rk rh m = (ts', rk', rh', o) ->
  rk_static rk rk' /\ rhs_static rh rh' /\ ts_static ts ts' /\ ts_t ts' = ts_t ts /\ ts_iter ts' = ts_iter ts /\ ts_kind ts' = ts_kind ts.
Proof.
  intros val fuel p S ts u rk rh m ts' rk' rh' o H. unfold rkf_asc in H.
  destruct (bt_asc (rk_bt rk)).
  - apply asc_static in H. destruct H as (H1 & H2 & H3 & H4 & H5 & H6 & _).
    split; [eapply rk_static_trans; [|exact H1]; repeat split|]. auto 10.
  - injection H as <- <- <- <-. repeat split.
Qed.

Lemma dt_expl_static : forall p S ts u m ts' o, calc_dt_expl (A:=A) p S ts u m = (ts', o) ->
  ts_static ts ts' /\ ts_t ts' = ts_t ts /\ ts_iter ts' = ts_iter ts /\ (o = Ok tt -> ts_kind ts' = KCfl).
Proof.
  intros p S ts u m ts' o H. unfold calc_dt_expl in H. destruct (st_calc_dt_cfl p S u (ts_cfl ts) m).
  - destruct (nltb A _ _) in H; injection H as <- <-; repeat split. discriminate.
  - injection H as <- <-; repeat split. discriminate.
  - injection H as <- <-; repeat split. discriminate.
  - injection H as <- <-; repeat split. discriminate.
Qed.

(** ** One call of [rkf_next], all outcomes *)
Lemma rkf_next_cases : forall val fuel p S m s s' o, rkf_next val fuel p S m s = (s', o) ->
  rk_static (s_rk s) (s_rk s') /\ rhs_static (s_rhs s) (s_rhs s') /\ ts_static (s_ts s) (s_ts s') /\
  ts_iter (s_ts s') = (ts_iter (s_ts s) + 1)%N /\
  ( (o <> Ok tt /\ s_u s' = s_u s /\ ts_t (s_ts s') = ts_t (s_ts s))
  \/ exists k, let c := rkf_combine (nE p) S (ts_dt (s_ts s')) (bt_high (rk_bt (s_rk s))) k (bt_order (rk_bt (s_rk s))) (cons (cent (s_u s))) in
     k = rk_k (s_rk s') /\ let u1 := set_cent (set_cons c (cent (s_u s))) (s_u s) in
     (o = Panic /\ s_u s' = u1 /\ ts_t (s_ts s') = ts_t (s_ts s)) \/
     exists v, update_vars_from_cons p S (r_bw (s_rhs s)) (r_be (s_rhs s)) m (cent u1) = Ok v /\ s_u s' = set_cent v (s_u s) /\
       ((exists e, o = Err e /\ val = true /\ vars_validate v = Err e /\ ts_t (s_ts s') = ts_t (s_ts s)) \/
        (o = Ok tt /\ (val = true -> vars_validate v = Ok tt) /\ ts_t (s_ts s') = nadd A (ts_t (s_ts s)) (ts_dt (s_ts s')))) ).
Proof.
  intros val fuel p S m s s' o H. unfold rkf_next in H.
  destruct (calc_dt_expl p S (ts_set_iter (ts_iter (s_ts s) + 1)%N (s_ts s)) (s_u s) m) as [ts1 o1] eqn:E1.
  apply dt_expl_static in E1. destruct E1 as (D1 & D2 & D3 & _). cbn in D2, D3.
  assert (D1' : ts_static (s_ts s) ts1) by (eapply ts_static_trans; [|exact D1]; repeat split).
  destruct o1 as [[]|e| |].
  2,3,4: injection H as <- <-; cbn [s_rk s_rhs s_ts s_u]; split; [apply rk_static_refl|]; split; [repeat split|];
         split; [exact D1'|]; split; [exact D3|]; left; split; [discriminate|auto].
  destruct (rkf_asc val fuel p S (cap_dt ts1) (s_u s) (s_rk s) (s_rhs s) m) as [[[ts2 rk2] rh2] o2] eqn:E2.
  apply rkf_asc_static in E2. destruct E2 as (G1 & G2 & G3 & G4 & G5 & _).
  destruct (cap_static ts1) as (C1 & C2 & C3 & _).
  assert (T2 : ts_static (s_ts s) ts2) by (eapply ts_static_trans; [|exact G3]; eapply ts_static_trans; [|exact C1]; exact D1').
  assert (T3 : ts_t ts2 = ts_t (s_ts s)) by congruence.
  assert (T4 : ts_iter ts2 = (ts_iter (s_ts s) + 1)%N) by congruence.
  destruct o2 as [[]|e| |].
  2,3,4: injection H as <- <-; cbn [s_rk s_rhs s_ts s_u]; split; [exact G1|]; split; [exact G2|];
         split; [exact T2|]; split; [exact T4|]; left; split; [discriminate|auto].
  destruct (calc_rkf_solution val p S (ts_dt ts2) (s_u s) rk2 rh2 m) as [[rk3 rh3] o3] eqn:E3.
  apply calc_static in E3. destruct E3 as (K1 & K2 & K3 & K4).
  assert (R3 : rk_static (s_rk s) rk3) by (eapply rk_static_trans; eauto).
  assert (H3 : rhs_static (s_rhs s) rh3) by (eapply rhs_static_trans; eauto).
  destruct o3 as [dt3|e| |].
  2,3,4: injection H as <- <-; cbn [s_rk s_rhs s_ts s_u]; split; [exact R3|]; split; [exact H3|];
         split; [exact T2|]; split; [exact T4|]; left; split; [discriminate|auto].
  rewrite (K4 _ eq_refl) in H. clear K4. destruct G1 as (Gb & G1). rewrite Gb in H.
  set (c := rkf_combine (nE p) S (ts_dt ts2) (bt_high (rk_bt (s_rk s))) (rk_k rk3) (bt_order (rk_bt (s_rk s))) (cons (cent (s_u s)))) in *.
  set (u1 := set_cent (set_cons c (cent (s_u s))) (s_u s)) in *.
  unfold st_update_from_cons in H. destruct H3 as [Hw He]. rewrite Hw, He in H.
  destruct (update_vars_from_cons p S (r_bw (s_rhs s)) (r_be (s_rhs s)) m (cent u1)) as [v|e| |] eqn:Eu; cbn [bind] in H.
  - unfold state_validate in H. cbn [cent set_cent] in H.
    assert (Hu : set_cent v u1 = set_cent v (s_u s)) by reflexivity. rewrite Hu in H.
    destruct (if val then vars_validate v else Ok tt) as [[]|e| |] eqn:Ev.
    + injection H as <- <-. cbn [s_rk s_rhs s_ts s_u]. split; [exact R3|]. split; [split; assumption|]. split; [exact T2|].
      split; [exact T4|]. right. exists (rk_k rk3). split; [reflexivity|]. right. exists v. split; [exact Eu|]. split; [reflexivity|]. right.
      split; [reflexivity|]. split; [intros ->; exact Ev|]. cbn. rewrite T3. reflexivity.
    + injection H as <- <-. cbn [s_rk s_rhs s_ts s_u]. split; [exact R3|]. split; [split; assumption|]. split; [exact T2|].
      split; [exact T4|]. right. exists (rk_k rk3). split; [reflexivity|]. right. exists v. split; [exact Eu|]. split; [reflexivity|]. left. exists e.
      destruct val; [|discriminate]. auto.
    + exfalso. destruct val; [|discriminate]. unfold vars_validate, ensure in Ev. clear -Ev.
      repeat (match type of Ev with context [if ?b then _ else _] => destruct b end; cbn [bind] in Ev; try discriminate).
    + exfalso. destruct val; [|discriminate]. unfold vars_validate, ensure in Ev. clear -Ev.
      repeat (match type of Ev with context [if ?b then _ else _] => destruct b end; cbn [bind] in Ev; try discriminate).
  - exfalso. revert Eu. unfold update_vars_from_cons, update_vars_from_prim. clear.
    intros Eu. assert (NB : forall sd l w e', bc_apply sd p S m l w <> Err e').
    { intros sd l w e'. unfold bc_apply. assert (NA : forall q, apply_modes sd (nE p) S m l q <> Err e').
      { induction l as [|[j md] l IH]; intros q; cbn [apply_modes]; [discriminate|]. destruct (j <? nE p); [apply IH|discriminate]. }
      specialize (NA (prim w)). destruct (apply_modes sd (nE p) S m l (prim w)); cbn [bind]; congruence. }
    destruct (bc_apply West p S m (r_bw (s_rhs s)) (update_prim p S (cent u1))) as [x|e'| |] eqn:E1; cbn [bind] in Eu; try discriminate; [|eapply NB; exact E1].
    destruct (bc_apply East p S m (r_be (s_rhs s)) x) as [y|e'| |] eqn:E2; cbn [bind] in Eu; try discriminate. eapply NB; exact E2.
  - injection H as <- <-. cbn [s_rk s_rhs s_ts s_u]. split; [exact R3|]. split; [split; assumption|]. split; [exact T2|].
    split; [exact T4|]. right. exists (rk_k rk3). split; [reflexivity|]. left. auto.
  - exfalso. revert Eu. unfold update_vars_from_cons, update_vars_from_prim. clear.
    intros Eu. assert (NB : forall sd l w, bc_apply sd p S m l w <> Fuel).
    { intros sd l w. unfold bc_apply. assert (NA : forall q, apply_modes sd (nE p) S m l q <> Fuel).
      { induction l as [|[j md] l IH]; intros q; cbn [apply_modes]; [discriminate|]. destruct (j <? nE p); [apply IH|discriminate]. }
      specialize (NA (prim w)). destruct (apply_modes sd (nE p) S m l (prim w)); cbn [bind]; congruence. }
    destruct (bc_apply West p S m (r_bw (s_rhs s)) (update_prim p S (cent u1))) as [x|e'| |] eqn:E1; cbn [bind] in Eu; try discriminate; [|eapply NB; exact E1].
    destruct (bc_apply East p S m (r_be (s_rhs s)) x) as [y|e'| |] eqn:E2; cbn [bind] in Eu; try discriminate. eapply NB; exact E2.
Qed.
End Step.
