(** No step, output or run panics if the configured indices exist. *)

From Coq Require Import ZArith NArith QArith List Bool Lia String.
From Verif Require Import Base Num Config Mesh State NumFlux Time Writer Runner Spec SpecFlow SpecStep SpecWriter SpecPanic
  BoundaryProofs FluxProofs UpdateProofs StepProofs StepInv SpecRun RunProofs WriterProofs WriterRun.
Import ListNotations.
Local Open Scope nat_scope.

Definition in_range (p : phys) (l : list (nat * cbmode)) : Prop := forall j md, In (j, md) l -> j < nE p.

Lemma init_bc_range : forall p b, equations_exist p b -> in_range p (init_bc b (nE p)).
Proof.
  intros p [l|] H; cbn [init_bc equations_exist] in *; [exact H|].
  intros j md Hj. apply in_map_iff in Hj. destruct Hj as (k & E & K). injection E as <- <-. apply in_seq in K. lia.
Qed.

Section Steps.
Variable A : Num.
Variable N : numflux_impl A.
Variable Hn : never_panics N.
Variables (val : bool) (p : phys) (S : nat) (m : mesh A).

Lemma bc_ok : forall sd l (v : vars A), in_range p l -> exists v', bc_apply sd p S m l v = Ok v'.
Proof. intros sd l v H. apply (proj2 (bc_panic_iff A sd p S m l v)). exact H. Qed.

Lemma from_prim_ok : forall bw be (u : state A), in_range p bw -> in_range p be -> exists u', st_update_from_prim p S bw be m u = Ok u'.
Proof.
  intros bw be u W E. unfold st_update_from_prim, update_vars_from_prim.
  destruct (bc_ok West bw (cent u) W) as (v1 & ->). cbn [bind]. destruct (bc_ok East be v1 E) as (v2 & ->). cbn [bind]. eauto.
Qed.

Lemma from_cons_ok : forall bw be (u : state A), in_range p bw -> in_range p be -> exists u', st_update_from_cons p S bw be m u = Ok u'.
Proof.
  intros bw be u W E. unfold st_update_from_cons, update_vars_from_cons.
  destruct (from_prim_ok bw be (set_cent (update_prim p S (cent u)) u) W E) as (u' & H). unfold st_update_from_prim in H. cbn [cent set_cent] in H.
  destruct (update_vars_from_prim p S bw be m (update_prim p S (cent u))) as [v|e| |]; cbn [bind] in *; try discriminate. eauto.
Qed.

Lemma validate_nopanic : forall (u : state A), state_validate u <> Panic.
Proof.
  intros u. unfold state_validate, vars_validate, ensure. repeat match goal with |- context [if ?b then _ else _] => destruct b; cbn [bind] end; discriminate.
Qed.

Lemma rkf_validate_nopanic : forall rk, rkf_validate (A:=A) rk <> Panic.
Proof.
  intros rk. unfold rkf_validate, state_validate, vars_validate, ensure. repeat match goal with |- context [if ?b then _ else _] => destruct b; cbn [bind] end; discriminate.
Qed.

Lemma stages_nopanic : forall dt u qs rk rh rk' rh' o, rkf_stages (N:=N) val p S m dt u qs rk rh = (rk', rh', o) ->
  in_range p (r_bw rh) -> in_range p (r_be rh) -> o <> Panic.
Proof.
  intros dt u. induction qs as [|q t IH]; intros rk rh rk' rh' o H W E; cbn [rkf_stages] in H; [injection H as <- <- <-; discriminate|].
  unfold rhs_update in H.
  match type of H with context [st_update_from_cons ?a ?b ?c ?d ?e ?f] => destruct (from_cons_ok c d f W E) as (u1 & U); rewrite U in H end.
  match type of H with context [nf_calc N ?a ?b ?c ?d ?e ?f ?g] => pose proof (proj2 Hn a b c d e f g) as R; destruct (nf_calc N a b c d e f g) as [[[n1 d1] u2] o1] end.
  cbn [snd] in R. destruct o1 as [[]|e| |]; [eapply IH; [exact H|exact W|exact E]|injection H as <- <- <-; discriminate|congruence|injection H as <- <- <-; discriminate].
Qed.

Lemma calc_nopanic : forall dt u rk rh rk' rh' o, calc_rkf_solution (N:=N) val p S dt u rk rh m = (rk', rh', o) ->
  in_range p (r_bw rh) -> in_range p (r_be rh) -> o <> Panic.
Proof.
  intros dt u rk rh rk' rh' o H W E. unfold calc_rkf_solution in H.
  match type of H with context [rkf_stages ?a ?b ?c ?d ?e ?f ?g ?h ?i] => destruct (rkf_stages a b c d e f g h i) as [[k h1] o1] eqn:Es end.
  apply stages_nopanic in Es; [|exact W|exact E]. destruct o1 as [[]|e| |]; try (injection H as <- <- <-; congruence).
  cbv zeta in H. match type of H with context [if rk_accepted ?x then ?y else ?z] => destruct (if rk_accepted x then y else z) as [k2 dt2] end.
  pose proof (rkf_validate_nopanic k2). destruct val; [destruct (rkf_validate k2) as [[]|e| |]|]; injection H as <- <- <-; congruence.
Qed.

Lemma asc_nopanic : forall fuel ts u rk rh ts' rk' rh' o, asc_loop (N:=N) val fuel p S ts u rk rh m = (ts', rk', rh', o) ->
  in_range p (r_bw rh) -> in_range p (r_be rh) -> o <> Panic.
Proof.
  induction fuel as [|fuel IH]; intros ts u rk rh ts' rk' rh' o H W E; cbn [asc_loop] in H;
    (destruct (rk_accepted rk); [injection H as <- <- <- <-; discriminate|]); [injection H as <- <- <- <-; discriminate|].
  destruct (calc_rkf_solution val p S (ts_dt ts) u rk rh m) as [[k h1] o1] eqn:C. pose proof (calc_nopanic _ _ _ _ _ _ _ C W E) as P.
  pose proof (calc_static _ _ _ _ _ _ _ _ _ _ _ _ _ C) as St.
  destruct o1 as [dt|e| |]; try (injection H as <- <- <- <-; congruence).
  match type of H with context [if ?b then ?x else ?y] => destruct (if b then x else y) as [ts2 k2] end.
  destruct St as (_ & (B1 & B2) & _). eapply IH; [exact H|rewrite B1; exact W|rewrite B2; exact E].
Qed.

Lemma next_nopanic : forall afuel s s' o, solver_next (N:=N) val afuel p S m s = (s', o) ->
  in_range p (r_bw (s_rhs s)) -> in_range p (r_be (s_rhs s)) -> o <> Panic.
Proof.
  intros afuel s s' o H W E. unfold solver_next in H. destruct (rkf_next val afuel p S m s) as [s1 o1] eqn:R.
  assert (K : o1 <> Panic).
  { clear H. unfold rkf_next, calc_dt_expl in R.
    assert (Cf : st_calc_dt_cfl p S (s_u s) (ts_cfl (ts_set_iter (ts_iter (s_ts s) + 1) (s_ts s))) m <> Panic).
    { unfold st_calc_dt_cfl, calc_dt_cfl, ensure. match goal with |- context [if ?b then _ else _] => destruct b end; discriminate. }
    destruct (st_calc_dt_cfl p S (s_u s) _ m) as [dt|e| |]; try (injection R as <- <-; congruence).
    destruct (nltb A dt _); [injection R as <- <-; discriminate|].
    match type of R with context [rkf_asc ?a ?b ?c ?d ?e ?f ?g ?h ?i] => destruct (rkf_asc a b c d e f g h i) as [[[ts2 rk2] rh2] o2] eqn:As end.
    pose proof As as As'. apply rkf_asc_static in As'. destruct As' as (_ & (B1 & B2) & _).
    assert (P2 : o2 <> Panic).
    { unfold rkf_asc in As. destruct (bt_asc (rk_bt (s_rk s))); [eapply asc_nopanic; [exact As|exact W|exact E]|injection As as <- <- <- <-; discriminate]. }
    destruct o2 as [[]|e| |]; try (injection R as <- <-; congruence).
    match type of R with context [calc_rkf_solution ?a ?b ?c ?d ?e ?f ?g ?h] => destruct (calc_rkf_solution a b c d e f g h) as [[k h1] o3] eqn:C end.
    pose proof (calc_static _ _ _ _ _ _ _ _ _ _ _ _ _ C) as (_ & (B3 & B4) & _).
    apply calc_nopanic in C; [|rewrite B1; exact W|rewrite B2; exact E].
    destruct o3 as [x|e| |]; try (injection R as <- <-; congruence).
    match type of R with context [st_update_from_cons ?a ?b ?c ?d ?e ?f] => destruct (from_cons_ok c d f) as (u1 & U); [rewrite B3, B1; exact W|rewrite B4, B2; exact E|rewrite U in R] end.
    pose proof (validate_nopanic u1) as V.
    destruct val; [destruct (state_validate u1) as [[]|e| |]|]; injection R as <- <-; congruence. }
  destruct o1 as [[]|e| |]; try (injection H as <- <-; congruence).
  destruct (_ <=? _)%N; injection H as <- <-; discriminate.
Qed.

(** ** Runs *)
Variable fmt : nat -> nF A -> string.
Variable sched : BinNums.N -> list nat.

Lemma wsv_sized : forall (v : vars A), wsv A p S v -> sized p S v.
Proof. intros v (H1 & H2 & H3 & H4 & H5). exact (conj H1 (conj H2 H5)). Qed.

Lemma output_wf : forall (s : sim A N) wr w wr' w' r, dims S m -> wsv A p S (cent (s_u s)) -> wf_all p S (wr_outputs wr) ->
  do_output fmt sched m s wr w = (wr', w', r) -> (r = Ok tt \/ r = Err EIO) /\ wf_all p S (wr_outputs wr').
Proof.
  intros s wr w wr' w' r D V W H. unfold do_output in H.
  destruct (update_all_wf A p S m (cent (s_u s)) (s_ts s) wr D (wsv_sized _ V) W) as (wr1 & E & W1 & _). rewrite E in H.
  unfold writer_write in H. destruct (write_sched fmt (wr_counter wr1) (sched (wr_counter wr1)) (wr_outputs wr1) w) as [[os w2] r1] eqn:Q.
  destruct (write_all_wf A fmt p S _ _ _ _ _ _ _ W1 Q) as (R & W2). destruct r1 as [[]|e| |]; injection H as <- <- <-; cbn [wr_outputs]; auto.
Qed.

Lemma run_nopanic : forall afuel fuel (s : sim A N) wr w e r, 5 <= S -> dims S m -> wsv A p S (cent (s_u s)) ->
  in_range p (r_bw (s_rhs s)) -> in_range p (r_be (s_rhs s)) -> wf_all p S (wr_outputs wr) ->
  run_loop fmt val sched afuel fuel p S m s wr w = (e, r) -> r <> Panic.
Proof.
  intros afuel fuel. induction fuel as [|fuel IH]; intros s wr w e r HS D V W E Wf H; [cbn in H; injection H as <- <-; discriminate|].
  rewrite loop_S in H.
  assert (O : forall s1 wr1 w1 tr r1, run_output fmt sched m s wr w = (s1, wr1, w1, tr, r1) ->
    s_u s1 = s_u s /\ s_rhs s1 = s_rhs s /\ (r1 = Ok tt \/ r1 = Err EIO) /\ wf_all p S (wr_outputs wr1)).
  { intros s1 wr1 w1 tr r1 O. unfold run_output in O. destruct (nleb A _ _); [|injection O as <- <- <- <- <-; auto].
    destruct (do_output fmt sched m _ wr w) as [[wr2 w2] r2] eqn:Q in O. injection O as <- <- <- <- <-.
    apply output_wf in Q; [|exact D|exact V|exact Wf]. destruct Q. auto. }
  destruct (run_output fmt sched m s wr w) as [[[[s1 wr1] w1] tr] r1]. destruct (O _ _ _ _ _ eq_refl) as (O1 & O2 & O3 & O4).
  destruct r1 as [[]|er| |]; try (injection H as <- <-; destruct O3; congruence).
  destruct (finished s1); [injection H as <- <-; discriminate|].
  destruct (solver_next val afuel p S m s1) as [s2 r2] eqn:X.
  assert (P : r2 <> Panic) by (eapply next_nopanic; [exact X|rewrite O2; exact W|rewrite O2; exact E]).
  assert (V2 : wsv A p S (cent (s_u s2))).
  { apply (evolves_shape A N p S m s1 s2 HS); [|rewrite O1; exact V]. eapply ev_step; [apply ev_refl|exact X]. }
  assert (B : r_bw (s_rhs s2) = r_bw (s_rhs s) /\ r_be (s_rhs s2) = r_be (s_rhs s)).
  { destruct (evolves_static A N p S m s1 s2) as (B1 & B2 & _); [eapply ev_step; [apply ev_refl|exact X]|]. rewrite B1, B2, O2. auto. }
  destruct B as (B1 & B2).
  destruct r2 as [[]|er| |]; try (injection H as <- <-; congruence).
  - destruct (run_loop fmt val sched afuel fuel p S m s2 wr1 w1) as [e' r'] eqn:Q. injection H as <- <-.
    eapply IH; [exact HS|exact D|exact V2|rewrite B1; exact W|rewrite B2; exact E|exact O4|exact Q].
  - cbv zeta in H. destruct (do_output fmt sched m _ wr1 w1) as [[wr2 w2] r3] eqn:Q in H. injection H as <- <-.
    apply output_wf in Q; [|exact D|exact V2|exact O4]. destruct Q as ([-> | ->] & _); discriminate.
Qed.

End Steps.

(** ** The library's schemes *)
Lemma hll_nopanic : forall A, never_panics (Hll A).
Proof.
  intros A. split.
  - intros p S [|l] m; discriminate.
  - intros v p S n d u m. cbn [nf_calc Hll]. unfold hll_calc. cbn [snd]. destruct v; [|discriminate].
    unfold hll_validate, ensure. repeat match goal with |- context [if ?b then _ else _] => destruct b; cbn [bind] end; discriminate.
Qed.

Lemma kt_nopanic : forall A, never_panics (Kt A).
Proof.
  intros A. split.
  - intros p S [|l] m; discriminate.
  - intros v p S n d u m. cbn [nf_calc Kt]. unfold kt_calc.
    repeat match goal with |- context [match ?x with (_, _) => _ end] => destruct x end.
    cbn [snd]. destruct v; [|discriminate].
    unfold kt_validate, ensure. repeat match goal with |- context [if ?b then _ else _] => destruct b; cbn [bind] end; discriminate.
Qed.

(** ** Initialisation *)
Section Init.
Variable A : Num.

Lemma prepare_nopanic : forall c w w' r, output_prepare c w = (w', r) -> r <> Panic.
Proof.
  intros c w w' r H. unfold output_prepare in H. destruct (oc_stream c); [injection H as <- <-; discriminate|].
  repeat match type of H with context [if ?b then _ else _] => destruct b end; injection H as <- <-; discriminate.
Qed.

Lemma outputs_new_nopanic : forall S cs (m : mesh A) mx w w' r, outputs_new S cs m mx w = (w', r) ->
  r <> Panic /\ forall os, r = Ok os -> os = map (fun c => output_build S c m mx) cs.
Proof.
  intros S cs m mx. induction cs as [|c cs IH]; intros w w' r H; cbn [outputs_new] in H.
  - injection H as <- <-. split; [discriminate|]. intros os E. injection E as <-. reflexivity.
  - destruct (output_prepare c w) as [w1 r1] eqn:P. apply prepare_nopanic in P. destruct r1 as [[]|e| |]; try (injection H as <- <-; split; [congruence|discriminate]).
    destruct (outputs_new S cs m mx w1) as [w2 r2] eqn:Q. destruct (IH _ _ _ Q) as (I1 & I2). injection H as <- <-.
    destruct r2 as [os|e| |]; cbn [bind]; (split; [congruence|]); try discriminate. intros os' E. injection E as <-. cbn [map]. rewrite (I2 os eq_refl). reflexivity.
Qed.

Lemma metadata_nopanic : forall meta sched (os : list (output A)) w w' r, writer_metadata meta sched os w = (w', r) -> r <> Panic.
Proof.
  intros meta sched os. induction sched as [|i t IH]; intros w w' r H; cbn [writer_metadata] in H; [injection H as <- <-; discriminate|].
  destruct (nth_error os i) as [o|]; [|eapply IH; exact H].
  destruct (output_write_metadata meta o w) as [w1 r1] eqn:O.
  assert (K : r1 <> Panic).
  { unfold output_write_metadata in O. destruct (o_metadata o); [|injection O as <- <-; discriminate]. destruct (o_stream o); [injection O as <- <-; discriminate|].
    cbv zeta in O. destruct (open_fails w _); injection O as <- <-; discriminate. }
  destruct r1 as [[]|e| |]; [eapply IH; exact H|injection H as <- <-; discriminate|congruence|injection H as <- <-; discriminate].
Qed.

Lemma validate_config_nopanic : forall c : config A, cf_validate c <> Panic.
Proof.
  intros c. unfold cf_validate, mc_validate, pc_validate, nc_validate, nfc_validate, lm_validate, rc_validate, check_pos, ensure.
  assert (O : forall l, oc_validate_all l <> Panic).
  { induction l as [|o l IH]; cbn [oc_validate_all]; [discriminate|]. unfold oc_validate, ensure.
    destruct (oc_stream o), (oc_conv o); repeat match goal with |- context [if ?b then _ else _] => destruct b; cbn [bind] end; try discriminate; exact IH. }
  destruct (nc_numflux (cf_numerics c)) as [|[| | |q|]]; cbn [bind];
    repeat match goal with |- context [if ?b then _ else _] => destruct b; cbn [bind] end; try discriminate; apply O.
Qed.
End Init.

Lemma init_nopanic : forall A (N : numflux_impl A) validation meta banner sched init p S c w w' r,
  never_panics N -> 4 <= S -> equations_exist p (cf_bc_west c) -> equations_exist p (cf_bc_east c) -> tame p S init ->
  init_corries (A:=A) (N:=N) validation meta banner sched init p S c w = (w', r) ->
  r <> Panic /\
  forall k, r = Ok k -> (exists val mc, mesh_new val S mc = Ok (c_mesh k)) /\
    in_range p (r_bw (s_rhs (c_sim k))) /\ in_range p (r_be (s_rhs (c_sim k))) /\
    wr_outputs (c_writer k) = map (fun oc => output_build S oc (c_mesh k) (cf_output_max c)) (cf_writer c).
Proof.
  intros A N validation meta banner sched init p S c w w' r Hn HS W E T H. unfold init_corries in H.
  pose proof (validate_config_nopanic A c) as V0. destruct (cf_validate c) as [[]|e| |]; try (injection H as <- <-; split; [congruence|discriminate]).
  assert (M0 : mesh_new validation S (cf_mesh c) <> Panic).
  { unfold mesh_new. replace (S <? 4) with false by (symmetry; apply Nat.ltb_ge; lia). cbv zeta. unfold mesh_validate, ensure.
    destruct validation; cbn [bind]; repeat match goal with |- context [if ?b then _ else _] => destruct b; cbn [bind] end; discriminate. }
  destruct (mesh_new validation S (cf_mesh c)) as [m|e| |] eqn:Em; try (injection H as <- <-; split; [congruence|discriminate]).
  destruct (solver_new N p S c m (state_new p S (cf_physics c))) as [s|e| |] eqn:Es; try (injection H as <- <-; split; [congruence|discriminate]).
  2:{ exfalso. unfold solver_new, rhs_new in Es. pose proof (proj1 Hn p S (nc_numflux (cf_numerics c)) m). destruct (nf_new N p S _ m); cbn [bind] in Es; congruence. }
  assert (B : r_bw (s_rhs s) = init_bc (cf_bc_west c) (nE p) /\ r_be (s_rhs s) = init_bc (cf_bc_east c) (nE p)).
  { unfold solver_new, rhs_new in Es. destruct (nf_new N p S _ m); cbn [bind] in Es; try discriminate. injection Es as <-. auto. }
  unfold writer_new in H. destruct (outputs_new S (cf_writer c) m (cf_output_max c) w) as [w1 r1] eqn:O. destruct (outputs_new_nopanic A _ _ _ _ _ _ _ O) as (O1 & O2).
  destruct r1 as [os|e| |]; cbn [bind] in H; try (injection H as <- <-; split; [congruence|discriminate]).
  specialize (O2 os eq_refl). cbn [wr_banner wr_meta wr_outputs] in H.
  destruct (writer_metadata (meta c) sched os _) as [w2 r2] eqn:Md. apply metadata_nopanic in Md.
  destruct r2 as [[]|e| |]; try (injection H as <- <-; split; [congruence|discriminate]).
  destruct (init s m) as [s1 r3] eqn:Ei. destruct (T _ _ _ _ Ei) as (T1 & T2 & T3 & _). injection H as <- <-.
  assert (Rw : in_range p (r_bw (s_rhs s1))) by (rewrite T2, (proj1 B); apply init_bc_range; exact W).
  assert (Re : in_range p (r_be (s_rhs s1))) by (rewrite T3, (proj2 B); apply init_bc_range; exact E).
  destruct r3 as [[]|e| |]; cbn [bind]; try (split; [congruence|discriminate]).
  destruct (from_prim_ok A p S m (r_bw (s_rhs s1)) (r_be (s_rhs s1)) (s_u s1) Rw Re) as (u' & U). rewrite U. cbn [bind].
  split; [discriminate|]. intros k K. injection K as <-. cbn [c_sim c_mesh c_writer s_rhs wr_outputs].
  split; [eauto|]. auto.
Qed.

Lemma init_sized : forall A (N : numflux_impl A) validation meta banner sched init p S c w w' k,
  5 <= S -> tame p S init ->
  init_corries (A:=A) (N:=N) validation meta banner sched init p S c w = (w', Ok k) -> wsv A p S (cent (s_u (c_sim k))).
Proof.
  intros A N validation meta banner sched init p S c w w' k HS Hi H. unfold init_corries in H.
  destruct (cf_validate c); try discriminate. destruct (mesh_new validation S (cf_mesh c)) as [m|e| |]; try discriminate.
  destruct (solver_new N p S c m (state_new p S (cf_physics c))) as [s|e| |] eqn:Es; try discriminate.
  destruct (writer_new meta S c m w) as [w1 r1]. destruct r1 as [wr|e| |]; try discriminate.
  destruct (writer_metadata (wr_meta wr) sched (wr_outputs wr) _) as [w2 r2]. destruct r2 as [[]|e| |]; try discriminate.
  destruct (init s m) as [s1 r3] eqn:Ei. injection H as <- H. apply bind_Ok in H. destruct H as ([] & -> & H).
  apply bind_Ok in H. destruct H as (u & Hu & H). injection H as <-. cbn [c_sim s_rhs s_u c_mesh].
  assert (Ws : wsv A p S (cent (s_u s))).
  { unfold solver_new in Es. apply bind_Ok in Es. destruct Es as (rh & _ & Es). injection Es as <-. cbn. apply wsv_new. }
  destruct (Hi _ _ _ _ Ei) as (_ & _ & _ & W1). specialize (W1 Ws). unfold st_update_from_prim in Hu. apply bind_Ok in Hu. destruct Hu as (v & Hv & Hu). injection Hu as <-.
  cbn [cent init_west_east set_cent]. exact (proj1 (update_from_prim_view A p S _ _ m _ v HS W1 Hv)).
Qed.
