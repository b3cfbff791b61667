(** The checked loops compute the element formulas: mesh, initial conditions,
    initialisation and whole runs. *)

From Coq Require Import List ZArith NArith QArith Bool Lia Permutation String.
From Verif Require Import Base Num Config Mesh State NumFlux Time Writer Runner Spec SpecFlow SpecStep SpecInit
  MeshProofs PhysicsProofs BoundaryProofs FluxProofs StepInv Loops LoopBase LoopProofs LoopFlux LoopStep.
Import ListNotations.
Local Open Scope nat_scope.

Section Run.
Variable A : Num.
Notation F := (nF A).

(** ** Mesh *)
Lemma zip2_zipw : forall (f : F -> F -> F) a b, List.length a = List.length b -> zip2 f a b = Ok (zipw A f a b).
Proof. intros f a b H. unfold zip2. rewrite H, Nat.eqb_refl. reflexivity. Qed.

Lemma mesh_buildL_ok : forall S c, mesh_buildL (A:=A) S c = if S <? 4 then Panic else Ok (mesh_build S c).
Proof.
  intros S c. unfold mesh_buildL. destruct (Nat.ltb_spec S 4) as [H|H].
  - unfold usub at 1. destruct (Nat.leb_spec (2 * 2) S); [lia|]. reflexivity.
  - repeat (rewrite usub_ok by lia; cbn [bind]).
    set (dxi := ndiv A _ _).
    rewrite (loop_vec _ (n0 A) S 0 (fun i => nadd A (mc_xi_in c) (nmul A dxi (nZ A (Z.of_nat i - Z.of_nat (0 + 2)))))); [|apply repeat_length| |].
    2:{ intros k Hk. apply in_seq in Hk. lia. }
    2:{ intros k v Hk Hv. apply in_seq in Hk. apply wr1_ok. lia. }
    cbn [bind].
    assert (W : tab S (fun i => if (0 <=? i) && mem (i - 0) (range_incl 0 (0 + S - 1)) then nadd A (mc_xi_in c) (nmul A dxi (nZ A (Z.of_nat (i - 0) - Z.of_nat (0 + 2)))) else at1 (n0 A) (repeat (n0 A) S) i)
                = tab S (fun i => nadd A (mc_xi_in c) (nmul A dxi (nZ A (Z.of_nat i - Z.of_nat (0 + 2)))))).
    { apply tab_ext. intros i Hi. unfold range_incl. rewrite mem_seq. rewrite Nat.sub_0_r. destruct (Nat.leb_spec 0 i); [|lia].
      destruct (Nat.ltb_spec i (0 + (0 + S - 1 + 1 - 0))); [|lia]. reflexivity. }
    rewrite W. clear W.
    repeat (rewrite zip2_zipw by (repeat rewrite ?map_length, ?length_zipw by (repeat rewrite ?map_length, ?length_zipw; reflexivity); reflexivity); cbn [bind]).
    reflexivity.
Qed.

Lemma mesh_newL_ok : forall v S c, mesh_newL (A:=A) v S c = mesh_new v S c.
Proof. intros v S c. unfold mesh_newL, mesh_new. rewrite mesh_buildL_ok. destruct (S <? 4); reflexivity. Qed.

Lemma mesh_rows_build : forall S c, 4 <= S -> mesh_rows A S (mesh_build S c).
Proof.
  intros S c H. destruct (mesh_lengths A S c) as (L1 & L2 & L3 & L4 & _).
  split; [reflexivity|]. split; [cbn [m_ixi_out mesh_build]; lia|]. split; [exact L1|]. split; [exact L2|]. split; [exact L3|]. split; [exact L4|].
  cbn [m_cell_width_inv m_deta_dphi_d_volume m_d_area_east mesh_build].
  split; [|split]; repeat rewrite ?map_length, ?length_zipw, ?length_tab by (repeat rewrite ?map_length, ?length_zipw by (rewrite ?map_length; reflexivity); reflexivity); reflexivity.
Qed.

Lemma mesh_rows_new : forall v S c m, mesh_new (A:=A) v S c = Ok m -> mesh_rows A S m.
Proof. intros v S c m H. destruct (mesh_new_Ok _ _ _ _ _ H) as (HS & -> & _). apply mesh_rows_build. exact HS. Qed.

(** ** Initial conditions *)
Lemma map_fill : forall X Y (x : Y) n (v : list X), List.length v = n -> map (fun _ => x) v = repeat x n.
Proof. intros X Y x n v <-. induction v as [|a v IH]; [reflexivity|]. cbn. f_equal. exact IH. Qed.

(** two loops over the columns below and from [b] on *)
Lemma split_loop : forall S b js (g h : nat -> F) f1 f2 e q, b <= S -> shape e S q -> (forall j, In j js -> j < e) ->
  (forall i q, i < S -> shape e S q -> f1 i q = Ok (set_col js (fun j _ => g j) i q)) ->
  (forall i q, i < S -> shape e S q -> f2 i q = Ok (set_col js (fun j _ => h j) i q)) ->
  (do q <- for_in (range 0 b) f1 q; for_in (range b S) f2 q)
  = Ok (mtab e S (fun j i => if mem j js then (if i <? b then g j else h j) else at2 (n0 A) q j i)).
Proof.
  intros S b js g h f1 f2 e q Hb Hq Hj H1 H2.
  rewrite (loop_cols _ (n0 A) e S js (fun j _ => g j) f1); [|exact Hq|exact Hj| |].
  2:{ intros i Hi. apply in_seq in Hi. lia. }
  2:{ intros i q' Hi Hq'. apply in_seq in Hi. apply H1; [lia|exact Hq']. }
  cbn [bind]. rewrite (loop_cols _ (n0 A) e S js (fun j _ => h j) f2); [|apply shape_mtab|exact Hj| |].
  2:{ intros i Hi. apply in_seq in Hi. lia. }
  2:{ intros i q' Hi Hq'. apply in_seq in Hi. apply H2; [lia|exact Hq']. }
  f_equal. unfold mtab at 1 3. apply tab_ext. intros j Jj. apply tab_ext. intros i Ii. rewrite at2_mtab by assumption.
  unfold range. rewrite !mem_seq. destruct (mem j js); cbn [andb]; [|reflexivity].
  destruct (Nat.ltb_spec i b); destruct (Nat.leb_spec b i); destruct (Nat.ltb_spec i (b + (S - b))); destruct (Nat.leb_spec 0 i); destruct (Nat.ltb_spec i (0 + (b - 0))); cbn [andb]; try lia; reflexivity.
Qed.

Lemma row_ext : forall e S (q q' : list (list F)), shape e S q -> shape e S q' ->
  (forall j i, j < e -> i < S -> at2 (n0 A) q j i = at2 (n0 A) q' j i) -> q = q'.
Proof. intros e S q q' H1 H2 H. apply (mat_ext _ (n0 A) e S); auto. Qed.

Lemma at2_upd_row : forall e S (q : list (list F)) k (r : list F) j i, shape e S q -> k < e ->
  at2 (n0 A) (upd k r q) j i = if j =? k then nth i r (n0 A) else at2 (n0 A) q j i.
Proof.
  intros e S q k r j i (H1 & _) Hk. unfold at2. rewrite nth_upd, (Nat.eqb_sym k j). destruct (Nat.eqb_spec j k) as [->|]; [|reflexivity].
  destruct (Nat.ltb_spec k (List.length q)); [reflexivity|lia].
Qed.

Lemma nth_rep : forall (x d : F) n i, i < n -> nth i (repeat x n) d = x.
Proof. intros x d n. induction n as [|n IH]; intros i H; [lia|]. destruct i; [reflexivity|]. cbn. apply IH. lia. Qed.

Lemma nth_const : forall (d : F) (l : list F) i, nth i (map (fun _ => d) l) d = d.
Proof. intros d l. induction l as [|x l IH]; intros [|i]; try reflexivity. apply IH. Qed.

Lemma on_row_fill : forall e S (q : list (list F)) j x, shape e S q -> j < e -> on_row j (fun r => Ok (map (fun _ => x) r)) q = Ok (upd j (repeat x S) q).
Proof.
  intros e S q j x Hq Hj. rewrite (on_row_ok _ e S _ j _ (repeat x S)); [reflexivity|exact Hq|exact Hj|]. f_equal. apply map_fill. apply (shape_row _ e); assumption.
Qed.

Lemma init_nohL_ok : forall p S (u : state A), breakpoint A S <= S -> wsv A p S (cent u) ->
  init_nohL p S u = Ok (fst (init_noh p S u)) /\ snd (init_noh p S u) = Ok tt.
Proof.
  intros p S u Hb (H1 & _ & _ & _ & H5). split; [|reflexivity]. assert (E2 : 2 <= nE p) by (destruct p; cbn; lia).
  unfold init_nohL. rewrite (on_row_fill (nE p) S) by (try assumption; unfold JRHO; lia). cbn [bind].
  set (q0 := upd JRHO (repeat (n1 A) S) (prim (cent u))).
  assert (Q0 : shape (nE p) S q0) by (apply shape_upd_row; [exact H1|apply repeat_length]).
  set (q1 := upd JXI (tab S (fun i => if i <? breakpoint A S then n1 A else nZ A (-1))) q0).
  assert (Q1 : shape (nE p) S q1) by (apply shape_upd_row; [exact Q0|apply length_tab]).
  assert (L : (do q <- for_in (range 0 (breakpoint A S)) (fun i q => wr2 q JXI i (n1 A)) q0; for_in (range (breakpoint A S) S) (fun i q => wr2 q JXI i (nZ A (-1))) q) = Ok q1).
  { rewrite (split_loop S (breakpoint A S) [JXI] (fun _ => n1 A) (fun _ => nZ A (-1)) _ _ (nE p)); [|exact Hb|exact Q0| | |].
    - f_equal. apply (row_ext (nE p) S); [apply shape_mtab|exact Q1|]. intros j i Hj Hi. rewrite at2_mtab by assumption. unfold q1.
      rewrite (at2_upd_row (nE p) S) by (try assumption; unfold JXI; lia). change (mem j [JXI]) with ((j =? JXI) || false). rewrite orb_false_r.
      destruct (j =? JXI); [|reflexivity]. rewrite nth_tab by exact Hi. reflexivity.
    - intros j [<-|[]]. unfold JXI. lia.
    - intros i q Hi Hq. unfold set_col. cbn [fold_left]. apply (wr2_ok _ (nE p) S); [exact Hq|unfold JXI; lia|exact Hi].
    - intros i q Hi Hq. unfold set_col. cbn [fold_left]. apply (wr2_ok _ (nE p) S); [exact Hq|unfold JXI; lia|exact Hi]. }
  destruct (for_in (range 0 (breakpoint A S)) _ q0) as [q| | |]; cbn [bind] in *; try discriminate. rewrite L. cbn [bind].
  unfold init_noh. fold q0. fold q1. destruct p; cbn [fst].
  - rewrite (map_fill _ _ _ S) by exact H5. reflexivity.
  - rewrite (on_row_fill 3 S) by (try exact Q1; lia). reflexivity.
Qed.

Lemma init_sodL_ok : forall S (u : state A), breakpoint A S <= S -> wsv A Adiab S (cent u) ->
  init_sodL Adiab S u = Ok (fst (init_sod Adiab S u)) /\ snd (init_sod Adiab S u) = Ok tt.
Proof.
  intros S u Hb (H1 & _). split; [|reflexivity]. unfold init_sodL. cbn [nE] in H1.
  set (q0 := map (map (fun _ => n0 A)) (prim (cent u))).
  assert (Q0 : shape 3 S q0).
  { destruct H1 as (K1 & K2). split; [unfold q0; rewrite map_length; exact K1|]. intros j Hj. unfold q0. change (@nil F) with (map (fun _ : F => n0 A) []). rewrite map_nth, map_length. apply K2. exact Hj. }
  assert (Z0 : forall j i, at2 (n0 A) q0 j i = n0 A).
  { intros j i. unfold q0, at2. change (@nil F) with (map (fun _ : F => n0 A) []). rewrite map_nth. apply nth_const. }
  pose (q1 := upd 2 (tab S (fun i => if i <? breakpoint A S then n1 A else nQ A (1 # 10)))
     (upd JRHO (tab S (fun i => if i <? breakpoint A S then n1 A else nQ A (125 # 1000))) (zeros2 (A:=A) 3 S))).
  assert (Zz : shape 3 S (zeros2 (A:=A) 3 S)) by apply PhysicsProofs.shape_zeros2.
  assert (Z1 : shape 3 S (upd JRHO (tab S (fun i => if i <? breakpoint A S then n1 A else nQ A (125 # 1000))) (zeros2 (A:=A) 3 S))) by (apply shape_upd_row; [exact Zz|apply length_tab]).
  assert (Q1 : shape 3 S q1) by (apply shape_upd_row; [exact Z1|apply length_tab]).
  assert (L : (do q <- for_in (range 0 (breakpoint A S)) (fun i q => do q <- wr2 q JRHO i (n1 A); wr2 q 2 i (n1 A)) q0;
     for_in (range (breakpoint A S) S) (fun i q => do q <- wr2 q JRHO i (nQ A (125 # 1000)); wr2 q 2 i (nQ A (1 # 10))) q) = Ok q1).
  { rewrite (split_loop S (breakpoint A S) [JRHO; 2] (fun _ => n1 A) (fun j => if j =? 2 then nQ A (1 # 10) else nQ A (125 # 1000)) _ _ 3); [|exact Hb|exact Q0| | |].
    - f_equal. apply (row_ext 3 S); [apply shape_mtab|exact Q1|]. intros j i Hj Hi. rewrite at2_mtab by assumption. unfold q1.
      rewrite (at2_upd_row 3 S) by (try assumption; lia). rewrite (at2_upd_row 3 S) by (try assumption; unfold JRHO; lia).
      change (mem j [JRHO; 2]) with ((j =? JRHO) || ((j =? 2) || false)). rewrite orb_false_r, !nth_tab by exact Hi.
      unfold JRHO. destruct (Nat.eqb_spec j 2) as [->|]; [reflexivity|]. destruct (Nat.eqb_spec j 0); cbn [orb]; [reflexivity|].
      rewrite Z0. unfold at2, zeros2. symmetry. destruct j as [|[|[|]]]; try lia. cbn [nth repeat]. unfold zeros. apply nth_rep. exact Hi.
    - intros j [<-|[<-|[]]]; unfold JRHO; lia.
    - intros i q Hi Hq. unfold set_col. cbn [fold_left]. rewrite (wr2_ok _ 3 S) by (try assumption; unfold JRHO; lia). cbn [bind].
      apply (wr2_ok _ 3 S); [apply shape_upd2; exact Hq|lia|exact Hi].
    - intros i q Hi Hq. unfold set_col. cbn [fold_left]. rewrite (wr2_ok _ 3 S) by (try assumption; unfold JRHO; lia). cbn [bind].
      apply (wr2_ok _ 3 S); [apply shape_upd2; exact Hq|lia|exact Hi]. }
  destruct (for_in (range 0 (breakpoint A S)) _ q0) as [q| | |]; cbn [bind] in *; try discriminate. rewrite L. cbn [bind].
  unfold init_sod. fold q1. reflexivity.
Qed.

Lemma west_eastL_ok : forall p S (u : state A), wss p S u -> init_west_eastL u = Ok (init_west_east u).
Proof.
  intros p S u (H1 & H2 & H3). unfold init_west_eastL, init_west_east.
  rewrite (assign_okL A p S) by assumption. cbn [bind]. rewrite (assign_okL A p S) by assumption. reflexivity.
Qed.

(** ** Initialisation and runs, for a scheme given by loops *)
Variable N : numflux_impl A.
Variable new : phys -> nat -> numflux_config A -> mesh A -> res (nf_T N).
Variable calc : bool -> phys -> nat -> nf_T N -> list (list F) -> state A -> mesh A -> (nf_T N * list (list F) * state A) * res unit.
Variable good : phys -> nat -> nf_T N -> Prop.
Hypothesis new_ok : forall p S c m, mesh_rows A S m -> new p S c m = nf_new N p S c m.
Hypothesis new_good : forall p S c m n, nf_new N p S c m = Ok n -> good p S n.
Hypothesis calc_ok : forall v p S m n d u, 5 <= S -> mesh_rows A S m -> good p S n -> shape (nE p) S d -> wss p S u -> calc v p S n d u m = nf_calc N v p S n d u m.
Hypothesis calc_inv : forall v p S m n d u n' d' u' o, 5 <= S -> mesh_rows A S m -> good p S n -> shape (nE p) S d -> wss p S u -> nf_calc N v p S n d u m = (n', d', u', o) ->
  good p S n' /\ shape (nE p) S d' /\ wss p S u'.

Notation sized p S := (sim_sized A N p S (good p S)).

Lemma wss_state_new : forall p S c, wss p S (state_new (A:=A) p S c).
Proof. intros p S c. split; [apply wsv_new|]. split; apply wsv_new. Qed.

Lemma bt_sized_new : forall c, bt_sized A (bt_new (A:=A) c).
Proof.
  intros c. unfold bt_new. destruct (rc_mode c); (split; [split; [reflexivity|]|split; reflexivity]); cbn [bt_order bt_a get_order];
    intros j Hj; do 6 (destruct j as [|j]; [reflexivity || lia|]); lia.
Qed.

Lemma solver_newL_ok : forall p S c m u, mesh_rows A S m -> solver_newL new p S c m u = solver_new N p S c m u.
Proof.
  intros p S c m u Hm. unfold solver_newL, solver_new, rhs_new. rewrite new_ok by exact Hm.
  destruct (nf_new N p S (nc_numflux (cf_numerics c)) m); reflexivity.
Qed.

Lemma solver_new_sized : forall p S c m u s, wss p S u -> solver_new N p S c m u = Ok s -> sized p S s.
Proof.
  intros p S c m u s Hu H. unfold solver_new, rhs_new in H. apply bind_Ok in H. destruct H as (rh & Hr & H). injection H as <-.
  apply bind_Ok in Hr. destruct Hr as (n & Hn & Hr). injection Hr as <-.
  split; [exact Hu|]. split; [|split; [exact (new_good _ _ _ _ _ Hn)|apply PhysicsProofs.shape_zeros2]].
  cbn [s_rk]. split; [apply bt_sized_new|]. split; [|split; [apply PhysicsProofs.shape_zeros2|apply wss_state_new]].
  cbn [rk_k rkf_new rk_bt]. apply k_sized_zero.
Qed.

Lemma init_corriesL_ok : forall validation meta banner sched init p S c w, 
  (forall s m s' r, sized p S s -> init s m = (s', r) -> sized p S s') ->
  init_corriesL new validation meta banner sched init p S c w = init_corries (N:=N) validation meta banner sched init p S c w.
Proof.
  intros validation meta banner sched init p S c w Hi. unfold init_corriesL, init_corries.
  destruct (cf_validate c) as [[]|e| |]; cbn [bind]; try reflexivity. rewrite mesh_newL_ok.
  destruct (mesh_new validation S (cf_mesh c)) as [m|e| |] eqn:Em; cbn [bind]; try reflexivity.
  assert (HS : 4 <= S) by apply (mesh_new_Ok _ _ _ _ _ Em). apply mesh_rows_new in Em.
  rewrite solver_newL_ok by exact Em. destruct (solver_new N p S c m (state_new p S (cf_physics c))) as [s|e| |] eqn:Es; cbn [bind]; try reflexivity.
  apply solver_new_sized in Es; [|apply wss_state_new].
  destruct (writer_new meta S c m w) as [w1 [wr|e| |]]; try reflexivity.
  destruct (writer_metadata (wr_meta wr) sched (wr_outputs wr) _) as [w2 [[]|e| |]]; try reflexivity.
  destruct (init s m) as [s1 r] eqn:Ei. apply Hi in Ei; [|exact Es]. f_equal. destruct r as [[]|e| |]; cbn [bind]; try reflexivity.
  destruct Ei as (Hu & _). unfold st_update_from_prim. rewrite (from_primL_ok A p S) by (try assumption; apply Hu).
  destruct (update_vars_from_prim p S (r_bw (s_rhs s1)) (r_be (s_rhs s1)) m (cent (s_u s1))) as [v|e| |] eqn:Ev; cbn [bind]; try reflexivity.
  rewrite (west_eastL_ok p S); [reflexivity|]. apply wss_cent; [exact Hu|]. eapply from_prim_wsv; [|exact Ev]. apply Hu.
Qed.

Lemma init_corries_sized : forall validation meta banner sched init p S c w w' k, 
  (forall s m s' r, sized p S s -> init s m = (s', r) -> sized p S s') ->
  init_corries (N:=N) validation meta banner sched init p S c w = (w', Ok k) ->
  sized p S (c_sim k) /\ mesh_rows A S (c_mesh k).
Proof.
  intros validation meta banner sched init p S c w w' k Hi H. unfold init_corries in H.
  destruct (cf_validate c) as [[]|e| |]; try discriminate.
  destruct (mesh_new validation S (cf_mesh c)) as [m|e| |] eqn:Em; try discriminate. apply mesh_rows_new in Em.
  destruct (solver_new N p S c m (state_new p S (cf_physics c))) as [s|e| |] eqn:Es; try discriminate.
  apply solver_new_sized in Es; [|apply wss_state_new].
  destruct (writer_new meta S c m w) as [w1 [wr|e| |]]; try discriminate.
  destruct (writer_metadata (wr_meta wr) sched (wr_outputs wr) _) as [w2 [[]|e| |]]; try discriminate.
  destruct (init s m) as [s1 r] eqn:Ei. apply Hi in Ei; [|exact Es]. injection H as _ H. apply bind_Ok in H. destruct H as ([] & -> & H).
  apply bind_Ok in H. destruct H as (u & Hu & H). injection H as <-. cbn [c_sim c_mesh]. split; [|exact Em].
  destruct Ei as (H1 & H2 & H3). split; [|split; [exact H2|exact H3]]. cbn [s_u].
  unfold st_update_from_prim in Hu. apply bind_Ok in Hu. destruct Hu as (v & Hv & Hu). injection Hu as <-.
  assert (Wv : wsv A p S v) by (eapply from_prim_wsv; [|exact Hv]; apply H1). destruct H1 as (_ & H1w & H1e).
  unfold wss, init_west_east. cbn [cent west east set_cent]. split; [exact Wv|]. split; apply wsv_assign; assumption.
Qed.

Lemma run_loopL_ok : forall fmt v sched afuel fuel p S m s wr w, 5 <= S -> mesh_rows A S m -> sized p S s ->
  run_loopL calc fmt v sched afuel fuel p S m s wr w = run_loop fmt v sched afuel fuel p S m s wr w.
Proof.
  intros fmt v sched afuel fuel p S m s wr w HS Hm. revert s wr w.
  induction fuel as [|fuel IH]; intros s wr w Hs; [reflexivity|]. cbn [run_loopL run_loop].
  destruct (run_output fmt sched m s wr w) as [[[[s1 wr1] w1] tr] r] eqn:O.
  assert (Hs1 : sized p S s1).
  { unfold run_output in O. destruct (nleb A _ _); [|injection O as <- _ _ _ _; exact Hs].
    destruct (do_output fmt sched m _ wr w) as [[? ?] ?]. injection O as <- _ _ _ _. destruct Hs as (H1 & H2 & H3). split; [exact H1|]. split; [exact H2|exact H3]. }
  destruct r as [[]|e| |]; try reflexivity. destruct (nleb A _ _); [reflexivity|].
  destruct (solver_nextL_ok A N calc p S m (good p S) HS Hm) with (v := v) (fuel := afuel) (s := s1) as (E & I).
  - intros. apply calc_ok; assumption.
  - intros. eapply calc_inv; eassumption.
  - exact Hs1.
  - rewrite E. destruct (solver_next v afuel p S m s1) as [s2 o]. specialize (I _ _ eq_refl).
    destruct o as [[]|e| |]; try reflexivity. rewrite IH by exact I. reflexivity.
Qed.
End Run.

(** ** The two schemes *)
Section Schemes.
Variable A : Num.

Lemma hll_inv : forall v p S m n d u n' d' u' o, 5 <= S -> mesh_rows A S m -> hll_sized A p S n -> shape (nE p) S d -> wss p S u ->
  nf_calc (Hll A) v p S n d u m = (n', d', u', o) -> hll_sized A p S n' /\ shape (nE p) S d' /\ wss p S u'.
Proof.
  intros v p S m n d u n' d' u' o HS Hm Hn Hd (H1 & H2 & H3) H. cbn [nf_calc Hll] in H.
  pose proof (hll_sized_calc A v p S n d u m) as G1. pose proof (hll_dflux_shape A v p S n d u m) as G2. pose proof (hll_state A v p S n d u m) as G3.
  rewrite H in G1, G2, G3. cbn [fst snd] in *. split; [exact G1|]. split; [exact G2|]. rewrite G3. split; [apply wsv_update_flux; exact H1|]. split; assumption.
Qed.

Lemma wss_recon : forall p S k (u : state A), wss p S u -> wss p S (kt_reconstruct k (nE p) S u).
Proof.
  intros p S k u (H1 & H2 & H3). unfold kt_reconstruct, wss. cbn [cent west east]. split; [exact H1|]. split; apply wsv_set_cons; try assumption; apply FluxProofs.shape_upd_range2.
Qed.

Lemma kt_inv : forall v p S m n d u n' d' u' o, 5 <= S -> mesh_rows A S m -> kt_sized A p S n -> shape (nE p) S d -> wss p S u ->
  nf_calc (Kt A) v p S n d u m = (n', d', u', o) -> kt_sized A p S n' /\ shape (nE p) S d' /\ wss p S u'.
Proof.
  intros v p S m n d u n' d' u' o HS Hm Hn Hd Hu H. cbn [nf_calc Kt] in H.
  pose proof (kt_sized_calc A v p S n d u m Hn) as G1. pose proof (kt_dflux_shape A v p S n d u m) as G2. pose proof (kt_state A v p S n d u m) as G3.
  rewrite H in G1, G2, G3. cbn [fst snd] in *. split; [exact G1|]. split; [exact G2|]. rewrite G3.
  pose proof (wss_recon p S n u Hu) as (K1 & K2 & K3). split; [apply Hu|]. cbn [west east]. split; apply FluxProofs.wsv_face; assumption.
Qed.
End Schemes.
