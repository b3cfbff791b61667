(** The loops of the numerical code stay inside their arrays and compute what
    the other model files say, in every order of the parallel loops (C57). *)

From Coq Require Import ZArith NArith QArith List Bool Lia String Permutation.
From Verif Require Import Base Num XReal B64 Config Mesh State NumFlux Time Writer Runner Spec SpecFlow SpecStep SpecRun SpecWriter SpecInit SpecPanic SpecLoops
  ConfigProofs FluxProofs StepInv RunProofs WriterRun PanicProofs Loops LoopBase LoopProofs LoopFlux LoopStep LoopRun Demo P_Run P_Init P_Panic.
Import ListNotations.
Local Open Scope nat_scope.

(** ** C57 The loop level *)

Section Whole.
Variable A : Num.
(** the order of the parallel loops, which may depend on the data *)
Variable sched : state A -> nat -> nat -> list nat.

(** Flux evaluation of the two schemes with the parallel loops in this order. *)
Definition hll_par (v : bool) (p : phys) (S : nat) (n : nf_T (Hll A)) (d : list (list (nF A))) (u : state A) (m : mesh A) := hll_calcL (sched u) v p S n d u m.
Definition kt_par (v : bool) (p : phys) (S : nat) (n : nf_T (Kt A)) (d : list (list (nF A))) (u : state A) (m : mesh A) := kt_calcL (sched u) v p S n d u m.

Lemma keeps_sized : forall (N : numflux_impl A) good p S init, keeps_sizes (N:=N) p S init ->
  forall s m s' r, sim_sized A N p S (good p S) s -> init s m = (s', r) -> sim_sized A N p S (good p S) s'.
Proof.
  intros N good p S init K s m s' r (H1 & H2 & H3) H. destruct (K _ _ _ _ H) as (K1 & K2 & K3). split; [apply K1; exact H1|]. rewrite K2, K3. split; assumption.
Qed.
End Whole.
Arguments hll_par {A}. Arguments kt_par {A}.

(** HLL: initialisation and every run from its result, carried out with
    checked array accesses and the loops of the code, are those of the model
    the other theorems are about. *)
Theorem C57_whole_hll : forall A (sched : state A -> nat -> nat -> list nat) validation meta banner sched0 init p S c w,
  (forall u, any_order (sched u)) -> 5 <= S -> keeps_sizes p S init ->
  init_corriesL (N:=Hll A) hll_new validation meta banner sched0 init p S c w = init_corries (N:=Hll A) validation meta banner sched0 init p S c w /\
  forall w1 k, init_corries (N:=Hll A) validation meta banner sched0 init p S c w = (w1, Ok k) ->
  forall fmt validation' sched' afuel fuel w',
  run_loopL (N:=Hll A) (hll_par sched) fmt validation' sched' afuel fuel p S (c_mesh k) (c_sim k) (c_writer k) w' =
  run_loop (N:=Hll A) fmt validation' sched' afuel fuel p S (c_mesh k) (c_sim k) (c_writer k) w'.
Proof.
  intros A sched validation meta banner sched0 init p S c w Ho HS Hi. pose proof (keeps_sized A (Hll A) (hll_sized A) p S init Hi) as Hk. split.
  - apply (init_corriesL_ok A (Hll A) hll_new (hll_sized A)); [reflexivity|exact (hll_sized_new A)|exact Hk].
  - intros w1 k H fmt validation' sched' afuel fuel w'.
    destruct (init_corries_sized A (Hll A) (hll_sized A) (hll_sized_new A) _ _ _ _ _ _ _ _ _ _ _ Hk H) as (Z & M).
    apply (run_loopL_ok A (Hll A) (hll_par sched) (hll_sized A)); try assumption.
    + intros. apply (hllL_ok A (sched u)); try assumption. apply Ho.
    + exact (hll_inv A).
Qed.
Print Assumptions C57_whole_hll.

(** KT: the same. *)
Theorem C57_whole_kt : forall A (sched : state A -> nat -> nat -> list nat) validation meta banner sched0 init p S c w,
  (forall u, any_order (sched u)) -> 5 <= S -> keeps_sizes p S init ->
  init_corriesL (N:=Kt A) kt_newL validation meta banner sched0 init p S c w = init_corries (N:=Kt A) validation meta banner sched0 init p S c w /\
  forall w1 k, init_corries (N:=Kt A) validation meta banner sched0 init p S c w = (w1, Ok k) ->
  forall fmt validation' sched' afuel fuel w',
  run_loopL (N:=Kt A) (kt_par sched) fmt validation' sched' afuel fuel p S (c_mesh k) (c_sim k) (c_writer k) w' =
  run_loop (N:=Kt A) fmt validation' sched' afuel fuel p S (c_mesh k) (c_sim k) (c_writer k) w'.
Proof.
  intros A sched validation meta banner sched0 init p S c w Ho HS Hi. pose proof (keeps_sized A (Kt A) (kt_sized A) p S init Hi) as Hk. split.
  - apply (init_corriesL_ok A (Kt A) kt_newL (kt_sized A)); [exact (kt_newL_ok A)|exact (kt_sized_new A)|exact Hk].
  - intros w1 k H fmt validation' sched' afuel fuel w'.
    destruct (init_corries_sized A (Kt A) (kt_sized A) (kt_sized_new A) _ _ _ _ _ _ _ _ _ _ _ Hk H) as (Z & M).
    apply (run_loopL_ok A (Kt A) (kt_par sched) (kt_sized A)); try assumption.
    + intros. apply (ktL_ok A (sched u)); try assumption. apply Ho.
    + exact (kt_inv A).
Qed.
Print Assumptions C57_whole_kt.

(** Hence the result of a run does not depend on how the threads order the
    elements of the parallel loops. *)
Theorem C57_thread_order : forall A (sched1 sched2 : state A -> nat -> nat -> list nat) validation meta banner sched0 p S c w,
  (forall u, any_order (sched1 u)) -> (forall u, any_order (sched2 u)) -> 5 <= S ->
  (forall init w1 k fmt validation' sched' afuel fuel w', keeps_sizes p S init ->
   init_corriesL (N:=Hll A) hll_new validation meta banner sched0 init p S c w = (w1, Ok k) ->
   run_loopL (N:=Hll A) (hll_par sched1) fmt validation' sched' afuel fuel p S (c_mesh k) (c_sim k) (c_writer k) w' =
   run_loopL (N:=Hll A) (hll_par sched2) fmt validation' sched' afuel fuel p S (c_mesh k) (c_sim k) (c_writer k) w') /\
  (forall init w1 k fmt validation' sched' afuel fuel w', keeps_sizes p S init ->
   init_corriesL (N:=Kt A) kt_newL validation meta banner sched0 init p S c w = (w1, Ok k) ->
   run_loopL (N:=Kt A) (kt_par sched1) fmt validation' sched' afuel fuel p S (c_mesh k) (c_sim k) (c_writer k) w' =
   run_loopL (N:=Kt A) (kt_par sched2) fmt validation' sched' afuel fuel p S (c_mesh k) (c_sim k) (c_writer k) w').
Proof.
  intros A sched1 sched2 validation meta banner sched0 p S c w H1 H2 HS. split; intros init w1 k fmt validation' sched' afuel fuel w' Hi H.
  - destruct (C57_whole_hll A sched1 validation meta banner sched0 init p S c w H1 HS Hi) as (E1 & R1).
    destruct (C57_whole_hll A sched2 validation meta banner sched0 init p S c w H2 HS Hi) as (E2 & R2).
    rewrite E1 in H. rewrite (R1 _ _ H), (R2 _ _ H). reflexivity.
  - destruct (C57_whole_kt A sched1 validation meta banner sched0 init p S c w H1 HS Hi) as (E1 & R1).
    destruct (C57_whole_kt A sched2 validation meta banner sched0 init p S c w H2 HS Hi) as (E2 & R2).
    rewrite E1 in H. rewrite (R1 _ _ H), (R2 _ _ H). reflexivity.
Qed.
Print Assumptions C57_thread_order.

(** No array access is out of range and no two arrays differ in size: the
    checked loops never panic, in initialisation and in runs of any length. *)
Theorem C57_in_range : forall A (sched : state A -> nat -> nat -> list nat) validation meta banner sched0 p S c w,
  (forall u, any_order (sched u)) -> 5 <= S ->
  equations_exist p (cf_bc_west c) -> equations_exist p (cf_bc_east c) -> data_exists p (cf_writer c) ->
  (forall init, tame p S init -> keeps_sizes p S init ->
   snd (init_corriesL (N:=Hll A) hll_new validation meta banner sched0 init p S c w) <> Panic /\
   forall w1 k fmt validation' sched' afuel fuel w',
   init_corriesL (N:=Hll A) hll_new validation meta banner sched0 init p S c w = (w1, Ok k) ->
   snd (run_loopL (N:=Hll A) (hll_par sched) fmt validation' sched' afuel fuel p S (c_mesh k) (c_sim k) (c_writer k) w') <> Panic) /\
  (forall init, tame p S init -> keeps_sizes p S init ->
   snd (init_corriesL (N:=Kt A) kt_newL validation meta banner sched0 init p S c w) <> Panic /\
   forall w1 k fmt validation' sched' afuel fuel w',
   init_corriesL (N:=Kt A) kt_newL validation meta banner sched0 init p S c w = (w1, Ok k) ->
   snd (run_loopL (N:=Kt A) (kt_par sched) fmt validation' sched' afuel fuel p S (c_mesh k) (c_sim k) (c_writer k) w') <> Panic).
Proof.
  intros A sched validation meta banner sched0 p S c w Ho HS W E D. assert (H4 : 4 <= S) by lia. split; intros init T K.
  - destruct (C57_whole_hll A sched validation meta banner sched0 init p S c w Ho HS K) as (E1 & R1). rewrite E1. split.
    + apply (C56_init_never_panics A (Hll A)); try assumption. apply hll_nopanic.
    + intros w1 k fmt validation' sched' afuel fuel w' H. rewrite (R1 _ _ H). apply (C56_run_never_panics A (Hll A) _ _ _ _ _ _ _ _ _ _ _ fmt validation' sched' afuel fuel w' (hll_nopanic A) HS W E T D H).
  - destruct (C57_whole_kt A sched validation meta banner sched0 init p S c w Ho HS K) as (E1 & R1). rewrite E1. split.
    + apply (C56_init_never_panics A (Kt A)); try assumption. apply kt_nopanic.
    + intros w1 k fmt validation' sched' afuel fuel w' H. rewrite (R1 _ _ H). apply (C56_run_never_panics A (Kt A) _ _ _ _ _ _ _ _ _ _ _ fmt validation' sched' afuel fuel w' (kt_nopanic A) HS W E T D H).
Qed.
Print Assumptions C57_in_range.

(** The mesh, for every number of cells: fewer than four cells panic, more
    never do. *)
Theorem C57_mesh : forall A validation S (c : mesh_config A),
  mesh_newL validation S c = mesh_new validation S c /\ (mesh_newL validation S c = Panic <-> S < 4).
Proof.
  intros A validation S c. rewrite mesh_newL_ok. split; [reflexivity|]. unfold mesh_new. destruct (Nat.ltb_spec S 4) as [H|H]; [tauto|].
  split; [|lia]. destruct validation; cbn [bind]; [|discriminate]. unfold mesh_validate, ensure.
  repeat match goal with |- context [if ?b then _ else _] => destruct b; cbn [bind]; try discriminate end.
Qed.
Print Assumptions C57_mesh.

(** The loops of the shipped initial conditions (Sod needs an energy
    equation); by C53_breakpoint and C53_breakpoint_b64 their bound is met. *)
Theorem C57_init_functions : forall A S, breakpoint A S <= S ->
  (forall p (u : state A), wsv A p S (cent u) -> init_noh p S u = match init_nohL p S u with Ok u' => (u', Ok tt) | _ => (u, Panic) end) /\
  (forall u : state A, wsv A Adiab S (cent u) -> init_sod Adiab S u = match init_sodL Adiab S u with Ok u' => (u', Ok tt) | _ => (u, Panic) end).
Proof.
  intros A S Hb. split.
  - intros p u Hu. destruct (init_nohL_ok A p S u Hb Hu) as (E1 & E2). rewrite E1. destruct (init_noh p S u); cbn [fst snd] in *. subst. reflexivity.
  - intros u Hu. destruct (init_sodL_ok A S u Hb Hu) as (E1 & E2). rewrite E1. destruct (init_sod Adiab S u); cbn [fst snd] in *. subst. reflexivity.
Qed.
Print Assumptions C57_init_functions.

(** C57 example: all loops backwards is an admissible order, the shipped
    initial conditions keep sizes, and their loops stay in range. *)
Example C57_example_hyps : forall A,
  any_order (fun _ n => rev (seq 0 n)) /\
  (forall (N : numflux_impl A) p S, keeps_sizes (N:=N) p S (on_state (init_noh p S)) /\ keeps_sizes (N:=N) p S (on_state (init_sod p S))) /\
  (forall S, breakpoint XRn S <= S) /\ (forall bln bexp S, (Z.of_nat S < 2 ^ 53)%Z -> breakpoint (B64n bln bexp) S <= S).
Proof.
  intros A. split; [|split; [|split]].
  - intros l n. apply Permutation_sym, Permutation_rev.
  - intros N p S. split; intros s m s' r H.
    + pose proof H as H'. unfold on_state in H. destruct (init_noh p S (s_u s)) as [u r1] eqn:I. injection H as <- <-. cbn [s_rk s_rhs s_u]. split; [|auto].
      intros (H1 & H2 & H3). destruct (proj2 (proj2 (C56_library A)) N p S) as (T & _). destruct (T _ _ _ _ H') as (_ & _ & _ & T4). specialize (T4 H1). cbn [s_u] in T4.
      unfold init_noh in I. apply pair_equal_spec in I. destruct I as (<- & _). split; [exact T4|]. split; assumption.
    + pose proof H as H'. unfold on_state in H. destruct (init_sod p S (s_u s)) as [u r1] eqn:I. injection H as <- <-. cbn [s_rk s_rhs s_u]. split; [|auto].
      intros (H1 & H2 & H3). destruct (proj2 (proj2 (C56_library A)) N p S) as (_ & T). destruct (T _ _ _ _ H') as (_ & _ & _ & T4). specialize (T4 H1). cbn [s_u] in T4.
      unfold init_sod in I. destruct p; apply pair_equal_spec in I; destruct I as (<- & _); (split; [exact T4|split; assumption]).
  - intros S. rewrite C53_breakpoint. apply Nat.div_le_upper_bound; lia.
  - intros bln bexp S H. rewrite C53_breakpoint_b64 by exact H. apply Nat.div_le_upper_bound; lia.
Qed.

(** ... and the checked loops do run: a Sod test on four computational cells,
    initialised and advanced by one step with all parallel loops backwards. *)
Example C57_example_run : forall bln bexp, let A := B64n bln bexp in exists w k s,
  init_corriesL (A:=A) (N:=Hll A) hll_new true (fun _ => EmptyString) EmptyString [0; 1] (on_state (init_sod Adiab 8)) Adiab 8
    (default_riemann_test A THll 3 (b_ofZ 1) "out" "sod") no_world = (w, Ok k) /\
  solver_nextL (N:=Hll A) (hll_par (fun _ _ n => rev (seq 0 n))) false 1 Adiab 8 (c_mesh k) (c_sim k) = (s, Ok tt).
Proof.
  intros bln bexp A.
  set (i := init_corriesL (A:=A) (N:=Hll A) hll_new true (fun _ => EmptyString) EmptyString [0; 1] (on_state (init_sod Adiab 8)) Adiab 8 (default_riemann_test A THll 3 (b_ofZ 1) "out" "sod") no_world).
  assert (H : b_ok (do k <- snd i; snd (solver_nextL (N:=Hll A) (hll_par (fun _ _ n => rev (seq 0 n))) false 1 Adiab 8 (c_mesh k) (c_sim k))) = true) by (vm_compute; reflexivity).
  destruct i as [w k]. cbn [snd] in H. destruct k as [k|e| |]; cbn [bind] in H; try discriminate H.
  destruct (solver_nextL (N:=Hll A) (hll_par (fun _ _ n => rev (seq 0 n))) false 1 Adiab 8 (c_mesh k) (c_sim k)) as [s o] eqn:E. cbn [snd] in H.
  destruct o as [[]|e| |]; try discriminate H. exists w, k, s. split; [reflexivity|exact E].
Qed.

(** ... and they do panic out of range: a loop over six cells on arrays of
    five. *)
Example C57_example_panics : forall A (c : physics_config A),
  update_primL Isot 6 (vars_new Isot 5 c) = Panic /\ update_primL Isot 5 (vars_new Isot 5 c) <> Panic.
Proof. intros A c. split; [reflexivity|discriminate]. Qed.
