(** Specification vocabulary for time stepping. *)

From Coq Require Import QArith Reals List Bool Lia NArith.
From Verif Require Import Base Num XReal Config Mesh State NumFlux Time Spec SpecFlow.

Section SpecStep.
Variable A : Num.
Variable N : numflux_impl A.

(** [s'] results from [s] by any number of calls of [next_solution], whatever
    they return; between the calls the time data may be replaced (the run loop
    moves the next output time). *)
Inductive evolves (p : phys) (S : nat) (m : mesh A) : sim A N -> sim A N -> Prop :=
| ev_refl : forall s, evolves p S m s s
| ev_step : forall s s1 s2 validation fuel o, evolves p S m s s1 ->
    solver_next validation fuel p S m s1 = (s2, o) -> evolves p S m s s2
| ev_time : forall s s1 ts, evolves p S m s s1 ->
    evolves p S m s (mkSim ts (s_u s1) (s_rk s1) (s_rhs s1)).

(** [n] calls of [next_solution], stopping at the first that does not return
    Ok. *)
Fixpoint next_n (validation : bool) (fuel : nat) (p : phys) (S : nat) (m : mesh A) (n : nat) (s : sim A N) : sim A N * res unit :=
  match n with
  | O => (s, Ok tt)
  | Datatypes.S n =>
      match solver_next validation fuel p S m s with
      | (s, Ok _) => next_n validation fuel p S m n s
      | (s, o) => (s, o)
      end
  end.

(** The conserved variable number [j] of a cell with primitive variables [q]
    and adiabatic index [g]: density, momentum, energy.  In floating point the
    order of the operations matters, so it is spelled out. *)
Definition cons_of (p : phys) (g : nF A) (q : nat -> nF A) (j : nat) : nF A :=
  match j with
  | 0%nat => q 0%nat
  | 1%nat => nmul A (q 1%nat) (q 0%nat)
  | _ => nadd A (nmul A (q 2%nat) (nrecip A (nsub A g (n1 A))))
                (nmul A (nmul A (nmul A (nQ A (1 # 2)) (q 0%nat)) (q 1%nat)) (q 1%nat))
  end.

(** The centre variables of a state are consistent: conserved variables,
    sound speed and wave speeds are those of the primitive variables, in every
    cell including the ghost cells, and the ghost cells are what the boundary
    conditions say (applying them again changes nothing). *)
Record consistent (p : phys) (S : nat) (bw be : list (nat * cbmode)) (m : mesh A) (v : vars A) : Prop := {
  cst_cons : forall j i, (j < nE p)%nat -> (i < S)%nat ->
    at2 (n0 A) (cons v) j i = cons_of p (gamma v) (fun k => at2 (n0 A) (prim v) k i) j;
  cst_sound : forall i, p = Adiab -> (i < S)%nat ->
    at1 (n0 A) (c_sound v) i = nsqrt A (ndiv A (nmul A (gamma v) (at2 (n0 A) (prim v) 2 i)) (at2 (n0 A) (prim v) 0 i));
  cst_slow : forall i, (i < S)%nat ->
    at2 (n0 A) (eigen_vals v) 0 i = nsub A (at2 (n0 A) (prim v) 1 i) (at1 (n0 A) (c_sound v) i);
  cst_fast : forall i, (i < S)%nat ->
    at2 (n0 A) (eigen_vals v) (nE p - 1) i = nadd A (at2 (n0 A) (prim v) 1 i) (at1 (n0 A) (c_sound v) i);
  cst_mid : forall i, p = Adiab -> (i < S)%nat -> at2 (n0 A) (eigen_vals v) 1 i = at2 (n0 A) (prim v) 1 i;
  cst_west : bc_apply West p S m bw v = Ok v;
  cst_east : bc_apply East p S m be v = Ok v }.

(** All arrays of a state have the right sizes. *)
Definition wss (p : phys) (S : nat) (u : state A) : Prop :=
  wsv A p S (cent u) /\ wsv A p S (west u) /\ wsv A p S (east u).

(** Two sets of variables with the same contents, up to eigenvalues and
    fluxes (which are recomputed before use). *)
Definition same_vars (p : phys) (S : nat) (v w : vars A) : Prop :=
  wsv A p S v /\ wsv A p S w /\
  prim v = prim w /\ cons v = cons w /\ c_sound v = c_sound w /\ gamma v = gamma w.

Definition same_state (p : phys) (S : nat) (u w : state A) : Prop :=
  same_vars p S (cent u) (cent w) /\ eigen_vals (cent u) = eigen_vals (cent w) /\
  same_vars p S (west u) (west w) /\ same_vars p S (east u) (east w).

(** A flux scheme without memory: with [good] configuration data the flux
    differences of the computational cells depend on the state only, the ghost
    entries are left alone, and the configuration data and adiabatic indices
    survive.  HLL and KT are such schemes. *)
Definition memoryless (p : phys) (S : nat) (m : mesh A) (good : nf_T N -> Prop) : Prop :=
  forall val1 val2 n1 n2 d1 d2 u1 u2 n1' d1' u1' o1 n2' d2' u2' o2,
  good n1 -> good n2 -> shape (nE p) S d1 -> shape (nE p) S d2 -> same_state p S u1 u2 ->
  nf_calc N val1 p S n1 d1 u1 m = (n1', d1', u1', o1) ->
  nf_calc N val2 p S n2 d2 u2 m = (n2', d2', u2', o2) ->
  good n1' /\ shape (nE p) S d1' /\ wss p S u1' /\
  gamma (cent u1') = gamma (cent u1) /\ gamma (west u1') = gamma (west u1) /\ gamma (east u1') = gamma (east u1) /\
  (forall j i, (j < nE p)%nat -> (2 <= i <= S - 3)%nat -> at2 (n0 A) d1' j i = at2 (n0 A) d2' j i) /\
  (forall j i, (j < nE p)%nat -> (i < S)%nat -> (i < 2 \/ S - 3 < i)%nat -> at2 (n0 A) d1' j i = at2 (n0 A) d1 j i) /\
  (val1 = false -> val2 = false -> o1 = o2).

(** A scheme whose validation only checks: a validated evaluation that
    succeeds does the same as one without validation. *)
Definition checks_only : Prop := forall p S n d u m r,
  nf_calc N true p S n d u m = (r, Ok tt) -> nf_calc N false p S n d u m = (r, Ok tt).

(** The same adiabatic index in all three sets of variables. *)
Definition same_gamma (u w : state A) : Prop :=
  gamma (cent u) = gamma (cent w) /\ gamma (west u) = gamma (west w) /\ gamma (east u) = gamma (east w).

(** Two solvers with the same configuration (tableau, boundary conditions,
    adiabatic index, [good] scheme data) whose internal buffers may hold
    anything.  Ghost entries of the right-hand side array are never written by
    a solver, so they are configuration as well (zeros). *)
Record same_setup (p : phys) (S : nat) (good : nf_T N -> Prop) (k1 : rkf A) (h1 : rhs A N) (k2 : rkf A) (h2 : rhs A N) : Prop := {
  ss_bt : rk_bt k1 = rk_bt k2;
  ss_shape1 : wss p S (rk_utilde k1);
  ss_shape2 : wss p S (rk_utilde k2);
  ss_gamma : same_gamma (rk_utilde k1) (rk_utilde k2);
  ss_good1 : good (r_nf h1);
  ss_good2 : good (r_nf h2);
  ss_full1 : shape (nE p) S (r_full h1);
  ss_full2 : shape (nE p) S (r_full h2);
  ss_ghost : forall j i, (j < nE p)%nat -> (i < S)%nat -> (i < 2 \/ S - 3 < i)%nat ->
    at2 (n0 A) (r_full h1) j i = at2 (n0 A) (r_full h2) j i;
  ss_bw : r_bw h1 = r_bw h2;
  ss_be : r_be h1 = r_be h2 }.

(** Two simulations that agree in everything but the solver's buffers. *)
Definition same_but_buffers (p : phys) (S : nat) (good : nf_T N -> Prop) (s1 s2 : sim A N) : Prop :=
  s_ts s1 = s_ts s2 /\ s_u s1 = s_u s2 /\ rk_accepted (s_rk s1) = true /\ rk_accepted (s_rk s2) = true /\
  same_setup p S good (s_rk s1) (s_rhs s1) (s_rk s2) (s_rhs s2).

End SpecStep.
Arguments evolves {A N}. Arguments cons_of A p g q j : clear implicits. Arguments consistent {A}. Arguments wss {A}. Arguments same_vars {A}. Arguments same_state {A}.
Arguments memoryless {A}. Arguments checks_only {A}.
Arguments same_gamma {A}. Arguments same_setup {A N}. Arguments same_but_buffers {A N}. Arguments next_n {A N}.

(** A solver in working order: its buffers have the right sizes and the
    adiabatic index of the state, its scheme has [good] configuration data.
    [Solver::new] establishes this and no step destroys it. *)
Definition solver_ok {A} {N : numflux_impl A} (p : phys) (S : nat) (good : nf_T N -> Prop) (s : sim A N) : Prop :=
  wss p S (s_u s) /\ same_gamma (rk_utilde (s_rk s)) (s_u s) /\
  same_setup p S good (s_rk s) (s_rhs s) (s_rk s) (s_rhs s).

(** [f] are the values of the right-hand side for the state of [s]: what
    evaluating it once, outside of a step, yields in every cell. *)
Definition rhs_values {N : numflux_impl XRn} (p : phys) (S : nat) (m : mesh XRn) (s : sim XRn N) (f : nat -> nat -> R) : Prop :=
  exists validation h w, rhs_update validation p S (s_rhs s) (s_u s) m = (h, w, Ok tt) /\
  forall j i, (j < nE p)%nat -> (i < S)%nat -> at2 (n0 XRn) (r_full h) j i = Fin (f j i).
