(** What conservation of mass means for binary64 numbers. *)

From Coq Require Import Reals List Arith.
From Flocq Require Import Core BinarySingleNaN.
From Verif Require Import Base Num XReal B64 Config Mesh State NumFlux Time SpecFlow SpecStep SpecEuler.
Local Open Scope R_scope.

(** Between 2^-500 and 2^500. *)
Definition wide (x : R) : Prop := bpow radix2 (-500) <= x <= bpow radix2 500.

(** The same number; two zeros may differ in their sign. *)
Definition znum (x y : b64) : Prop := x = y \/ (is_finite x = true /\ is_finite y = true /\ B2R x = 0 /\ B2R y = 0).

(** [F i], i = 1 .. S-3, are the fluxes of the conserved variable [k] (0 for
    mass, 1 for momentum) through
    the east faces of the cells [i] that evaluating the right-hand side yields
    at the conserved variables, boundary conditions and configuration of [s]
    (in arrays of the right sizes).  [fluxes] selects
    the array of numerical fluxes of the scheme. *)
Definition num_fluxes (k : nat) {A_ln A_exp : b64 -> b64} {N : numflux_impl (B64n A_ln A_exp)} (fluxes : nf_T N -> list (list b64))
    (p : phys) (S : nat) (m : mesh (B64n A_ln A_exp)) (good : nf_T N -> Prop) (s : sim (B64n A_ln A_exp) N) (F : nat -> R) : Prop :=
  let zero : b64 := n0 (B64n A_ln A_exp) in
  exists validation h u h' u', wss p S u /\ rhs_update validation p S h u m = (h', u', Ok tt) /\
    r_bw h = r_bw (s_rhs s) /\ r_be h = r_be (s_rhs s) /\ good (r_nf h) /\
    gamma (cent u) = gamma (cent (s_u s)) /\ c_sound (cent u) = c_sound (cent (s_u s)) /\
    (forall j i, (j < nE p)%nat -> (i < S)%nat -> znum (at2 zero (cons (cent u)) j i) (at2 zero (cons (cent (s_u s))) j i)) /\
    forall i, (1 <= i <= S - 3)%nat -> is_finite (at2 zero (fluxes (r_nf h')) k i) = true /\ B2R (at2 zero (fluxes (r_nf h')) k i) = F i.

(** The speed of sound of the isothermal physics, which is stored per cell, does
    not jump across the walls. *)
Definition level_at_walls {A : Num} (p : phys) (S : nat) (v : vars A) : Prop :=
  p = Isot -> at1 (n0 A) (c_sound v) 1 = at1 (n0 A) (c_sound v) 2 /\
              at1 (n0 A) (c_sound v) (S - 2) = at1 (n0 A) (c_sound v) (S - 3).

(** Successive completed steps [st 0], [st 1], .. [st K] of a simulation.  The
    time bookkeeping may be changed between two steps. *)
Definition steps_of {A : Num} {N : numflux_impl A} (validation : bool) (fuel : nat) (p : phys) (S : nat) (m : mesh A) (K : nat) (st : nat -> sim A N) : Prop :=
  forall t, (t < K)%nat -> exists ts,
    solver_next validation fuel p S m (mkSim ts (s_u (st t)) (s_rk (st t)) (s_rhs (st t))) = (st (t + 1)%nat, Ok tt).

(** What leaves the computational cells in a step with [n] stages of weights
    [a] and fluxes [F], minus what enters them. *)
Definition outflow (S n : nat) (a : nat -> R) (F : nat -> nat -> R) : R := rsum n (fun q => a q * (F q (S - 3)%nat - F q 1%nat)).

(** The sum of the sizes of all terms that a step adds up for the variable
    [Q] of the cells. *)
Definition sizes (S n : nat) (Q a : nat -> R) (F : nat -> nat -> R) : R :=
  inner_sum S (fun i => Rabs (Q i) + rsum n (fun q => Rabs (a q * (F q i - F q (i - 1)%nat)))).
