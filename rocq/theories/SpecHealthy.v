(** Specification for C72: physically sensible gas, and steps that are short
    compared with the time a wave needs to cross a cell. *)

From Coq Require Import Reals List.
From Verif Require Import Base Num XReal Config Mesh State NumFlux Time Spec SpecStep.
Import ListNotations.
Local Open Scope R_scope.

(** All variables of all [S] cells (ghost cells included) are finite; densities,
    sound speeds and, for the adiabatic system, pressures are positive. *)
Definition healthy (p : phys) (S : nat) (v : vars XRn) : Prop :=
  (forall i, (i < S)%nat ->
    (exists r, at2 (n0 XRn) (prim v) 0 i = Fin r /\ 0 < r) /\
    (exists r, at2 (n0 XRn) (prim v) 1 i = Fin r) /\
    (p = Adiab -> exists r, at2 (n0 XRn) (prim v) 2 i = Fin r /\ 0 < r) /\
    (exists r, at1 (n0 XRn) (c_sound v) i = Fin r /\ 0 < r)) /\
  (forall j i, (j < nE p)%nat -> (i < S)%nat -> exists r, at2 (n0 XRn) (cons v) j i = Fin r).

(** In the time [dt] no wave of a cell gets further than half a cell of width
    [dx]. *)
Definition courant_limited (S : nat) (dx dt : R) (v : vars XRn) : Prop :=
  forall i x c, (i < S)%nat -> at2 (n0 XRn) (prim v) 1 i = Fin x -> at1 (n0 XRn) (c_sound v) i = Fin c ->
  dt * Rabs (x - c) <= dx / 2 /\ dt * Rabs (x + c) <= dx / 2.

(** Boundary conditions that set the ghost cells of every variable and keep
    densities and pressures positive: they copy or scale them; velocities may
    also be reflected. *)
Definition gentle_bc (E : nat) (l : list (nat * cbmode)) : Prop :=
  (forall j, (j < E)%nat -> In j (map fst l)) /\
  forall j md, In (j, md) l ->
    md = NoGradients \/ md = NearZero \/ (j = 1%nat /\ (md = Reflecting \/ md = OutflowNoGradients)).

(** Any number of successful steps, each Courant limited.  Between the steps
    the time data may be replaced, as the output loop does. *)
Inductive courant_steps {N : numflux_impl XRn} (p : phys) (S : nat) (m : mesh XRn) (dx : R) : sim XRn N -> sim XRn N -> Prop :=
| cst_none : forall s, courant_steps p S m dx s s
| cst_step : forall s s1 s2 validation fuel dt, courant_steps p S m dx s s1 ->
    solver_next validation fuel p S m s1 = (s2, Ok tt) -> ts_dt (s_ts s2) = Fin dt -> 0 <= dt ->
    courant_limited S dx dt (cent (s_u s1)) -> courant_steps p S m dx s s2
| cst_time : forall s s1 ts, courant_steps p S m dx s s1 ->
    courant_steps p S m dx s (mkSim ts (s_u s1) (s_rk s1) (s_rhs s1)).
