(** Specification for C73: short steps of an isothermal gas whose variables are
    reconstructed inside the cells. *)

From Coq Require Import Reals List.
From Verif Require Import Base Num XReal Config Mesh State NumFlux Time Spec SpecStep.
Import ListNotations.
Local Open Scope R_scope.

(** Two cells that are the same or next to each other. *)
Definition near (i k : nat) : Prop := (i <= k + 1)%nat /\ (k <= i + 1)%nat.

(** In the time [dt] no wave gets further than half a cell of width [dx], not
    even one in a gas that has the momentum and the density of two different
    cells next to a cell, and the sound speed of that cell. *)
Definition mixed_limited (S : nat) (dx dt : R) (v : vars XRn) : Prop :=
  forall i k l c mom rho, (i < S)%nat -> (k < S)%nat -> (l < S)%nat -> near k i -> near l i ->
  at1 (n0 XRn) (c_sound v) i = Fin c -> at2 (n0 XRn) (cons v) 1 k = Fin mom -> at2 (n0 XRn) (cons v) 0 l = Fin rho ->
  dt * (Rabs mom / rho + c) <= dx / 2.

(** Any number of successful steps, each of them limited like that.  Between
    the steps the time data may be replaced, as the output loop does. *)
Inductive mixed_steps {N : numflux_impl XRn} (p : phys) (S : nat) (m : mesh XRn) (dx : R) : sim XRn N -> sim XRn N -> Prop :=
| mst_none : forall s, mixed_steps p S m dx s s
| mst_step : forall s s1 s2 validation fuel dt, mixed_steps p S m dx s s1 ->
    solver_next validation fuel p S m s1 = (s2, Ok tt) -> ts_dt (s_ts s2) = Fin dt -> 0 <= dt ->
    mixed_limited S dx dt (cent (s_u s1)) -> mixed_steps p S m dx s s2
| mst_time : forall s s1 ts, mixed_steps p S m dx s s1 ->
    mixed_steps p S m dx s (mkSim ts (s_u s1) (s_rk s1) (s_rhs s1)).

(** The sound speeds at the faces are those of the cells. *)
Definition same_sound (u : state XRn) : Prop := c_sound (west u) = c_sound (cent u) /\ c_sound (east u) = c_sound (cent u).
