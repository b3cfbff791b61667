(** Specification for C76: a density profile carried along by a gas of uniform
    velocity and pressure. *)

From Coq Require Import Reals List.
From Verif Require Import Base Num XReal Config Mesh State Spec.
Import ListNotations.
Local Open Scope R_scope.

(** Velocity [x] and pressure [q] in all [S] cells, ghost cells included. *)
Definition carried (S : nat) (x q : R) (v : vars XRn) : Prop :=
  forall i, (i < S)%nat -> at2 (n0 XRn) (prim v) 1 i = Fin x /\ at2 (n0 XRn) (prim v) 2 i = Fin q.

(** Boundary conditions that set the ghost cells of all three variables and
    copy velocity and pressure. *)
Definition copies_flow (l : list (nat * cbmode)) : Prop :=
  (forall j, (j < 3)%nat -> In j (map fst l)) /\
  forall j md, In (j, md) l -> md = NoGradients \/ (j = 0%nat /\ md = NearZero).

(** The densities of [v'] in the computational cells lie between the smallest
    and the largest density of [v] in the cell and its two neighbours. *)
Definition no_new_extrema (S : nat) (v v' : vars XRn) : Prop :=
  forall i r0 r1 r2, (2 <= i <= S - 3)%nat ->
    at2 (n0 XRn) (prim v) 0 (i - 1) = Fin r0 -> at2 (n0 XRn) (prim v) 0 i = Fin r1 -> at2 (n0 XRn) (prim v) 0 (i + 1) = Fin r2 ->
    exists r, at2 (n0 XRn) (prim v') 0 i = Fin r /\ Rmin r0 (Rmin r1 r2) <= r <= Rmax r0 (Rmax r1 r2).

(** All densities lie between [lo] and [hi]. *)
Definition density_within (S : nat) (lo hi : R) (v : vars XRn) : Prop :=
  forall i, (i < S)%nat -> exists r, at2 (n0 XRn) (prim v) 0 i = Fin r /\ lo <= r <= hi.
