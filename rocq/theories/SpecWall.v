(** Closed boxes: specification vocabulary. *)

From Coq Require Import Reals List Arith.
From Verif Require Import Base Num XReal Config Mesh State NumFlux Time Spec SpecFlow SpecStep SpecEuler.
Import ListNotations.

(** Solid walls as a user configures them: the density (and pressure) continues
    across the edge, the velocity is mirrored. *)
Definition walls (p : phys) : bmode :=
  BCustom ([(0, NoGradients); (1, Reflecting)] ++ match p with Isot => [] | Adiab => [(2, NoGradients)] end).

(** The box of the configuration is closed on both sides. *)
Definition closed_box {A} (p : phys) (c : config A) : Prop :=
  cf_bc_west c = walls p /\ cf_bc_east c = walls p.

(** The speed of sound of the isothermal physics is stored per cell and not
    part of the boundary conditions; here it does not jump across the edges. *)
Definition level_sound (p : phys) (S : nat) (v : vars XRn) : Prop :=
  p = Isot -> at1 (n0 XRn) (c_sound v) 1 = at1 (n0 XRn) (c_sound v) 2 /\
              at1 (n0 XRn) (c_sound v) (S - 2) = at1 (n0 XRn) (c_sound v) (S - 3).

(** The computational cells of [v] hold finite conserved variables, and the
    total of variable [j] is [t]. *)
Definition total (p : phys) (S : nat) (v : vars XRn) (j : nat) (t : R) : Prop :=
  exists U : nat -> nat -> R,
    (forall k i, (k < nE p)%nat -> (2 <= i <= S - 3)%nat -> at2 (n0 XRn) (cons v) k i = Fin (U k i)) /\
    inner_sum S (U j) = t.

(** The variables a closed box keeps: mass, and energy where there is one. *)
Definition kept (p : phys) (j : nat) : Prop := j = 0 \/ (p = Adiab /\ j = 2).

(** An initial condition function that fills the arrays of the state: it keeps
    their sizes, the adiabatic index and the solver's internals. *)
Definition fills_state {A} {N : numflux_impl A} (p : phys) (S : nat) (init : sim A N -> mesh A -> sim A N * res unit) : Prop :=
  forall s m s', init s m = (s', Ok tt) ->
  s_rk s' = s_rk s /\ s_rhs s' = s_rhs s /\ (wss p S (s_u s) -> wss p S (s_u s')) /\ same_gamma (s_u s') (s_u s).
