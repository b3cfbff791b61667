(** Specification vocabulary for the loop level (C57). *)

From Coq Require Import List Permutation.
From Verif Require Import Base Num Config Mesh State NumFlux Time Writer Runner SpecFlow SpecStep.
Import ListNotations.

(** An assignment of orders to parallel loops: loop number [l] with [n]
    elements carries out each of the elements 0 .. n-1 once, in any order. *)
Definition any_order (ord : nat -> nat -> list nat) : Prop := forall l n, Permutation (ord l n) (seq 0 n).

(** An initial condition function that keeps the sizes of the state's arrays
    and leaves the time integrator and the right-hand side alone. *)
Definition keeps_sizes {A} {N : numflux_impl A} (p : phys) (S : nat) (init : sim A N -> mesh A -> sim A N * res unit) : Prop :=
  forall s m s' r, init s m = (s', r) ->
  (wss p S (s_u s) -> wss p S (s_u s')) /\ s_rk s' = s_rk s /\ s_rhs s' = s_rhs s.
