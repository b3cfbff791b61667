(** Specification: the initial conditions of the shipped test problems as
    documented in src/initfuncs.rs. *)

From Coq Require Import ZArith QArith List.
From Verif Require Import Base Num Config Mesh State NumFlux Time.

Section Problems.
Variable A : Num.

(** Noh test: density 1, velocity 1 on the left and -1 on the right half,
    pressure 1e-5 (adiabatic) *)
Definition noh_prim (S j i : nat) : nF A :=
  match j with
  | 0%nat => n1 A
  | 1%nat => if (i <? Nat.div S 2)%nat then n1 A else nZ A (-1)
  | _ => nQ A (1 # 100000)
  end.

(** Sod test: density and pressure 1 on the left half, 0.125 and 0.1 on the
    right half, velocity 0 *)
Definition sod_prim (S j i : nat) : nF A :=
  match j with
  | 0%nat => if (i <? Nat.div S 2)%nat then n1 A else nQ A (125 # 1000)
  | 1%nat => n0 A
  | _ => if (i <? Nat.div S 2)%nat then n1 A else nQ A (1 # 10)
  end.

(** An initial condition function that changes the state only. *)
Definition on_state {N : numflux_impl A} (f : state A -> state A * res unit) (s : sim A N) (m : mesh A) : sim A N * res unit :=
  let '(u, r) := f (s_u s) in (mkSim (s_ts s) u (s_rk s) (s_rhs s), r).
End Problems.
Arguments noh_prim A S j i : clear implicits. Arguments sod_prim A S j i : clear implicits. Arguments on_state {A N}.
