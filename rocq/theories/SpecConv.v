(** Specification for C77: binary64 numbers far from overflow and underflow. *)

From Coq Require Import Reals ZArith.
From Flocq Require Import Core BinarySingleNaN.
From Verif Require Import Num B64.
Local Open Scope R_scope.

(** Between 2^-100 and 2^100 in absolute value; [moderate0] also allows zero. *)
Definition moderate (x : b64) : Prop := is_finite x = true /\ bpow radix2 (-100) <= Rabs (B2R x) <= bpow radix2 100.
Definition moderate0 (x : b64) : Prop := is_finite x = true /\ (B2R x = 0 \/ bpow radix2 (-100) <= Rabs (B2R x) <= bpow radix2 100).

(** Pressure and kinetic energy, as far as it enters the pressure, of a gas
    with density [r], velocity [x] and pressure [q]. *)
Definition stiffness (g r x q : R) : R := q + (g - 1) * (r * (x * x) / 2).
