(** Specification vocabulary for the output times in binary64. *)

From Coq Require Import List NArith ZArith.
From Verif Require Import Base Num XReal B64 Config Spec.

(** The planned output times: the interval added up, rounding after each
    addition. *)
Fixpoint planned (t0 D : b64) (i : nat) : b64 :=
  match i with O => t0 | S j => b_add (planned t0 D j) D end.

(** [M] output intervals between [t0] and [t1], computed in binary64. *)
Definition interval (t0 t1 : b64) (M : N) : b64 := b_div (b_sub t1 t0) (b_ofZ (Z.of_N M)).

(** [y] is not above [x], or it is the next binary64 number above [x]. *)
Definition at_most_next (x y : b64) : Prop := forall z : b64, xlt (b2x x) (b2x z) -> xle (b2x y) (b2x z).

(** [y] is not below [x], or it is the next binary64 number below [x]. *)
Definition at_least_prev (x y : b64) : Prop := forall z : b64, xlt (b2x z) (b2x x) -> xle (b2x z) (b2x y).

(** The planned times up to number [n + 1] are finite and the interval is not
    lost in rounding: each is after the one before. *)
Definition spread (t0 D : b64) (n : nat) : Prop :=
  forall i, (i <= n)%nat -> BinarySingleNaN.is_finite (planned t0 D (S i)) = true /\ xlt (b2x (planned t0 D i)) (b2x (planned t0 D (S i))).
