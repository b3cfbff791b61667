(** IEEE 754 binary64 with round to nearest, ties to even, from Flocq.

    NaN payloads are not modelled (a single NaN).  [ln] and [exp] are not
    specified by IEEE 754; they are parameters, so a theorem about [B64n]
    holds for every implementation of them. *)

From Coq Require Import Reals ZArith QArith Lia.
From Flocq Require Import Core BinarySingleNaN.
From Verif Require Import Num.

Definition b64 : Type := binary_float 53 1024.

Definition Hp64 : FLX.Prec_gt_0 53 := eq_refl.
Definition He64 : Prec_lt_emax 53 1024 := eq_refl.
Global Existing Instance Hp64.
Global Existing Instance He64.

Definition b_ofZ (z : Z) : b64 := binary_normalize 53 1024 Hp64 He64 mode_NE z 0 false.

Definition b_add : b64 -> b64 -> b64 := Bplus mode_NE.
Definition b_sub : b64 -> b64 -> b64 := Bminus mode_NE.
Definition b_mul : b64 -> b64 -> b64 := Bmult mode_NE.
Definition b_div : b64 -> b64 -> b64 := Bdiv mode_NE.
Definition b_sqrt : b64 -> b64 := Bsqrt mode_NE.

(** [f64::min]/[f64::max]: a NaN argument is ignored.  For two zeros of
    different sign Rust does not specify which one is returned; the model
    returns the second argument. *)
Definition b_min (x y : b64) : b64 :=
  if is_nan x then y else if is_nan y then x else if Bltb x y then x else y.
Definition b_max (x y : b64) : b64 :=
  if is_nan x then y else if is_nan y then x else if Bltb y x then x else y.

(** The sign bit; the sign of a NaN is not modelled (taken as positive). *)
Definition b_pos (x : b64) : bool := negb (Bsign x).

(** [x as usize]: truncation, negative values and NaN give 0 (the upper bound
    of [usize] is not modelled, an infinite value is mapped to 0). *)
Definition b_trunc (x : b64) : nat := Z.to_nat (Btrunc x).

(** 2^-52 *)
Definition b_EPS : b64 := Bldexp mode_NE Bone (-52).
Definition b_MAX : b64 := Bmax_float.
Definition b_MIN : b64 := Bopp Bmax_float.

Definition B64n (bln bexp : b64 -> b64) : Num := {|
  nF := b64;
  nZ := b_ofZ;
  (* a decimal literal is the correctly rounded quotient of two integers,
     both of which are exactly representable for the literals of the code *)
  nQ := fun q => b_div (b_ofZ (Qnum q)) (b_ofZ (Zpos (Qden q)));
  nadd := b_add; nsub := b_sub; nmul := b_mul; ndiv := b_div;
  nneg := Bopp; nabs := Babs; nsqrt := b_sqrt; nln := bln; nexp := bexp;
  nltb := Bltb; nleb := Bleb; nmin := b_min; nmax := b_max;
  nfin := is_finite; npos := b_pos; ntrunc := b_trunc;
  nEPS := b_EPS; nMIN := b_MIN; nMAX := b_MAX
|}.
