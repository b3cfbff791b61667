(** How doubles and times are rendered in outputs: Rust's [{:.*e}] as used by
    src/writer/output.rs L254-257.

    The standard library prints the sign, [p + 1] significant decimal digits with
    a point after the first one (none if [p = 0]), [e] and the exponent.  The
    digits are those of the exact value of the double, rounded to nearest with
    ties to even (core::num::flt2dec, [format_exact] with mode exact).  That
    code is not part of /repo: this file models its documented result, not its
    algorithm. *)

From Coq Require Import ZArith NArith String Ascii.
From Flocq Require Import Core BinarySingleNaN.
From Verif Require Import Base Num B64 Writer.
Local Open Scope string_scope.
Local Open Scope Z_scope.

(** a decimal digit as a character *)
Definition digit_char (z : Z) : ascii := ascii_of_N (48 + Z.to_N z).

(** the last [n] decimal digits of [d] *)
Fixpoint digits_of (n : nat) (d : Z) : string :=
  match n with
  | O => ""
  | S n => digits_of n (d / 10) ++ String (digit_char (d mod 10)) ""
  end.

(** the number of decimal digits of [n] (none for 0) *)
Fixpoint dlen_loop (fuel : nat) (n : Z) : Z :=
  match fuel with
  | O => 0
  | S fuel => if n <=? 0 then 0 else 1 + dlen_loop fuel (n / 10)
  end.
Definition dlen (n : Z) : Z := dlen_loop (Z.to_nat (Z.log2 n + 1)) n.

(** [a / b] rounded to the nearest integer, ties to even *)
Definition rnd_div (a b : Z) : Z :=
  let q := a / b in
  match 2 * (a mod b) ?= b with
  | Lt => q
  | Gt => q + 1
  | Eq => if Z.even q then q else q + 1
  end.

(** the [k] with [10^k <= num/den < 10^(k+1)] *)
Definition dexp (num den : Z) : Z :=
  if den <=? num then dlen (num / den) - 1 else - dlen ((den - 1) / num).

(** [p + 1] significant digits of [num/den], as an integer, and the exponent of
    the first of them *)
Definition sci_digits (p : nat) (num den : Z) : Z * Z :=
  let k := dexp num den in
  let q := Z.of_nat p - k in
  let d := if 0 <=? q then rnd_div (num * 10 ^ q) den else rnd_div num (den * 10 ^ (- q)) in
  if d =? 10 ^ (Z.of_nat p + 1) then (10 ^ Z.of_nat p, k + 1) else (d, k).

(** a point after the first digit *)
Definition mant_str (p : nat) (d : Z) : string :=
  String (digit_char (d / 10 ^ Z.of_nat p))
    (match p with O => "" | S _ => String "." (digits_of p (d mod 10 ^ Z.of_nat p)) end).

(** the exponent *)
Definition exp_str (k : Z) : string := (if k <? 0 then "-" else "") ++ dec (Z.to_N (Z.abs k)).

Definition sign_str (s : bool) : string := if s then "-" else "".

(** the fraction [m * 2^e] *)
Definition frac (m : positive) (e : Z) : Z * Z :=
  if 0 <=? e then (Zpos m * 2 ^ e, 1) else (Zpos m, 2 ^ (- e)).

(** src/writer/output.rs L254-257, [{:.*e}] with precision [p] *)
Definition sci (p : nat) (x : b64) : string :=
  match x with
  | B754_nan => "NaN"
  | B754_infinity s => sign_str s ++ "inf"
  | B754_zero s => sign_str s ++ mant_str p 0 ++ "e0"
  | B754_finite s m e _ =>
      let '(num, den) := frac m e in
      let '(d, k) := sci_digits p num den in
      sign_str s ++ mant_str p d ++ "e" ++ exp_str k
  end.
