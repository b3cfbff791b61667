(** The number operations the code applies to [f64] values.

    The record only has data fields: a theorem quantified over every [Num]
    makes no assumption at all about the arithmetic, so it holds for IEEE
    doubles with whatever rounding, NaN and overflow behaviour. *)

From Coq Require Import ZArith QArith.

Record Num : Type := mkNum {
  nF : Type;                       (* f64 *)
  nZ : Z -> nF;                    (* integral literals and [n as f64] *)
  nQ : Q -> nF;                    (* other decimal literals *)
  nadd : nF -> nF -> nF;
  nsub : nF -> nF -> nF;
  nmul : nF -> nF -> nF;
  ndiv : nF -> nF -> nF;
  nneg : nF -> nF;                 (* unary minus *)
  nabs : nF -> nF;                 (* f64::abs *)
  nsqrt : nF -> nF;                (* f64::sqrt *)
  nln : nF -> nF;                  (* f64::ln *)
  nexp : nF -> nF;                 (* f64::exp *)
  nltb : nF -> nF -> bool;         (* <  (and > with swapped arguments) *)
  nleb : nF -> nF -> bool;         (* <= (and >= with swapped arguments) *)
  nmin : nF -> nF -> nF;           (* f64::min, ignores a NaN argument *)
  nmax : nF -> nF -> nF;           (* f64::max, ignores a NaN argument *)
  nfin : nF -> bool;               (* f64::is_finite *)
  npos : nF -> bool;               (* f64::is_sign_positive *)
  ntrunc : nF -> nat;              (* [x as usize] *)
  nEPS : nF;                       (* f64::EPSILON *)
  nMIN : nF;                       (* f64::MIN, the most negative double *)
  nMAX : nF                        (* f64::MAX *)
}.

Declare Scope num_scope.
Delimit Scope num_scope with num.
Notation "x + y" := (nadd _ x y) : num_scope.
Notation "x - y" := (nsub _ x y) : num_scope.
Notation "x * y" := (nmul _ x y) : num_scope.
Notation "x / y" := (ndiv _ x y) : num_scope.
Notation "- x" := (nneg _ x) : num_scope.
Notation "x <? y" := (nltb _ x y) : num_scope.
Notation "x <=? y" := (nleb _ x y) : num_scope.

(** [f64::recip] *)
Definition nrecip (A : Num) (x : nF A) : nF A := ndiv A (nZ A 1%Z) x.

(** [0.0] *)
Definition n0 (A : Num) : nF A := nZ A 0%Z.
(** [1.0] *)
Definition n1 (A : Num) : nF A := nZ A 1%Z.
