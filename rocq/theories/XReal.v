(** Exact real arithmetic with the IEEE special values.

    [XR] behaves like [f64] without rounding, overflow and underflow: finite
    values are mathematical reals, there is one zero (taken to be positive),
    and infinities and NaN propagate as IEEE 754 prescribes.  Division by zero
    therefore is visible as a non-finite value, exactly as the code sees it. *)

From Coq Require Import Reals ZArith QArith Qreals Lra.
From Verif Require Import Num.
Local Open Scope R_scope.

Inductive XR : Type := Fin (r : R) | PInf | NInf | XNaN.

Definition xneg (x : XR) : XR :=
  match x with Fin a => Fin (- a) | PInf => NInf | NInf => PInf | XNaN => XNaN end.

Definition xadd (x y : XR) : XR :=
  match x, y with
  | Fin a, Fin b => Fin (a + b)
  | XNaN, _ | _, XNaN => XNaN
  | PInf, NInf | NInf, PInf => XNaN
  | PInf, _ | _, PInf => PInf
  | NInf, _ | _, NInf => NInf
  end.

Definition xsub (x y : XR) : XR := xadd x (xneg y).

(** infinity with the sign of [a], NaN for zero *)
Definition xinf_sgn (a : R) : XR :=
  if Rlt_dec 0 a then PInf else if Rlt_dec a 0 then NInf else XNaN.

Definition xmul (x y : XR) : XR :=
  match x, y with
  | Fin a, Fin b => Fin (a * b)
  | XNaN, _ | _, XNaN => XNaN
  | PInf, PInf | NInf, NInf => PInf
  | PInf, NInf | NInf, PInf => NInf
  | PInf, Fin b | Fin b, PInf => xinf_sgn b
  | NInf, Fin b | Fin b, NInf => xneg (xinf_sgn b)
  end.

Definition xdiv (x y : XR) : XR :=
  match x, y with
  | Fin a, Fin b => if Req_EM_T b 0 then xinf_sgn a else Fin (a / b)
  | XNaN, _ | _, XNaN => XNaN
  | Fin _, _ => Fin 0
  | PInf, Fin b => if Rlt_dec b 0 then NInf else PInf
  | NInf, Fin b => if Rlt_dec b 0 then PInf else NInf
  | _, _ => XNaN
  end.

Definition xabs (x : XR) : XR :=
  match x with Fin a => Fin (Rabs a) | XNaN => XNaN | _ => PInf end.

Definition xsqrt (x : XR) : XR :=
  match x with
  | Fin a => if Rlt_dec a 0 then XNaN else Fin (sqrt a)
  | PInf => PInf
  | _ => XNaN
  end.

Definition xln (x : XR) : XR :=
  match x with
  | Fin a => if Rlt_dec 0 a then Fin (ln a) else if Rlt_dec a 0 then XNaN else NInf
  | PInf => PInf
  | _ => XNaN
  end.

Definition xexp (x : XR) : XR :=
  match x with
  | Fin a => Fin (exp a)
  | PInf => PInf
  | NInf => Fin 0
  | XNaN => XNaN
  end.

Definition xltb (x y : XR) : bool :=
  match x, y with
  | Fin a, Fin b => if Rlt_dec a b then true else false
  | XNaN, _ | _, XNaN => false
  | NInf, NInf => false
  | NInf, _ => true
  | _, PInf => match x with PInf => false | _ => true end
  | _, _ => false
  end.

Definition xleb (x y : XR) : bool :=
  match x, y with
  | Fin a, Fin b => if Rle_dec a b then true else false
  | XNaN, _ | _, XNaN => false
  | NInf, _ => true
  | _, PInf => true
  | _, _ => false
  end.

Definition xmin (x y : XR) : XR :=
  match x, y with
  | XNaN, _ => y
  | _, XNaN => x
  | _, _ => if xltb x y then x else y
  end.

Definition xmax (x y : XR) : XR :=
  match x, y with
  | XNaN, _ => y
  | _, XNaN => x
  | _, _ => if xltb y x then x else y
  end.

Definition xfin (x : XR) : bool := match x with Fin _ => true | _ => false end.

Definition xpos (x : XR) : bool :=
  match x with
  | Fin a => if Rle_dec 0 a then true else false
  | PInf => true
  | NInf => false
  | XNaN => true
  end.

(** saturating conversion to an unsigned integer (the upper bound of [usize]
    is not modelled, an infinite value is mapped to 0) *)
Definition xtrunc (x : XR) : nat :=
  match x with Fin a => Z.to_nat (Int_part a) | _ => O end.

Definition XRn : Num := {|
  nF := XR;
  nZ := fun z => Fin (IZR z);
  nQ := fun q => Fin (Q2R q);
  nadd := xadd; nsub := xsub; nmul := xmul; ndiv := xdiv;
  nneg := xneg; nabs := xabs; nsqrt := xsqrt; nln := xln; nexp := xexp;
  nltb := xltb; nleb := xleb; nmin := xmin; nmax := xmax;
  nfin := xfin; npos := xpos; ntrunc := xtrunc;
  nEPS := Fin (powerRZ 2 (-52));
  nMIN := Fin (- ((2 - powerRZ 2 (-52)) * powerRZ 2 1023));
  nMAX := Fin ((2 - powerRZ 2 (-52)) * powerRZ 2 1023)
|}.

(** The real number behind a finite value (0 for the special values). *)
Definition xval (x : XR) : R := match x with Fin a => a | _ => 0 end.

(** ** Rewriting rules on finite values *)
Section FinRules.
Variables a b : R.
Lemma X_Z : forall z, nZ XRn z = Fin (IZR z). Proof. reflexivity. Qed.
Lemma X_Q : forall q, nQ XRn q = Fin (Q2R q). Proof. reflexivity. Qed.
Lemma X_n0 : n0 XRn = Fin 0. Proof. reflexivity. Qed.
Lemma X_n1 : n1 XRn = Fin 1. Proof. reflexivity. Qed.
Lemma X_add : nadd XRn (Fin a) (Fin b) = Fin (a + b). Proof. reflexivity. Qed.
Lemma X_sub : nsub XRn (Fin a) (Fin b) = Fin (a - b). Proof. reflexivity. Qed.
Lemma X_mul : nmul XRn (Fin a) (Fin b) = Fin (a * b). Proof. reflexivity. Qed.
Lemma X_neg : nneg XRn (Fin a) = Fin (- a). Proof. reflexivity. Qed.
Lemma X_abs : nabs XRn (Fin a) = Fin (Rabs a). Proof. reflexivity. Qed.
Lemma X_exp : nexp XRn (Fin a) = Fin (exp a). Proof. reflexivity. Qed.
Lemma X_div : b <> 0 -> ndiv XRn (Fin a) (Fin b) = Fin (a / b).
Proof. intros H. simpl. destruct (Req_EM_T b 0); [contradiction|reflexivity]. Qed.
Lemma X_recip : b <> 0 -> nrecip XRn (Fin b) = Fin (/ b).
Proof.
  intros H. unfold nrecip. simpl. destruct (Req_EM_T b 0); [contradiction|].
  f_equal. unfold Rdiv. rewrite Rmult_1_l. reflexivity.
Qed.
Lemma X_sqrt : 0 <= a -> nsqrt XRn (Fin a) = Fin (sqrt a).
Proof. intros H. simpl. destruct (Rlt_dec a 0); [lra|reflexivity]. Qed.
Lemma X_ln : 0 < a -> nln XRn (Fin a) = Fin (ln a).
Proof. intros H. simpl. destruct (Rlt_dec 0 a); [reflexivity|contradiction]. Qed.
Lemma X_ltb : nltb XRn (Fin a) (Fin b) = (if Rlt_dec a b then true else false).
Proof. reflexivity. Qed.
Lemma X_leb : nleb XRn (Fin a) (Fin b) = (if Rle_dec a b then true else false).
Proof. reflexivity. Qed.
Lemma X_min : nmin XRn (Fin a) (Fin b) = Fin (Rmin a b).
Proof.
  simpl. unfold xmin, xltb. unfold Rmin.
  destruct (Rlt_dec a b), (Rle_dec a b); try reflexivity; f_equal; lra.
Qed.
Lemma X_max : nmax XRn (Fin a) (Fin b) = Fin (Rmax a b).
Proof.
  simpl. unfold xmax, xltb. unfold Rmax.
  destruct (Rlt_dec b a), (Rle_dec a b); try reflexivity; f_equal; lra.
Qed.
Lemma X_fin : nfin XRn (Fin a) = true. Proof. reflexivity. Qed.
End FinRules.

Lemma xfin_inv : forall x, nfin XRn x = true -> exists a, x = Fin a.
Proof. intros [a| | |] H; try discriminate. exists a; reflexivity. Qed.

Global Hint Rewrite X_Z X_Q X_n0 X_n1 X_add X_sub X_mul X_neg X_abs X_exp X_min X_max X_fin : xr.
Global Hint Rewrite X_ltb X_leb : xr.
