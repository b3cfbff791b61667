(** Negation commutes with the operations: for exact numbers, and for doubles
    up to the sign of zeros. *)

From Coq Require Import Reals ZArith QArith List Bool Lia Lra Setoid Morphisms.
From Flocq Require Import Core BinarySingleNaN.
From Verif Require Import Base Num XReal B64 SpecMirror MirrorProofs.
Local Open Scope R_scope.

(** ** Exact numbers *)
Ltac xcases := repeat match goal with
  | |- context [Rlt_dec ?a ?b] => destruct (Rlt_dec a b)
  | |- context [Req_EM_T ?a ?b] => destruct (Req_EM_T a b)
  end.
Ltac xsolve := cbn -[IZR]; unfold xinf_sgn; cbn -[IZR]; xcases; cbn -[IZR]; auto; try (f_equal; lra); try lra; try (f_equal; field; lra); try discriminate.

Lemma xr_laws : sign_laws XRn eq (fun _ => True).
Proof.
  split; try (intros; subst; reflexivity); auto.
  - split; [intros x; reflexivity|intros x y; apply eq_sym|intros x y z; apply eq_trans].
  - intros [a| | |]; xsolve.
  - xsolve.
  - intros [a| | |] [b| | |]; xsolve.
  - intros [a| | |] [b| | |]; cbn; unfold xltb; xsolve.
  - intros [a| | |] [b| | |]; cbn; unfold xltb; xsolve.
  - intros [a| | |] [b| | |]; cbn; unfold xltb; xsolve.
  - intros [a| | |] [b| | |]; cbn; unfold xltb; xsolve.
  - intros [a| | |] [b| | |]; xsolve.
  - intros [a| | |] [b| | |]; xsolve.
  - intros [a| | |] [b| | |]; xsolve.
  - intros [a| | |] [b| | |]; xsolve.
  - intros [a| | |] [b| | |]; xsolve.
  - intros [a| | |] [b| | |]; xsolve.
  - intros [a| | |] [b| | |] _; xsolve.
  - intros [a| | |] [b| | |] H; try discriminate H; auto.
  - intros [a| | |] [b| | |] H; try discriminate H; auto.
  - intros [a| | |] [b| | |]; cbn; unfold xinf_sgn; xcases; intros H; try discriminate H; auto.
Qed.

(** ** Doubles *)

Lemma same_cases : forall x y, same_number x y -> x = y \/ exists s s', x = B754_zero s /\ y = B754_zero s'.
Proof.
  intros x y [H|(Fx & Fy & H)]; [left; exact H|]. destruct (Req_dec (B2R x) 0) as [Z|Z].
  - right. rewrite H in Z. assert (Q : forall z : b64, is_finite z = true -> B2R z = 0 -> exists s, z = B754_zero s).
    { clear. intros [s| | |s m e B] F Z; try discriminate F; [exists s; reflexivity|]. exfalso. cbn in Z. apply eq_0_F2R in Z. destruct s; discriminate Z. }
    destruct (Q y Fy Z) as (s' & ->). destruct (Q x Fx ltac:(congruence)) as (s & ->). exists s, s'. auto.
  - left. apply B2R_inj; [destruct x; try discriminate Fx; try reflexivity; cbn in Z; lra|rewrite H in Z; destruct y; try discriminate Fy; try reflexivity; cbn in Z; lra|exact H].
Qed.

Lemma same_refl : forall x, same_number x x. Proof. intros x. left. reflexivity. Qed.
Lemma same_zeros : forall s s', same_number (B754_zero s) (B754_zero s'). Proof. intros. right. auto. Qed.
Lemma same_sym : forall x y, same_number x y -> same_number y x.
Proof. intros x y [->|(A & B & C)]; [left; reflexivity|right; auto]. Qed.
Lemma same_trans : forall x y z, same_number x y -> same_number y z -> same_number x z.
Proof. intros x y z H1 H2. destruct (same_cases _ _ H1) as [->|(s & s' & -> & ->)]; [exact H2|]. destruct (same_cases _ _ H2) as [<-|(t & t' & E & ->)]; [exact H1|apply same_zeros]. Qed.

Definition rnd (r : R) : R := round radix2 (SpecFloat.fexp 53 1024) (round_mode mode_NE) r.
Notation big := (bpow radix2 1024).

(** [z] is the correctly rounded value of [r], up to the sign of zeros. *)
Definition isround (r : R) (z : b64) : Prop :=
  (Rabs (rnd r) < big /\ is_finite z = true /\ B2R z = rnd r) \/ (big <= Rabs (rnd r) /\ z = B754_infinity (Rlt_bool (rnd r) 0)).

Lemma isround_same : forall r z z', isround r z -> isround r z' -> same_number z z'.
Proof.
  intros r z z' [(A1 & A2 & A3)|(A1 & ->)] [(B1 & B2 & B3)|(B1 & ->)]; try lra; [|left; reflexivity]. right. rewrite A3, B3. auto.
Qed.

Lemma rnd_opp : forall r, rnd (- r) = - rnd r.
Proof. intros r. unfold rnd. cbn [round_mode]. apply round_NE_opp. Qed.

Lemma isround_opp : forall r z, isround r z -> isround (- r) (Bopp z).
Proof.
  intros r z H. unfold isround in *. rewrite rnd_opp, Rabs_Ropp. destruct H as [(A1 & A2 & A3)|(A1 & ->)].
  - left. rewrite is_finite_Bopp, B2R_Bopp, A3. auto.
  - right. split; [exact A1|]. cbn [Bopp]. f_equal. pose proof (bpow_gt_0 radix2 1024). 
    destruct (Rlt_bool_spec (rnd r) 0); destruct (Rlt_bool_spec (- rnd r) 0); cbn; auto; try lra.
    assert (rnd r = 0) as Z by lra. rewrite Z, Rabs_R0 in A1. lra.
Qed.

Lemma sign_le : forall x : b64, is_finite x = true -> if Bsign x then B2R x <= 0 else 0 <= B2R x.
Proof. intros [s| | |[] m e B] F; try discriminate F; cbn; [destruct s; lra| |]; [apply F2R_le_0|apply F2R_ge_0]; cbn; lia. Qed.

Lemma rnd_le0 : forall r, r <= 0 -> rnd r <= 0.
Proof. intros r H. unfold rnd. rewrite <- (round_0 radix2 (SpecFloat.fexp 53 1024) (round_mode mode_NE)). apply round_le; [apply fexp_correct; reflexivity|apply valid_rnd_round_mode|exact H]. Qed.
Lemma rnd_ge0 : forall r, 0 <= r -> 0 <= rnd r.
Proof. intros r H. unfold rnd. rewrite <- (round_0 radix2 (SpecFloat.fexp 53 1024) (round_mode mode_NE)). apply round_le; [apply fexp_correct; reflexivity|apply valid_rnd_round_mode|exact H]. Qed.

Lemma over_sign : forall r s, big <= Rabs (rnd r) -> (if s : bool then r <= 0 else 0 <= r) -> Rlt_bool (rnd r) 0 = s.
Proof.
  intros r s B H. pose proof (bpow_gt_0 radix2 1024). destruct s.
  - apply Rlt_bool_true. apply rnd_le0 in H. destruct H as [H|H]; [exact H|]. rewrite H, Rabs_R0 in B. lra.
  - apply Rlt_bool_false. apply rnd_ge0. exact H.
Qed.

Lemma SF_inf : forall (z : b64) s, B2SF z = SpecFloat.S754_infinity s -> z = B754_infinity s.
Proof. intros z s H. destruct z; cbn in H; try discriminate H. injection H as ->. reflexivity. Qed.

Lemma add_round : forall x y, is_finite x = true -> is_finite y = true -> isround (B2R x + B2R y) (b_add x y).
Proof.
  intros x y Fx Fy. pose proof (Bplus_correct 53 1024 Hp64 He64 mode_NE x y Fx Fy) as C. fold (rnd (B2R x + B2R y)) in C. fold (b_add x y) in C.
  destruct (Rlt_bool_spec (Rabs (rnd (B2R x + B2R y))) big) as [H|H].
  - left. destruct C as (C1 & C2 & _). auto.
  - right. split; [exact H|]. destruct C as (C1 & C2). apply SF_inf in C1. rewrite C1. f_equal. symmetry. apply over_sign; [exact H|].
    pose proof (sign_le x Fx). pose proof (sign_le y Fy). rewrite <- C2 in *. destruct (Bsign x); lra.
Qed.

Lemma sub_add : forall x y, is_finite x = true -> is_finite y = true -> isround (B2R x - B2R y) (b_sub x y).
Proof.
  intros x y Fx Fy. pose proof (Bminus_correct 53 1024 Hp64 He64 mode_NE x y Fx Fy) as C. fold (rnd (B2R x - B2R y)) in C. fold (b_sub x y) in C.
  destruct (Rlt_bool_spec (Rabs (rnd (B2R x - B2R y))) big) as [H|H].
  - left. destruct C as (C1 & C2 & _). auto.
  - right. split; [exact H|]. destruct C as (C1 & C2). apply SF_inf in C1. rewrite C1. f_equal. symmetry. apply over_sign; [exact H|].
    pose proof (sign_le x Fx) as Sx. pose proof (sign_le y Fy) as Sy. rewrite C2 in *. destruct (Bsign y); cbn in *; lra.
Qed.

Lemma mul_round : forall x y, is_finite x = true -> is_finite y = true -> isround (B2R x * B2R y) (b_mul x y).
Proof.
  intros x y Fx Fy. pose proof (Bmult_correct 53 1024 Hp64 He64 mode_NE x y) as C. fold (rnd (B2R x * B2R y)) in C. fold (b_mul x y) in C.
  destruct (Rlt_bool_spec (Rabs (rnd (B2R x * B2R y))) big) as [H|H].
  - left. destruct C as (C1 & C2 & _). rewrite Fx, Fy in C2. auto.
  - right. split; [exact H|]. apply SF_inf in C. rewrite C. f_equal. symmetry. apply over_sign; [exact H|].
    pose proof (sign_le x Fx). pose proof (sign_le y Fy). destruct (Bsign x), (Bsign y); cbn; nra.
Qed.

Lemma div_round : forall x y, is_finite x = true -> is_finite y = true -> nonzero y -> isround (B2R x / B2R y) (b_div x y).
Proof.
  intros x y Fx Fy Z. assert (Z' : B2R y <> 0).
  { destruct y as [s| | |s m e B]; try discriminate Fy; [elim Z|]. intros Q. cbn in Q. apply eq_0_F2R in Q. destruct s; discriminate Q. }
  pose proof (Bdiv_correct 53 1024 Hp64 He64 mode_NE x y Z') as C. fold (rnd (B2R x / B2R y)) in C. fold (b_div x y) in C.
  destruct (Rlt_bool_spec (Rabs (rnd (B2R x / B2R y))) big) as [H|H].
  - left. destruct C as (C1 & C2 & _). rewrite Fx in C2. auto.
  - right. split; [exact H|]. apply SF_inf in C. rewrite C. f_equal. symmetry. apply over_sign; [exact H|].
    pose proof (sign_le x Fx) as Sx. pose proof (sign_le y Fy) as Sy. unfold Rdiv. destruct (Bsign x), (Bsign y); cbn.
    + assert (/ B2R y < 0) by (apply Rinv_lt_0_compat; lra). nra.
    + assert (0 < / B2R y) by (apply Rinv_0_lt_compat; lra). nra.
    + assert (/ B2R y < 0) by (apply Rinv_lt_0_compat; lra). nra.
    + assert (0 < / B2R y) by (apply Rinv_0_lt_compat; lra). nra.
Qed.

Lemma fin_dec : forall x : b64, is_finite x = true \/ is_finite x = false. Proof. intros x. destruct (is_finite x); auto. Qed.

Ltac closed := first [left; reflexivity | apply same_zeros | right; cbn; split; [reflexivity|split; [reflexivity|lra]]].
Ltac bcases x y := destruct x as [[]|[]| |[] ? ? ?]; destruct y as [[]|[]| |[] ? ? ?]; try discriminate; try closed.

(** a law about two finite operands *)
Ltac two x y := 
  destruct (fin_dec x) as [?Fx|?Fx]; [destruct (fin_dec y) as [?Fy|?Fy]|]; [|bcases x y|bcases x y].

Lemma ltb_opp : forall x y : b64, Bltb (Bopp x) (Bopp y) = Bltb y x.
Proof.
  intros x y. destruct (fin_dec x) as [Fx|Fx]; [destruct (fin_dec y) as [Fy|Fy]|].
  - rewrite !Bltb_correct by (rewrite ?is_finite_Bopp; assumption). rewrite !B2R_Bopp.
    destruct (Rlt_bool_spec (- B2R x) (- B2R y)); destruct (Rlt_bool_spec (B2R y) (B2R x)); auto; lra.
  - destruct x as [[]|[]| |[] ? ? ?]; destruct y as [[]|[]| |[] ? ? ?]; try discriminate; reflexivity.
  - destruct x as [[]|[]| |[] ? ? ?]; destruct y as [[]|[]| |[] ? ? ?]; try discriminate; reflexivity.
Qed.

Lemma nan_opp : forall x : b64, is_nan (Bopp x) = is_nan x.
Proof. intros []; reflexivity. Qed.

Lemma neither_less : forall x y : b64, is_nan x = false -> is_nan y = false -> Bltb x y = false -> Bltb y x = false -> same_number x y.
Proof.
  intros x y Nx Ny H1 H2. destruct (fin_dec x) as [Fx|Fx]; [destruct (fin_dec y) as [Fy|Fy]|].
  - right. rewrite !Bltb_correct in * by assumption. split; [exact Fx|]. split; [exact Fy|].
    destruct (Rlt_bool_spec (B2R x) (B2R y)); [discriminate H1|]. destruct (Rlt_bool_spec (B2R y) (B2R x)); [discriminate H2|lra].
  - destruct x as [[]|[]| |[] ? ? ?]; destruct y as [[]|[]| |[] ? ? ?]; try discriminate; left; reflexivity.
  - destruct x as [[]|[]| |[] ? ? ?]; destruct y as [[]|[]| |[] ? ? ?]; try discriminate; left; reflexivity.
Qed.
Lemma ltb_asym : forall x y : b64, Bltb x y = true -> Bltb y x = false.
Proof.
  intros x y H1. destruct (fin_dec x) as [Fx|Fx]; [destruct (fin_dec y) as [Fy|Fy]|].
  - rewrite !Bltb_correct in * by assumption. destruct (Rlt_bool_spec (B2R x) (B2R y)); [|discriminate H1]. apply Rlt_bool_false. lra.
  - destruct x as [[]|[]| |[] ? ? ?]; destruct y as [[]|[]| |[] ? ? ?]; try discriminate; reflexivity.
  - destruct x as [[]|[]| |[] ? ? ?]; destruct y as [[]|[]| |[] ? ? ?]; try discriminate; reflexivity.
Qed.

Lemma min_comm : forall x y, same_number (b_min x y) (b_min y x).
Proof.
  intros x y. unfold b_min. destruct (is_nan x) eqn:Nx, (is_nan y) eqn:Ny; try apply same_refl.
  - destruct x; try discriminate Nx. destruct y; try discriminate Ny. apply same_refl.
  - destruct (Bltb x y) eqn:H1; destruct (Bltb y x) eqn:H2; try apply same_refl.
    + apply ltb_asym in H1. congruence.
    + apply same_sym. apply neither_less; assumption.
Qed.
Lemma max_comm : forall x y, same_number (b_max x y) (b_max y x).
Proof.
  intros x y. unfold b_max. destruct (is_nan x) eqn:Nx, (is_nan y) eqn:Ny; try apply same_refl.
  - destruct x; try discriminate Nx. destruct y; try discriminate Ny. apply same_refl.
  - destruct (Bltb x y) eqn:H1; destruct (Bltb y x) eqn:H2; try apply same_refl.
    + apply ltb_asym in H1. congruence.
    + apply same_sym. apply neither_less; assumption.
Qed.

Lemma unary_cases : forall f : b64 -> b64, (forall s s', same_number (f (B754_zero s)) (f (B754_zero s'))) -> forall x y, same_number x y -> same_number (f x) (f y).
Proof. intros f H x y E. destruct (same_cases _ _ E) as [->|(s & s' & -> & ->)]; [apply same_refl|apply H]. Qed.
Lemma binary_cases : forall f : b64 -> b64 -> b64, (forall s s' y, same_number (f (B754_zero s) y) (f (B754_zero s') y)) -> (forall x s s', same_number (f x (B754_zero s)) (f x (B754_zero s'))) ->
  forall x x' y y', same_number x x' -> same_number y y' -> same_number (f x y) (f x' y').
Proof.
  intros f H1 H2 x x' y y' E1 E2. apply same_trans with (f x' y).
  - apply (unary_cases (fun z => f z y)); [intros; apply H1|exact E1].
  - apply (unary_cases (fun z => f x' z)); [intros; apply H2|exact E2].
Qed.

Lemma b64_laws : forall bln bexp, sign_laws (B64n bln bexp) same_number nonzero.
Proof.
  intros bln bexp.
  assert (NEG1 : forall x, same_number (b_mul (b_ofZ (-1)) x) (Bopp x)).
  { intros x. destruct (fin_dec x) as [Fx|Fx]; [|destruct x as [[]|[]| |[] ? ? ?]; try discriminate; left; reflexivity].
    apply (isround_same (- B2R x)).
    - replace (- B2R x) with (B2R (b_ofZ (-1)) * B2R x); [apply mul_round; [reflexivity|exact Fx]|].
      replace (B2R (b_ofZ (-1))) with (-1); [ring|]. unfold b_ofZ, B2R, F2R. cbn. lra.
    - apply isround_opp. left. assert (Q : rnd (B2R x) = B2R x) by (apply round_generic; [apply valid_rnd_round_mode|apply generic_format_B2R]).
      rewrite Q. split; [apply abs_B2R_lt_emax|auto]. }
  split; cbn [nF nneg nadd nsub nmul ndiv nmin nmax nsqrt nZ nfin B64n n0].
  - split; [intros x; apply same_refl|intros x y; apply same_sym|intros x y z; apply same_trans].
  - apply unary_cases. intros s s'. apply same_zeros.
  - apply binary_cases.
    + intros [] [] [[]|[]| |[] ? ? ?]; closed.
    + intros [[]|[]| |[] ? ? ?] [] []; closed.
  - apply binary_cases.
    + intros [] [] [[]|[]| |[] ? ? ?]; closed.
    + intros [[]|[]| |[] ? ? ?] [] []; closed.
  - apply binary_cases.
    + intros [] [] [[]|[]| |[] ? ? ?]; closed.
    + intros [[]|[]| |[] ? ? ?] [] []; closed.
  - apply binary_cases.
    + intros [] [] [[]|[]| |[] ? ? ?]; closed.
    + intros [[]|[]| |[] ? ? ?] [] []; closed.
  - apply binary_cases.
    + intros [] [] [[]|[]| |[] ? ? ?]; closed.
    + intros [[]|[]| |[] ? ? ?] [] []; closed.
  - apply unary_cases. intros s s'. apply same_zeros.
  - intros x x' y y' E1 E2 Z. destruct (same_cases _ _ E2) as [<-|(s & s' & -> & _)]; [|elim Z].
    revert x x' E1. apply (unary_cases (fun z => b_div z y)). intros [] []; destruct y as [[]|[]| |[] ? ? ?]; try elim Z; closed.
  - intros x y E Z. destruct (same_cases _ _ E) as [<-|(s & s' & -> & _)]; [exact Z|elim Z].
  - intros x Z. destruct (same_cases _ _ (NEG1 x)) as [->|(s & s' & _ & Q)]; [destruct x; auto|]. destruct x; try discriminate Q. elim Z.
  - intros x. left. apply Bopp_involutive.
  - apply same_zeros.
  - intros x y. two x y. apply (isround_same (B2R x * B2R y)); [apply mul_round; assumption|rewrite Rmult_comm; apply mul_round; assumption].
  - apply min_comm.
  - apply max_comm.
  - intros x y. unfold b_min, b_max. rewrite !nan_opp, ltb_opp. destruct (is_nan x), (is_nan y), (Bltb y x); apply same_refl.
  - intros x y. unfold b_min, b_max. rewrite !nan_opp, ltb_opp. destruct (is_nan x), (is_nan y), (Bltb x y); apply same_refl.
  - intros x y. two x y. apply (isround_same (B2R y - B2R x)); [apply sub_add; assumption|].
    replace (B2R y - B2R x) with (- (B2R x - B2R y)) by ring. apply isround_opp. apply sub_add; assumption.
  - intros x y. two x y. apply (isround_same (- (B2R x - B2R y))); [|apply isround_opp; apply sub_add; assumption].
    replace (- (B2R x - B2R y)) with (B2R (Bopp x) - B2R (Bopp y)) by (rewrite !B2R_Bopp; ring). apply sub_add; rewrite is_finite_Bopp; assumption.
  - intros x y. two x y. apply (isround_same (- (B2R x + B2R y))); [|apply isround_opp; apply add_round; assumption].
    replace (- (B2R x + B2R y)) with (B2R (Bopp x) + B2R (Bopp y)) by (rewrite !B2R_Bopp; ring). apply add_round; rewrite is_finite_Bopp; assumption.
  - intros x y. two x y. apply (isround_same (- (B2R x + B2R y))); [|apply isround_opp; apply add_round; assumption].
    replace (- (B2R x + B2R y)) with (B2R (Bopp x) - B2R y) by (rewrite !B2R_Bopp; ring). apply sub_add; rewrite ?is_finite_Bopp; assumption.
  - intros x y. two x y. apply (isround_same (- (B2R x - B2R y))); [|apply isround_opp; apply sub_add; assumption].
    replace (- (B2R x - B2R y)) with (B2R (Bopp x) + B2R y) by (rewrite !B2R_Bopp; ring). apply add_round; rewrite ?is_finite_Bopp; assumption.
  - intros x y. two x y. apply (isround_same (- (B2R x * B2R y))); [|apply isround_opp; apply mul_round; assumption].
    replace (- (B2R x * B2R y)) with (B2R (Bopp x) * B2R y) by (rewrite !B2R_Bopp; ring). apply mul_round; rewrite ?is_finite_Bopp; assumption.
  - intros x y Z. two x y. apply (isround_same (- (B2R x / B2R y))); [|apply isround_opp; apply div_round; assumption].
    replace (- (B2R x / B2R y)) with (B2R (Bopp x) / B2R y) by (rewrite !B2R_Bopp; unfold Rdiv; ring). apply div_round; rewrite ?is_finite_Bopp; assumption.
  - intros [[]|[]| |[] ? ? ?] [[]|[]| |[] ? ? ?] H; try discriminate H; auto.
  - intros [[]|[]| |[] ? ? ?] [[]|[]| |[] ? ? ?] H; try discriminate H; auto.
  - intros [[]|[]| |[] ? ? ?] [[]|[]| |[] ? ? ?] H; try discriminate H; auto.
  - intros [[]|[]| |[] ? ? ?] [[]|[]| |[] ? ? ?] H; try discriminate H; cbn; auto.
Qed.
