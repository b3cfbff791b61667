(** Property C23 in binary64 arithmetic: no slope at a local extremum. *)

From Coq Require Import Reals ZArith QArith List Bool Lia Lra.
From Flocq Require Import Core BinarySingleNaN.
From Verif Require Import Base Num B64 Config Mesh State NumFlux Spec FluxProofs FluxReal FluxThms Demo.
Import ListNotations.
Local Open Scope R_scope.

Definition zero (x : b64) : Prop := exists s, x = B754_zero s.
Definition nneg (x : b64) : Prop := match x with B754_zero _ => True | B754_infinity s | B754_finite s _ _ _ => s = false | B754_nan => False end.

Lemma abs_nneg : forall x : b64, is_nan x = false -> nneg (Babs x).
Proof. intros [| | |] H; try discriminate; exact I || reflexivity. Qed.

Lemma zero_less : forall (s : bool) (y : b64), nneg y -> zero y \/ Bltb (B754_zero s) y = true.
Proof. intros s [t|t| |t m e H] N; cbn in N; try (destruct N; fail); [left; exists t; reflexivity|right; subst t; reflexivity|right; subst t; reflexivity]. Qed.

Lemma mul_zero_r : forall (x y : b64), is_finite x = true -> zero y -> zero (b_mul x y).
Proof. intros [| | |] y F (sg & ->); try discriminate F; eexists; reflexivity. Qed.
Lemma mul_zero_l : forall (x y : b64), is_finite y = true -> zero x -> zero (b_mul x y).
Proof. intros x [| | |] F (sg & ->); try discriminate F; eexists; reflexivity. Qed.
Lemma abs_zero : forall x : b64, zero x -> zero (Babs x).
Proof. intros x (s & ->). eexists; reflexivity. Qed.

Lemma mul_sign : forall x y : b64, is_finite x = true -> is_finite y = true -> is_nan (b_mul x y) = false /\ Bsign (b_mul x y) = xorb (Bsign x) (Bsign y).
Proof.
  intros x y Fx Fy. pose proof (Bmult_correct 53 1024 Hp64 He64 mode_NE x y) as C. fold (b_mul x y) in C.
  destruct (Rlt_bool _ _) in C.
  - destruct C as (_ & F & S). rewrite Fx, Fy in F. cbn in F.
    assert (K : is_nan (b_mul x y) = false) by (destruct (b_mul x y); reflexivity || discriminate F). split; [exact K|exact (S K)].
  - destruct (b_mul x y) as [| | |]; cbn in C; unfold binary_overflow in C; cbn in C; try discriminate C. injection C as ->. split; reflexivity.
Qed.

Lemma pos_sign : forall x : b64, is_finite x = true -> 0 <= B2R x -> zero x \/ Bsign x = false.
Proof.
  intros [s|s| |s m e H] F P; try discriminate F; [left; exists s; reflexivity|]. destruct s; [|right; reflexivity].
  exfalso. cbn [B2R] in P. assert (L : F2R (Float radix2 (cond_Zopp true (Zpos m)) e) < 0) by (apply F2R_lt_0; reflexivity). lra.
Qed.
Lemma neg_sign : forall x : b64, is_finite x = true -> B2R x <= 0 -> zero x \/ Bsign x = true.
Proof.
  intros [s|s| |s m e H] F P; try discriminate F; [left; exists s; reflexivity|]. destruct s; [right; reflexivity|].
  exfalso. cbn [B2R] in P. assert (L : 0 < F2R (Float radix2 (cond_Zopp false (Zpos m)) e)) by (apply F2R_gt_0; reflexivity). lra.
Qed.

Lemma not_less : forall x : b64, zero x \/ Bsign x = true -> Bltb (b_ofZ 0) x = false.
Proof. intros [s|s| |s m e H] [(t & E)|E]; try discriminate E; try reflexivity; cbn in E; subst s; reflexivity. Qed.
Lemma is_less : forall x : b64, is_nan x = false -> Bltb (b_ofZ 0) x = false -> zero x \/ Bsign x = true.
Proof. intros [[]|[]| |[] m e H] N E; try discriminate N; try discriminate E; (left; eexists; reflexivity) || (right; reflexivity). Qed.

Section Slope.
Variables bln bexp : b64 -> b64.
Notation A := (B64n bln bexp).

Lemma min_zero_l : forall x y : b64, zero x -> nneg y -> zero (@mmin A x y).
Proof.
  intros x y (s & ->) N. unfold mmin. change (nltb A) with (@Bltb 53 1024). destruct (Bltb (B754_zero s) y) eqn:E; [exists s; reflexivity|].
  destruct (zero_less s y N) as [Z|Z]; [exact Z|congruence].
Qed.
Lemma min_zero_r : forall x y : b64, nneg x -> zero y -> zero (@mmin A x y).
Proof.
  intros [t|t| |t m e H] y N (sg & ->); cbn in N; try (destruct N; fail); try subst t; unfold mmin; change (nltb A) with (@Bltb 53 1024); eexists; reflexivity.
Qed.
Lemma min_nneg : forall x y : b64, nneg x -> nneg y -> nneg (@mmin A x y).
Proof. intros x y Hx Hy. unfold mmin. destruct (nltb A x y); assumption. Qed.

(** [a] and [b] are the differences to the two neighbours, one of them not
    positive and the other not negative. *)
Definition opposed (a b : b64) : Prop := (0 <= B2R a /\ B2R b <= 0) \/ (B2R a <= 0 /\ 0 <= B2R b).

Lemma sgn_prod : forall a b : b64, is_finite a = true -> is_finite b = true -> opposed a b ->
  (0 <? @sgn A a * @sgn A b)%Z = true -> @sgn A a = (-1)%Z /\ (zero a \/ zero b).
Proof.
  intros a b Fa Fb O H. unfold sgn in *. change (nltb A (n0 A)) with (@Bltb 53 1024 (b_ofZ 0)) in *.
  assert (Na : is_nan a = false) by (destruct a; reflexivity || discriminate Fa). assert (Nb : is_nan b = false) by (destruct b; reflexivity || discriminate Fb).
  destruct (Bltb (b_ofZ 0) a) eqn:Ea, (Bltb (b_ofZ 0) b) eqn:Eb; try discriminate H.
  - exfalso. destruct O as [(Pa & Pb)|(Pa & Pb)].
    + rewrite (not_less b (neg_sign b Fb Pb)) in Eb. discriminate.
    + rewrite (not_less a (neg_sign a Fa Pa)) in Ea. discriminate.
  - split; [reflexivity|]. destruct O as [(Pa & Pb)|(Pa & Pb)].
    + left. destruct (pos_sign a Fa Pa) as [Z|Z]; [exact Z|]. destruct (is_less a Na Ea) as [Y|Y]; [exact Y|congruence].
    + right. destruct (pos_sign b Fb Pb) as [Z|Z]; [exact Z|]. destruct (is_less b Nb Eb) as [Y|Y]; [exact Y|congruence].
Qed.

Lemma slope_zero : forall (l : limiter_mode A) (a b c th : b64), is_finite a = true -> is_finite b = true -> is_finite c = true -> is_finite th = true ->
  l = MinMod \/ l = Superbee \/ (exists p, l = Monocent p) -> opposed a b -> zero (@slope_fn A l a b c th).
Proof.
  intros l a b c th Fa Fb Fc Ft Hl O.
  assert (NN : forall x : b64, is_finite x = true -> is_nan x = false) by (intros [] F; reflexivity || discriminate F).
  assert (Z0 : zero (n0 A)) by (exists false; reflexivity).
  destruct Hl as [->|[->|(p & ->)]]; cbn [slope_fn].
  - destruct (0 <? @sgn A a * @sgn A b)%Z eqn:E; [|exact Z0]. destruct (sgn_prod a b Fa Fb O E) as (-> & Hz).
    apply (mul_zero_r (b_ofZ (-1))); [reflexivity|]. destruct Hz as [Hz|Hz].
    + apply min_zero_l; [exact (abs_zero a Hz)|exact (abs_nneg b (NN b Fb))].
    + apply min_zero_r; [exact (abs_nneg a (NN a Fa))|exact (abs_zero b Hz)].
  - assert (E : nltb A (n0 A) (nmul A a b) = false).
    { change (Bltb (b_ofZ 0) (b_mul a b) = false). apply not_less. destruct (mul_sign a b Fa Fb) as (_ & S).
      destruct O as [(Pa & Pb)|(Pa & Pb)].
      - destruct (pos_sign a Fa Pa) as [Z|Za]; [left; apply mul_zero_l; assumption|]. destruct (neg_sign b Fb Pb) as [Z|Zb]; [left; apply mul_zero_r; assumption|].
        right. rewrite S, Za, Zb. reflexivity.
      - destruct (neg_sign a Fa Pa) as [Z|Za]; [left; apply mul_zero_l; assumption|]. destruct (pos_sign b Fb Pb) as [Z|Zb]; [left; apply mul_zero_r; assumption|].
        right. rewrite S, Za, Zb. reflexivity. }
    rewrite E. exact Z0.
  - destruct ((0 <? @sgn A a * @sgn A b)%Z && (0 <? @sgn A b * @sgn A c)%Z) eqn:E; [|exact Z0]. apply andb_true_iff in E. destruct E as (E & _).
    destruct (sgn_prod a b Fa Fb O E) as (-> & Hz). apply (mul_zero_r (b_ofZ (-1))); [reflexivity|].
    destruct (mul_sign th a Ft Fa) as (Na & _). destruct (mul_sign th b Ft Fb) as (Nb & _). destruct Hz as [Hz|Hz].
    + apply min_zero_l; [exact (abs_zero _ (mul_zero_r th a Ft Hz))|]. apply min_nneg; [exact (abs_nneg (b_mul th b) Nb)|exact (abs_nneg c (NN c Fc))].
    + apply min_zero_r; [exact (abs_nneg (b_mul th a) Na)|]. apply min_zero_l; [exact (abs_zero _ (mul_zero_r th b Ft Hz))|exact (abs_nneg c (NN c Fc))].
Qed.

Lemma add_zero : forall x z : b64, is_finite x = true -> zero z -> is_finite (b_add x z) = true /\ B2R (b_add x z) = B2R x.
Proof. intros [[]| | |] z F ([] & ->); try discriminate F; split; reflexivity. Qed.
End Slope.

(** C23 in f64 arithmetic: at a local extremum of a conserved quantity KT with
    MinMod, Superbee or Monocent gives both faces the value of the cell,
    without any rounding. *)
Theorem C23_extremum_b64 : forall bln bexp, let A := B64n bln bexp in
  forall validation p S (k k' : kt A) d d' (u u' : state A) m o j i (x y z : b64),
  kt_calc validation p S k d u m = (k', d', u', o) ->
  k_limiter k = MinMod \/ k_limiter k = Superbee \/ (exists q, k_limiter k = Monocent q) ->
  is_finite (k_theta k : b64) = true -> is_finite (k_inv_dxi k : b64) = true ->
  is_finite (at1 (n0 A) (k_dist_west k) i : b64) = true -> is_finite (at1 (n0 A) (k_dist_east k) i : b64) = true ->
  (j < nE p)%nat -> (1 <= i <= S - 2)%nat ->
  at2 (n0 A) (cons (cent u)) j (i - 1) = x -> at2 (n0 A) (cons (cent u)) j i = y -> at2 (n0 A) (cons (cent u)) j (i + 1) = z ->
  is_finite x = true -> is_finite y = true -> is_finite z = true ->
  is_finite (b_sub y x) = true -> is_finite (b_sub z y) = true -> is_finite (b_mul (b_div (b_ofZ 1) (b_ofZ 2)) (b_sub z x)) = true ->
  (B2R x <= B2R y /\ B2R z <= B2R y) \/ (B2R y <= B2R x /\ B2R y <= B2R z) ->
  (is_finite (at2 (n0 A) (cons (west u')) j i : b64) = true /\ B2R (at2 (n0 A) (cons (west u')) j i : b64) = B2R y) /\
  (is_finite (at2 (n0 A) (cons (east u')) j i : b64) = true /\ B2R (at2 (n0 A) (cons (east u')) j i : b64) = B2R y).
Proof.
  intros bln bexp A val p S k k' d d' u u' m o j i x y z E Hl Ft Fi Fw Fe Hj Hi Ex Ey Ez Fx Fy Fz Fa Fb Fc O.
  assert (Z : zero (@kt_slope A k (cons (cent u)) j i)).
  { unfold kt_slope. rewrite Ex, Ey, Ez. apply mul_zero_r; [exact Fi|]. apply slope_zero; try assumption.
    assert (D : forall v w : b64, is_finite v = true -> is_finite w = true -> is_finite (b_sub v w) = true -> (B2R w <= B2R v -> 0 <= B2R (b_sub v w)) /\ (B2R v <= B2R w -> B2R (b_sub v w) <= 0)).
    { intros v w Fv Fw' Fs. pose proof (Bminus_correct 53 1024 Hp64 He64 mode_NE v w Fv Fw') as C. fold (b_sub v w) in C. destruct (Rlt_bool _ _) in C.
      - destruct C as (C & _). rewrite C. split; intros L.
        + rewrite <- (round_0 radix2 (SpecFloat.fexp 53 1024) (round_mode mode_NE)). apply round_le; [exact (fexp_correct 53 1024 Hp64)|apply valid_rnd_round_mode|lra].
        + rewrite <- (round_0 radix2 (SpecFloat.fexp 53 1024) (round_mode mode_NE)). apply round_le; [exact (fexp_correct 53 1024 Hp64)|apply valid_rnd_round_mode|lra].
      - destruct C as (C & _). exfalso. destruct (b_sub v w); try discriminate Fs; unfold binary_overflow in C; cbn in C; discriminate C. }
    destruct (D y x Fy Fx Fa) as (D1 & D2), (D z y Fz Fy Fb) as (D3 & D4).
    destruct O as [(O1 & O2)|(O1 & O2)]; [left; split; [exact (D1 O1)|exact (D4 O2)]|right; split; [exact (D2 O1)|exact (D3 O2)]]. }
  destruct (kt_faces _ _ _ _ _ _ _ _ _ _ _ _ j i E Hj ltac:(lia) ltac:(lia)) as (-> & -> & _). unfold recon. rewrite Ey.
  split; (apply add_zero; [exact Fy|]; apply mul_zero_l; assumption).
Qed.
Print Assumptions C23_extremum_b64.

(** Example: KT with Monocent(2) on 8 cells; the density has a maximum of 3 in
    cell 4. *)
Definition peak (bln bexp : b64 -> b64) : state (B64n bln bexp) :=
  let v := demo_vars Isot 8 (fun _ i => (match i with 4%nat => b_ofZ 3 | 3%nat => b_ofZ 1 | _ => b_ofZ 2 end : nF (B64n bln bexp))) in
  let v := set_cons (prim v) v in mkState v v v.

Lemma kt_monocent : forall A p S (m : mesh A) q, exists k : kt A, kt_new p S (CKt (Monocent q)) m = Ok k /\
  k_limiter k = Monocent q /\ k_theta k = q /\ k_inv_dxi k = ndiv A (n1 A) (m_dxi m) /\
  k_dist_west k = tab S (fun i => nsub A (at1 (n0 A) (m_xi_west m) i) (at1 (n0 A) (m_xi_cent m) i)) /\
  k_dist_east k = tab S (fun i => nsub A (at1 (n0 A) (m_xi_east m) i) (at1 (n0 A) (m_xi_cent m) i)).
Proof. intros. eexists. split; [reflexivity|]. repeat split. Qed.

Example C23_extremum_example : forall bln bexp, let A := B64n bln bexp in let u := peak bln bexp in exists k : kt A,
  k_limiter k = Monocent (A:=A) (b_ofZ 2) /\ is_finite (k_theta k : b64) = true /\ is_finite (k_inv_dxi k : b64) = true /\
  is_finite (at1 (n0 A) (k_dist_west k) 4 : b64) = true /\ is_finite (at1 (n0 A) (k_dist_east k) 4 : b64) = true /\
  let x := at2 (n0 A) (cons (cent u)) 0 3 : b64 in let y := at2 (n0 A) (cons (cent u)) 0 4 : b64 in let z := at2 (n0 A) (cons (cent u)) 0 5 : b64 in
  is_finite x = true /\ is_finite y = true /\ is_finite z = true /\ is_finite (b_sub y x) = true /\ is_finite (b_sub z y) = true /\
  is_finite (b_mul (b_div (b_ofZ 1) (b_ofZ 2)) (b_sub z x)) = true /\ Bltb x y = true /\ Bltb z y = true.
Proof.
  intros bln bexp A u. destruct (kt_monocent A Isot 8 (demo_mesh A 8) (b_ofZ 2 : nF A)) as (k & _ & El & Et & Ei & Ew & Ee).
  exists k. rewrite Et, Ei, Ew, Ee. split; [exact El|]. clear. repeat split; vm_compute; reflexivity.
Qed.
