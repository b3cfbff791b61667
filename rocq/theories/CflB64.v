(** The CFL step in binary64 arithmetic. *)

From Coq Require Import Reals ZArith List Lia Bool Lra.
From Flocq Require Import Core BinarySingleNaN.
From Verif Require Import Base Num XReal B64 Config Mesh State Spec SpecStep ConfigProofs MeshProofs MeshB64 VanLeer SpecConv ConvB64.
Import ListNotations.
Local Open Scope R_scope.

Lemma b_max_fin : forall x y : b64, is_finite x = true -> is_finite y = true ->
  is_finite (b_max x y) = true /\ B2R (b_max x y) = Rmax (B2R x) (B2R y).
Proof.
  intros x y Fx Fy. unfold b_max.
  assert (Nx : is_nan x = false) by (destruct x; try discriminate Fx; reflexivity). assert (Ny : is_nan y = false) by (destruct y; try discriminate Fy; reflexivity).
  rewrite Nx, Ny. pose proof (Bltb_correct 53 1024 y x Fy Fx) as C. rewrite C.
  destruct (Rlt_bool_spec (B2R y) (B2R x)) as [L|L].
  - split; [exact Fx|]. rewrite Rmax_left; [reflexivity|lra].
  - split; [exact Fy|]. rewrite Rmax_right; [reflexivity|lra].
Qed.

Lemma fold_max_fin : forall (t : nat -> b64) l acc, is_finite acc = true -> (forall i, In i l -> is_finite (t i) = true) ->
  let M := fold_left (fun a i => b_max a (t i)) l acc in
  is_finite M = true /\ B2R acc <= B2R M /\ (forall i, In i l -> B2R (t i) <= B2R M) /\ (B2R M = B2R acc \/ exists i, In i l /\ B2R M = B2R (t i)).
Proof.
  intros t l. induction l as [|j l IH]; intros acc Fa Ft; cbn [fold_left].
  - cbv zeta. split; [exact Fa|]. split; [lra|]. split; [intros i []|left; reflexivity].
  - destruct (b_max_fin acc (t j) Fa (Ft j (or_introl eq_refl))) as (F1 & E1).
    destruct (IH (b_max acc (t j)) F1 (fun i Hi => Ft i (or_intror Hi))) as (F2 & L & A2 & X). cbv zeta in *. rewrite E1 in L, X.
    pose proof (Rmax_l (B2R acc) (B2R (t j))). pose proof (Rmax_r (B2R acc) (B2R (t j))).
    split; [exact F2|]. split; [lra|]. split.
    + intros i [<-|Hi]; [lra|apply A2; exact Hi].
    + destruct X as [X|(i & Hi & X)].
      * destruct (Rle_dec (B2R acc) (B2R (t j))); [right; exists j; split; [left; reflexivity|]; rewrite X, Rmax_right by assumption; reflexivity|].
        left. rewrite X, Rmax_left by lra. reflexivity.
      * right. exists i. split; [right; exact Hi|exact X].
Qed.

Lemma rel_pos : forall k z Z, (k <= 12)%nat -> rel k z Z -> (z = 0 <-> Z = 0).
Proof.
  intros k z Z Hk (d & -> & D). apply rel_factor in D; [|exact Hk]. split; intros H; [|rewrite H; ring].
  apply Rmult_integral in H. destruct H; lra.
Qed.

Lemma rel_abs : forall k z Z, (k <= 12)%nat -> rel k z Z -> rel k (Rabs z) (Rabs Z).
Proof. intros k z Z Hk (d & -> & D). exists d. split; [|exact D]. apply rel_factor in D; [|exact Hk]. rewrite Rabs_mult, (Rabs_pos_eq d) by lra. reflexivity. Qed.

Lemma div0_fin : forall c z : b64, is_finite c = true -> B2R c <> 0 -> B2R z = 0 -> is_finite z = true -> is_finite (b_div c z) = false.
Proof.
  intros c z Fc Nc Ez Fz. destruct c as [s|s| |s mm e H]; try discriminate Fc; [exfalso; apply Nc; reflexivity|].
  destruct z as [s2|s2| |s2 m2 e2 H2]; try discriminate Fz; [reflexivity|].
  exfalso. cbn [B2R] in Ez. apply eq_0_F2R in Ez. destruct s2; discriminate Ez.
Qed.

Section Cfl.
Variables bln bexp : b64 -> b64.
Let A := B64n bln bexp.

Lemma cfl_b64 : forall S (ev : list b64) (w : list b64) (c : b64) (m : mesh A) (V : nat -> R), m_cell_width_inv m = w ->
  moderate c -> 0 < B2R c ->
  (forall i, (i < S)%nat -> is_finite (at1 (n0 A) ev i) = true /\ rel 1 (B2R (at1 (n0 A) ev i : b64)) (V i) /\ sz 100 (V i) /\ moderate (at1 (n0 A) w i) /\ 0 < B2R (at1 (n0 A) w i : b64)) ->
  match calc_dt_cfl (A:=A) S ev c m with
  | Ok dt => is_finite (dt : b64) = true /\ 0 < B2R (dt : b64) /\
     (forall i, (i < S)%nat -> B2R (dt : b64) * (Rabs (V i) * B2R (at1 (n0 A) w i : b64)) <= (1 + bpow radix2 (-51)) * B2R c) /\
     exists i, (i < S)%nat /\ (1 - bpow radix2 (-51)) * B2R c <= B2R (dt : b64) * (Rabs (V i) * B2R (at1 (n0 A) w i : b64))
  | Err EDtNonFinite => forall i, (i < S)%nat -> V i = 0
  | _ => False
  end.
Proof.
  intros S ev w c m V Ew Mc Pc H. unfold calc_dt_cfl. rewrite Ew.
  set (t := fun i => Babs (b_mul (at1 (n0 A) ev i) (at1 (n0 A) w i))).
  assert (T : forall i, (i < S)%nat -> is_finite (t i) = true /\ rel 2 (B2R (t i)) (Rabs (V i) * B2R (at1 (n0 A) w i : b64)) /\ sz 200 (Rabs (V i) * B2R (at1 (n0 A) w i : b64))).
  { intros i Hi. destruct (H i Hi) as (Fe & Re & Se & Mw & Pw). destruct (moderate_sz _ Mw) as (Fw & Sw & Nw).
    pose proof (sz_mul _ _ _ _ Se Sw) as Sp.
    destruct (mul_rel _ _ 1 0 _ _ Fe Fw Re (rel_exact _) ltac:(lia) (sz_700 _ _ Sp ltac:(lia))) as (Fm & Rm). cbn [Nat.add] in Rm.
    unfold t. rewrite is_finite_Babs, B2R_Babs. split; [exact Fm|].
    replace (Rabs (V i) * B2R (at1 (n0 A) w i : b64)) with (Rabs (V i * B2R (at1 (n0 A) w i : b64))) by (rewrite Rabs_mult, (Rabs_pos_eq (B2R _)) by lra; reflexivity).
    split; [apply rel_abs; [lia|exact Rm]|]. destruct Sp as [-> | (L & U)]; [left; apply Rabs_R0|right; rewrite Rabs_Rabsolu; split; assumption]. }
  match goal with |- context [ndiv A c ?x] => change x with (fold_left (fun a i => b_max a (t i)) (seq 0 S) (b_ofZ 0)) end.
  destruct (fold_max_fin t (seq 0 S) (b_ofZ 0) eq_refl) as (FM & LM & AM & XM).
  { intros i Hi. apply in_seq in Hi. apply T. lia. }
  set (M := fold_left (fun a i => b_max a (t i)) (seq 0 S) (b_ofZ 0)) in *. cbv zeta in *.
  assert (Z0 : B2R (b_ofZ 0) = 0) by reflexivity. rewrite Z0 in LM, XM.
  change (nfin A (ndiv A c M)) with (is_finite (b_div c M)). change (ndiv A c M) with (b_div c M).
  destruct Mc as (Fc & Sc).
  destruct (Req_dec (B2R M) 0) as [EM|NM].
  - rewrite (div0_fin c M Fc ltac:(lra) EM FM). intros i Hi.
    destruct (T i Hi) as (_ & Rt & _). destruct (H i Hi) as (_ & _ & _ & _ & Pw).
    assert (E0 : B2R (t i) = 0).
    { apply Rle_antisym; [rewrite <- EM; apply AM; apply in_seq; lia|]. unfold t. rewrite B2R_Babs. apply Rabs_pos. }
    apply (rel_pos 2 _ _ ltac:(lia) Rt) in E0. apply Rmult_integral in E0. destruct E0 as [E0|E0]; [|lra].
    destruct (Req_dec (V i) 0) as [|N0]; [assumption|]. apply Rabs_no_R0 in N0. contradiction.
  - destruct XM as [XM|(j & Hj & XM)]; [contradiction|]. apply in_seq in Hj. destruct (T j ltac:(lia)) as (Ft & Rt & St).
    set (P := fun i => Rabs (V i) * B2R (at1 (n0 A) w i : b64)) in *. fold (P j) in Rt, St. rewrite <- XM in Rt.
    destruct Rt as (d & Ed & D). pose proof (rel_factor 2 d ltac:(lia) D) as D2.
    assert (PM : 0 < B2R M) by lra.
    assert (PP : P j <> 0) by (intros E; rewrite E in Ed; lra).
    assert (PPj : 0 < P j) by nra.
    assert (SM : sz 201 (B2R M)).
    { right. rewrite Rabs_pos_eq by lra. destruct St as [E|(L & U)]; [contradiction|]. rewrite (Rabs_pos_eq (P j)) in L, U by lra. rewrite Ed.
      pose proof (bpow_gt_0 radix2 (-(200))). pose proof (bpow_gt_0 radix2 200). split.
      - replace (bpow radix2 (-(201))) with (bpow radix2 (-(200)) * (1 / 2)); [apply Rmult_le_compat; lra|]. change (-(201))%Z with (-(200) + -1)%Z. rewrite bpow_plus. change (bpow radix2 (-1)) with (/ 2). field.
      - change 201%Z with (200 + 1)%Z. rewrite bpow_plus. change (bpow radix2 1) with 2. apply Rmult_le_compat; lra. }
    assert (Szc : sz 100 (B2R c)) by (right; exact Sc).
    destruct (div_rel c M 0 _ Fc (rel_exact _) NM ltac:(lia) (sz_700 _ _ (sz_mul _ _ _ _ Szc (sz_inv _ _ NM SM)) ltac:(lia))) as (Fd & Rd).
    rewrite Fd. destruct Rd as (e & Ee & E). cbn [pow] in E. rewrite !Rmult_1_r in E. pose proof u53_lt as (U0 & U1).
    set (dt := b_div c M) in *.
    assert (Eq : B2R dt * B2R M = B2R c * e) by (rewrite Ee; field; exact NM).
    assert (Pd : 0 < B2R dt) by (rewrite Ee; apply Rmult_lt_0_compat; [apply Rdiv_lt_0_compat; lra|lra]).
    assert (U51 : bpow radix2 (-51) = 4 * u53) by (change (-51)%Z with (2 + -53)%Z; rewrite bpow_plus; reflexivity).
    set (x := u53) in *. split; [exact Fd|]. split; [exact Pd|]. split.
    + intros i Hi. fold (P i). destruct (T i Hi) as (_ & (di & Ei & Di) & _). fold (P i) in Ei.
      pose proof (AM i ltac:(apply in_seq; lia)) as Li. fold x in Di. cbn [pow] in Di. rewrite !Rmult_1_r in Di.
      assert (Pi : 0 <= P i). { unfold P. destruct (H i Hi) as (_ & _ & _ & _ & Pw). apply Rmult_le_pos; [apply Rabs_pos|lra]. }
      assert (Lo : (1 - 2 * x) <= (1 - x) * (1 - x)) by nra.
      assert (S1 : P i * (1 - 2 * x) <= B2R M) by (rewrite Ei in Li; eapply Rle_trans; [|exact Li]; apply Rmult_le_compat_l; lra).
      assert (S2 : B2R dt * (P i * (1 - 2 * x)) <= B2R c * (1 + x)).
      { apply Rle_trans with (B2R dt * B2R M); [apply Rmult_le_compat_l; lra|]. rewrite Eq. apply Rmult_le_compat_l; lra. }
      apply Rmult_le_reg_r with (1 - 2 * x); [lra|]. rewrite Rmult_assoc. eapply Rle_trans; [exact S2|].
      rewrite U51. replace ((1 + 4 * x) * B2R c * (1 - 2 * x)) with (B2R c * ((1 + 4 * x) * (1 - 2 * x))) by ring. apply Rmult_le_compat_l; [lra|]. nra.
    + exists j. split; [lia|]. fold (P j). rewrite U51.
      fold x in D. cbn [pow] in D. rewrite !Rmult_1_r in D.
      assert (Hi2 : (1 + x) * (1 + x) <= 1 + 21 / 10 * x) by nra.
      assert (S1 : B2R M <= P j * (1 + 21 / 10 * x)) by (rewrite Ed; apply Rmult_le_compat_l; lra).
      assert (S2 : B2R c * (1 - x) <= B2R dt * (P j * (1 + 21 / 10 * x))).
      { apply Rle_trans with (B2R dt * B2R M); [rewrite Eq; apply Rmult_le_compat_l; lra|apply Rmult_le_compat_l; lra]. }
      apply Rmult_le_reg_r with (1 + 21 / 10 * x); [lra|]. rewrite (Rmult_assoc (B2R dt)). eapply Rle_trans; [|exact S2].
      replace ((1 - 4 * x) * B2R c * (1 + 21 / 10 * x)) with (B2R c * ((1 - 4 * x) * (1 + 21 / 10 * x))) by ring. apply Rmult_le_compat_l; [lra|]. nra.
Qed.
End Cfl.
