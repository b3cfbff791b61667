(** Proofs about boundary conditions. *)

From Coq Require Import Reals ZArith QArith Qreals List Lia Bool Lra.
From Flocq Require Import Core BinarySingleNaN.
From Verif Require Import Base Num XReal B64 Config Mesh State Spec ConfigProofs MeshProofs.
Import ListNotations.
Local Open Scope nat_scope.

Lemma at2_upd2_same : forall X (d x : X) e n m j i i',
  i = i' -> shape e n m -> j < e -> i < n -> at2 d (upd2 j i x m) j i' = x.
Proof.
  intros X d x e n m j i i' <- [Hl Hr] Hj Hi. apply at2_upd2_eq; [lia|]. rewrite Hr; auto.
Qed.

Section B.
Variable A : Num.
Notation F := (nF A).
Notation mat := (list (list F)).

Definition Gval (s : side) (S : nat) (m : mesh A) (md : cbmode) (k : nat) (f : nat -> F) : F :=
  let a0 := f (inner_cell s S 0) in
  let a1 := f (inner_cell s S 1) in
  let r := nabs A (ndiv A a0 a1) in
  let refl := nmul A (nZ A (-1)) (f (inner_cell s S (k - 1))) in
  let extr :=
    if m_is_logarithmic m then
      if negb (nfin A (ndiv A (n1 A) a0)) || negb (nfin A (ndiv A (n1 A) a1)) then n0 A
      else nmul A a0 (if k =? 1 then r else nmul A r r)
    else nsub A (nmul A (nZ A (Z.of_nat k + 1)) a0) (nmul A (nZ A (Z.of_nat k)) a1) in
  let w g n := nsqrt A (nmul A (at1 (n0 A) (m_xi_cent m) g) (at1 (n0 A) (m_xi_cent_inv m) n)) in
  let kep1 := ndiv A a0 (w (ghost_cell s S 1) (inner_cell s S 0)) in
  let kep := if k =? 1 then kep1 else ndiv A kep1 (w (ghost_cell s S 2) (ghost_cell s S 1)) in
  let inward := match s with West => npos A a0 | East => negb (npos A a0) end in
  match md with
  | NoGradients => a0
  | NearZero => nmul A (nQ A (1 # 10000000000)) a0
  | Reflecting => refl
  | Extrapolate => extr
  | ExtrapolateDensityKepler | ExtrapolateEtaVelocityKepler => kep
  | OutflowNoGradients => if inward then refl else a0
  | OutFlowExtrapolate => if inward then refl else extr
  end.

Ltac shp := repeat apply shape_upd2; eassumption.
Ltac atu :=
  repeat match goal with
  | |- context [at2 ?d (upd2 ?j ?i ?x ?m) ?j' ?i'] =>
      first [ rewrite (at2_upd2_col _ d x m j i j' i') by lia
            | erewrite (at2_upd2_same _ d x _ _ m j i i') by (first [lia|shp]) ]
  end.

Lemma apply_mode_shape : forall s E S m md j (q : mat), shape E S q -> shape E S (apply_mode s S m md j q).
Proof.
  intros s E S m md j q H. destruct s, md; cbn [apply_mode];
  unfold outflow_no_gradients_west, outflow_no_gradients_east, outflow_extrapolate_west, outflow_extrapolate_east,
    extrapolate_west, extrapolate_east, kepler_west, kepler_east, near_zero_west, near_zero_east,
    no_gradients_west, no_gradients_east, reflecting_west, reflecting_east; cbv zeta;
  repeat match goal with |- context [if ?b then _ else _] => destruct b end;
  repeat apply shape_upd2; assumption.
Qed.

Lemma apply_mode_other : forall s S m md j (q : mat) j' i',
  4 <= S -> (j' <> j \/ (i' <> ghost_cell s S 1 /\ i' <> ghost_cell s S 2)) ->
  at2 (n0 A) (apply_mode s S m md j q) j' i' = at2 (n0 A) q j' i'.
Proof.
  intros s S m md j q j' i' HS H. destruct s, md; cbn [apply_mode ghost_cell] in *;
  unfold outflow_no_gradients_west, outflow_no_gradients_east, outflow_extrapolate_west, outflow_extrapolate_east,
    extrapolate_west, extrapolate_east, kepler_west, kepler_east, near_zero_west, near_zero_east,
    no_gradients_west, no_gradients_east, reflecting_west, reflecting_east; cbv zeta;
  repeat match goal with |- context [if ?b then _ else _] => destruct b end;
  (destruct H as [H|[H1 H2]];
   [repeat rewrite at2_upd2_row by congruence; reflexivity
   |repeat rewrite at2_upd2_col by lia; reflexivity]).
Qed.

Lemma apply_mode_ghost : forall s E S m md j (q : mat) k,
  4 <= S -> shape E S q -> j < E -> k = 1 \/ k = 2 ->
  at2 (n0 A) (apply_mode s S m md j q) j (ghost_cell s S k) = Gval s S m md k (fun i => at2 (n0 A) q j i).
Proof.
  intros s E S m md j q k HS Hq Hj Hk.
  destruct s, md; unfold Gval; cbn [apply_mode ghost_cell inner_cell] in *;
  unfold outflow_no_gradients_west, outflow_no_gradients_east, outflow_extrapolate_west, outflow_extrapolate_east,
    extrapolate_west, extrapolate_east, kepler_west, kepler_east, near_zero_west, near_zero_east,
    no_gradients_west, no_gradients_east, reflecting_west, reflecting_east; cbv zeta;
  rewrite ?Nat.sub_0_r, ?Nat.add_0_r;
  replace (S - 3 - 1) with (S - 4) by lia;
  cbn [Nat.add];
  destruct (m_is_logarithmic m);
  repeat match goal with |- context [if ?b then _ else _] => destruct b eqn:? end;
  destruct Hk as [-> | ->]; try discriminate; cbn [Nat.sub Nat.add]; atu; try reflexivity; try (cbn [Nat.add] in *; congruence);
  replace (S - 2 - 1) with (S - 3) by lia; replace (S - 2 - 2) with (S - 4) by lia;
  replace (S - 3 - 0) with (S - 3) by lia; replace (S - 3 - 1) with (S - 4) by lia;
  replace (S - 3 + 1) with (S - 2) by lia; replace (S - 3 + 2) with (S - 1) by lia;
  replace (S - 1 - 1) with (S - 2) by lia; reflexivity.
Qed.

(** [Gval] only reads the two interior cells next to the border. *)
Lemma Gval_ext : forall s S m md k f g, k = 1 \/ k = 2 ->
  (forall d, d = 0 \/ d = 1 -> f (inner_cell s S d) = g (inner_cell s S d)) -> Gval s S m md k f = Gval s S m md k g.
Proof.
  intros s S m md k f g Hk H. unfold Gval.
  rewrite (H 0), (H 1) by auto.
  rewrite (H (k - 1)) by (destruct Hk; subst; auto). reflexivity.
Qed.

(** ** Lists of conditions *)

Lemma apply_modes_shape : forall s E S m l (q q' : mat), shape E S q ->
  apply_modes s E S m l q = Ok q' -> shape E S q'.
Proof.
  intros s E S m l; induction l as [|[j md] l IH]; intros q q' Hq H; cbn [apply_modes app] in H.
  - injection H as <-; assumption.
  - destruct (j <? E); [|discriminate]. eapply IH; [|exact H]. apply apply_mode_shape; assumption.
Qed.

Lemma apply_modes_other : forall s E S m l (q q' : mat) j i, 4 <= S ->
  apply_modes s E S m l q = Ok q' ->
  (~ In j (map fst l) \/ (i <> ghost_cell s S 1 /\ i <> ghost_cell s S 2)) ->
  at2 (n0 A) q' j i = at2 (n0 A) q j i.
Proof.
  intros s E S m l; induction l as [|[j0 md] l IH]; intros q q' j i HS H Hji; cbn [apply_modes app] in H.
  - injection H as <-; reflexivity.
  - destruct (j0 <? E); [|discriminate].
    rewrite (IH _ _ j i HS H).
    + apply apply_mode_other; [assumption|]. destruct Hji as [Hj|Hi]; [left|right; assumption].
      intros ->. apply Hj. left; reflexivity.
    + destruct Hji as [Hj|Hi]; [left|right; assumption]. intros Hin. apply Hj. right; assumption.
Qed.

(** What the list does to ghost cell [k] of row [j]: the last entry wins. *)
Lemma apply_modes_ghost : forall s E S m l (q q' : mat) j k l1 md l2,
  5 <= S -> shape E S q -> apply_modes s E S m l q = Ok q' ->
  l = l1 ++ (j, md) :: l2 -> ~ In j (map fst l2) -> k = 1 \/ k = 2 ->
  at2 (n0 A) q' j (ghost_cell s S k) = Gval s S m md k (fun i => at2 (n0 A) q j i).
Proof.
  intros s E S m l q q' j k l1 md l2 HS Hq H Hl Hj2 Hk. subst l. assert (HS4 : 4 <= S) by lia.
  revert q Hq H. induction l1 as [|[j0 md0] l1 IH]; intros q Hq H; cbn [apply_modes app] in H.
  - destruct (Nat.ltb_spec j E); [|discriminate].
    rewrite (apply_modes_other _ _ _ _ _ _ _ j (ghost_cell s S k) HS4 H) by auto.
    eapply apply_mode_ghost; eauto; lia.
  - destruct (Nat.ltb_spec j0 E); [|discriminate].
    rewrite (IH _ (apply_mode_shape _ _ _ _ _ _ _ Hq) H).
    apply Gval_ext; [assumption|]. intros d Hd.
    apply apply_mode_other; [lia|]. right.
    destruct s; cbn; destruct Hd; subst; lia.
Qed.

Lemma apply_modes_ok_iff : forall s E S m l (q : mat),
  (exists q', apply_modes s E S m l q = Ok q') <-> (forall j md, In (j, md) l -> j < E).
Proof.
  intros s E S m l; induction l as [|[j md] l IH]; intros q; cbn [apply_modes In].
  - split; [intros _ ? ? []|intros _; eexists; reflexivity].
  - destruct (Nat.ltb_spec j E) as [Hj|Hj].
    + rewrite IH. split.
      * intros H j' md' [Heq|Hin]; [injection Heq as <- <-; assumption|eauto].
      * intros H j' md' Hin; eapply H; right; eassumption.
    + split; [intros [q' Hq']; discriminate|]. intros H. specialize (H j md (or_introl eq_refl)). lia.
Qed.

Lemma apply_modes_panic_iff : forall s E S m l (q : mat),
  apply_modes s E S m l q = Panic <-> (exists j md, In (j, md) l /\ E <= j).
Proof.
  intros s E S m l; induction l as [|[j md] l IH]; intros q; cbn [apply_modes In].
  - split; [discriminate|intros (? & ? & [] & _)].
  - destruct (Nat.ltb_spec j E) as [Hj|Hj].
    + rewrite IH. split.
      * intros (j' & md' & Hin & Hle); exists j', md'; auto.
      * intros (j' & md' & [Heq|Hin] & Hle); [injection Heq as <- <-; lia|exists j', md'; auto].
    + split; [|reflexivity]. intros _. exists j, md; auto.
Qed.

Lemma apply_modes_ok_or_panic : forall s E S m l (q : mat),
  apply_modes s E S m l q = Panic \/ exists q', apply_modes s E S m l q = Ok q'.
Proof.
  intros s E S m l; induction l as [|[j md] l IH]; intros q; cbn [apply_modes]; [right; eexists; reflexivity|].
  destruct (j <? E); auto.
Qed.

(** The last entry for an equation, if there is one. *)
Lemma last_entry : forall (l : list (nat * cbmode)) j,
  ~ In j (map fst l) \/ exists l1 md l2, l = l1 ++ (j, md) :: l2 /\ ~ In j (map fst l2).
Proof.
  intros l j; induction l as [|[j0 md] l IH]; cbn; auto.
  destruct IH as [IH|(l1 & md' & l2 & -> & H)].
  - destruct (Nat.eq_dec j0 j) as [->|Hne].
    + right. exists [], md, l. auto.
    + left. intros [H|H]; auto.
  - right. exists ((j0, md) :: l1), md', l2. auto.
Qed.

(** Ghost cells are disjoint from the interior cells read. *)
Lemma gidx_lt : forall s S k, 5 <= S -> k = 1 \/ k = 2 -> ghost_cell s S k < S.
Proof. intros [] S k HS [-> | ->]; cbn; lia. Qed.

Lemma apply_modes_idem : forall s E S m l (q q' : mat), 5 <= S -> shape E S q ->
  apply_modes s E S m l q = Ok q' -> apply_modes s E S m l q' = Ok q'.
Proof.
  intros s E S m l q q' HS Hq H. assert (HS4 : 4 <= S) by lia.
  assert (Hok : exists q'', apply_modes s E S m l q' = Ok q'').
  { apply apply_modes_ok_iff. apply (proj1 (apply_modes_ok_iff s E S m l q)). eauto. }
  destruct Hok as [q'' H']. rewrite H'. f_equal.
  pose proof (apply_modes_shape _ _ _ _ _ _ _ Hq H) as Hq'.
  pose proof (apply_modes_shape _ _ _ _ _ _ _ Hq' H') as Hq''.
  apply (mat_ext _ (n0 A) E S); auto. intros j i Hj Hi.
  destruct (last_entry l j) as [Hnot|(l1 & md & l2 & Hl & H2)].
  - apply (apply_modes_other _ _ _ _ _ _ _ j i HS4 H'). auto.
  - destruct (Nat.eq_dec i (ghost_cell s S 1)) as [->|N1]; [|destruct (Nat.eq_dec i (ghost_cell s S 2)) as [->|N2]].
    3: { apply (apply_modes_other _ _ _ _ _ _ _ j i HS4 H'). auto. }
    all: rewrite (apply_modes_ghost _ _ _ _ _ _ _ _ _ _ _ _ HS Hq' H' Hl H2) by auto;
         rewrite (apply_modes_ghost _ _ _ _ _ _ _ _ _ _ _ _ HS Hq H Hl H2) by auto;
         apply Gval_ext; [auto|]; intros d Hd;
         apply (apply_modes_other _ _ _ _ _ _ _ j _ HS4 H); right;
         destruct s; cbn; destruct Hd; subst; lia.
Qed.

Lemma apply_modes_commute : forall E S m lw le (q qw qe : mat), 6 <= S -> shape E S q ->
  apply_modes West E S m lw q = Ok qw -> apply_modes East E S m le q = Ok qe ->
  apply_modes East E S m le qw = apply_modes West E S m lw qe.
Proof.
  intros E S m lw le q qw qe HS Hq Hw He.
  assert (H1 : exists r, apply_modes East E S m le qw = Ok r).
  { apply apply_modes_ok_iff. apply (proj1 (apply_modes_ok_iff East E S m le q)). eauto. }
  assert (H2 : exists r, apply_modes West E S m lw qe = Ok r).
  { apply apply_modes_ok_iff. apply (proj1 (apply_modes_ok_iff West E S m lw q)). eauto. }
  destruct H1 as [r1 H1], H2 as [r2 H2]. rewrite H1, H2. f_equal.
  pose proof (apply_modes_shape _ _ _ _ _ _ _ Hq Hw) as Sw.
  pose proof (apply_modes_shape _ _ _ _ _ _ _ Hq He) as Se.
  pose proof (apply_modes_shape _ _ _ _ _ _ _ Sw H1) as S1.
  pose proof (apply_modes_shape _ _ _ _ _ _ _ Se H2) as S2.
  apply (mat_ext _ (n0 A) E S); auto. intros j i Hj Hi.
  assert (Hc : i = ghost_cell West S 1 \/ i = ghost_cell West S 2 \/ i = ghost_cell East S 1 \/ i = ghost_cell East S 2 \/ (2 <= i /\ i < S - 2))
    by (cbn; lia).
  assert (HS5 : 5 <= S) by lia. assert (HS4 : 4 <= S) by lia.
  assert (West_case : forall k, k = 1 \/ k = 2 -> i = ghost_cell West S k -> at2 (n0 A) r1 j i = at2 (n0 A) r2 j i).
  { intros k Hk ->. rewrite (apply_modes_other _ _ _ _ _ _ _ j _ HS4 H1) by (right; destruct Hk; subst; cbn; lia).
    destruct (last_entry lw j) as [Hn|(l1 & md & l2 & Hl & Hl2)].
    - rewrite (apply_modes_other _ _ _ _ _ _ _ j _ HS4 Hw) by auto.
      rewrite (apply_modes_other _ _ _ _ _ _ _ j _ HS4 H2) by auto.
      symmetry. apply (apply_modes_other _ _ _ _ _ _ _ j _ HS4 He). right; destruct Hk; subst; cbn; lia.
    - rewrite (apply_modes_ghost _ _ _ _ _ _ _ _ _ _ _ _ HS5 Hq Hw Hl Hl2) by auto.
      rewrite (apply_modes_ghost _ _ _ _ _ _ _ _ _ _ _ _ HS5 Se H2 Hl Hl2) by auto.
      apply Gval_ext; [auto|]. intros d Hd. symmetry.
      apply (apply_modes_other _ _ _ _ _ _ _ j _ HS4 He). right; destruct Hd; subst; cbn; lia. }
  assert (East_case : forall k, k = 1 \/ k = 2 -> i = ghost_cell East S k -> at2 (n0 A) r1 j i = at2 (n0 A) r2 j i).
  { intros k Hk ->. rewrite (apply_modes_other _ _ _ _ _ _ _ j _ HS4 H2) by (right; destruct Hk; subst; cbn; lia).
    destruct (last_entry le j) as [Hn|(l1 & md & l2 & Hl & Hl2)].
    - rewrite (apply_modes_other _ _ _ _ _ _ _ j _ HS4 H1) by auto.
      rewrite (apply_modes_other _ _ _ _ _ _ _ j _ HS4 He) by auto.
      apply (apply_modes_other _ _ _ _ _ _ _ j _ HS4 Hw). right; destruct Hk; subst; cbn; lia.
    - rewrite (apply_modes_ghost _ _ _ _ _ _ _ _ _ _ _ _ HS5 Sw H1 Hl Hl2) by auto.
      rewrite (apply_modes_ghost _ _ _ _ _ _ _ _ _ _ _ _ HS5 Hq He Hl Hl2) by auto.
      apply Gval_ext; [auto|]. intros d Hd.
      apply (apply_modes_other _ _ _ _ _ _ _ j _ HS4 Hw). right; destruct Hd; subst; cbn; lia. }
  destruct Hc as [Hc|[Hc|[Hc|[Hc|Hc]]]].
  - apply (West_case 1); auto.
  - apply (West_case 2); auto.
  - apply (East_case 1); auto.
  - apply (East_case 2); auto.
  - rewrite (apply_modes_other _ _ _ _ _ _ _ j _ HS4 H1) by (right; cbn; lia).
    rewrite (apply_modes_other _ _ _ _ _ _ _ j _ HS4 Hw) by (right; cbn; lia).
    rewrite (apply_modes_other _ _ _ _ _ _ _ j _ HS4 H2) by (right; cbn; lia).
    rewrite (apply_modes_other _ _ _ _ _ _ _ j _ HS4 He) by (right; cbn; lia). reflexivity.
Qed.
End B.

(** ** Exact arithmetic *)
Section Real.
Variables (S : nat) (a b : R) (md0 : mesh_mode).
Hypothesis HS : 5 <= S.
Notation m := (mesh_build (A:=XRn) S (mkMC (A:=XRn) md0 (Fin a) (Fin b))).

Lemma Gval_R : forall s md k (f : nat -> XR) a0 a1, k = 1 \/ k = 2 ->
  f (inner_cell s S 0) = Fin a0 -> f (inner_cell s S 1) = Fin a1 ->
  md <> ExtrapolateDensityKepler -> md <> ExtrapolateEtaVelocityKepler ->
  forall x0 xk, Gval XRn s S m md k f = Fin (ghost_value s md k a0 a1 x0 xk).
Proof.
  intros s md k f a0 a1 Hk H0 H1 N1 N2 x0 xk.
  assert (Hr : f (inner_cell s S (k - 1)) = Fin (if k =? 1 then a0 else a1))
    by (destruct Hk; subst; assumption).
  assert (HR : nmul XRn (nZ XRn (-1)) (f (inner_cell s S (k - 1))) = Fin (- (if k =? 1 then a0 else a1))).
  { rewrite Hr, X_Z, X_mul. f_equal. lra. }
  assert (HX : nsub XRn (nmul XRn (nZ XRn (Z.of_nat k + 1)) (Fin a0)) (nmul XRn (nZ XRn (Z.of_nat k)) (Fin a1))
               = Fin (a0 + INR k * (a0 - a1))).
  { rewrite !X_Z, !X_mul, X_sub. f_equal. rewrite plus_IZR, <- INR_IZR_INZ. lra. }
  unfold Gval. rewrite H0, H1, HR. cbn [m_is_logarithmic mesh_build]. rewrite HX.
  rewrite X_Q, X_mul.
  destruct md; try congruence; cbn [ghost_value]; try reflexivity.
  - f_equal. unfold Q2R; cbn. lra.
  - destruct s; cbn [npos XRn xpos]; destruct (Rle_dec 0 a0); reflexivity.
  - destruct s; cbn [npos XRn xpos]; destruct (Rle_dec 0 a0); reflexivity.
Qed.

Lemma kepler_step : forall u g n, (0 < g)%R -> (0 < n)%R ->
  ndiv XRn (Fin u) (nsqrt XRn (nmul XRn (Fin g) (Fin (/ n)))) = Fin (u * sqrt (n / g)).
Proof.
  intros u g n Hg Hn. rewrite X_mul.
  assert (Hp : (0 < g * / n)%R) by (apply Rmult_lt_0_compat; [assumption|apply Rinv_0_lt_compat; assumption]).
  rewrite X_sqrt by lra.
  pose proof (sqrt_lt_R0 _ Hp). rewrite X_div by lra. f_equal.
  unfold Rdiv at 1. f_equal. rewrite <- sqrt_inv. f_equal. field. lra.
Qed.

Lemma Gval_kepler_R : forall s md k (f : nat -> XR) a0 a1, k = 1 \/ k = 2 ->
  f (inner_cell s S 0) = Fin a0 ->
  md = ExtrapolateDensityKepler \/ md = ExtrapolateEtaVelocityKepler ->
  (forall i, i < S -> (0 < a + hx S a b * (INR i - 2 + 1 / 2))%R) ->
  forall x0 xk, at1 (n0 XRn) (m_xi_cent m) (inner_cell s S 0) = Fin x0 ->
  at1 (n0 XRn) (m_xi_cent m) (ghost_cell s S k) = Fin xk ->
  Gval XRn s S m md k f = Fin (ghost_value s md k a0 a1 x0 xk).
Proof.
  intros s md k f a0 a1 Hk H0 Hm Hpos x0 xk Hx0 Hxk.
  assert (L0 : inner_cell s S 0 < S) by (destruct s; cbn; lia).
  assert (L1 : ghost_cell s S 1 < S) by (destruct s; cbn; lia).
  assert (L2 : ghost_cell s S 2 < S) by (destruct s; cbn; lia).
  assert (Lk : ghost_cell s S k < S) by (destruct Hk; subst; assumption).
  pose proof (Hpos _ L0) as P0. pose proof (Hpos _ L1) as P1. pose proof (Hpos _ L2) as P2.
  rewrite mesh_cent_R in Hx0, Hxk by assumption. injection Hx0 as <-. injection Hxk as <-.
  assert (HG : Gval XRn s S m md k f =
    let w g n := nsqrt XRn (nmul XRn (at1 (n0 XRn) (m_xi_cent m) g) (at1 (n0 XRn) (m_xi_cent_inv m) n)) in
    let kep1 := ndiv XRn (f (inner_cell s S 0)) (w (ghost_cell s S 1) (inner_cell s S 0)) in
    if k =? 1 then kep1 else ndiv XRn kep1 (w (ghost_cell s S 2) (ghost_cell s S 1))).
  { destruct Hm; subst md; reflexivity. }
  rewrite HG. cbv zeta. rewrite H0.
  rewrite !mesh_cent_inv_at by assumption.
  rewrite !mesh_cent_R by assumption.
  rewrite !X_recip by lra. rewrite kepler_step by assumption.
  assert (Hgv : forall x y, ghost_value s md k a0 a1 x y = (a0 * sqrt (x / y))%R)
    by (destruct Hm; subst md; reflexivity).
  rewrite Hgv. destruct Hk; subst k; cbn [Nat.eqb].
  - reflexivity.
  - rewrite kepler_step by assumption. f_equal. rewrite Rmult_assoc. f_equal.
    rewrite <- sqrt_mult.
    + f_equal. field. lra.
    + apply Rlt_le. apply Rdiv_lt_0_compat; assumption.
    + apply Rlt_le. apply Rdiv_lt_0_compat; assumption.
Qed.
End Real.

Lemma bc_apply_Ok : forall A s p S (m : mesh A) l v v', bc_apply s p S m l v = Ok v' ->
  exists q, apply_modes s (nE p) S m l (prim v) = Ok q /\ v' = set_prim q v.
Proof. intros A s p S m l v v' H. apply bind_Ok in H. destruct H as (q & Hq & H). injection H as <-. eauto. Qed.

Lemma bc_frame : forall A s p S (m : mesh A) l v v', 4 <= S ->
  bc_apply s p S m l v = Ok v' ->
  cons v' = cons v /\ c_sound v' = c_sound v /\ eigen_vals v' = eigen_vals v /\ flux v' = flux v /\
  gamma v' = gamma v /\ zero_vec v' = zero_vec v /\
  (shape (nE p) S (prim v) -> shape (nE p) S (prim v')) /\
  forall j i, (~ In j (map fst l) \/ (i <> ghost_cell s S 1 /\ i <> ghost_cell s S 2)) ->
    at2 (n0 A) (prim v') j i = at2 (n0 A) (prim v) j i.
Proof.
  intros A s p S m l v v' HS H. apply bc_apply_Ok in H. destruct H as (q & Hq & ->). cbn.
  repeat match goal with |- _ /\ _ => split end; auto.
  - intros Hsh. eapply apply_modes_shape; eauto.
  - intros j i Hji. eapply apply_modes_other; eauto.
Qed.

Lemma bc_ghost_values : forall S md0 a b validation m s p l v v' j md l1 l2 k a0 a1 x0 xk,
  6 <= S -> mesh_new (A:=XRn) validation S (mkMC (A:=XRn) md0 (Fin a) (Fin b)) = Ok m ->
  shape (nE p) S (prim v) ->
  bc_apply s p S m l v = Ok v' ->
  l = l1 ++ (j, md) :: l2 -> ~ In j (map fst l2) -> k = 1 \/ k = 2 ->
  at2 (n0 XRn) (prim v) j (inner_cell s S 0) = Fin a0 ->
  at2 (n0 XRn) (prim v) j (inner_cell s S 1) = Fin a1 ->
  at1 (n0 XRn) (m_xi_cent m) (inner_cell s S 0) = Fin x0 ->
  at1 (n0 XRn) (m_xi_cent m) (ghost_cell s S k) = Fin xk ->
  (md = ExtrapolateDensityKepler \/ md = ExtrapolateEtaVelocityKepler ->
     forall i, i < S -> exists x, at1 (n0 XRn) (m_xi_cent m) i = Fin x /\ (0 < x)%R) ->
  at2 (n0 XRn) (prim v') j (ghost_cell s S k) = Fin (ghost_value s md k a0 a1 x0 xk).
Proof.
  intros S md0 a b val m s p l v v' j md l1 l2 k a0 a1 x0 xk HS Hm Hsh H Hl Hl2 Hk H0 H1 Hx0 Hxk Hpos.
  apply mesh_new_Ok in Hm. destruct Hm as (_ & -> & _).
  apply bc_apply_Ok in H. destruct H as (q & Hq & ->). cbn [prim set_prim].
  assert (HS5 : 5 <= S) by lia.
  rewrite (apply_modes_ghost _ _ _ _ _ _ _ _ _ _ _ _ _ HS5 Hsh Hq Hl Hl2 Hk).
  assert (HC : md = ExtrapolateDensityKepler \/ md = ExtrapolateEtaVelocityKepler \/
               (md <> ExtrapolateDensityKepler /\ md <> ExtrapolateEtaVelocityKepler))
    by (destruct md; auto; right; right; split; discriminate).
  destruct HC as [HC|[HC|[N1 N2]]].
  3: { apply Gval_R; auto. }
  all: eapply Gval_kepler_R; eauto; intros i Hi;
       destruct (Hpos ltac:(auto) i Hi) as (x & Hx & Hx'); rewrite mesh_cent_R in Hx by assumption;
       injection Hx as <-; exact Hx'.
Qed.

Lemma bc_idempotent : forall A s p S (m : mesh A) l v v', 5 <= S -> shape (nE p) S (prim v) ->
  bc_apply s p S m l v = Ok v' -> bc_apply s p S m l v' = Ok v'.
Proof.
  intros A s p S m l v v' HS Hsh H. apply bc_apply_Ok in H. destruct H as (q & Hq & ->).
  unfold bc_apply. cbn [prim set_prim].
  rewrite (apply_modes_idem _ _ _ _ _ _ _ _ HS Hsh Hq). reflexivity.
Qed.

Lemma bc_commute : forall A p S (m : mesh A) lw le v vw ve, 6 <= S -> shape (nE p) S (prim v) ->
  bc_apply West p S m lw v = Ok vw -> bc_apply East p S m le v = Ok ve ->
  bc_apply East p S m le vw = bc_apply West p S m lw ve.
Proof.
  intros A p S m lw le v vw ve HS Hsh Hw He.
  apply bc_apply_Ok in Hw. destruct Hw as (qw & Hw & ->).
  apply bc_apply_Ok in He. destruct He as (qe & He & ->).
  unfold bc_apply. cbn [prim set_prim].
  rewrite (apply_modes_commute _ _ _ _ _ _ _ _ _ HS Hsh Hw He).
  destruct (apply_modes West (nE p) S m lw qe); reflexivity.
Qed.

Lemma bc_panic_iff : forall A s p S (m : mesh A) l v,
  (bc_apply s p S m l v = Panic <-> exists j md, In (j, md) l /\ nE p <= j) /\
  ((exists v', bc_apply s p S m l v = Ok v') <-> forall j md, In (j, md) l -> j < nE p).
Proof.
  intros A s p S m l v. unfold bc_apply. split.
  - rewrite <- (apply_modes_panic_iff _ s _ S m l (prim v)).
    destruct (apply_modes_ok_or_panic _ s (nE p) S m l (prim v)) as [->|[q ->]]; cbn; split; auto; discriminate.
  - rewrite <- (apply_modes_ok_iff _ s _ S m l (prim v)).
    destruct (apply_modes_ok_or_panic _ s (nE p) S m l (prim v)) as [->|[q ->]]; cbn; split; intros [x Hx];
      try discriminate; eexists; reflexivity.
Qed.

Lemma init_bc_no_gradients : forall E j md, In (j, md) (init_bc BNoGradients E) <-> md = NoGradients /\ j < E.
Proof.
  intros E j md. cbn [init_bc]. rewrite in_map_iff. split.
  - intros (x & Hx & Hin). injection Hx as <- <-. apply in_seq in Hin. split; [reflexivity|lia].
  - intros [-> Hj]. exists j. split; [reflexivity|]. apply in_seq. lia.
Qed.

Lemma bc_frame_changed : forall A s p S (m : mesh A) l v v', 5 <= S ->
  bc_apply s p S m l v = Ok v' ->
  cons v' = cons v /\ c_sound v' = c_sound v /\ eigen_vals v' = eigen_vals v /\ flux v' = flux v /\
  gamma v' = gamma v /\ zero_vec v' = zero_vec v /\
  (shape (nE p) S (prim v) -> shape (nE p) S (prim v')) /\
  forall j i, at2 (n0 A) (prim v') j i <> at2 (n0 A) (prim v) j i ->
    (exists md, In (j, md) l) /\ (i = ghost_cell s S 1 \/ i = ghost_cell s S 2).
Proof.
  intros A s p S m l v v' HS H.
  destruct (bc_frame A s p S m l v v' ltac:(lia) H) as (H1 & H2 & H3 & H4 & H5 & H6 & H7 & H8).
  refine (conj H1 (conj H2 (conj H3 (conj H4 (conj H5 (conj H6 (conj H7 _))))))).
  intros j i Hne. split.
  - destruct (in_dec Nat.eq_dec j (map fst l)) as [Hin|Hn].
    + apply in_map_iff in Hin. destruct Hin as ([j' md] & Hj & Hin). cbn in Hj. subst j'. eauto.
    + exfalso. apply Hne, H8. auto.
  - destruct (Nat.eq_dec i (ghost_cell s S 1)); auto. destruct (Nat.eq_dec i (ghost_cell s S 2)); auto.
    exfalso. apply Hne, H8. auto.
Qed.

Lemma outflow_modes : forall s p S (m : mesh XRn) v j a0, 5 <= S ->
  at2 (n0 XRn) (prim v) j (inner_cell s S 0) = Fin a0 ->
  (points_inward s a0 ->
     bc_apply s p S m [(j, OutflowNoGradients)] v = bc_apply s p S m [(j, Reflecting)] v /\
     bc_apply s p S m [(j, OutFlowExtrapolate)] v = bc_apply s p S m [(j, Reflecting)] v) /\
  (~ points_inward s a0 ->
     bc_apply s p S m [(j, OutflowNoGradients)] v = bc_apply s p S m [(j, NoGradients)] v /\
     bc_apply s p S m [(j, OutFlowExtrapolate)] v = bc_apply s p S m [(j, Extrapolate)] v).
Proof.
  intros s p S m v j a0 HS H.
  unfold bc_apply. cbn [apply_modes]. destruct (j <? nE p); [|split; intros _; split; reflexivity].
  destruct s; cbn [inner_cell apply_mode points_inward] in *; rewrite ?Nat.add_0_r, ?Nat.sub_0_r in H;
  unfold outflow_no_gradients_west, outflow_extrapolate_west, outflow_no_gradients_east, outflow_extrapolate_east;
  rewrite H; cbn [npos XRn xpos]; destruct (Rle_dec 0 a0); cbn [negb]; split; intros Hi; split; try reflexivity;
  exfalso; lra.
Qed.

(** the same for doubles: the sign bit decides *)
Lemma outflow_modes_b64 : forall bln bexp s p S (m : mesh (B64n bln bexp)) v j, 5 <= S ->
  let sign := Bsign (at2 (n0 (B64n bln bexp)) (prim v) j (inner_cell s S 0) : b64) in
  let inward := match s with West => sign = false | East => sign = true end in
  (inward ->
     bc_apply s p S m [(j, OutflowNoGradients)] v = bc_apply s p S m [(j, Reflecting)] v /\
     bc_apply s p S m [(j, OutFlowExtrapolate)] v = bc_apply s p S m [(j, Reflecting)] v) /\
  (~ inward ->
     bc_apply s p S m [(j, OutflowNoGradients)] v = bc_apply s p S m [(j, NoGradients)] v /\
     bc_apply s p S m [(j, OutFlowExtrapolate)] v = bc_apply s p S m [(j, Extrapolate)] v).
Proof.
  intros bln bexp s p S m v j HS.
  unfold bc_apply. cbn [apply_modes]. destruct (j <? nE p); [|split; intros _; split; reflexivity].
  destruct s; cbn [inner_cell apply_mode points_inward] in *; rewrite ?Nat.add_0_r, ?Nat.sub_0_r;
  unfold outflow_no_gradients_west, outflow_extrapolate_west, outflow_no_gradients_east, outflow_extrapolate_east;
  cbn [npos B64n]; unfold b_pos;
  destruct (Bsign _); cbn [negb]; split; intros Hi; split; try reflexivity;
  exfalso; congruence.
Qed.

(** ** A concrete state for the examples: prim rows [1 2 3 4 .. S] *)
Definition ramp (A : Num) (p : phys) (S : nat) : vars A :=
  set_prim (mtab (nE p) S (fun _ i => nZ A (Z.of_nat i + 1)))
           (vars_new p S (mkPC (nZ A 1) SI)).
Definition dom34 (A : Num) : mesh_config A := mkMC (A:=A) Cartesian (nZ A 3) (nZ A 4).
