(** Mirror symmetry: proofs, for every arithmetic in which negation commutes
    with the operations up to a relation [eqv]. *)

From Coq Require Import ZArith NArith QArith List Bool Lia Setoid Morphisms.
From Verif Require Import Base Num Config Mesh State NumFlux Time Spec SpecFlow SpecStep SpecEuler SpecMirror MeshProofs BoundaryProofs PhysicsProofs FluxProofs
  UpdateProofs FluxThms FluxMore StepProofs StepInv StepEq EulerStep EulerThms ReachProofs FlatProofs.
Import ListNotations.
Local Open Scope nat_scope.

(** What the proof needs of the arithmetic; [nz] are the denominators for which
    division respects [eqv].  Proved for exact numbers and for doubles in
    MirrorNum.v. *)
Record sign_laws (A : Num) (eqv : nF A -> nF A -> Prop) (nz : nF A -> Prop) : Prop := {
  l_equiv : Equivalence eqv;
  l_neg : forall x y, eqv x y -> eqv (nneg A x) (nneg A y);
  l_add : forall x x' y y', eqv x x' -> eqv y y' -> eqv (nadd A x y) (nadd A x' y');
  l_sub : forall x x' y y', eqv x x' -> eqv y y' -> eqv (nsub A x y) (nsub A x' y');
  l_mul : forall x x' y y', eqv x x' -> eqv y y' -> eqv (nmul A x y) (nmul A x' y');
  l_min : forall x x' y y', eqv x x' -> eqv y y' -> eqv (nmin A x y) (nmin A x' y');
  l_max : forall x x' y y', eqv x x' -> eqv y y' -> eqv (nmax A x y) (nmax A x' y');
  l_sqrt : forall x y, eqv x y -> eqv (nsqrt A x) (nsqrt A y);
  l_div : forall x x' y y', eqv x x' -> eqv y y' -> nz y -> eqv (ndiv A x y) (ndiv A x' y');
  l_nz : forall x y, eqv x y -> nz x -> nz y;
  l_nzneg : forall x, nz x -> nz (nmul A (nZ A (-1)) x);
  l_negneg : forall x, eqv (nneg A (nneg A x)) x;
  l_neg0 : eqv (nneg A (n0 A)) (n0 A);
  l_mulc : forall x y, eqv (nmul A x y) (nmul A y x);
  l_minc : forall x y, eqv (nmin A x y) (nmin A y x);
  l_maxc : forall x y, eqv (nmax A x y) (nmax A y x);
  l_minneg : forall x y, eqv (nmin A (nneg A x) (nneg A y)) (nneg A (nmax A x y));
  l_maxneg : forall x y, eqv (nmax A (nneg A x) (nneg A y)) (nneg A (nmin A x y));
  l_subswap : forall x y, eqv (nsub A y x) (nneg A (nsub A x y));
  l_subneg : forall x y, eqv (nsub A (nneg A x) (nneg A y)) (nneg A (nsub A x y));
  l_addneg : forall x y, eqv (nadd A (nneg A x) (nneg A y)) (nneg A (nadd A x y));
  l_negsub : forall x y, eqv (nsub A (nneg A x) y) (nneg A (nadd A x y));
  l_negadd : forall x y, eqv (nadd A (nneg A x) y) (nneg A (nsub A x y));
  l_mulneg : forall x y, eqv (nmul A (nneg A x) y) (nneg A (nmul A x y));
  l_divneg : forall x y, nz y -> eqv (ndiv A (nneg A x) y) (nneg A (ndiv A x y));
  l_fadd : forall x y, nfin A (nadd A x y) = true -> nfin A x = true /\ nfin A y = true;
  l_fsub : forall x y, nfin A (nsub A x y) = true -> nfin A x = true /\ nfin A y = true;
  l_fmul : forall x y, nfin A (nmul A x y) = true -> nfin A x = true /\ nfin A y = true;
  l_fdiv : forall x y, nfin A (ndiv A x y) = true -> nz y }.

Section Mirror.
Variable A : Num.
Variable eqv : nF A -> nF A -> Prop.
Variable nz : nF A -> Prop.
Hypothesis L : sign_laws A eqv nz.
Notation F := (nF A).
Notation mat := (list (list F)).
Notation "x ~ y" := (eqv x y) (at level 70).

Let Lequiv : Equivalence eqv := l_equiv _ _ _ L.
Local Existing Instance Lequiv.
Let Lneg : Proper (eqv ==> eqv) (nneg A). Proof. intros x y. apply (l_neg _ _ _ L). Qed.
Let Ladd : Proper (eqv ==> eqv ==> eqv) (nadd A). Proof. intros x y H x' y' H'. apply (l_add _ _ _ L); assumption. Qed.
Let Lsub : Proper (eqv ==> eqv ==> eqv) (nsub A). Proof. intros x y H x' y' H'. apply (l_sub _ _ _ L); assumption. Qed.
Let Lmul : Proper (eqv ==> eqv ==> eqv) (nmul A). Proof. intros x y H x' y' H'. apply (l_mul _ _ _ L); assumption. Qed.
Let Lmin : Proper (eqv ==> eqv ==> eqv) (nmin A). Proof. intros x y H x' y' H'. apply (l_min _ _ _ L); assumption. Qed.
Let Lmax : Proper (eqv ==> eqv ==> eqv) (nmax A). Proof. intros x y H x' y' H'. apply (l_max _ _ _ L); assumption. Qed.
Let Lsqrt : Proper (eqv ==> eqv) (nsqrt A). Proof. intros x y. apply (l_sqrt _ _ _ L). Qed.
Local Existing Instances Lneg Ladd Lsub Lmul Lmin Lmax Lsqrt.

Lemma mulneg_r : forall x y, nmul A x (nneg A y) ~ nneg A (nmul A x y).
Proof. intros x y. rewrite (l_mulc _ _ _ L x (nneg A y)), (l_mulneg _ _ _ L), (l_mulc _ _ _ L y x). reflexivity. Qed.
Lemma mulneg2 : forall x y, nmul A (nneg A x) (nneg A y) ~ nmul A x y.
Proof. intros x y. rewrite (l_mulneg _ _ _ L), mulneg_r. apply (l_negneg _ _ _ L). Qed.

Lemma flip_eqv : forall j x y, x ~ y -> flip j x ~ flip j y.
Proof. intros j x y H. unfold flip. destruct (j =? 1); [rewrite H|]; try reflexivity. exact H. Qed.
Lemma flip2 : forall j x, flip j (flip j x) ~ x.
Proof. intros j x. unfold flip. destruct (j =? 1); [apply (l_negneg _ _ _ L)|reflexivity]. Qed.
Lemma flip_0 : forall j, flip j (n0 A) ~ n0 A.
Proof. intros j. unfold flip. destruct (j =? 1); [apply (l_neg0 _ _ _ L)|reflexivity]. Qed.
Lemma flip_mul_r : forall j x y, nmul A x (flip j y) ~ flip j (nmul A x y).
Proof. intros j x y. unfold flip. destruct (j =? 1); [apply mulneg_r|reflexivity]. Qed.
Lemma flip_sub : forall j x y, nsub A (flip j x) (flip j y) ~ flip j (nsub A x y).
Proof. intros j x y. unfold flip. destruct (j =? 1); [apply (l_subneg _ _ _ L)|reflexivity]. Qed.

(** fluxes change their sign where the variable does not *)
Definition flop (j : nat) (x : F) : F := if j =? 1 then x else nneg A x.
Lemma flop_eqv : forall j x y, x ~ y -> flop j x ~ flop j y.
Proof. intros j x y H. unfold flop. destruct (j =? 1); [exact H|rewrite H; reflexivity]. Qed.

(** ** One cell *)
Section Cell.
Variables (p : phys) (g : F).

Lemma c2p_flip : forall f f', (forall j, j < nE p -> f j ~ flip j (f' j)) -> nz (f 0) -> forall j, j < nE p -> c2p A p g f j ~ flip j (c2p A p g f' j).
Proof.
  intros f f' H Z j Hj.
  pose proof (H 0 ltac:(destruct p; cbn; lia)) as H0. pose proof (H 1 ltac:(destruct p; cbn; lia)) as H1. cbn [flip Nat.eqb] in H0, H1.
  assert (Z' : nz (f' 0)) by (eapply (l_nz _ _ _ L); eassumption).
  assert (V : ndiv A (f 1) (f 0) ~ nneg A (ndiv A (f' 1) (f' 0))).
  { rewrite (l_div _ _ _ L _ _ _ _ H1 H0 Z). apply (l_divneg _ _ _ L). exact Z'. }
  destruct p; cbn [nE] in *.
  - destruct j as [|[|j]]; [| |lia]; cbn [c2p flip Nat.eqb isot_cons_to_prim fst snd]; [exact H0|exact V].
  - pose proof (H 2 ltac:(lia)) as H2. cbn [flip Nat.eqb] in H2.
    destruct j as [|[|[|j]]]; [| | |lia]; cbn -[n0 n1 nQ]; [exact H0|exact V|].
    assert (D : ndiv A (nQ A (1 # 2)) (f 0) ~ ndiv A (nQ A (1 # 2)) (f' 0)) by (apply (l_div _ _ _ L); [reflexivity|exact H0|exact Z]).
    rewrite D, H1, H2. rewrite mulneg_r, mulneg_r, (l_mulneg _ _ _ L), (l_negneg _ _ _ L). reflexivity.
Qed.

Lemma p2c_flip : forall f f', (forall j, j < nE p -> f j ~ flip j (f' j)) -> forall j, j < nE p -> p2c A p g f j ~ flip j (p2c A p g f' j).
Proof.
  intros f f' H j Hj.
  pose proof (H 0 ltac:(destruct p; cbn; lia)) as H0. pose proof (H 1 ltac:(destruct p; cbn; lia)) as H1. cbn [flip Nat.eqb] in H0, H1.
  destruct p; cbn [nE] in *.
  - destruct j as [|[|j]]; [| |lia]; cbn; [exact H0|]. rewrite H0, H1. apply (l_mulneg _ _ _ L) || apply mulneg_r.
  - pose proof (H 2 ltac:(lia)) as H2. cbn [flip Nat.eqb] in H2.
    destruct j as [|[|[|j]]]; [| | |lia]; cbn -[n0 n1 nQ]; [exact H0|rewrite H0, H1; apply (l_mulneg _ _ _ L) || apply mulneg_r|].
    rewrite H0, H1, H2. rewrite ?mulneg_r, ?mulneg2, ?(l_mulneg _ _ _ L), ?mulneg_r, ?(l_negneg _ _ _ L). reflexivity.
Qed.

Lemma pflux_flop : forall q q' f f' cs cs', (forall j, j < nE p -> q j ~ flip j (q' j)) -> (forall j, j < nE p -> f j ~ flip j (f' j)) -> cs ~ cs' ->
  forall j, j < nE p -> pflux A p q f cs j ~ flop j (pflux A p q' f' cs' j).
Proof.
  intros q q' f f' cs cs' Q H C j Hj.
  pose proof (H 0 ltac:(destruct p; cbn; lia)) as H0. pose proof (H 1 ltac:(destruct p; cbn; lia)) as H1. cbn [flip Nat.eqb] in H0, H1.
  pose proof (Q 1 ltac:(destruct p; cbn; lia)) as Q1. cbn [flip Nat.eqb] in Q1.
  destruct p; cbn [nE] in *.
  - destruct j as [|[|j]]; [| |lia]; cbn; [exact H1|]. rewrite H0, Q1, C, mulneg2. reflexivity.
  - pose proof (H 2 ltac:(lia)) as H2. pose proof (Q 2 ltac:(lia)) as Q2. cbn [flip Nat.eqb] in H2, Q2.
    destruct j as [|[|[|j]]]; [| | |lia]; cbn -[n0 n1 nQ]; [exact H1| |].
    + rewrite H1, Q1, Q2, mulneg2. reflexivity.
    + rewrite H2, Q1, Q2. rewrite ?mulneg_r, ?(l_mulneg _ _ _ L). reflexivity.
Qed.
End Cell.

(** ** One face *)
Lemma lo_mirror : forall x y x' y', x ~ nneg A y' -> y ~ nneg A x' -> lo_h A x y ~ nneg A (hi_h A x' y').
Proof.
  intros x y x' y' H1 H2. unfold lo_h, hi_h. rewrite H1, H2, (l_minneg _ _ _ L), (l_maxc _ _ _ L y' x').
  rewrite <- (l_neg0 _ _ _ L) at 1. apply (l_minneg _ _ _ L).
Qed.
Lemma hi_mirror : forall x y x' y', x ~ nneg A y' -> y ~ nneg A x' -> hi_h A x y ~ nneg A (lo_h A x' y').
Proof.
  intros x y x' y' H1 H2. unfold lo_h, hi_h. rewrite H1, H2, (l_maxneg _ _ _ L), (l_minc _ _ _ L y' x').
  rewrite <- (l_neg0 _ _ _ L) at 1. apply (l_maxneg _ _ _ L).
Qed.

Lemma face_mirror : forall j sl sr fl fr ul ur sl' sr' fl' fr' ul' ur', sl ~ nneg A sr' -> sr ~ nneg A sl' -> fl ~ flop j fr' -> fr ~ flop j fl' ->
  ul ~ flip j ur' -> ur ~ flip j ul' -> nz (nsub A sr sl) ->
  face_flux A (n1 A) sl sr fl fr ul ur ~ flop j (face_flux A (n1 A) sl' sr' fl' fr' ul' ur').
Proof.
  intros j sl sr fl fr ul ur sl' sr' fl' fr' ul' ur' Hl Hr Hfl Hfr Hul Hur Z.
  assert (D : nsub A sr sl ~ nsub A sr' sl').
  { rewrite Hl, Hr, (l_subneg _ _ _ L). symmetry. apply (l_subswap _ _ _ L). }
  assert (I : ndiv A (n1 A) (nsub A sr sl) ~ ndiv A (n1 A) (nsub A sr' sl')) by (apply (l_div _ _ _ L); [reflexivity|exact D|exact Z]).
  assert (P : nmul A sr sl ~ nmul A sr' sl') by (rewrite Hl, Hr, mulneg2; apply (l_mulc _ _ _ L)).
  unfold face_flux. rewrite I, P, Hl, Hr, Hfl, Hfr, Hul, Hur. unfold flip, flop. destruct (j =? 1).
  - rewrite (l_mulneg _ _ _ L sl' fr'), (l_mulneg _ _ _ L sr' fl'), !(l_subneg _ _ _ L).
    rewrite <- (l_subswap _ _ _ L (nmul A sl' fr')), <- (l_subswap _ _ _ L ul' ur'). reflexivity.
  - rewrite !mulneg2. rewrite (l_subswap _ _ _ L (nmul A sr' fl') (nmul A sl' fr')), (l_subswap _ _ _ L ur' ul').
    rewrite mulneg_r, (l_addneg _ _ _ L), mulneg_r. reflexivity.
Qed.

(** ** Rows *)
Section Rows.
Variables (p : phys) (S : nat) (c0 : mesh_config A) (l : list (nat * cbmode)).
Hypothesis HS : 6 <= S.
Hypothesis Hl : even_handed (m_is_logarithmic (mesh_build S c0)) (nE p) l.
Let m := mesh_build S c0.
Let Hm : std_ix A S m. Proof. apply std_build. Qed.
Let HS5 : 5 <= S. Proof. lia. Qed.

Definition inner_rows (q : mat) : Prop := forall j i, j < nE p -> 2 <= i <= S - 3 -> at2 (n0 A) q j i ~ flip j (at2 (n0 A) q j (S - 1 - i)).

Lemma rows_inner : forall q, mirror_rows eqv (nE p) S q -> inner_rows q.
Proof. intros q H j i Hj Hi. apply H; lia. Qed.

Lemma ghost_mirror : forall md j k (f f' : nat -> F), k = 1 \/ k = 2 -> md = NoGradients \/ md = Reflecting \/ (j <> 0 /\ ((md = Extrapolate /\ m_is_logarithmic (mesh_build S c0) = false) \/ md = NearZero)) ->
  (forall d, d < 2 -> f (inner_cell West S d) ~ flip j (f' (inner_cell East S d))) ->
  Gval A West S m md k f ~ flip j (Gval A East S m md k f').
Proof.
  intros md j k f f' Hk Hmd H. pose proof (H 0 ltac:(lia)) as H0. pose proof (H 1 ltac:(lia)) as H1. pose proof (H (k - 1) ltac:(lia)) as H2.
  unfold Gval. unfold m in *.
  destruct Hmd as [->|[->|(_ & [(-> & Hlin)| ->])]].
  - exact H0.
  - rewrite H2. apply flip_mul_r.
  - rewrite Hlin. rewrite H0, H1, !flip_mul_r. apply flip_sub.
  - rewrite H0. apply flip_mul_r.
Qed.

Lemma modes_mirror : forall q q1 q2, shape (nE p) S q -> inner_rows q -> (forall i, 2 <= i <= S - 3 -> nz (at2 (n0 A) q 0 i)) ->
  apply_modes West (nE p) S m l q = Ok q1 -> apply_modes East (nE p) S m l q1 = Ok q2 ->
  mirror_rows eqv (nE p) S q2 /\ (forall i, i < S -> nz (at2 (n0 A) q2 0 i)).
Proof.
  intros q q1 q2 Sq Hq Zq E1 E2. destruct Hl as (Hall & Hmd).
  assert (HS4 : 4 <= S) by lia.
  assert (Sq1 : shape (nE p) S q1) by (eapply apply_modes_shape; eassumption).
  assert (IN : forall j i, 2 <= i <= S - 3 -> at2 (n0 A) q2 j i = at2 (n0 A) q j i).
  { intros j i Hi. rewrite (apply_modes_other A _ _ _ _ _ _ _ j i HS4 E2) by (right; cbn [ghost_cell]; lia).
    apply (apply_modes_other A _ _ _ _ _ _ _ j i HS4 E1). right. cbn [ghost_cell]. lia. }
  assert (IN1 : forall j i, 2 <= i <= S - 3 -> at2 (n0 A) q1 j i = at2 (n0 A) q j i).
  { intros j i Hi. apply (apply_modes_other A _ _ _ _ _ _ _ j i HS4 E1). right. cbn [ghost_cell]. lia. }
  assert (G : forall j, j < nE p -> exists md, (md = NoGradients \/ md = Reflecting \/ (j <> 0 /\ ((md = Extrapolate /\ m_is_logarithmic (mesh_build S c0) = false) \/ md = NearZero))) /\
    forall k, k = 1 \/ k = 2 -> at2 (n0 A) q2 j (2 - k) = Gval A West S m md k (fun i => at2 (n0 A) q j i) /\
      at2 (n0 A) q2 j (S - 3 + k) = Gval A East S m md k (fun i => at2 (n0 A) q j i)).
  { intros j Hj. destruct (last_entry l j) as [Hn|(l1 & md & l2 & El & Hn)]; [elim Hn; apply Hall; exact Hj|].
    exists md. split; [apply Hmd; rewrite El; apply in_or_app; right; left; reflexivity|].
    intros k Hk. split.
    - rewrite (apply_modes_other A _ _ _ _ _ _ _ j (2 - k) HS4 E2) by (right; cbn [ghost_cell]; lia).
      exact (apply_modes_ghost A West (nE p) S m l q q1 j k l1 md l2 HS5 Sq E1 El Hn Hk).
    - rewrite (apply_modes_ghost A East (nE p) S m l q1 q2 j k l1 md l2 HS5 Sq1 E2 El Hn Hk : at2 (n0 A) q2 j (S - 3 + k) = _).
      apply Gval_ext; [exact Hk|]. intros d Hd. cbn [inner_cell]. apply IN1. destruct Hd; subst; lia. }
  assert (GM : forall j k, j < nE p -> k = 1 \/ k = 2 -> at2 (n0 A) q2 j (2 - k) ~ flip j (at2 (n0 A) q2 j (S - 3 + k))).
  { intros j k Hj Hk. destruct (G j Hj) as (md & M & V). destruct (V k Hk) as (-> & ->). apply ghost_mirror; [exact Hk|exact M|].
    intros d Hd. cbn [inner_cell]. replace (S - 3 - d) with (S - 1 - (2 + d)) by lia. apply Hq; [exact Hj|lia]. }
  split.
  - intros j i Hj Hi. destruct (Nat.lt_ge_cases i 2) as [Lo|Lo].
    { specialize (GM j (2 - i) Hj ltac:(lia)). replace (2 - (2 - i)) with i in GM by lia. replace (S - 3 + (2 - i)) with (S - 1 - i) in GM by lia. exact GM. }
    destruct (Nat.lt_ge_cases (S - 3) i) as [Up|Up].
    { specialize (GM j (i - (S - 3)) Hj ltac:(lia)). replace (2 - (i - (S - 3))) with (S - 1 - i) in GM by lia.
      replace (S - 3 + (i - (S - 3))) with i in GM by lia. rewrite (flip_eqv j _ _ GM). symmetry. apply flip2. }
    rewrite !IN by lia. apply Hq; [exact Hj|lia].
  - assert (P0 : 0 < nE p) by (destruct p; cbn; lia). destruct (G 0 P0) as (md & M & V).
    assert (ZG : forall s k, k = 1 \/ k = 2 -> nz (Gval A s S m md k (fun i => at2 (n0 A) q 0 i))).
    { intros s k Hk. destruct M as [->|[->|(M & _)]]; [| |elim M; reflexivity]; unfold Gval.
      - destruct s; cbn [inner_cell]; apply Zq; lia.
      - apply (l_nzneg _ _ _ L). destruct s; cbn [inner_cell]; apply Zq; lia. }
    intros i Hi. destruct (Nat.lt_ge_cases i 2) as [Lo|Lo].
    { destruct (V (2 - i) ltac:(lia)) as (V1 & _). replace (2 - (2 - i)) with i in V1 by lia. rewrite V1. apply ZG. lia. }
    destruct (Nat.lt_ge_cases (S - 3) i) as [Up|Up].
    { destruct (V (i - (S - 3)) ltac:(lia)) as (_ & V1). replace (S - 3 + (i - (S - 3))) with i in V1 by lia. rewrite V1. apply ZG. lia. }
    rewrite IN by lia. apply Zq. lia.
Qed.

(** updated variables *)
Definition mirrored (v : vars A) : Prop := mirror_symmetric eqv p S v /\
  forall i, i < S -> at2 (n0 A) (eigen_vals v) 0 i ~ nneg A (at2 (n0 A) (eigen_vals v) (nE p - 1) (S - 1 - i)).

Lemma from_prim_mirror : forall v v', wsv A p S v -> inner_rows (prim v) ->
  (p = Isot -> forall i, i < S -> at1 (n0 A) (c_sound v) i ~ at1 (n0 A) (c_sound v) (S - 1 - i)) ->
  (forall i, 2 <= i <= S - 3 -> nz (at2 (n0 A) (prim v) 0 i)) ->
  update_vars_from_prim p S l l m v = Ok v' -> mirrored v'.
Proof.
  intros v v' Wv Hp Hs Z E.
  destruct (update_from_prim_view A p S l l m v v' HS5 Wv E) as (_ & _ & _ & _ & _ & V).
  assert (P : mirror_rows eqv (nE p) S (prim v') /\ (forall i, i < S -> nz (at2 (n0 A) (prim v') 0 i))).
  { unfold update_vars_from_prim in E. apply bind_Ok in E. destruct E as (x & Hx & E). apply bind_Ok in E. destruct E as (y & Hy & E). injection E as <-.
    apply bc_apply_Ok in Hx, Hy. destruct Hx as (q & Hq & ->). destruct Hy as (t & Ht & ->). cbn [prim set_prim] in Ht.
    match goal with |- context [prim (update_derived_variables p S (update_cons p S ?z))] => assert (X : prim (update_derived_variables p S (update_cons p S z)) = prim z) end.
    { destruct (derived_fields A p S (update_cons p S (set_prim t (set_prim q v)))) as (D & _). rewrite D.
      destruct (update_cons_fields A p S (set_prim t (set_prim q v))) as (D' & _). exact D'. }
    rewrite X. cbn [prim set_prim]. exact (modes_mirror (prim v) q t (proj1 Wv) Hp Z Hq Ht). }
  destruct P as (P & Z').
  assert (C : forall i, i < S -> at1 (n0 A) (c_sound v') i ~ at1 (n0 A) (c_sound v') (S - 1 - i)).
  { intros i Hi. destruct (V i Hi) as (_ & -> & _). destruct (V (S - 1 - i) ltac:(lia)) as (_ & -> & _). unfold cs_of, kt_sound. destruct p; [apply Hs; auto|].
    pose proof (P 2 i ltac:(cbn; lia) Hi) as P2. pose proof (P 0 i ltac:(cbn; lia) Hi) as P0. cbn [flip Nat.eqb] in P0, P2.
    apply (l_sqrt _ _ _ L). apply (l_div _ _ _ L); [rewrite P2; reflexivity|exact P0|apply Z'; exact Hi]. }
  split; [split; [exact P|split; [|exact C]]|].
  - intros j i Hj Hi. destruct (V i Hi) as (A1 & _). destruct (V (S - 1 - i) ltac:(lia)) as (B1 & _). rewrite A1, B1 by assumption.
    apply p2c_flip; [|exact Hj]. intros k Hk. apply P; assumption.
  - intros i Hi. destruct (V i Hi) as (_ & _ & A1). destruct (V (S - 1 - i) ltac:(lia)) as (_ & _ & B1).
    rewrite A1, B1 by (destruct p; cbn; lia). pose proof (P 1 i ltac:(destruct p; cbn; lia) Hi) as P1. cbn [flip Nat.eqb] in P1.
    unfold eigen_row. cbn [Nat.eqb]. destruct (nE p - 1 =? 0) eqn:Q; [apply Nat.eqb_eq in Q; destruct p; discriminate Q|]. rewrite Nat.eqb_refl.
    rewrite P1, (C i Hi). apply (l_negsub _ _ _ L).
Qed.

Lemma from_cons_mirror : forall v v', wsv A p S v -> inner_rows (cons v) ->
  (p = Isot -> forall i, i < S -> at1 (n0 A) (c_sound v) i ~ at1 (n0 A) (c_sound v) (S - 1 - i)) ->
  (forall i, 2 <= i <= S - 3 -> nz (at2 (n0 A) (cons v) 0 i)) ->
  update_vars_from_cons p S l l m v = Ok v' -> mirrored v'.
Proof.
  intros v v' Wv Hc Hs Z E. destruct (update_prim_fields A p S v) as (_ & E2 & _).
  refine (from_prim_mirror (update_prim p S v) v' (wsv_update_prim A p S v Wv) _ _ _ E).
  - intros j i Hj Hi. rewrite !update_prim_at by (assumption || lia || apply Wv). apply c2p_flip; [|apply Z; exact Hi|exact Hj].
    intros k Hk. apply Hc; assumption.
  - intros Hp i Hi. rewrite E2. apply Hs; assumption.
  - intros i Hi. rewrite update_prim_at by (try apply Wv; try (destruct p; cbn; lia); lia). rewrite c2p_0. apply Z. exact Hi.
Qed.

(** ** The flux differences *)
Lemma hll_fn_nz : forall v j i, nfin A (hll_fn A p S v j i) = true ->
  nz (nsub A (hi_h A (at2 (n0 A) (eigen_vals v) (nE p - 1) i) (at2 (n0 A) (eigen_vals v) (nE p - 1) (i + 1))) (lo_h A (at2 (n0 A) (eigen_vals v) 0 i) (at2 (n0 A) (eigen_vals v) 0 (i + 1)))) /\
  nfin A (at2 (n0 A) (flux (update_flux p S v)) j i) = true.
Proof.
  intros v j i H. unfold hll_fn, face_flux in H. apply (l_fmul _ _ _ L) in H. destruct H as (H1 & H2). split; [apply (l_fdiv _ _ _ L) in H1; exact H1|].
  apply (l_fadd _ _ _ L) in H2. destruct H2 as (H2 & _). apply (l_fsub _ _ _ L) in H2. destruct H2 as (H2 & _). apply (l_fmul _ _ _ L) in H2. apply H2.
Qed.

Lemma hll_fn_mirror : forall v j i, wsv A p S v -> mirrored v -> j < nE p -> 1 <= i <= S - 3 ->
  nz (nsub A (hi_h A (at2 (n0 A) (eigen_vals v) (nE p - 1) i) (at2 (n0 A) (eigen_vals v) (nE p - 1) (i + 1))) (lo_h A (at2 (n0 A) (eigen_vals v) 0 i) (at2 (n0 A) (eigen_vals v) 0 (i + 1)))) ->
  hll_fn A p S v j i ~ flop j (hll_fn A p S v j (S - 2 - i)).
Proof.
  intros v j i Wv ((Pm & Cm & Sm) & Em) Hj Hi Z. unfold hll_fn. cbn zeta.
  assert (I1 : S - 1 - i = S - 2 - i + 1) by lia. assert (I2 : S - 1 - (i + 1) = S - 2 - i) by lia.
  assert (Em' : forall k, k < S -> at2 (n0 A) (eigen_vals v) (nE p - 1) k ~ nneg A (at2 (n0 A) (eigen_vals v) 0 (S - 1 - k))).
  { intros k Hk. pose proof (Em (S - 1 - k) ltac:(lia)) as Q. replace (S - 1 - (S - 1 - k)) with k in Q by lia. rewrite Q. symmetry. apply (l_negneg _ _ _ L). }
  assert (Fm : forall k, k < S -> at2 (n0 A) (flux (update_flux p S v)) j k ~ flop j (at2 (n0 A) (flux (update_flux p S v)) j (S - 1 - k))).
  { intros k Hk. rewrite !update_flux_at by (try apply Wv; assumption || lia).
    apply pflux_flop; [intros k' Hk'; apply Pm; assumption|intros k' Hk'; apply Cm; assumption|apply Sm; exact Hk|exact Hj]. }
  apply face_mirror; try exact Z.
  - apply lo_mirror; [rewrite <- I1|rewrite <- I2]; apply Em; lia.
  - apply hi_mirror; [rewrite <- I1|rewrite <- I2]; apply Em'; lia.
  - rewrite <- I1. apply Fm. lia.
  - rewrite <- I2. apply Fm. lia.
  - rewrite <- I1. apply Cm; [exact Hj|lia].
  - rewrite <- I2. apply Cm; [exact Hj|lia].
Qed.

Lemma all_fin2_entry : forall (v : mat) E n j i, shape E n v -> j < E -> i < n -> all_fin2 v = true -> nfin A (at2 (n0 A) v j i) = true.
Proof.
  intros v E n j i (H1 & H2) Hj Hi H. unfold all_fin2 in H. rewrite forallb_forall in H. unfold at2, at1.
  assert (I1 : In (nth j v []) v) by (apply nth_In; lia). specialize (H _ I1). unfold all_fin in H. rewrite forallb_forall in H. apply H. apply nth_In.
  rewrite H2; lia.
Qed.

Lemma stage_mirror : forall val c u (k : rkf A) (h : rhs A (Hll A)) h' w, val = true \/ (forall x, nz x) -> wss p S u -> shape (nE p) S c -> inner_rows c ->
  (p = Isot -> forall i, i < S -> at1 (n0 A) (c_sound (cent u)) i ~ at1 (n0 A) (c_sound (cent u)) (S - 1 - i)) ->
  wss p S (rk_utilde k) -> r_bw h = l -> r_be h = l -> rhs_update val p S h (stage_state A c (rk_utilde k) u) m = (h', w, Ok tt) -> inner_rows (r_full h').
Proof.
  intros val c u k h h' w HV U Sc Hc Hs Uk Bw Be E.
  set (t := stage_state A c (rk_utilde k) u) in *.
  assert (T : wss p S t) by (destruct (same_stage A p S c _ _ u U Uk Uk ltac:(repeat split) Sc) as (X1 & X2 & X3); split; [apply X1|split; [apply X2|apply X3]]).
  unfold rhs_update, st_update_from_cons in E. rewrite Bw, Be in E.
  destruct (update_vars_from_cons p S l l m (cent t)) as [v| | |] eqn:V; try discriminate E. cbn [bind] in E.
  destruct (nf_calc (Hll A) val p S (r_nf h) (r_full h) (set_cent v t) m) as [[[n d] x] o] eqn:N.
  apply pair_equal_spec in E. destruct E as (E & ->). apply pair_equal_spec in E. destruct E as (<- & _). cbn [r_full].
  cbn [nf_calc Hll] in N.
  assert (Wv : wsv A p S v) by (eapply wsv_update_from_cons; [exact HS5|exact (proj1 T)|exact V]).
  destruct (update_from_cons_view A p S l l m (cent t) v HS5 (proj1 T) V) as (_ & _ & _ & _ & Vp & _).
  assert (FIN : val = true -> forall j i, j < nE p -> 1 <= i <= S - 3 -> nfin A (hll_fn A p S v j i) = true).
  { intros -> j i Hj Hi. pose proof (hll_num A true p S (r_nf h) (r_full h) (set_cent v t) m Hm j i Hj ltac:(lia) ltac:(lia) ltac:(lia)) as Q.
    rewrite N in Q. cbn [fst cent set_cent] in Q. rewrite <- Q.
    assert (VO : hll_validate n = Ok tt /\ shape (nE p) S (h_flux_num n)).
    { unfold hll_calc in N. apply pair_equal_spec in N. destruct N as (N & NV). apply pair_equal_spec in N. destruct N as (N & _). apply pair_equal_spec in N. destruct N as (<- & _).
      split; [exact NV|cbn [h_flux_num]; apply shape_upd_range2]. }
    destruct VO as (VO & Sh). unfold hll_validate in VO.
    assert (AF : all_fin2 (h_flux_num n) = true).
    { destruct (all_fin (h_sl n)); [|discriminate VO]. destruct (all_fin (h_sr n)); [|discriminate VO]. destruct (all_fin (h_inv n)); [|discriminate VO].
      destruct (all_fin2 (h_flux_num n)); [reflexivity|discriminate VO]. }
    apply (all_fin2_entry _ (nE p) S); auto; lia. }
  assert (Z : forall i, 2 <= i <= S - 3 -> nz (at2 (n0 A) (cons (cent t)) 0 i)).
  { intros i Hi. destruct HV as [HV|HV]; [|apply HV].
    destruct (hll_fn_nz v 1 i (FIN HV 1 i ltac:(destruct p; cbn; lia) ltac:(lia))) as (_ & Fx).
    rewrite update_flux_at in Fx by (try apply Wv; try lia; destruct p; cbn; lia).
    assert (Vf : nfin A (at2 (n0 A) (prim v) 1 i) = true).
    { clear - L Fx. destruct p; cbn in Fx.
      - apply (l_fmul _ _ _ L) in Fx. destruct Fx as (_ & Fx). apply (l_fadd _ _ _ L) in Fx. destruct Fx as (Fx & _). apply (l_fmul _ _ _ L) in Fx. apply Fx.
      - apply (l_fadd _ _ _ L) in Fx. destruct Fx as (Fx & _). apply (l_fmul _ _ _ L) in Fx. apply Fx. }
    rewrite Vp in Vf by (try (split; lia); destruct p; cbn; lia). rewrite c2p_1 in Vf. exact (l_fdiv _ _ _ L _ _ Vf). }
  assert (M : mirrored v).
  { apply (from_cons_mirror (cent t) v (proj1 T)); [exact Hc|exact Hs|exact Z|exact V]. }
  intros j i Hj Hi.
  pose proof (hll_dflux A val p S (r_nf h) (r_full h) (set_cent v t) m Hm j i Hj ltac:(lia)) as Q1. rewrite N in Q1. cbn [fst snd cent set_cent] in Q1.
  pose proof (hll_dflux A val p S (r_nf h) (r_full h) (set_cent v t) m Hm j (S - 1 - i) Hj ltac:(lia)) as Q2. rewrite N in Q2. cbn [fst snd cent set_cent] in Q2.
  rewrite Q1, Q2. clear Q1 Q2.
  replace ((2 <=? i) && (i <=? S - 3))%nat with true by (symmetry; apply andb_true_intro; split; apply Nat.leb_le; lia).
  replace ((2 <=? S - 1 - i) && (S - 1 - i <=? S - 3))%nat with true by (symmetry; apply andb_true_intro; split; apply Nat.leb_le; lia).
  unfold m. rewrite (FlatProofs.dddv_flat A S c0 (S - 1 - i) i) by lia.
  assert (ZZ : forall i, 1 <= i <= S - 3 -> nz (nsub A (hi_h A (at2 (n0 A) (eigen_vals v) (nE p - 1) i) (at2 (n0 A) (eigen_vals v) (nE p - 1) (i + 1))) (lo_h A (at2 (n0 A) (eigen_vals v) 0 i) (at2 (n0 A) (eigen_vals v) 0 (i + 1))))).
  { intros i' Hi'. destruct HV as [HV|HV]; [|apply HV]. apply (hll_fn_nz v j i'). apply FIN; auto. }
  pose proof (hll_fn_mirror v j i Wv M Hj ltac:(lia) (ZZ i ltac:(lia))) as M1.
  pose proof (hll_fn_mirror v j (i - 1) Wv M Hj ltac:(lia) (ZZ (i - 1) ltac:(lia))) as M2.
  replace (S - 2 - i) with (S - 1 - i - 1) in M1 by lia. replace (S - 2 - (i - 1)) with (S - 1 - i) in M2 by lia.
  rewrite M1, M2, <- flip_mul_r. apply (l_mul _ _ _ L); [reflexivity|].
  unfold flip, flop. destruct (j =? 1); [apply (l_subswap _ _ _ L)|]. rewrite (l_subneg _ _ _ L). symmetry. apply (l_subswap _ _ _ L).
Qed.

Lemma inner_nil : inner_rows [].
Proof.
  assert (Z : forall j i, at2 (n0 A) [] j i = n0 A) by (intros j i; unfold at2, at1; destruct j; cbn; destruct i; reflexivity).
  intros j i _ _. rewrite !Z, flip_0. reflexivity.
Qed.

Lemma inner_scaled : forall x k c, inner_rows k -> inner_rows c -> inner_rows (sub_scaled (nE p) S x k c).
Proof.
  intros x k c Hk Hc j i Hj Hi. unfold sub_scaled. rewrite !at2_mtab by (assumption || lia). rewrite <- flip_sub, <- flip_mul_r.
  rewrite (Hk j i Hj Hi), (Hc j i Hj Hi). reflexivity.
Qed.

Lemma inner_fold : forall (f : nat -> F) (k : list mat) qs c, (forall q, inner_rows (nth q k [])) -> inner_rows c ->
  inner_rows (fold_left (fun c q => sub_scaled (nE p) S (f q) (nth q k []) c) qs c).
Proof. intros f k qs. induction qs as [|q qs IH]; intros c Hk Hc; cbn [fold_left]; [exact Hc|]. apply IH; [exact Hk|]. apply inner_scaled; auto. Qed.

(** ** Steps: for every flux scheme whose flux differences are symmetric; [extra]
    is what the scheme needs of the faces of the state and of the solver's
    buffer. *)
Definition even_sound (v : vars A) : Prop := p = Isot -> forall i, i < S -> at1 (n0 A) (c_sound v) i ~ at1 (n0 A) (c_sound v) (S - 1 - i).

Section Chain.
Variable N : numflux_impl A.
Variable good : nf_T N -> Prop.
Hypothesis Hmem : memoryless N p S m good.
Variable val : bool.
Hypothesis HV : val = true \/ (forall x, nz x).
Variable extra : state A -> state A -> Prop.
Hypothesis Hextra : forall u t t', same_gamma t t' -> extra u t -> extra u t'.
Hypothesis Hstage : forall c u (k : rkf A) (h : rhs A N) h' w, wss p S u -> shape (nE p) S c -> inner_rows c -> even_sound (cent u) ->
  extra u (rk_utilde k) -> same_setup p S good k h k h -> r_bw h = l -> r_be h = l ->
  rhs_update val p S h (stage_state A c (rk_utilde k) u) m = (h', w, Ok tt) -> inner_rows (r_full h').

Lemma stages_mirror : forall dt u, wss p S u -> inner_rows (cons (cent u)) ->
  even_sound (cent u) ->
  forall qs (k : rkf A) (h : rhs A N) k' h', extra u (rk_utilde k) -> same_setup p S good k h k h -> r_bw h = l -> r_be h = l -> (forall q, inner_rows (nth q (rk_k k) [])) ->
  rkf_stages val p S m dt u qs k h = (k', h', Ok tt) -> forall q, inner_rows (nth q (rk_k k') []).
Proof.
  intros dt u U Hc Hs. induction qs as [|q qs IH]; intros k h k' h' X SS Bw Be HK E; cbn [rkf_stages] in E.
  - injection E as <- <-. exact HK.
  - cbn [cent state_assign] in E. cbn [cons vars_assign set_c_sound set_cons set_prim] in E.
    set (f := fun pp => nmul A dt (at2 (n0 A) (bt_a (rk_bt k)) pp q)) in *.
    change (fold_left _ (seq 0 q) (cons (cent u))) with (fold_left (fun c q => sub_scaled (nE p) S (f q) (nth q (rk_k k) []) c) (seq 0 q) (cons (cent u))) in E.
    pose proof (ReachProofs.shape_fold A p S f (rk_k k) (seq 0 q) (cons (cent u)) ltac:(apply U)) as C1.
    pose proof (inner_fold f (rk_k k) (seq 0 q) (cons (cent u)) HK Hc) as CC.
    set (c1 := fold_left _ (seq 0 q) (cons (cent u))) in *.
    change (set_cent (set_cons c1 (vars_assign (cent (rk_utilde k)) (cent u))) (state_assign (rk_utilde k) u)) with (stage_state A c1 (rk_utilde k) u) in E.
    destruct (rhs_update val p S h (stage_state A c1 (rk_utilde k) u) m) as [[g1 w1] p1] eqn:R1.
    destruct p1 as [[]|e1| |]; try discriminate E.
    pose proof (stage_keeps A N p S m good HS5 Hmem val c1 u k h g1 w1 _ U C1 SS R1) as K1.
    pose proof (Hstage c1 u k h g1 w1 U C1 CC Hs X SS Bw Be R1) as FA.
    assert (K2 : same_setup p S good (rk_set_utilde w1 k) g1 (rk_set_utilde w1 k) g1) by (eapply same_setup_trans; [apply same_setup_sym; exact K1|exact K1]).
    refine (IH _ _ _ _ _ _ _ _ _ E).
    + cbn [rk_utilde rk_set_k]. exact (Hextra _ _ _ (ss_gamma _ _ _ _ _ _ _ _ _ K1) X).
    + destruct K2 as [a1 a2 a3 a4 a5 a6 a7 a8 a9 a10 a11]. split; cbn [rk_bt rk_utilde rk_set_k]; auto.
    + rewrite <- (ss_bw _ _ _ _ _ _ _ _ _ K1). exact Bw.
    + rewrite <- (ss_be _ _ _ _ _ _ _ _ _ K1). exact Be.
    + cbn [rk_k rk_set_k rk_set_utilde]. intros q'. destruct (Nat.eq_dec q' q) as [->|Ne].
      * destruct (Nat.lt_ge_cases q (length (rk_k k))) as [Lq|Lq].
        -- rewrite nth_upd_eq by exact Lq. exact FA.
        -- rewrite nth_overflow by (rewrite length_upd; exact Lq). apply inner_nil.
      * rewrite nth_upd_ne by auto. apply HK.
Qed.

Lemma zeros_inner : forall n q, inner_rows (nth q (repeat (zeros2 (A:=A) (nE p) S) n) []).
Proof.
  intros n q. destruct (Nat.lt_ge_cases q n) as [Lq|Lq].
  - rewrite nth_repeat_lt by exact Lq. intros j i Hj Hi. rewrite !zero_at by (assumption || lia). rewrite flip_0. reflexivity.
  - rewrite nth_overflow by (rewrite repeat_length; exact Lq). apply inner_nil.
Qed.

Lemma calc_mirror : forall dt u (k : rkf A) (h : rhs A N) k' h' x, wss p S u -> inner_rows (cons (cent u)) ->
  even_sound (cent u) -> extra u (rk_utilde k) ->
  same_setup p S good k h k h -> r_bw h = l -> r_be h = l ->
  calc_rkf_solution val p S dt u k h m = (k', h', Ok x) -> inner_rows (cons (cent (rk_utilde k'))).
Proof.
  intros dt u k h k' h' x U Hc Hs X SS Bw Be E.
  pose proof (calc_static A N _ _ _ _ _ _ _ _ _ _ _ E) as (_ & _ & _ & H1). rewrite (H1 x eq_refl). clear H1.
  assert (HK : forall q, inner_rows (nth q (rk_k k') [])).
  { unfold calc_rkf_solution in E. pose proof (zeros_inner (bt_order (rk_bt k))) as Z0.
    set (z := repeat (zeros2 (A:=A) (nE p) S) (bt_order (rk_bt k))) in *.
    destruct (rkf_stages val p S m dt u (seq 0 (bt_order (rk_bt k))) (rk_set_k z k) h) as [[l1 g1] p1] eqn:R1.
    destruct p1 as [[]|e1| |]; try discriminate E.
    assert (K1 : rk_k k' = rk_k l1).
    { cbn [rk_accepted rk_set_utilde] in E. destruct (rk_accepted l1);
      match type of E with context [if val then ?x else _] => destruct (if val then x else Ok tt) as [[]|e1| |] end; try discriminate E; injection E as <- <- <-; reflexivity. }
    rewrite K1. refine (stages_mirror dt u U Hc Hs _ _ _ _ _ (X : extra u (rk_utilde (rk_set_k z k))) (same_setup_k A N p S good _ _ _ _ z z SS) Bw Be _ R1). exact Z0. }
  unfold rkf_combine. apply (inner_fold (fun q => nmul A dt (at1 (n0 A) (bt_high (rk_bt k)) q))); assumption.
Qed.

Lemma next_mirror : forall fuel (s s' : sim A N), solver_ok p S good s -> r_bw (s_rhs s) = l -> r_be (s_rhs s) = l ->
  inner_rows (cons (cent (s_u s))) ->
  even_sound (cent (s_u s)) -> extra (s_u s) (rk_utilde (s_rk s)) ->
  rkf_next val fuel p S m s = (s', Ok tt) -> mirror_symmetric eqv p S (cent (s_u s')).
Proof.
  intros fuel s s' (U & _ & SS) Bw Be Hc Hs X E.
  destruct (ReachProofs.next_calc A N p S m good HS Hmem val fuel s s' U SS E) as (rk & rh & rk' & rh' & x & v & K & _ & C & Wc & V & -> & VV).
  assert (SS' : same_setup p S good rk rh rk rh) by (eapply same_setup_trans; [apply same_setup_sym; exact K|exact K]).
  assert (Bw' : r_bw rh = l) by (rewrite <- (ss_bw _ _ _ _ _ _ _ _ _ K); exact Bw).
  assert (Be' : r_be rh = l) by (rewrite <- (ss_be _ _ _ _ _ _ _ _ _ K); exact Be).
  pose proof (calc_mirror _ _ _ _ _ _ _ U Hc Hs (Hextra _ _ _ (ss_gamma _ _ _ _ _ _ _ _ _ K) X) SS' Bw' Be' C) as M. rewrite Bw, Be in V.
  destruct (update_from_cons_view A p S l l m _ v HS5 Wc V) as (Wv & _ & _ & _ & Vp & _).
  refine (proj1 (from_cons_mirror _ v Wc M Hs _ V)).
  intros i Hi. destruct HV as [HVt|HV']; [|apply HV']. rewrite HVt in VV.
  pose proof (proj1 (validate_finite A p S v Wv (VV eq_refl) 1 i ltac:(destruct p; cbn; lia) ltac:(lia))) as Fi.
  rewrite Vp in Fi by (try (split; lia); destruct p; cbn; lia). rewrite c2p_1 in Fi. exact (l_fdiv _ _ _ L _ _ Fi).
Qed.
End Chain.

Lemma hll_next_mirror : forall val fuel (s s' : sim A (Hll A)), val = true \/ (forall x, nz x) -> solver_ok p S (fun _ => True) s -> r_bw (s_rhs s) = l -> r_be (s_rhs s) = l ->
  inner_rows (cons (cent (s_u s))) -> even_sound (cent (s_u s)) -> rkf_next val fuel p S m s = (s', Ok tt) -> mirror_symmetric eqv p S (cent (s_u s')).
Proof.
  intros val fuel s s' HV Ok0 Bw Be Hc Hs E.
  refine (next_mirror (Hll A) (fun _ => True) (hll_memoryless A p S m HS5 Hm) val HV (fun _ _ => True) (fun _ _ _ _ H => H) _ fuel s s' Ok0 Bw Be Hc Hs Logic.I E).
  intros c u k h h' w U Sc Cc Hs' _ SS Bw' Be' R. exact (stage_mirror val c u k h h' w HV U Sc Cc Hs' (ss_shape1 _ _ _ _ _ _ _ _ _ SS) Bw' Be' R).
Qed.
End Rows.
End Mirror.
