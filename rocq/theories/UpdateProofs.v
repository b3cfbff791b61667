(** The state after [update_vars_from_prim] / [update_vars_from_cons]. *)

From Coq Require Import Reals ZArith QArith Qreals List Bool Lra Lia.
From Verif Require Import Base Num XReal Config Mesh State NumFlux Spec SpecFlow ConfigProofs MeshProofs BoundaryProofs PhysicsProofs FluxProofs.
Import ListNotations.
Local Open Scope nat_scope.

(** the computational cell whose value a [NoGradients] boundary copies *)
Definition clamp (S i : nat) : nat := if i <? 2 then 2 else if S - 3 <? i then S - 3 else i.
Definition interior (S i : nat) : Prop := 2 <= i /\ i <= S - 3.

Lemma clamp_interior : forall S i, 5 <= S -> interior S (clamp S i).
Proof.
  intros S i H. unfold clamp, interior.
  destruct (Nat.ltb_spec i 2); [lia|]. destruct (Nat.ltb_spec (S - 3) i); lia.
Qed.
Lemma clamp_id : forall S i, interior S i -> clamp S i = i.
Proof.
  intros S i [H1 H2]. unfold clamp.
  destruct (Nat.ltb_spec i 2); [lia|]. destruct (Nat.ltb_spec (S - 3) i); [lia|reflexivity].
Qed.
Lemma interior_lt : forall S i, 5 <= S -> interior S i -> i < S.
Proof. intros S i H [H1 H2]. lia. Qed.

Section Upd.
Variable A : Num.

(** Sound speed of a cell after an update, [c0] before it. *)
Definition cs_of (p : phys) (g c0 : nF A) (q : nat -> nF A) : nF A := kt_sound A p c0 q g.

Lemma derived_cons_view : forall p S (v : vars A), wsv A p S v ->
  let v' := update_derived_variables p S (update_cons p S v) in
  wsv A p S v' /\ gamma v' = gamma v /\ flux v' = flux v /\ prim v' = prim v /\
  (p = Isot -> c_sound v' = c_sound v) /\
  forall i, i < S ->
    (forall j, j < nE p -> at2 (n0 A) (cons v') j i = p2c A p (gamma v) (fun k => at2 (n0 A) (prim v) k i) j) /\
    at1 (n0 A) (c_sound v') i = cs_of p (gamma v) (at1 (n0 A) (c_sound v) i) (fun k => at2 (n0 A) (prim v) k i) /\
    (forall j, j < nE p -> at2 (n0 A) (eigen_vals v') j i =
         eigen_row A p (at2 (n0 A) (prim v) 1 i) (at1 (n0 A) (c_sound v') i) j).
Proof.
  intros p S v Hw v'.
  pose proof (wsv_update_cons A p S v Hw) as Hw1.
  destruct Hw as (H1 & H2 & H3 & H4 & H5).
  destruct (update_cons_fields A p S v) as (E1 & E2 & E3 & E4 & E5 & _).
  destruct (derived_fields A p S (update_cons p S v)) as (D1 & D2 & D3 & D4 & D5 & _).
  fold v' in D1, D2, D3, D4, D5.
  split; [apply wsv_derived; exact Hw1|].
  split; [rewrite D5; exact E5|]. split; [rewrite D4; exact E4|]. split; [rewrite D1; exact E1|].
  split; [intros ->; rewrite D3; cbn [c_new]; exact E2|].
  intros i Hi. split; [|split].
  - intros j Hj. rewrite D2. apply update_cons_at; assumption.
  - rewrite D3. unfold cs_of. destruct p; cbn [c_new kt_sound].
    + rewrite E2. reflexivity.
    + rewrite at1_tab by assumption. rewrite E1, E5. reflexivity.
  - intros j Hj. unfold v'. rewrite derived_eigen_at by (rewrite ?E1, ?E3; assumption).
    fold v'. rewrite D3, E1. reflexivity.
Qed.

Lemma update_from_prim_view : forall p S bw be (m : mesh A) v v', 5 <= S -> wsv A p S v ->
  update_vars_from_prim p S bw be m v = Ok v' ->
  wsv A p S v' /\ gamma v' = gamma v /\ flux v' = flux v /\
  (p = Isot -> c_sound v' = c_sound v) /\
  (forall j i, interior S i -> at2 (n0 A) (prim v') j i = at2 (n0 A) (prim v) j i) /\
  forall i, i < S ->
    (forall j, j < nE p -> at2 (n0 A) (cons v') j i = p2c A p (gamma v) (fun k => at2 (n0 A) (prim v') k i) j) /\
    at1 (n0 A) (c_sound v') i = cs_of p (gamma v) (at1 (n0 A) (c_sound v) i) (fun k => at2 (n0 A) (prim v') k i) /\
    (forall j, j < nE p -> at2 (n0 A) (eigen_vals v') j i =
         eigen_row A p (at2 (n0 A) (prim v') 1 i) (at1 (n0 A) (c_sound v') i) j).
Proof.
  intros p S bw be m v v' HS Hw H. unfold update_vars_from_prim in H.
  destruct (bc_apply West p S m bw v) as [v1| | |] eqn:B1; try discriminate. cbn [bind] in H.
  destruct (bc_apply East p S m be v1) as [v2| | |] eqn:B2; try discriminate.
  cbn [bind] in H. injection H as <-.
  destruct (bc_frame A West p S m bw v v1 ltac:(lia) B1) as (F1 & F2 & F3 & F4 & F5 & _ & F7 & F8).
  destruct (bc_frame A East p S m be v1 v2 ltac:(lia) B2) as (G1 & G2 & G3 & G4 & G5 & _ & G7 & G8).
  assert (Hw2 : wsv A p S v2).
  { destruct Hw as (H1 & H2 & H3 & H4 & H5). unfold wsv.
    rewrite G1, G2, G3, G4, F1, F2, F3, F4. auto 8. }
  destruct (derived_cons_view p S v2 Hw2) as (V1 & V2 & V3 & V4 & V5 & V6).
  set (v' := update_derived_variables p S (update_cons p S v2)) in *.
  split; [exact V1|]. split; [rewrite V2, G5, F5; reflexivity|]. split; [rewrite V3, G4, F4; reflexivity|].
  split; [intros Hp; rewrite (V5 Hp), G2, F2; reflexivity|].
  split.
  - intros j i [Hi1 Hi2]. rewrite V4, G8, F8; [reflexivity| |]; right; cbn [ghost_cell]; lia.
  - intros i Hi. destruct (V6 i Hi) as (W1 & W2 & W3). rewrite V4, <- F5, <- G5, <- F2, <- G2. auto.
Qed.

Lemma update_from_cons_view : forall p S bw be (m : mesh A) v v', 5 <= S -> wsv A p S v ->
  update_vars_from_cons p S bw be m v = Ok v' ->
  wsv A p S v' /\ gamma v' = gamma v /\ flux v' = flux v /\
  (p = Isot -> c_sound v' = c_sound v) /\
  (forall j i, j < nE p -> interior S i ->
     at2 (n0 A) (prim v') j i = c2p A p (gamma v) (fun k => at2 (n0 A) (cons v) k i) j) /\
  forall i, i < S ->
    (forall j, j < nE p -> at2 (n0 A) (cons v') j i = p2c A p (gamma v) (fun k => at2 (n0 A) (prim v') k i) j) /\
    at1 (n0 A) (c_sound v') i = cs_of p (gamma v) (at1 (n0 A) (c_sound v) i) (fun k => at2 (n0 A) (prim v') k i) /\
    (forall j, j < nE p -> at2 (n0 A) (eigen_vals v') j i =
         eigen_row A p (at2 (n0 A) (prim v') 1 i) (at1 (n0 A) (c_sound v') i) j).
Proof.
  intros p S bw be m v v' HS Hw H. unfold update_vars_from_cons in H.
  destruct (update_prim_fields A p S v) as (E1 & E2 & E3 & E4 & E5 & _).
  destruct (update_from_prim_view p S bw be m _ v' HS (wsv_update_prim A p S v Hw) H) as (V1 & V2 & V3 & V4 & V5 & V6).
  rewrite E5 in V2. rewrite E4 in V3. rewrite E2 in V4.
  split; [exact V1|]. split; [exact V2|]. split; [exact V3|]. split; [exact V4|].
  split.
  - intros j i Hj Hi. rewrite V5 by assumption. apply update_prim_at; [apply Hw|assumption|].
    apply interior_lt; assumption.
  - intros i Hi. destruct (V6 i Hi) as (W1 & W2 & W3). rewrite E5 in W1, W2. rewrite E2 in W2. auto.
Qed.

(** With [NoGradients] on both sides the update cannot fail and every cell
    equals its clamped one. *)
Notation ng p := (init_bc BNoGradients (nE p)).

Lemma ng_ghost : forall s p S (m : mesh A) v v', 5 <= S -> wsv A p S v -> bc_apply s p S m (ng p) v = Ok v' ->
  forall j k, j < nE p -> k = 1 \/ k = 2 ->
  at2 (n0 A) (prim v') j (ghost_cell s S k) = at2 (n0 A) (prim v) j (inner_cell s S 0).
Proof.
  intros s p S m v v' HS Hw H j k Hj Hk.
  destruct (bc_apply_Ok A s p S m _ v v' H) as (q & Hq & ->). cbn [prim set_prim].
  assert (Hin : In j (map fst (ng p))).
  { apply in_map_iff. exists (j, NoGradients). split; [reflexivity|]. apply init_bc_no_gradients. auto. }
  destruct (last_entry (ng p) j) as [Hn|(l1 & md & l2 & El & Hn)]; [contradiction|].
  assert (Hmd : md = NoGradients).
  { assert (In (j, md) (ng p)) as HH by (rewrite El; apply in_or_app; right; left; reflexivity).
    apply init_bc_no_gradients in HH. apply HH. }
  subst md. rewrite (apply_modes_ghost A s (nE p) S m _ _ q j k l1 NoGradients l2 ltac:(lia) (proj1 Hw) Hq El Hn Hk).
  unfold Gval. destruct Hk as [-> | ->]; reflexivity.
Qed.

Lemma ng_ok : forall s p S (m : mesh A) v, exists v', bc_apply s p S m (ng p) v = Ok v'.
Proof.
  intros. apply (proj2 (bc_panic_iff A s p S m (ng p) v)). intros j md Hj.
  apply init_bc_no_gradients in Hj. apply Hj.
Qed.

Lemma ng_prim : forall p S (m : mesh A) v, 5 <= S -> wsv A p S v ->
  exists v', update_vars_from_prim p S (ng p) (ng p) m v = Ok v' /\
  forall j i, j < nE p -> i < S -> at2 (n0 A) (prim v') j i = at2 (n0 A) (prim v) j (clamp S i).
Proof.
  intros p S m v HS Hw. unfold update_vars_from_prim.
  destruct (ng_ok West p S m v) as [v1 B1]. rewrite B1. cbn [bind].
  destruct (ng_ok East p S m v1) as [v2 B2]. rewrite B2. cbn [bind].
  eexists. split; [reflexivity|]. intros j i Hj Hi.
  destruct (bc_frame A West p S m _ v v1 ltac:(lia) B1) as (F1 & F2 & F3 & F4 & F5 & _ & F7 & F8).
  destruct (bc_frame A East p S m _ v1 v2 ltac:(lia) B2) as (G1 & G2 & G3 & G4 & G5 & _ & G7 & G8).
  assert (Hw1 : wsv A p S v1).
  { destruct Hw as (H1 & H2 & H3 & H4 & H5). unfold wsv. rewrite F1, F2, F3, F4. auto 8. }
  destruct (derived_fields A p S (update_cons p S v2)) as (D1 & _). rewrite D1.
  destruct (update_cons_fields A p S v2) as (E1 & _). rewrite E1.
  unfold clamp. destruct (Nat.ltb_spec i 2).
  - rewrite G8 by (right; cbn [ghost_cell]; lia).
    assert (Hk : exists k, (k = 1 \/ k = 2) /\ i = ghost_cell West S k).
    { exists (2 - i). cbn [ghost_cell]. lia. }
    destruct Hk as (k & Hk & ->). exact (ng_ghost West p S m v v1 HS Hw B1 j k Hj Hk).
  - destruct (Nat.ltb_spec (S - 3) i).
    + assert (Hk : exists k, (k = 1 \/ k = 2) /\ i = ghost_cell East S k).
      { exists (i - (S - 3)). cbn [ghost_cell]. lia. }
      destruct Hk as (k & Hk & ->). rewrite (ng_ghost East p S m v1 v2 HS Hw1 B2 j k Hj Hk).
      cbn [inner_cell]. replace (S - 3 - 0) with (S - 3) by lia. rewrite F8 by (right; cbn [ghost_cell]; lia). reflexivity.
    + rewrite G8, F8 by (right; cbn [ghost_cell]; lia). reflexivity.
Qed.

Lemma ng_cons : forall p S (m : mesh A) v, 5 <= S -> wsv A p S v ->
  exists v', update_vars_from_cons p S (ng p) (ng p) m v = Ok v' /\
  forall j i, j < nE p -> i < S ->
    at2 (n0 A) (prim v') j i = c2p A p (gamma v) (fun k => at2 (n0 A) (cons v) k (clamp S i)) j.
Proof.
  intros p S m v HS Hw.
  destruct (ng_prim p S m _ HS (wsv_update_prim A p S v Hw)) as (v' & H & Hv).
  exists v'. split; [exact H|]. intros j i Hj Hi. rewrite Hv by assumption.
  apply update_prim_at; [apply Hw|assumption|]. apply interior_lt; [assumption|apply clamp_interior; assumption].
Qed.
End Upd.
