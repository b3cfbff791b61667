(** Domain of dependence of steps, for every arithmetic. *)

From Coq Require Import ZArith NArith List Bool Lia.
From Verif Require Import Base Num Config Mesh State NumFlux Time Spec SpecFlow SpecStep SpecReach BoundaryProofs PhysicsProofs FluxProofs
  UpdateProofs FluxThms FluxMore StepProofs StepInv StepEq EulerStep.
Import ListNotations.
Local Open Scope nat_scope.

Section Reach.
Variable A : Num.
Notation mat := (list (list (nF A))).

Lemma near_mono : forall i r r' k, near i r k -> r <= r' -> near i r' k.
Proof. unfold near. intros. lia. Qed.
Lemma near_trans : forall i r k W l, near i r k -> near k W l -> near i (r + W) l.
Proof. unfold near. intros. lia. Qed.

(** The cells of a row next to the border are near when a ghost cell is. *)
Lemma modes_local : forall s E S m l (q1 q2 q1' q2' : mat) i r, 6 <= S -> 2 <= i <= S - 3 -> shape E S q1 -> shape E S q2 ->
  apply_modes s E S m l q1 = Ok q1' -> apply_modes s E S m l q2 = Ok q2' ->
  (forall j k, j < E -> k < S -> near i r k -> at2 (n0 A) q1 j k = at2 (n0 A) q2 j k) ->
  forall j k, j < E -> k < S -> near i r k -> at2 (n0 A) q1' j k = at2 (n0 A) q2' j k.
Proof.
  intros s E S m l q1 q2 q1' q2' i r HS Hi S1 S2 H1 H2 Q j k Hj Hk Hn.
  assert (HS4 : 4 <= S) by lia. assert (HS5' : 5 <= S) by lia.
  destruct (last_entry l j) as [Hl|(l1 & md & l2 & Hl & Hl2)].
  { rewrite (apply_modes_other _ _ _ _ _ _ _ _ j k HS4 H1) by auto. rewrite (apply_modes_other _ _ _ _ _ _ _ _ j k HS4 H2) by auto. auto. }
  assert (G : forall g, g = 1 \/ g = 2 -> k = ghost_cell s S g -> at2 (n0 A) q1' j k = at2 (n0 A) q2' j k).
  { intros g Hg ->. rewrite (apply_modes_ghost _ _ _ _ _ _ _ _ j g l1 md l2 HS5' S1 H1 Hl Hl2 Hg).
    rewrite (apply_modes_ghost _ _ _ _ _ _ _ _ j g l1 md l2 HS5' S2 H2 Hl Hl2 Hg). apply Gval_ext; [exact Hg|].
    intros d Hd. unfold near in Hn. destruct s; cbn [inner_cell ghost_cell] in *; (apply Q; [exact Hj| |unfold near]; destruct Hd, Hg; subst; lia). }
  destruct (Nat.eq_dec k (ghost_cell s S 1)) as [E1|N1]; [apply (G 1); auto|]. destruct (Nat.eq_dec k (ghost_cell s S 2)) as [E2|N2]; [apply (G 2); auto|].
  rewrite (apply_modes_other _ _ _ _ _ _ _ _ j k HS4 H1) by auto. rewrite (apply_modes_other _ _ _ _ _ _ _ _ j k HS4 H2) by auto. auto.
Qed.

Lemma update_local : forall p S bw be m (v w v' w' : vars A) i r, 6 <= S -> 2 <= i <= S - 3 -> wsv A p S v -> wsv A p S w -> gamma v = gamma w ->
  (forall j k, j < nE p -> k < S -> near i r k -> at2 (n0 A) (cons v) j k = at2 (n0 A) (cons w) j k) ->
  (p = Isot -> forall k, k < S -> near i r k -> at1 (n0 A) (c_sound v) k = at1 (n0 A) (c_sound w) k) ->
  update_vars_from_cons p S bw be m v = Ok v' -> update_vars_from_cons p S bw be m w = Ok w' ->
  forall k, k < S -> near i r k -> same_cell A p v' w' k.
Proof.
  intros p S bw be m v w v' w' i r HS Hi Wv Ww G Hc Hs Ev Ew.
  destruct (update_from_cons_view A p S bw be m v v' ltac:(lia) Wv Ev) as (V1 & _ & _ & V4 & _ & V6).
  destruct (update_from_cons_view A p S bw be m w w' ltac:(lia) Ww Ew) as (W1 & _ & _ & W4 & _ & W6).
  assert (P : forall j k, j < nE p -> k < S -> near i r k -> at2 (n0 A) (prim v') j k = at2 (n0 A) (prim w') j k).
  { clear V6 W6 V4 W4. unfold update_vars_from_cons, update_vars_from_prim in Ev, Ew.
    apply bind_Ok in Ev. destruct Ev as (x & Hx & Ev). apply bind_Ok in Ev. destruct Ev as (y & Hy & Ev). injection Ev as <-.
    apply bind_Ok in Ew. destruct Ew as (x' & Hx' & Ew). apply bind_Ok in Ew. destruct Ew as (y' & Hy' & Ew). injection Ew as <-.
    apply bc_apply_Ok in Hx, Hy, Hx', Hy'. destruct Hx as (q & Hq & ->). destruct Hy as (t & Ht & ->). destruct Hx' as (q' & Hq' & ->). destruct Hy' as (t' & Ht' & ->).
    cbn [prim set_prim] in Ht, Ht'.
    assert (X : forall x : vars A, prim (update_derived_variables p S (update_cons p S x)) = prim x).
    { intros x. destruct (derived_fields A p S (update_cons p S x)) as (D & _). rewrite D. destruct (update_cons_fields A p S x) as (D' & _). exact D'. }
    intros j k Hj Hk Hn. rewrite !X. cbn [prim set_prim].
    assert (Sv : shape (nE p) S (prim (update_prim p S v))) by apply (wsv_update_prim A p S v Wv).
    assert (Sw : shape (nE p) S (prim (update_prim p S w))) by apply (wsv_update_prim A p S w Ww).
    refine (modes_local East (nE p) S m be _ _ _ _ i r HS Hi (apply_modes_shape A _ _ _ _ _ _ _ Sv Hq) (apply_modes_shape A _ _ _ _ _ _ _ Sw Hq') Ht Ht' _ j k Hj Hk Hn).
    refine (modes_local West (nE p) S m bw _ _ _ _ i r HS Hi Sv Sw Hq Hq' _).
    intros l k' Hl Hk' Hn'. rewrite !update_prim_at by (assumption || apply Wv || apply Ww). rewrite G. apply c2p_ext. intros l' Hl'. apply Hc; assumption. }
  intros k Hk Hn. destruct (V6 k Hk) as (A1 & A2 & A3). destruct (W6 k Hk) as (B1 & B2 & B3).
  assert (Cs : at1 (n0 A) (c_sound v') k = at1 (n0 A) (c_sound w') k).
  { rewrite A2, B2, G. unfold cs_of. destruct p; [cbn [kt_sound]; apply Hs; auto|]. cbn [kt_sound]. rewrite !P by (assumption || (cbn; lia)). reflexivity. }
  split; [|exact Cs]. intros j Hj. split; [apply P; assumption|]. split.
  - rewrite A1, B1, G by assumption. apply p2c_ext. intros l Hl. apply P; assumption.
  - rewrite A3, B3, Cs, (P 1 k) by (assumption || (destruct p; cbn; lia)). reflexivity.
Qed.

(** ** The two schemes *)
Lemma hll_local : forall p S (m : mesh A), 6 <= S -> std_ix A S m -> local_scheme (Hll A) p S m (fun _ => True) 1.
Proof.
  intros p S m HS Hm val1 val2 n1 n2 d1 d2 u1 u2 n1' d1' u1' o1 n2' d2' u2' o2 i j _ _ C1 C2 _ _ _ _ _ _ E1 E2 Hi Hj H.
  cbn [nf_calc Hll] in E1, E2.
  pose proof (hll_dflux A val1 p S n1 d1 u1 m Hm j i Hj ltac:(lia)) as Q1. rewrite E1 in Q1. cbn [fst snd] in Q1.
  pose proof (hll_dflux A val2 p S n2 d2 u2 m Hm j i Hj ltac:(lia)) as Q2. rewrite E2 in Q2. cbn [fst snd] in Q2.
  rewrite Q1, Q2. replace ((2 <=? i) && (i <=? S - 3))%nat with true by (symmetry; apply andb_true_intro; split; apply Nat.leb_le; lia).
  f_equal. f_equal; apply hll_fn_local; try apply C1; try apply C2; try assumption; try lia; apply H; unfold near; lia.
Qed.

Lemma kt_local : forall p S (m : mesh A) k0, 6 <= S -> std_ix A S m -> local_scheme (Kt A) p S m (fun k => kt_like A k k0) 2.
Proof.
  intros p S m k0 HS Hm val1 val2 n1 n2 d1 d2 u1 u2 n1' d1' u1' o1 n2' d2' u2' o2 i j G1 G2 C1 C2 W1 W2 T1 T2 Gw Ge E1 E2 Hi Hj H.
  cbn [nf_calc Kt nf_T] in *.
  pose proof (kt_dflux A val1 p S n1 d1 u1 m Hm W1 T1 j i Hj ltac:(lia)) as Q1. rewrite E1 in Q1. cbn [fst snd] in Q1.
  pose proof (kt_dflux A val2 p S n2 d2 u2 m Hm W2 T2 j i Hj ltac:(lia)) as Q2. rewrite E2 in Q2. cbn [fst snd] in Q2.
  rewrite Q1, Q2. replace ((2 <=? i) && (i <=? S - 3))%nat with true by (symmetry; apply andb_true_intro; split; apply Nat.leb_le; lia).
  destruct G1 as (a1 & a2 & a3 & a4 & a5). destruct G2 as (b1 & b2 & b3 & b4 & b5).
  f_equal. f_equal; (apply kt_fn_local; auto; try lia; try congruence;
    [intros Hp; split; apply H; try exact Hp; unfold near; lia|intros l k Hl Hk; apply H; [unfold near; lia|lia|exact Hl]]).
Qed.

Section Scheme.
Variable N : numflux_impl A.
Variables (p : phys) (S : nat) (m : mesh A) (good : nf_T N -> Prop) (W : nat).
Hypothesis HS : 6 <= S.
Hypothesis Hmem : memoryless N p S m good.
Hypothesis Hloc : local_scheme N p S m good W.
Variable i : nat.
Hypothesis Hi : 2 <= i <= S - 3.

Let HS5 : 5 <= S. Proof. lia. Qed.

Definition magree (r : nat) (c1 c2 : mat) : Prop := forall j k, j < nE p -> k < S -> near i r k -> at2 (n0 A) c1 j k = at2 (n0 A) c2 j k.

Lemma magree_mono : forall r r' c1 c2, magree r' c1 c2 -> r <= r' -> magree r c1 c2.
Proof. intros r r' c1 c2 H L j k Hj Hk Hn. apply H; auto. eapply near_mono; eauto. Qed.

Lemma magree_scaled : forall r x k1 k2 c1 c2, magree r k1 k2 -> magree r c1 c2 -> magree r (sub_scaled (nE p) S x k1 c1) (sub_scaled (nE p) S x k2 c2).
Proof.
  intros r x k1 k2 c1 c2 Hk Hc j k Hj Hl Hn. unfold sub_scaled. rewrite !at2_mtab by assumption.
  rewrite (Hk j k), (Hc j k) by assumption. reflexivity.
Qed.

Lemma magree_fold : forall r (f : nat -> nF A) (k1 k2 : list mat) l c1 c2, (forall q, magree r (nth q k1 []) (nth q k2 [])) -> magree r c1 c2 ->
  magree r (fold_left (fun c q => sub_scaled (nE p) S (f q) (nth q k1 []) c) l c1) (fold_left (fun c q => sub_scaled (nE p) S (f q) (nth q k2 []) c) l c2).
Proof.
  intros r f k1 k2 l. induction l as [|q l IH]; intros c1 c2 Hk Hc; cbn [fold_left]; [exact Hc|]. apply IH; [exact Hk|]. apply magree_scaled; auto.
Qed.

Lemma shape_fold : forall (f : nat -> nF A) (k : list mat) l c, shape (nE p) S c -> shape (nE p) S (fold_left (fun c q => sub_scaled (nE p) S (f q) (nth q k []) c) l c).
Proof. intros f k l. induction l as [|q l IH]; intros c H; cbn [fold_left]; [exact H|]. apply IH. apply shape_mtab. Qed.

(** One evaluation of the right-hand side. *)
Lemma stage_local : forall val1 val2 r c1 c2 u1 u2 (k1 k2 : rkf A) (h1 h2 : rhs A N) h1' w1 h2' w2,
  wss p S u1 -> wss p S u2 -> shape (nE p) S c1 -> shape (nE p) S c2 -> same_near p S i (r + W) u1 u2 ->
  magree (r + W) c1 c2 -> same_setup p S good k1 h1 k2 h2 ->
  rhs_update val1 p S h1 (stage_state A c1 (rk_utilde k1) u1) m = (h1', w1, Ok tt) ->
  rhs_update val2 p S h2 (stage_state A c2 (rk_utilde k2) u2) m = (h2', w2, Ok tt) ->
  same_setup p S good (rk_set_utilde w1 k1) h1' (rk_set_utilde w2 k2) h2' /\ magree r (r_full h1') (r_full h2').
Proof.
  intros val1 val2 r c1 c2 u1 u2 k1 k2 h1 h2 h1' w1 h2' w2 U1 U2 C1 C2 SN Hc SS E1 E2.
  assert (SSs : same_setup p S good k2 h2 k1 h1) by (apply same_setup_sym; exact SS).
  pose proof (stage_keeps A N p S m good HS5 Hmem val1 c1 u1 k1 h1 h1' w1 _ U1 C1 (same_setup_trans A N p S good _ _ _ _ _ _ SS SSs) E1) as K1.
  pose proof (stage_keeps A N p S m good HS5 Hmem val2 c2 u2 k2 h2 h2' w2 _ U2 C2 (same_setup_trans A N p S good _ _ _ _ _ _ SSs SS) E2) as K2.
  assert (SS' : same_setup p S good (rk_set_utilde w1 k1) h1' (rk_set_utilde w2 k2) h2').
  { eapply same_setup_trans; [apply same_setup_sym; exact K1|]. eapply same_setup_trans; [exact SS|exact K2]. }
  split; [exact SS'|]. intros j k Hj Hk Hn.
  destruct (Nat.lt_ge_cases k 2) as [Lo|Lo]; [apply (ss_ghost _ _ _ _ _ _ _ _ _ SS'); auto|].
  destruct (Nat.lt_ge_cases (S - 3) k) as [Up|Up]; [apply (ss_ghost _ _ _ _ _ _ _ _ _ SS'); auto|].
  destruct SS as [_ S1 S2 (g1 & g2 & g3) G1 G2 _ _ _ Bw Be]. clear K1 K2 SSs SS'.
  set (t1 := stage_state A c1 (rk_utilde k1) u1) in *. set (t2 := stage_state A c2 (rk_utilde k2) u2) in *.
  assert (T1 : wss p S t1) by (destruct (same_stage A p S c1 _ _ u1 U1 S1 S1 ltac:(repeat split) C1) as (X1 & X2 & X3); split; [apply X1|split; [apply X2|apply X3]]).
  assert (T2 : wss p S t2) by (destruct (same_stage A p S c2 _ _ u2 U2 S2 S2 ltac:(repeat split) C2) as (X1 & X2 & X3); split; [apply X1|split; [apply X2|apply X3]]).
  unfold rhs_update, st_update_from_cons in E1, E2. rewrite <- Bw, <- Be in E2.
  destruct (update_vars_from_cons p S (r_bw h1) (r_be h1) m (cent t1)) as [v1| | |] eqn:V1; try discriminate E1.
  destruct (update_vars_from_cons p S (r_bw h1) (r_be h1) m (cent t2)) as [v2| | |] eqn:V2; try discriminate E2. cbn [bind] in E1, E2.
  destruct (nf_calc N val1 p S (r_nf h1) (r_full h1) (set_cent v1 t1) m) as [[[n1 d1] x1] p1] eqn:N1.
  destruct (nf_calc N val2 p S (r_nf h2) (r_full h2) (set_cent v2 t2) m) as [[[n2 d2] x2] p2] eqn:N2.
  apply (f_equal (fun x => r_full (fst (fst x)))) in E1, E2. cbn [fst r_full] in E1, E2. rewrite <- E1, <- E2.
  pose proof (update_local p S (r_bw h1) (r_be h1) m (cent t1) (cent t2) v1 v2 i (r + W) HS Hi (proj1 T1) (proj1 T2) g1 Hc
    ltac:(intros Hp l Hl Hnl; apply (SN l Hnl Hl); exact Hp) V1 V2) as UL.
  assert (Wv1 : wsv A p S v1) by (eapply wsv_update_from_cons; [exact HS5|exact (proj1 T1)|exact V1]).
  assert (Wv2 : wsv A p S v2) by (eapply wsv_update_from_cons; [exact HS5|exact (proj1 T2)|exact V2]).
  destruct T1 as (_ & T1w & T1e). destruct T2 as (_ & T2w & T2e).
  refine (Hloc _ _ _ _ _ _ _ _ _ _ _ _ _ _ _ _ k j G1 G2 _ _ _ _ _ _ _ _ N1 N2 ltac:(lia) Hj _); cbn [cent west east set_cent]; auto.
  intros l Hnl Hl. assert (Nl : near i (r + W) l) by (eapply near_trans; eauto).
  split; [apply UL; assumption|]. intros Hp. destruct (SN l Nl Hl) as (_ & Q). destruct (Q Hp) as (_ & Q1 & Q2). split; [exact Q1|exact Q2].
Qed.

Lemma stages_local : forall val1 val2 dt u1 u2 r, wss p S u1 -> wss p S u2 ->
  forall qs (k1 k2 : rkf A) (h1 h2 : rhs A N) k1' h1' k2' h2',
  same_near p S i (r + length qs * W) u1 u2 ->
  same_setup p S good k1 h1 k2 h2 -> length (rk_k k1) = length (rk_k k2) -> (forall q, magree (r + length qs * W) (nth q (rk_k k1) []) (nth q (rk_k k2) [])) ->
  rkf_stages val1 p S m dt u1 qs k1 h1 = (k1', h1', Ok tt) -> rkf_stages val2 p S m dt u2 qs k2 h2 = (k2', h2', Ok tt) ->
  (forall q, magree r (nth q (rk_k k1') []) (nth q (rk_k k2') [])).
Proof.
  intros val1 val2 dt u1 u2 r U1 U2. induction qs as [|q qs IH]; intros k1 k2 h1 h2 k1' h1' k2' h2' SN SS LK HK E1 E2; cbn [rkf_stages] in E1, E2.
  - injection E1 as <- <-. injection E2 as <- <-. cbn [length Nat.mul] in HK. rewrite Nat.add_0_r in HK. exact HK.
  - cbn [cent state_assign] in E1, E2. cbn [cons vars_assign set_c_sound set_cons set_prim] in E1, E2.
    rewrite <- (ss_bt _ _ _ _ _ _ _ _ _ SS) in E2. cbn [length Nat.mul] in SN, HK.
    replace (r + (W + length qs * W)) with (r + length qs * W + W) in SN, HK by lia.
    set (f := fun pp => nmul A dt (at2 (n0 A) (bt_a (rk_bt k1)) pp q)) in *.
    change (fold_left _ (seq 0 q) (cons (cent u1))) with (fold_left (fun c q => sub_scaled (nE p) S (f q) (nth q (rk_k k1) []) c) (seq 0 q) (cons (cent u1))) in E1.
    change (fold_left _ (seq 0 q) (cons (cent u2))) with (fold_left (fun c q => sub_scaled (nE p) S (f q) (nth q (rk_k k2) []) c) (seq 0 q) (cons (cent u2))) in E2.
    pose proof (shape_fold f (rk_k k1) (seq 0 q) (cons (cent u1)) ltac:(apply U1)) as C1.
    pose proof (shape_fold f (rk_k k2) (seq 0 q) (cons (cent u2)) ltac:(apply U2)) as C2.
    pose proof (magree_fold (r + length qs * W + W) f (rk_k k1) (rk_k k2) (seq 0 q) (cons (cent u1)) (cons (cent u2)) HK ltac:(intros j k Hj Hk Hn; apply (SN k Hn Hk); exact Hj)) as CC.
    set (c1 := fold_left _ (seq 0 q) (cons (cent u1))) in *. set (c2 := fold_left _ (seq 0 q) (cons (cent u2))) in *.
    change (set_cent (set_cons c1 (vars_assign (cent (rk_utilde k1)) (cent u1))) (state_assign (rk_utilde k1) u1)) with (stage_state A c1 (rk_utilde k1) u1) in E1.
    change (set_cent (set_cons c2 (vars_assign (cent (rk_utilde k2)) (cent u2))) (state_assign (rk_utilde k2) u2)) with (stage_state A c2 (rk_utilde k2) u2) in E2.
    destruct (rhs_update val1 p S h1 (stage_state A c1 (rk_utilde k1) u1) m) as [[g1 w1] p1] eqn:R1.
    destruct (rhs_update val2 p S h2 (stage_state A c2 (rk_utilde k2) u2) m) as [[g2 w2] p2] eqn:R2.
    destruct p1 as [[]|e1| |]; try discriminate E1. destruct p2 as [[]|e2| |]; try discriminate E2.
    destruct (stage_local val1 val2 (r + length qs * W) c1 c2 u1 u2 k1 k2 h1 h2 g1 w1 g2 w2 U1 U2 C1 C2 SN CC SS R1 R2) as (SS' & FA).
    refine (IH _ _ _ _ _ _ _ _ _ _ _ _ E1 E2).
    + intros k Hn Hk. apply SN; [|exact Hk]. eapply near_mono; [exact Hn|lia].
    + destruct SS' as [a1 a2 a3 a4 a5 a6 a7 a8 a9 a10 a11]. split; cbn [rk_bt rk_utilde rk_set_k]; auto.
    + cbn [rk_k rk_set_k rk_set_utilde]. rewrite !length_upd. exact LK.
    + cbn [rk_k rk_set_k rk_set_utilde]. intros q'. destruct (Nat.eq_dec q' q) as [->|Ne].
      * destruct (Nat.lt_ge_cases q (length (rk_k k1))) as [L|L].
        -- rewrite !nth_upd_eq by (try exact L; rewrite <- LK; exact L). exact FA.
        -- rewrite !nth_overflow by (rewrite length_upd; try exact L; rewrite <- LK; exact L). intros j k _ _ _. reflexivity.
      * rewrite !nth_upd_ne by auto. eapply magree_mono; [apply HK|lia].
Qed.

Lemma calc_local : forall val1 val2 dt u1 u2 r (k1 k2 : rkf A) (h1 h2 : rhs A N) k1' h1' x1 k2' h2' x2, wss p S u1 -> wss p S u2 ->
  same_near p S i (r + bt_order (rk_bt k1) * W) u1 u2 -> same_setup p S good k1 h1 k2 h2 ->
  calc_rkf_solution val1 p S dt u1 k1 h1 m = (k1', h1', Ok x1) -> calc_rkf_solution val2 p S dt u2 k2 h2 m = (k2', h2', Ok x2) ->
  magree r (cons (cent (rk_utilde k1'))) (cons (cent (rk_utilde k2'))).
Proof.
  intros val1 val2 dt u1 u2 r k1 k2 h1 h2 k1' h1' x1 k2' h2' x2 U1 U2 SN SS E1 E2.
  pose proof (calc_static A N _ _ _ _ _ _ _ _ _ _ _ E1) as (_ & _ & _ & H1). rewrite (H1 x1 eq_refl). clear H1.
  pose proof (calc_static A N _ _ _ _ _ _ _ _ _ _ _ E2) as (_ & _ & _ & H2). rewrite (H2 x2 eq_refl). clear H2.
  pose proof (ss_bt _ _ _ _ _ _ _ _ _ SS) as Hb. rewrite <- Hb.
  assert (HK : forall q, magree r (nth q (rk_k k1') []) (nth q (rk_k k2') [])).
  { unfold calc_rkf_solution in E1, E2. rewrite <- Hb in E2.
    set (z := repeat (zeros2 (A:=A) (nE p) S) (bt_order (rk_bt k1))) in *.
    destruct (rkf_stages val1 p S m dt u1 (seq 0 (bt_order (rk_bt k1))) (rk_set_k z k1) h1) as [[l1 g1] p1] eqn:R1.
    destruct (rkf_stages val2 p S m dt u2 (seq 0 (bt_order (rk_bt k1))) (rk_set_k z k2) h2) as [[l2 g2] p2] eqn:R2.
    destruct p1 as [[]|e1| |]; try discriminate E1. destruct p2 as [[]|e2| |]; try discriminate E2.
    assert (K1 : rk_k k1' = rk_k l1).
    { clear E2. cbn [rk_accepted rk_set_utilde] in E1. destruct (rk_accepted l1);
      match type of E1 with context [if val1 then ?x else _] => destruct (if val1 then x else Ok tt) as [[]|e1| |] end; try discriminate E1; injection E1 as <- <- <-; reflexivity. }
    assert (K2 : rk_k k2' = rk_k l2).
    { clear E1. cbn [rk_accepted rk_set_utilde] in E2. destruct (rk_accepted l2);
      match type of E2 with context [if val2 then ?x else _] => destruct (if val2 then x else Ok tt) as [[]|e2| |] end; try discriminate E2; injection E2 as <- <- <-; reflexivity. }
    rewrite K1, K2. refine (stages_local val1 val2 dt u1 u2 r U1 U2 _ _ _ _ _ _ _ _ _ _ (same_setup_k A N p S good _ _ _ _ z z SS) eq_refl _ R1 R2).
    - rewrite seq_length. exact SN.
    - intros q j k _ _ _. reflexivity. }
  unfold rkf_combine. apply (magree_fold r (fun q => nmul A dt (at1 (n0 A) (bt_high (rk_bt k1)) q))); [exact HK|].
  intros j k Hj Hk Hn. apply (SN k); auto. eapply near_mono; [exact Hn|lia].
Qed.

(** A successful step: the final evaluation of the Runge-Kutta solution and the
    update of the variables. *)
Lemma next_calc : forall val fuel (s s' : sim A N), wss p S (s_u s) -> same_setup p S good (s_rk s) (s_rhs s) (s_rk s) (s_rhs s) -> rkf_next val fuel p S m s = (s', Ok tt) ->
    exists rk rh rk' rh' x v, same_setup p S good (s_rk s) (s_rhs s) rk rh /\ rk_bt rk = rk_bt (s_rk s) /\ calc_rkf_solution val p S (ts_dt (s_ts s')) (s_u s) rk rh m = (rk', rh', Ok x) /\
      wsv A p S (set_cons (cons (cent (rk_utilde rk'))) (cent (s_u s))) /\
      update_vars_from_cons p S (r_bw (s_rhs s)) (r_be (s_rhs s)) m (set_cons (cons (cent (rk_utilde rk'))) (cent (s_u s))) = Ok v /\ cent (s_u s') = v /\ (val = true -> vars_validate v = Ok tt).
Proof.
  clear - HS Hmem. intros val fuel s s' U SS0 E. unfold rkf_next in E.
    destruct (calc_dt_expl p S (ts_set_iter (ts_iter (s_ts s) + 1)%N (s_ts s)) (s_u s) m) as [ts1 o1].
    destruct o1 as [[]|e| |]; try discriminate E.
    destruct (rkf_asc val fuel p S (cap_dt ts1) (s_u s) (s_rk s) (s_rhs s) m) as [[[ts2 rk2] rh2] o2] eqn:E2.
    pose proof (rkf_asc_keep A N p S m good (Nat.lt_le_incl _ _ HS) Hmem val (s_u s) fuel (cap_dt ts1) _ _ _ _ _ _ U SS0 E2) as K2.
    apply rkf_asc_static in E2. destruct E2 as (_ & (W2 & W3) & _).
    destruct o2 as [[]|e| |]; try discriminate E.
    destruct (calc_rkf_solution val p S (ts_dt ts2) (s_u s) rk2 rh2 m) as [[rk3 rh3] o3] eqn:E3.
    pose proof (calc_static A N _ _ _ _ _ _ _ _ _ _ _ E3) as (_ & (W4 & W5) & _ & Hc3).
    destruct o3 as [x|e| |]; try discriminate E.
    unfold st_update_from_cons in E. cbn [cent set_cent] in E. rewrite W4, W5, W2, W3 in E.
    destruct (update_vars_from_cons p S (r_bw (s_rhs s)) (r_be (s_rhs s)) m (set_cons (cons (cent (rk_utilde rk3))) (cent (s_u s)))) as [v|e| |] eqn:Ev; cbn [bind] in E; try discriminate E.
    destruct (if val then state_validate (set_cent v (set_cent (set_cons (cons (cent (rk_utilde rk3))) (cent (s_u s))) (s_u s))) else Ok tt) as [[]|e| |] eqn:EV; cbn [cent set_cent] in E; try discriminate E. injection E as <-.
    exists rk2, rh2, rk3, rh3, x, v. split; [exact K2|]. split; [symmetry; apply (ss_bt _ _ _ _ _ _ _ _ _ K2)|]. cbn [s_ts ts_dt ts_set_t s_u cent set_cent]. split; [exact E3|].
    split; [|split; [exact Ev|split; [reflexivity|intros ->; exact EV]]]. apply wsv_set_cons; [apply U|]. rewrite (Hc3 x eq_refl). apply shape_combine. apply U.
Qed.

Lemma next_local : forall val1 val2 fuel1 fuel2 r (s1 s2 s1' s2' : sim A N), wss p S (s_u s1) -> wss p S (s_u s2) -> gamma (cent (s_u s1)) = gamma (cent (s_u s2)) ->
  same_setup p S good (s_rk s1) (s_rhs s1) (s_rk s2) (s_rhs s2) ->
  same_near p S i (r + bt_order (rk_bt (s_rk s1)) * W) (s_u s1) (s_u s2) ->
  rkf_next val1 fuel1 p S m s1 = (s1', Ok tt) -> rkf_next val2 fuel2 p S m s2 = (s2', Ok tt) -> ts_dt (s_ts s1') = ts_dt (s_ts s2') ->
  forall k, k < S -> near i r k -> same_cell A p (cent (s_u s1')) (cent (s_u s2')) k.
Proof.
  intros val1 val2 fuel1 fuel2 r s1 s2 s1' s2' U1 U2 G SS SN E1 E2 DT.
  assert (SSs : same_setup p S good (s_rk s2) (s_rhs s2) (s_rk s1) (s_rhs s1)) by (apply same_setup_sym; exact SS).
  assert (SS1 : same_setup p S good (s_rk s1) (s_rhs s1) (s_rk s1) (s_rhs s1)) by (eapply same_setup_trans; eauto).
  assert (SS2 : same_setup p S good (s_rk s2) (s_rhs s2) (s_rk s2) (s_rhs s2)) by (eapply same_setup_trans; eauto).
  destruct (next_calc _ _ _ _ U1 SS1 E1) as (rk1 & rh1 & rk1' & rh1' & x1 & v1 & K1 & B1 & C1 & Wc1 & V1 & -> & _).
  destruct (next_calc _ _ _ _ U2 SS2 E2) as (rk2 & rh2 & rk2' & rh2' & x2 & v2 & K2 & B2 & C2 & Wc2 & V2 & -> & _).
  rewrite <- DT in C2. rewrite <- (ss_bw _ _ _ _ _ _ _ _ _ SS), <- (ss_be _ _ _ _ _ _ _ _ _ SS) in V2. rewrite <- B1 in SN.
  assert (SS12 : same_setup p S good rk1 rh1 rk2 rh2).
  { eapply same_setup_trans; [apply same_setup_sym; exact K1|]. eapply same_setup_trans; [exact SS|exact K2]. }
  pose proof (calc_local _ _ _ _ _ _ _ _ _ _ _ _ _ _ _ _ U1 U2 SN SS12 C1 C2) as M.
  refine (update_local p S _ _ m _ _ v1 v2 i r HS Hi Wc1 Wc2 G M _ V1 V2).
  intros Hp k Hk Hn. apply (SN k); auto. eapply near_mono; [exact Hn|lia].
Qed.

Lemma next_same_near : forall val1 val2 fuel1 fuel2 r (s1 s2 s1' s2' : sim A N), solver_ok p S good s1 -> solver_ok p S good s2 -> gamma (cent (s_u s1)) = gamma (cent (s_u s2)) ->
  same_setup p S good (s_rk s1) (s_rhs s1) (s_rk s2) (s_rhs s2) ->
  same_near p S i (r + bt_order (rk_bt (s_rk s1)) * W) (s_u s1) (s_u s2) ->
  rkf_next val1 fuel1 p S m s1 = (s1', Ok tt) -> rkf_next val2 fuel2 p S m s2 = (s2', Ok tt) -> ts_dt (s_ts s1') = ts_dt (s_ts s2') ->
  same_near p S i r (s_u s1') (s_u s2') /\ same_setup p S good (s_rk s1') (s_rhs s1') (s_rk s2') (s_rhs s2').
Proof.
  intros val1 val2 fuel1 fuel2 r s1 s2 s1' s2' O1 O2 G SS SN E1 E2 DT.
  pose proof (next_local _ _ _ _ _ _ _ _ _ (proj1 O1) (proj1 O2) G SS SN E1 E2 DT) as L. split.
  - intros k Hn Hk. destruct (L k Hk Hn) as (L1 & L2). split; [intros j Hj; apply L1; exact Hj|]. intros Hp. split; [exact L2|].
    apply next_faces in E1, E2. destruct E1 as (-> & ->). destruct E2 as (-> & ->). apply (SN k); auto. eapply near_mono; [exact Hn|lia].
  - pose proof (next_keep A N p S m good HS5 Hmem _ _ _ _ _ O1 E1) as K1. pose proof (next_keep A N p S m good HS5 Hmem _ _ _ _ _ O2 E2) as K2.
    eapply same_setup_trans; [apply same_setup_sym; exact K1|]. eapply same_setup_trans; [exact SS|exact K2].
Qed.
End Scheme.
End Reach.
