(** Independence of leftover buffers and of the validation feature, for every
    arithmetic. *)

From Coq Require Import Reals ZArith NArith List Bool Lia String.
From Verif Require Import Base Num XReal Config Mesh State NumFlux Time Writer Runner Spec SpecFlow SpecStep BoundaryProofs PhysicsProofs FluxProofs UpdateProofs FluxThms FluxMore StepProofs StepInv.
Import ListNotations.
Local Open Scope nat_scope.

Section Eq.
Variable A : Num.

Lemma same_vars_sym : forall p S (v w : vars A), same_vars p S v w -> same_vars p S w v.
Proof. intros p S v w (H1 & H2 & H3 & H4 & H5 & H6). unfold same_vars. auto 10. Qed.

Lemma same_update : forall p S bw be m (v w : vars A), 5 <= S -> same_vars p S v w ->
  match update_vars_from_cons p S bw be m v, update_vars_from_cons p S bw be m w with
  | Ok v', Ok w' => same_vars p S v' w' /\ eigen_vals v' = eigen_vals w' /\ gamma v' = gamma v
  | Panic, Panic => True
  | _, _ => False
  end.
Proof.
  intros p S bw be m v w HS (Wv & Ww & P & C & Cs & G).
  assert (Pu : prim (update_prim p S v) = prim (update_prim p S w)).
  { unfold update_prim. destruct p; cbn [prim set_prim]; rewrite P, C, ?G; reflexivity. }
  destruct (update_vars_from_cons p S bw be m v) as [v'|e| |] eqn:Ev.
  - destruct (update_from_cons_view A p S bw be m v v' HS Wv Ev) as (V1 & V2 & V3 & V4 & V5 & V6).
    pose proof Ev as Ev'. unfold update_vars_from_cons, update_vars_from_prim in Ev'.
    apply bind_Ok in Ev'. destruct Ev' as (x & Hx & H). apply bind_Ok in H. destruct H as (y & Hy & H). injection H as Hv.
    apply bc_apply_Ok in Hx. destruct Hx as (q & Hq & ->). apply bc_apply_Ok in Hy. destruct Hy as (q' & Hq' & ->).
    assert (Ew : exists w', update_vars_from_cons p S bw be m w = Ok w' /\ prim w' = prim v' /\ cons w' = cons v').
    { unfold update_vars_from_cons, update_vars_from_prim, bc_apply. rewrite <- Pu, Hq. cbn [bind prim set_prim] in Hq' |- *.
      rewrite Hq'. cbn [bind]. eexists. split; [reflexivity|]. rewrite <- Hv.
      match goal with |- prim (update_derived_variables p S ?a) = prim (update_derived_variables p S ?b) /\ _ =>
        destruct (derived_fields A p S a) as (D1 & D2 & _); destruct (derived_fields A p S b) as (D3 & D4 & _) end.
      rewrite D1, D2, D3, D4. unfold update_cons, update_prim. destruct p; cbn; rewrite ?C, ?G; auto. }
    destruct Ew as (w' & Ew & Pw & Cw). rewrite Ew.
    destruct (update_from_cons_view A p S bw be m w w' HS Ww Ew) as (W1 & W2 & W3 & W4 & W5 & W6).
    assert (Csw : c_sound w' = c_sound v').
    { apply list_ext with (d := n0 A).
      - transitivity S; [apply W1|symmetry; apply V1].
      - intros i Hi. assert (Hi' : i < S) by (rewrite <- (proj2 (proj2 (proj2 (proj2 W1)))); exact Hi).
        destruct (V6 i Hi') as (_ & X & _). destruct (W6 i Hi') as (_ & Y & _).
        unfold at1 in X, Y. rewrite X, Y, Pw, Cs, G. reflexivity. }
    split; [|split; [|exact V2]].
    + split; [exact V1|]. split; [exact W1|]. split; [auto|]. split; [auto|]. split; [auto|]. rewrite V2, W2. exact G.
    + apply mat_ext with (e := nE p) (n := S) (d := n0 A); [apply V1|apply W1|].
      intros j i Hj Hi. destruct (V6 i Hi) as (_ & _ & X). destruct (W6 i Hi) as (_ & _ & Y).
      rewrite X, Y by assumption. rewrite Pw, Csw. reflexivity.
  - exfalso. revert Ev. unfold update_vars_from_cons, update_vars_from_prim. unfold bc_apply.
    destruct (apply_modes_ok_or_panic A West (nE p) S m bw (prim (update_prim p S v))) as [->|[x ->]]; cbn [bind]; [discriminate|].
    match goal with |- context [apply_modes East ?a ?b ?c ?d ?q] => destruct (apply_modes_ok_or_panic A East a b c d q) as [->|[y ->]] end; cbn [bind]; discriminate.
  - revert Ev. unfold update_vars_from_cons, update_vars_from_prim, bc_apply. rewrite <- Pu.
    destruct (apply_modes West (nE p) S m bw (prim (update_prim p S v))) as [x|e| |]; cbn [bind prim set_prim]; try discriminate; auto.
    destruct (apply_modes East (nE p) S m be x) as [y|e| |]; cbn [bind]; try discriminate; auto.
  - exfalso. revert Ev. unfold update_vars_from_cons, update_vars_from_prim. unfold bc_apply.
    destruct (apply_modes_ok_or_panic A West (nE p) S m bw (prim (update_prim p S v))) as [->|[x ->]]; cbn [bind]; [discriminate|].
    match goal with |- context [apply_modes East ?a ?b ?c ?d ?q] => destruct (apply_modes_ok_or_panic A East a b c d q) as [->|[y ->]] end; cbn [bind]; discriminate.
Qed.

Lemma same_cell_of_state : forall p S (v w : vars A) i, same_vars p S v w -> eigen_vals v = eigen_vals w -> same_cell A p v w i.
Proof.
  intros p S v w i (_ & _ & P & C & Cs & _) E. unfold same_cell. rewrite P, C, Cs, E. auto.
Qed.

Lemma hll_memoryless : forall p S (m : mesh A), 5 <= S -> std_ix A S m -> memoryless (Hll A) p S m (fun _ => True).
Proof.
  intros p S m HS Hm. intros val1 val2 n1 n2 d1 d2 u1 u2 n1' d1' u1' o1 n2' d2' u2' o2 _ _ D1 D2 (Sc & Se & Sw & St) H1 H2.
  cbn [nf_calc Hll] in H1, H2.
  assert (E1 : d1' = snd (fst (fst (hll_calc val1 p S n1 d1 u1 m)))) by (rewrite H1; reflexivity).
  assert (E2 : d2' = snd (fst (fst (hll_calc val2 p S n2 d2 u2 m)))) by (rewrite H2; reflexivity).
  assert (F1 : u1' = set_cent (update_flux p S (cent u1)) u1) by (rewrite <- (hll_state A val1 p S n1 d1 u1 m), H1; reflexivity).
  split; [exact I|]. split; [subst; apply hll_dflux_shape|]. subst u1'.
  destruct (update_flux_fields A p S (cent u1)) as (_ & _ & _ & _ & G & _).
  split.
  { split; [apply wsv_update_flux; apply Sc|]. split; [apply Sw|apply St]. }
  split; [exact G|]. split; [reflexivity|]. split; [reflexivity|].
  split.
  { intros j i Hj Hi. subst d1' d2'. rewrite !hll_dflux by (auto; lia).
    replace ((2 <=? i) && (i <=? S - 3)) with true by (symmetry; apply andb_true_intro; split; apply Nat.leb_le; lia).
    pose proof (proj1 (proj2 (proj2 (proj2 (proj1 Sc))))) as Fv. pose proof (proj1 (proj2 (proj2 (proj2 (proj1 (proj2 Sc)))))) as Fw.
    rewrite (hll_fn_local A p S (cent u1) (cent u2) j i) by (auto; try lia; eapply same_cell_of_state; eauto).
    rewrite (hll_fn_local A p S (cent u1) (cent u2) j (i - 1)) by (auto; try lia; eapply same_cell_of_state; eauto).
    reflexivity. }
  split.
  { intros j i Hj Hi Hg. subst d1'. rewrite hll_dflux by auto.
    destruct (Nat.leb_spec 2 i); [|reflexivity]. destruct (Nat.leb_spec i (S - 3)); [lia|reflexivity]. }
  intros -> ->. apply (f_equal snd) in H1, H2. cbn [snd] in H1, H2. rewrite <- H1, <- H2. reflexivity.
Qed.

Lemma kt_memoryless : forall p S (m : mesh A) k0, 5 <= S -> std_ix A S m -> memoryless (Kt A) p S m (fun k => kt_like A k k0).
Proof.
  intros p S m k0 HS Hm. intros val1 val2 n1 n2 d1 d2 u1 u2 n1' d1' u1' o1 n2' d2' u2' o2 G1 G2 D1 D2 (Sc & Se & Sw & St) H1 H2.
  cbn [nf_calc Kt nf_T] in *.
  assert (E1 : d1' = snd (fst (fst (kt_calc val1 p S n1 d1 u1 m)))) by (rewrite H1; reflexivity).
  assert (E2 : d2' = snd (fst (fst (kt_calc val2 p S n2 d2 u2 m)))) by (rewrite H2; reflexivity).
  pose proof (kt_state A val1 p S n1 d1 u1 m) as F1. rewrite H1 in F1. cbn [fst snd] in F1. cbn zeta in F1.
  split; [exact (kt_calc_like A _ _ _ _ _ _ _ _ _ _ _ _ G1 H1)|]. split; [subst; apply kt_dflux_shape|]. subst u1'.
  assert (Gf : forall v : vars A, gamma (kt_face p S v) = gamma v).
  { intros v. unfold kt_face. match goal with |- gamma (update_flux _ _ ?w) = _ => destruct (update_flux_fields A p S w) as (_ & _ & _ & _ & -> & _) end.
    unfold update_eigen_vals_max, update_eigen_vals_min, update_c_sound.
    destruct (update_prim_fields A p S v) as (_ & _ & _ & _ & X & _). destruct (is_adiabatic p); cbn; exact X. }
  split.
  { split; [apply Sc|]. split; cbn [west east]; apply wsv_face; apply wsv_set_cons; try apply shape_upd_range2; [apply Sw|apply St]. }
  split; [reflexivity|]. split; [cbn [west]; rewrite Gf; reflexivity|]. split; [cbn [east]; rewrite Gf; reflexivity|].
  assert (L : forall j i, j < nE p -> 1 <= i -> kt_fn A p n1 u1 m j i = kt_fn A p n2 u2 m j i).
  { intros j i Hj Hi. destruct G1 as (a1 & a2 & a3 & a4 & a5). destruct G2 as (b1 & b2 & b3 & b4 & b5).
    destruct Sw as (_ & _ & _ & _ & w5 & w6). destruct St as (_ & _ & _ & _ & t5 & t6). destruct Sc as (_ & _ & _ & c4 & _).
    apply kt_fn_local; try congruence; auto; try (intros _; rewrite w5, t5; auto); try (intros l i' _ _; rewrite c4; reflexivity). }
  split.
  { intros j i Hj Hi. subst d1' d2'. rewrite !kt_dflux by (auto; try lia; first [apply Sw|apply St]).
    replace ((2 <=? i) && (i <=? S - 3)) with true by (symmetry; apply andb_true_intro; split; apply Nat.leb_le; lia).
    rewrite (L j i), (L j (i - 1)) by lia. reflexivity. }
  split.
  { intros j i Hj Hi Hg. subst d1'. rewrite kt_dflux by (auto; first [apply Sw|apply St]).
    destruct (Nat.leb_spec 2 i); [|reflexivity]. destruct (Nat.leb_spec i (S - 3)); [lia|reflexivity]. }
  intros -> ->. apply (f_equal snd) in H1, H2. cbn [snd] in H1, H2. rewrite <- H1, <- H2. reflexivity.
Qed.

Lemma hll_checks_only : checks_only (Hll A).
Proof.
  intros p S n d u m r H. cbn [nf_calc Hll] in *. unfold hll_calc in *. injection H as <- _. reflexivity.
Qed.
Lemma kt_checks_only : checks_only (Kt A).
Proof.
  intros p S n d u m r H. cbn [nf_calc Kt] in *. unfold kt_calc in *. injection H as <- _. reflexivity.
Qed.

Variable N : numflux_impl A.
Section Mem.
Variables (p : phys) (S : nat) (m : mesh A) (good : nf_T N -> Prop).
Hypothesis HS : 5 <= S.
Hypothesis Hmem : memoryless N p S m good.

Definition comparable (val1 val2 : bool) {X} (o1 o2 : res X) : Prop :=
  (val1 = false /\ val2 = false) \/ (exists x y, o1 = Ok x /\ o2 = Ok y).

(** The state of stage [q]: [u] with conserved variables [c]. *)
Definition stage_state (c : list (list (nF A))) (ut u : state A) : state A :=
  let ut := state_assign ut u in set_cent (set_cons c (cent ut)) ut.

Lemma same_stage : forall c ut1 ut2 u, wss p S u -> wss p S ut1 -> wss p S ut2 -> same_gamma ut1 ut2 -> shape (nE p) S c ->
  same_vars p S (cent (stage_state c ut1 u)) (cent (stage_state c ut2 u)) /\
  same_vars p S (west (stage_state c ut1 u)) (west (stage_state c ut2 u)) /\
  same_vars p S (east (stage_state c ut1 u)) (east (stage_state c ut2 u)).
Proof.
  intros c ut1 ut2 u (U1 & U2 & U3) (A1 & A2 & A3) (B1 & B2 & B3) (G1 & G2 & G3) Hc.
  unfold stage_state, state_assign, same_vars, vars_assign, set_cent; cbn [cent west east].
  split; [|split].
  - split; [apply wsv_set_cons; [apply wsv_assign; assumption|assumption]|].
    split; [apply wsv_set_cons; [apply wsv_assign; assumption|assumption]|]. cbn. auto.
  - split; [apply wsv_assign; assumption|]. split; [apply wsv_assign; assumption|]. cbn. auto.
  - split; [apply wsv_assign; assumption|]. split; [apply wsv_assign; assumption|]. cbn. auto.
Qed.

Lemma stage_eq : forall val1 val2 c u (k1 k2 : rkf A) (h1 h2 : rhs A N) h1' w1 o1 h2' w2 o2,
  wss p S u -> shape (nE p) S c -> same_setup p S good k1 h1 k2 h2 ->
  rhs_update val1 p S h1 (stage_state c (rk_utilde k1) u) m = (h1', w1, o1) ->
  rhs_update val2 p S h2 (stage_state c (rk_utilde k2) u) m = (h2', w2, o2) ->
  (val1 = false -> val2 = false -> o1 = o2) /\
  same_setup p S good (rk_set_utilde w1 k1) h1' (rk_set_utilde w2 k2) h2' /\
  ((exists x y, o1 = Ok x /\ o2 = Ok y) -> r_full h1' = r_full h2').
Proof.
  intros val1 val2 c u k1 k2 h1 h2 h1' w1 o1 h2' w2 o2 Hu Hc SS E1 E2.
  destruct SS as [Sb S1 S2 Sg G1 G2 F1 F2 Fg Bw Be].
  destruct (same_stage c _ _ u Hu S1 S2 Sg Hc) as (X1 & X2 & X3).
  set (t1 := stage_state c (rk_utilde k1) u) in *. set (t2 := stage_state c (rk_utilde k2) u) in *.
  assert (T1 : wss p S t1) by (split; [apply X1|split; [apply X2|apply X3]]).
  assert (T2 : wss p S t2) by (split; [apply X1|split; [apply X2|apply X3]]).
  assert (Tg : same_gamma t1 t2) by (split; [apply X1|split; [apply X2|apply X3]]).
  unfold rhs_update in E1, E2. rewrite <- Bw, <- Be in E2. unfold st_update_from_cons in E1, E2.
  pose proof (same_update p S (r_bw h1) (r_be h1) m (cent t1) (cent t2) HS X1) as SU.
  destruct (update_vars_from_cons p S (r_bw h1) (r_be h1) m (cent t1)) as [v1| | |];
    destruct (update_vars_from_cons p S (r_bw h1) (r_be h1) m (cent t2)) as [v2| | |]; try contradiction; cbn [bind] in E1, E2.
  - destruct SU as (SU & SE & SG).
    destruct (nf_calc N val1 p S (r_nf h1) (r_full h1) (set_cent v1 t1) m) as [[[n1 d1] x1] p1] eqn:N1.
    destruct (nf_calc N val2 p S (r_nf h2) (r_full h2) (set_cent v2 t2) m) as [[[n2 d2] x2] p2] eqn:N2.
    injection E1 as <- <- <-. injection E2 as <- <- <-.
    assert (SST : same_state p S (set_cent v1 t1) (set_cent v2 t2)) by (split; [exact SU|]; split; [exact SE|]; split; [exact X2|exact X3]).
    assert (SST' : same_state p S (set_cent v2 t2) (set_cent v1 t1)).
    { split; [apply same_vars_sym; exact SU|]. split; [symmetry; exact SE|]. split; apply same_vars_sym; assumption. }
    destruct (Hmem _ _ _ _ _ _ _ _ _ _ _ _ _ _ _ _ G1 G2 F1 F2 SST N1 N2) as (M1 & M2 & M3 & M4 & M5 & M6 & M7 & M8 & M9).
    destruct (Hmem _ _ _ _ _ _ _ _ _ _ _ _ _ _ _ _ G2 G1 F2 F1 SST' N2 N1) as (K1 & K2 & K3 & K4 & K5 & K6 & K7 & K8 & K9).
    assert (FE : d1 = d2).
    { apply mat_ext with (e := nE p) (n := S) (d := n0 A); auto. intros j i Hj Hi.
      destruct (Nat.lt_ge_cases i 2) as [Hlo|Hlo]; [rewrite M8, K8 by auto; apply Fg; auto|].
      destruct (Nat.lt_ge_cases (S - 3) i) as [Hhi|Hhi]; [rewrite M8, K8 by auto; apply Fg; auto|]. apply M7; auto. }
    split; [auto|]. split; [|auto].
    split; cbn [rk_utilde rk_bt rk_set_utilde r_nf r_full r_bw r_be]; auto.
    + destruct Tg as (g1 & g2 & g3). unfold same_gamma. rewrite M4, M5, M6, K4, K5, K6. cbn [cent west east set_cent].
      destruct SU as (_ & _ & _ & _ & _ & Gv). auto.
    + intros j i _ _ _. rewrite FE. reflexivity.
  - injection E1 as <- <- <-. injection E2 as <- <- <-. split; [auto|]. split.
    + split; cbn [rk_utilde rk_bt rk_set_utilde]; auto.
    + intros (x & y & X & _). discriminate.
Qed.

(** ** The stages *)
Lemma stages_eq : forall val1 val2 dt u, wss p S u ->
  forall qs (k1 k2 : rkf A) (h1 h2 : rhs A N) k1' h1' o1 k2' h2' o2,
  same_setup p S good k1 h1 k2 h2 -> rk_k k1 = rk_k k2 -> rk_accepted k1 = rk_accepted k2 ->
  rkf_stages val1 p S m dt u qs k1 h1 = (k1', h1', o1) ->
  rkf_stages val2 p S m dt u qs k2 h2 = (k2', h2', o2) ->
  comparable val1 val2 o1 o2 ->
  o1 = o2 /\ same_setup p S good k1' h1' k2' h2' /\ rk_k k1' = rk_k k2' /\ rk_accepted k1' = rk_accepted k2'.
Proof.
  intros val1 val2 dt u Hu. induction qs as [|q qs IH]; intros k1 k2 h1 h2 k1' h1' o1 k2' h2' o2 SS HK HA E1 E2 HC; cbn [rkf_stages] in E1, E2.
  - injection E1 as <- <- <-. injection E2 as <- <- <-. auto.
  - cbn [cent state_assign] in E1, E2. cbn [cons vars_assign set_c_sound set_cons set_prim] in E1, E2.
    rewrite <- (ss_bt _ _ _ _ _ _ _ _ _ SS), <- HK in E2.
    set (c := fold_left (fun c pp => sub_scaled (nE p) S (nmul A dt (at2 (n0 A) (bt_a (rk_bt k1)) pp q)) (nth pp (rk_k k1) []) c) (seq 0 q) (cons (cent u))) in *.
    assert (Hc : shape (nE p) S c).
    { unfold c. assert (G : forall l x, shape (nE p) S x -> shape (nE p) S (fold_left (fun c pp => sub_scaled (nE p) S (nmul A dt (at2 (n0 A) (bt_a (rk_bt k1)) pp q)) (nth pp (rk_k k1) []) c) l x)).
      { induction l as [|y l IHl]; intros x Hx; cbn [fold_left]; [exact Hx|]. apply IHl. apply shape_mtab. }
      apply G. apply Hu. }
    change (set_cent (set_cons c (vars_assign (cent (rk_utilde k1)) (cent u))) (state_assign (rk_utilde k1) u)) with (stage_state c (rk_utilde k1) u) in E1.
    change (set_cent (set_cons c (vars_assign (cent (rk_utilde k2)) (cent u))) (state_assign (rk_utilde k2) u)) with (stage_state c (rk_utilde k2) u) in E2.
    destruct (rhs_update val1 p S h1 (stage_state c (rk_utilde k1) u) m) as [[g1 w1] p1] eqn:R1.
    destruct (rhs_update val2 p S h2 (stage_state c (rk_utilde k2) u) m) as [[g2 w2] p2] eqn:R2.
    destruct (stage_eq val1 val2 c u k1 k2 h1 h2 g1 w1 p1 g2 w2 p2 Hu Hc SS R1 R2) as (Q1 & Q2 & Q3).
    destruct p1 as [[]|e1| |], p2 as [[]|e2| |];
      try (destruct HC as [[-> ->]|(x & y & Hx & Hy)]; [specialize (Q1 eq_refl eq_refl); discriminate Q1|subst o1 o2; try discriminate E1; try discriminate E2]).
    + specialize (Q3 ltac:(eauto)). rewrite Q3 in E1.
      eapply IH; [| | |exact E1|exact E2|exact HC].
      * rewrite Q3 in Q2 || idtac. destruct Q2 as [a1 a2 a3 a4 a5 a6 a7 a8 a9 a10 a11]. split; cbn [rk_bt rk_utilde rk_set_k]; auto.
      * cbn [rk_k rk_set_k rk_set_utilde]. rewrite HK. reflexivity.
      * exact HA.
    + injection E1 as <- <- <-. injection E2 as <- <- <-. destruct HC as [[Hv1 Hv2]|(x & y & Hx & Hy)]; [|discriminate].
      specialize (Q1 Hv1 Hv2). split; [congruence|]. auto.
    + injection E1 as <- <- <-. injection E2 as <- <- <-. auto.
    + injection E1 as <- <- <-. injection E2 as <- <- <-. auto.
Qed.

Lemma same_setup_k : forall (k1 k2 : rkf A) (h1 h2 : rhs A N) x1 x2, same_setup p S good k1 h1 k2 h2 -> same_setup p S good (rk_set_k x1 k1) h1 (rk_set_k x2 k2) h2.
Proof. intros k1 k2 h1 h2 x1 x2 [a1 a2 a3 a4 a5 a6 a7 a8 a9 a10 a11]. split; cbn [rk_bt rk_utilde rk_set_k]; auto. Qed.

Lemma calc_eq : forall val1 val2 dt u (k1 k2 : rkf A) (h1 h2 : rhs A N) k1' h1' o1 k2' h2' o2, wss p S u ->
  same_setup p S good k1 h1 k2 h2 -> rk_accepted k1 = true -> rk_accepted k2 = true ->
  calc_rkf_solution val1 p S dt u k1 h1 m = (k1', h1', o1) ->
  calc_rkf_solution val2 p S dt u k2 h2 m = (k2', h2', o2) ->
  comparable val1 val2 o1 o2 ->
  o1 = o2 /\ same_setup p S good k1' h1' k2' h2' /\ cons (cent (rk_utilde k1')) = cons (cent (rk_utilde k2')) /\ rk_accepted k1' = true /\ rk_accepted k2' = true \/
  (o1 = o2 /\ (forall x, o1 <> Ok x) /\ same_setup p S good k1' h1' k2' h2' /\ rk_accepted k1' = true /\ rk_accepted k2' = true).
Proof.
  intros val1 val2 dt u k1 k2 h1 h2 k1' h1' o1 k2' h2' o2 Hu SS A1 A2 E1 E2 HC. unfold calc_rkf_solution in E1, E2.
  rewrite <- (ss_bt _ _ _ _ _ _ _ _ _ SS) in E2.
  set (z := repeat (zeros2 (A:=A) (nE p) S) (bt_order (rk_bt k1))) in *.
  pose proof (same_setup_k k1 k2 h1 h2 z z SS) as SS'.
  destruct (rkf_stages val1 p S m dt u (seq 0 (bt_order (rk_bt k1))) (rk_set_k z k1) h1) as [[l1 g1] p1] eqn:R1.
  destruct (rkf_stages val2 p S m dt u (seq 0 (bt_order (rk_bt k1))) (rk_set_k z k2) h2) as [[l2 g2] p2] eqn:R2.
  assert (HC' : comparable val1 val2 p1 p2).
  { destruct HC as [HC|(x & y & -> & ->)]; [left; exact HC|right].
    destruct p1, p2; try discriminate E1; try discriminate E2; eauto. }
  destruct (stages_eq val1 val2 dt u Hu _ _ _ _ _ _ _ _ _ _ _ SS' eq_refl ltac:(cbn; congruence) R1 R2 HC') as (Q1 & Q2 & Q3 & Q4).
  assert (L1 : rk_accepted l1 = true) by (apply stages_static in R1; destruct R1 as (_ & _ & X & _); rewrite X; exact A1).
  assert (L2 : rk_accepted l2 = true) by congruence.
  subst p2. destruct p1 as [[]|e| |]; cbn [rk_accepted rk_set_utilde] in E1, E2.
  2,3,4: injection E1 as <- <- <-; injection E2 as <- <- <-; right; split; [reflexivity|]; split; [discriminate|]; auto.
  rewrite L1 in E1. rewrite L2 in E2. rewrite Q3 in E1.
  set (hi := rkf_combine (nE p) S dt (bt_high (rk_bt k1)) (rk_k l2) (bt_order (rk_bt k1)) (cons (cent u))) in *.
  assert (SF : same_setup p S good (rk_set_utilde (set_cent (set_cons hi (cent (rk_utilde l1))) (rk_utilde l1)) l1) g1
                                   (rk_set_utilde (set_cent (set_cons hi (cent (rk_utilde l2))) (rk_utilde l2)) l2) g2).
  { destruct Q2 as [a1 a2 a3 a4 a5 a6 a7 a8 a9 a10 a11].
    assert (Hh : shape (nE p) S hi) by (apply shape_combine; apply Hu).
    split; cbn [rk_bt rk_utilde rk_set_utilde]; auto.
    - destruct a2 as (b1 & b2 & b3). split; [apply wsv_set_cons; assumption|]. auto.
    - destruct a3 as (b1 & b2 & b3). split; [apply wsv_set_cons; assumption|]. auto. }
  match type of E1 with context [if val1 then ?x else _] => destruct (if val1 then x else Ok tt) as [[]|e1| |] eqn:V1 end;
  match type of E2 with context [if val2 then ?x else _] => destruct (if val2 then x else Ok tt) as [[]|e2| |] eqn:V2 end;
  injection E1 as <- <- <-; injection E2 as <- <- <-;
  try (exfalso; destruct HC as [[-> ->]|(x & y & Hx & Hy)]; discriminate).
  left. split; [reflexivity|]. split; [exact SF|]. cbn. auto.
Qed.

Lemma rkf_next_eq : forall val1 val2 fuel1 fuel2 (s1 s2 : sim A N) s1' o1 s2' o2,
  same_but_buffers p S good s1 s2 -> wss p S (s_u s1) -> bt_asc (rk_bt (s_rk s1)) = false ->
  rkf_next val1 fuel1 p S m s1 = (s1', o1) -> rkf_next val2 fuel2 p S m s2 = (s2', o2) ->
  comparable val1 val2 o1 o2 -> o1 = o2 /\ same_but_buffers p S good s1' s2'.
Proof.
  intros val1 val2 fuel1 fuel2 s1 s2 s1' o1 s2' o2 (T & U & A1 & A2 & SS) Hu Has E1 E2 HC.
  pose proof (ss_bt _ _ _ _ _ _ _ _ _ SS) as Hb. pose proof (ss_bw _ _ _ _ _ _ _ _ _ SS) as Hbw. pose proof (ss_be _ _ _ _ _ _ _ _ _ SS) as Hbe.
  unfold rkf_next, rkf_asc in E1, E2. rewrite Has in E1. rewrite <- Hb, Has in E2. rewrite <- T, <- U in E2.
  destruct (calc_dt_expl p S (ts_set_iter (ts_iter (s_ts s1) + 1)%N (s_ts s1)) (s_u s1) m) as [ts1 p1].
  destruct p1 as [[]|e| |].
  2,3,4: injection E1 as <- <-; injection E2 as <- <-; split; [reflexivity|]; split; [reflexivity|]; split; [reflexivity|]; split; [exact A1|]; split; [exact A2|exact SS].
  destruct (calc_rkf_solution val1 p S (ts_dt (cap_dt ts1)) (s_u s1) (s_rk s1) (s_rhs s1) m) as [[k1 h1] q1] eqn:C1.
  destruct (calc_rkf_solution val2 p S (ts_dt (cap_dt ts1)) (s_u s1) (s_rk s2) (s_rhs s2) m) as [[k2 h2] q2] eqn:C2.
  assert (HC' : comparable val1 val2 q1 q2).
  { destruct HC as [HC|(x & y & -> & ->)]; [left; exact HC|right].
    destruct q1, q2; try discriminate E1; try discriminate E2; eauto. }
  pose proof (calc_static _ _ _ _ _ _ _ _ _ _ _ _ _ C1) as (_ & (B1 & B2) & _).
  pose proof (calc_static _ _ _ _ _ _ _ _ _ _ _ _ _ C2) as (_ & (B3 & B4) & _).
  destruct (calc_eq val1 val2 _ _ _ _ _ _ _ _ _ _ _ _ Hu SS A1 A2 C1 C2 HC') as [(Q1 & Q2 & Q3 & Q4 & Q5)|(Q1 & Qn & Q2 & Q4 & Q5)]; subst q2.
  - destruct q1 as [x|e| |].
    2,3,4: injection E1 as <- <-; injection E2 as <- <-; split; [reflexivity|]; split; [reflexivity|]; split; [reflexivity|]; auto.
    rewrite <- Q3 in E2. rewrite B1, B2 in E1. rewrite B3, B4, <- Hbw, <- Hbe in E2.
    destruct (st_update_from_cons p S (r_bw (s_rhs s1)) (r_be (s_rhs s1)) m (set_cent (set_cons (cons (cent (rk_utilde k1))) (cent (s_u s1))) (s_u s1))) as [u'|e| |].
    2,3,4: injection E1 as <- <-; injection E2 as <- <-; split; [reflexivity|]; split; [reflexivity|]; split; [reflexivity|]; auto.
    assert (VV : forall val o s k h, match (if val : bool then state_validate u' else Ok tt) with
       | Ok _ => (mkSim (ts_set_t (nadd A (ts_t (cap_dt ts1)) (ts_dt (cap_dt ts1))) (cap_dt ts1)) u' k h, Ok tt)
       | Err e => (mkSim (cap_dt ts1) u' k h, Err e)
       | Panic => (mkSim (cap_dt ts1) u' k h, Panic)
       | Fuel => (mkSim (cap_dt ts1) u' k h, Fuel)
       end = (s, o) -> o = Ok tt \/ val = false ->
       o = Ok tt /\ s = mkSim (N:=N) (ts_set_t (nadd A (ts_t (cap_dt ts1)) (ts_dt (cap_dt ts1))) (cap_dt ts1)) u' k h).
    { intros val o s k h Hx [-> | ->].
      - destruct (if val then state_validate u' else Ok tt) in Hx; try discriminate. injection Hx as <-. auto.
      - injection Hx as <- <-. auto. }
    destruct (VV val1 o1 s1' k1 h1 E1 ltac:(destruct HC as [[-> _]|(x0 & y & -> & _)]; [auto|destruct x0; auto])) as (-> & ->).
    destruct (VV val2 o2 s2' k2 h2 E2 ltac:(destruct HC as [[_ ->]|(x0 & y & _ & ->)]; [auto|destruct y; auto])) as (-> & ->).
    split; [reflexivity|]. split; [reflexivity|]. split; [reflexivity|]. auto.
  - destruct q1 as [x|e| |]; [exfalso; eapply Qn; reflexivity| | |];
    (injection E1 as <- <-; injection E2 as <- <-; split; [reflexivity|]; split; [reflexivity|]; split; [reflexivity|]; auto).
Qed.

Lemma solver_next_eq : forall val1 val2 fuel1 fuel2 (s1 s2 : sim A N) s1' o1 s2' o2,
  same_but_buffers p S good s1 s2 -> wss p S (s_u s1) -> bt_asc (rk_bt (s_rk s1)) = false ->
  solver_next val1 fuel1 p S m s1 = (s1', o1) -> solver_next val2 fuel2 p S m s2 = (s2', o2) ->
  comparable val1 val2 o1 o2 -> o1 = o2 /\ same_but_buffers p S good s1' s2'.
Proof.
  intros val1 val2 fuel1 fuel2 s1 s2 s1' o1 s2' o2 SB Hu Has E1 E2 HC. unfold solver_next in E1, E2.
  destruct (rkf_next val1 fuel1 p S m s1) as [t1 q1] eqn:R1. destruct (rkf_next val2 fuel2 p S m s2) as [t2 q2] eqn:R2.
  assert (HC' : comparable val1 val2 q1 q2).
  { destruct HC as [HC|(x & y & -> & ->)]; [left; exact HC|right].
    destruct q1, q2; try discriminate E1; try discriminate E2; eauto. }
  destruct (rkf_next_eq _ _ _ _ _ _ _ _ _ _ SB Hu Has R1 R2 HC') as (-> & SB').
  pose proof (proj1 SB') as T. destruct q2 as [[]|e| |].
  2,3,4: injection E1 as <- <-; injection E2 as <- <-; auto.
  rewrite T in E1. destruct (N.leb _ _); injection E1 as <- <-; injection E2 as <- <-; auto.
Qed.

Lemma next_faces_wss : forall val fuel (s s' : sim A N) o, wss p S (s_u s) -> solver_next val fuel p S m s = (s', o) -> wss p S (s_u s').
Proof.
  intros val fuel s s' o (H1 & H2 & H3) E. apply solver_next_rkf in E. destruct E as (o' & E & _).
  pose proof (next_shape A N _ _ _ _ _ _ _ _ HS H1 E) as C. apply next_faces in E. destruct E as [Ew Ee].
  split; [exact C|]. rewrite Ew, Ee. auto.
Qed.

Lemma next_n_eq : forall fuel1 fuel2 n (s1 s2 : sim A N) s1' o1 s2' o2,
  same_but_buffers p S good s1 s2 -> wss p S (s_u s1) -> bt_asc (rk_bt (s_rk s1)) = false ->
  next_n false fuel1 p S m n s1 = (s1', o1) -> next_n false fuel2 p S m n s2 = (s2', o2) ->
  o1 = o2 /\ same_but_buffers p S good s1' s2'.
Proof.
  intros fuel1 fuel2 n. induction n as [|n IH]; intros s1 s2 s1' o1 s2' o2 SB Hu Has E1 E2; cbn [next_n] in E1, E2.
  - injection E1 as <- <-. injection E2 as <- <-. auto.
  - destruct (solver_next false fuel1 p S m s1) as [t1 q1] eqn:R1. destruct (solver_next false fuel2 p S m s2) as [t2 q2] eqn:R2.
    destruct (solver_next_eq _ _ _ _ _ _ _ _ _ _ SB Hu Has R1 R2 (or_introl (conj eq_refl eq_refl))) as (-> & SB').
    destruct q2 as [[]|e| |].
    2,3,4: injection E1 as <- <-; injection E2 as <- <-; auto.
    eapply IH; [exact SB'| | |exact E1|exact E2].
    + eapply next_faces_wss; eauto.
    + apply solver_next_rkf in R1. destruct R1 as (o' & R1 & _). apply rkf_next_cases in R1. destruct R1 as ((-> & _) & _). exact Has.
Qed.
End Mem.
End Eq.
