(** C28, exceptional wave speeds in binary64 arithmetic. *)

From Coq Require Import Reals ZArith QArith List Bool Lia Lra.
From Flocq Require Import Core BinarySingleNaN.
From Verif Require Import Base Num B64 Config Mesh State NumFlux Time Spec SpecFlow SpecStep MeshProofs BoundaryProofs PhysicsProofs FluxProofs UpdateProofs StepProofs StepInv Demo.
Import ListNotations.
Local Open Scope R_scope.

(** The largest value so far is never NaN or negative. *)
Definition level (x : b64) : Prop := match x with B754_zero s | B754_infinity s | B754_finite s _ _ _ => s = false | B754_nan => False end.

Lemma abs_level : forall x : b64, is_nan x = false -> level (Babs x).
Proof. intros [s|s| |s mm e H] N; try discriminate N; reflexivity. Qed.

Lemma max_level : forall x y : b64, level x -> level (b_max x (Babs y)).
Proof.
  intros x y Lx. unfold b_max. assert (Nx : is_nan x = false) by (destruct x; [reflexivity|reflexivity|destruct Lx|reflexivity]). rewrite Nx.
  destruct (is_nan (Babs y)) eqn:E; [exact Lx|]. destruct (Bltb (Babs y) x); [exact Lx|]. apply abs_level. destruct y; [reflexivity|reflexivity|discriminate E|reflexivity].
Qed.

Lemma max_nan : forall x : b64, level x -> b_max x (Babs B754_nan) = x.
Proof. intros [s|s| |s mm e H] L; try destruct L; reflexivity. Qed.

Lemma max_zero : forall x s, level x -> b_max x (Babs (B754_zero s)) = x.
Proof. intros [t|t| |t mm e H] s L; [unfold level in L; subst t; reflexivity|unfold level in L; subst t; reflexivity|destruct L|unfold level in L; subst t; reflexivity]. Qed.

Lemma max_inf : forall x s, level x -> b_max x (Babs (B754_infinity s)) = B754_infinity false.
Proof. intros [t|t| |t mm e H] s L; [unfold level in L; subst t; reflexivity|unfold level in L; subst t; reflexivity|destruct L|unfold level in L; subst t; reflexivity]. Qed.

Lemma inf_max : forall y, b_max (B754_infinity false) (Babs y) = B754_infinity false.
Proof. intros [t|t| |t mm e H]; reflexivity. Qed.

Lemma fold_level : forall (t : nat -> b64) l acc, level acc -> level (fold_left (fun a i => b_max a (Babs (t i))) l acc).
Proof. intros t l. induction l as [|i l IH]; intros acc L; cbn [fold_left]; [exact L|]. apply IH. apply max_level. exact L. Qed.

Lemma fold_same : forall (t t' : nat -> b64) l acc, level acc ->
  (forall i, In i l -> t i = t' i \/ (t i = B754_nan /\ exists s, t' i = B754_zero s)) ->
  fold_left (fun a i => b_max a (Babs (t i))) l acc = fold_left (fun a i => b_max a (Babs (t' i))) l acc.
Proof.
  intros t t' l. induction l as [|i l IH]; intros acc L H; cbn [fold_left]; [reflexivity|].
  assert (E : b_max acc (Babs (t i)) = b_max acc (Babs (t' i))).
  { destruct (H i (or_introl eq_refl)) as [-> |(-> & s & ->)]; [reflexivity|]. rewrite max_nan, max_zero by exact L. reflexivity. }
  rewrite E. apply IH; [apply max_level; exact L|]. intros k Hk. apply H. right. exact Hk.
Qed.

Lemma fold_inf : forall (t : nat -> b64) l acc, level acc -> (exists i s, In i l /\ t i = B754_infinity s) ->
  fold_left (fun a i => b_max a (Babs (t i))) l acc = B754_infinity false.
Proof.
  intros t l. induction l as [|k l IH]; intros acc L (i & s & Hi & E); [destruct Hi|]. cbn [fold_left]. destruct Hi as [-> |Hi].
  - rewrite E, max_inf by exact L. clear. induction l as [|k l IH]; cbn [fold_left]; [reflexivity|]. rewrite inf_max. exact IH.
  - apply IH; [apply max_level; exact L|]. exists i, s. auto.
Qed.

(** A cell whose wave speed is not a number counts like a cell without waves:
    the step (or failure) is the one of the state [u'] in which the waves of
    these cells stand still. *)
Theorem C28_nan_ignored : forall bln bexp p S (u u' : state (B64n bln bexp)) (c : b64) (m : mesh (B64n bln bexp)) bw be,
  let A := B64n bln bexp in
  let vel := fun (x : state A) i => at2 (n0 A) (prim (cent x)) 1 i : b64 in
  let cs := fun (x : state A) i => at1 (n0 A) (c_sound (cent x)) i : b64 in
  consistent p S bw be m (cent u) -> consistent p S bw be m (cent u') ->
  (forall i, (i < S)%nat -> is_finite (at1 (n0 A) (m_cell_width_inv m) i : b64) = true) ->
  (forall i, (i < S)%nat -> (vel u i = vel u' i /\ cs u i = cs u' i) \/
     (b_add (vel u i) (cs u i) = B754_nan /\ is_finite (b_add (vel u' i) (cs u' i)) = true /\ B2R (b_add (vel u' i) (cs u' i)) = 0)) ->
  st_calc_dt_cfl p S u (c : nF A) m = st_calc_dt_cfl p S u' (c : nF A) m.
Proof.
  intros bln bexp p S u u' c m bw be A vel cs C C' Hw H. unfold st_calc_dt_cfl, calc_dt_cfl.
  assert (E : forall (x : state A), consistent p S bw be m (cent x) -> forall i, (i < S)%nat -> at1 (n0 A) (eigen_max p (cent x)) i = (b_add (vel x i) (cs x i) : nF A)).
  { intros x Cx i Hi. exact (cst_fast _ _ _ _ _ _ _ Cx i Hi). }
  set (t := fun (x : state A) i => nmul A (at1 (n0 A) (eigen_max p (cent x)) i) (at1 (n0 A) (m_cell_width_inv m) i) : b64).
  assert (F : fold_left (fun a i => b_max a (Babs (t u i))) (seq 0 S) (b_ofZ 0) = fold_left (fun a i => b_max a (Babs (t u' i))) (seq 0 S) (b_ofZ 0)).
  { apply fold_same; [reflexivity|]. intros i Hi. apply in_seq in Hi. unfold t. rewrite (E u C i ltac:(lia)), (E u' C' i ltac:(lia)). pose proof (Hw i ltac:(lia)) as Fw.
    set (w := at1 (n0 A) (m_cell_width_inv m) i : b64) in *. destruct (H i ltac:(lia)) as [(-> & ->)|(-> & F & Z)]; [left; reflexivity|right].
    split; [reflexivity|]. set (z := b_add (vel u' i) (cs u' i)) in *. clearbody z w.
    change (exists s, b_mul z w = B754_zero s). unfold b_mul.
    destruct z as [s|s| |s mm e K]; try discriminate F; [|exfalso; cbn [B2R] in Z; apply eq_0_F2R in Z; destruct s; discriminate Z].
    destruct w as [s'|s'| |s' m' e' K']; try discriminate Fw; cbn; eexists; reflexivity. }
  cbv zeta. match goal with |- (if nfin _ ?a then _ else _) = (if nfin _ ?b then _ else _) => assert (G : a = b) end.
  { apply (f_equal (fun x : b64 => b_div c x)). exact F. }
  rewrite G. reflexivity.
Qed.
Print Assumptions C28_nan_ignored.

(** An infinite wave speed is not reported: the step is zero. *)
Theorem C28_infinite_speed : forall bln bexp p S (u : state (B64n bln bexp)) (c : b64) (m : mesh (B64n bln bexp)) bw be,
  let A := B64n bln bexp in
  consistent p S bw be m (cent u) -> is_finite c = true ->
  (exists i s, (i < S)%nat /\ b_add (at2 (n0 A) (prim (cent u)) 1 i : b64) (at1 (n0 A) (c_sound (cent u)) i : b64) = B754_infinity s /\
     is_finite (at1 (n0 A) (m_cell_width_inv m) i : b64) = true /\ B2R (at1 (n0 A) (m_cell_width_inv m) i : b64) <> 0) ->
  exists dt : b64, st_calc_dt_cfl p S u (c : nF A) m = Ok (dt : nF A) /\ is_finite dt = true /\ B2R dt = 0.
Proof.
  intros bln bexp p S u c m bw be A C Fc (i & s & Hi & E & Fw & Nw). unfold st_calc_dt_cfl, calc_dt_cfl.
  set (t := fun i => nmul A (at1 (n0 A) (eigen_max p (cent u)) i) (at1 (n0 A) (m_cell_width_inv m) i) : b64).
  assert (T : exists s, t i = B754_infinity s).
  { unfold t. assert (Em : at1 (n0 A) (eigen_max p (cent u)) i = (B754_infinity s : nF A)) by (etransitivity; [exact (cst_fast _ _ _ _ _ _ _ C i Hi)|exact E]).
    rewrite Em. set (w := at1 (n0 A) (m_cell_width_inv m) i : b64) in *. clearbody w. change (exists s', b_mul (B754_infinity s) w = B754_infinity s').
    unfold b_mul. destruct w as [s'|s'| |s' m' e' K']; try discriminate Fw; [exfalso; apply Nw; reflexivity|]. cbn. eexists. reflexivity. }
  destruct T as (s' & T).
  assert (F : fold_left (fun a i => b_max a (Babs (t i))) (seq 0 S) (b_ofZ 0) = B754_infinity false).
  { apply fold_inf; [reflexivity|]. exists i, s'. split; [apply in_seq; lia|exact T]. }
  assert (Z : exists z, b_div c (B754_infinity false) = B754_zero z).
  { unfold b_div. destruct c as [z|z| |z mm e K]; try discriminate Fc; cbn; eexists; reflexivity. }
  destruct Z as (z & Z). exists (B754_zero z).
  cbv zeta. match goal with |- (if nfin _ ?a then _ else _) = _ /\ _ => assert (G : a = (B754_zero z : nF A)) end.
  { refine (eq_trans (f_equal (fun x : b64 => b_div c x) _) Z). exact F. }
  rewrite G. split; [reflexivity|]. split; reflexivity.
Qed.
Print Assumptions C28_infinite_speed.

(** So the step with an infinite wave speed fails because of the smallest
    allowed step size, and leaves the variables as they are. *)
Theorem C28_infinite_speed_fails : forall bln bexp (N : numflux_impl (B64n bln bexp)) validation fuel p S (s s' : sim (B64n bln bexp) N) (m : mesh (B64n bln bexp)) bw be o,
  let A := B64n bln bexp in
  consistent p S bw be m (cent (s_u s)) -> is_finite (ts_cfl (s_ts s) : b64) = true ->
  is_finite (ts_dt_min (s_ts s) : b64) = true -> 0 < B2R (ts_dt_min (s_ts s) : b64) ->
  (exists i z, (i < S)%nat /\ b_add (at2 (n0 A) (prim (cent (s_u s))) 1 i : b64) (at1 (n0 A) (c_sound (cent (s_u s))) i : b64) = B754_infinity z /\
     is_finite (at1 (n0 A) (m_cell_width_inv m) i : b64) = true /\ B2R (at1 (n0 A) (m_cell_width_inv m) i : b64) <> 0) ->
  solver_next validation fuel p S m s = (s', o) -> o = Err EDtMin /\ s_u s' = s_u s.
Proof.
  intros bln bexp N val fuel p S s s' m bw be o A C Fc Fm Pm Hi E.
  destruct (C28_infinite_speed bln bexp p S (s_u s) (ts_cfl (s_ts s)) m bw be C Fc Hi) as (dt & Ed & Fd & Zd).
  unfold solver_next, rkf_next, calc_dt_expl in E.
  assert (Ed' : st_calc_dt_cfl p S (s_u s) (ts_cfl (ts_set_iter (ts_iter (s_ts s) + 1)%N (s_ts s))) m = Ok (dt : nF A)) by exact Ed.
  cbv zeta in E. unfold A in Ed'. rewrite Ed' in E.
  assert (L : nltb A (dt : nF A) (ts_dt_min (ts_set_dt (dt : nF A) (ts_set_iter (ts_iter (s_ts s) + 1)%N (s_ts s)))) = true).
  { change (Bltb dt (ts_dt_min (s_ts s) : b64) = true). rewrite (Bltb_correct 53 1024) by assumption. rewrite Zd. apply Rlt_bool_true. exact Pm. }
  unfold A in L. rewrite L in E. injection E as <- <-. split; reflexivity.
Qed.
Print Assumptions C28_infinite_speed_fails.

(** Example: isothermal gas of speed 1 and sound speed 1, with a cell whose
    velocity is NaN, -1 or infinite; the first two yield the same step. *)
Definition odd_cell (bln bexp : b64 -> b64) (x : b64) (j i : nat) : nF (B64n bln bexp) :=
  match j, i with 0%nat, _ => b_ofZ 1 | _, 4%nat => x | _, _ => b_ofZ 1 end.

Definition same_b (x y : b64) : bool :=
  match B2SF x, B2SF y with
  | SpecFloat.S754_zero a, SpecFloat.S754_zero b | SpecFloat.S754_infinity a, SpecFloat.S754_infinity b => Bool.eqb a b
  | SpecFloat.S754_nan, SpecFloat.S754_nan => true
  | SpecFloat.S754_finite a m e, SpecFloat.S754_finite b n f => Bool.eqb a b && Pos.eqb m n && Z.eqb e f
  | _, _ => false
  end.
Lemma same_b_eq : forall x y, same_b x y = true -> x = y.
Proof.
  intros x y H. apply B2SF_inj. unfold same_b in H. destruct (B2SF x) as [a|a| |a m e], (B2SF y) as [b|b| |b n f]; try discriminate H; try reflexivity.
  - apply Bool.eqb_prop in H. subst. reflexivity.
  - apply Bool.eqb_prop in H. subst. reflexivity.
  - apply andb_true_iff in H. destruct H as (H & H3). apply andb_true_iff in H. destruct H as (H1 & H2).
    apply Bool.eqb_prop in H1. apply Pos.eqb_eq in H2. apply Z.eqb_eq in H3. subst. reflexivity.
Qed.

Definition odd_check (A : Num) (eqb : nF A -> nF A -> bool) (x one : nF A) (r : res (vars A)) : bool :=
  match r with
  | Ok v => forallb (fun i => eqb (at2 (n0 A) (prim v) 1 i) (if (i =? 4)%nat then x else one) && eqb (at1 (n0 A) (c_sound v) i) one) (seq 0 8)
  | _ => false
  end.

Lemma odd_checked : forall A eqb (x one : nF A) r, (forall a b, eqb a b = true -> a = b) -> odd_check A eqb x one r = true ->
  exists v, r = Ok v /\ forall i, (i < 8)%nat -> at2 (n0 A) (prim v) 1 i = (if (i =? 4)%nat then x else one) /\ at1 (n0 A) (c_sound v) i = one.
Proof.
  intros A eqb x one [v|e| |] He H; try discriminate H. exists v. split; [reflexivity|]. cbn [odd_check] in H.
  intros i Hi. rewrite forallb_forall in H. specialize (H i ltac:(apply in_seq; lia)). apply andb_true_iff in H. destruct H as (H1 & H2).
  split; apply He; assumption.
Qed.

Lemma odd_gen : forall A (m : mesh A) l (x one : nF A) eqb (q : nat -> nat -> nF A), (forall a b, eqb a b = true -> a = b) ->
  odd_check A eqb x one (update_vars_from_prim Isot 8 l l m (demo_vars Isot 8 q)) = true ->
  exists v, consistent Isot 8 l l m v /\
    (forall i, (i < 8)%nat -> at2 (n0 A) (prim v) 1 i = (if (i =? 4)%nat then x else one) /\ at1 (n0 A) (c_sound v) i = one).
Proof.
  intros A m l x one eqb q He Hx. destruct (odd_checked A eqb x one _ He Hx) as (v & E & H). exists v. split; [|exact H].
  refine (prim_consistent A Isot 8 l l m _ v _ _ E); [lia|].
  unfold wsv, demo_vars. cbn [prim cons eigen_vals flux c_sound]. repeat match goal with |- _ /\ _ => split end;
    first [apply shape_mtab|apply shape_zeros2|apply repeat_length].
Qed.

Lemma odd_runs : forall bln bexp,
  odd_check (B64n bln bexp) same_b B754_nan (b_ofZ 1) (update_vars_from_prim Isot 8 (init_bc BNoGradients 2) (init_bc BNoGradients 2) (demo_mesh (B64n bln bexp) 8) (demo_vars Isot 8 (odd_cell bln bexp B754_nan))) &&
  odd_check (B64n bln bexp) same_b (b_ofZ (-1)) (b_ofZ 1) (update_vars_from_prim Isot 8 (init_bc BNoGradients 2) (init_bc BNoGradients 2) (demo_mesh (B64n bln bexp) 8) (demo_vars Isot 8 (odd_cell bln bexp (b_ofZ (-1))))) &&
  odd_check (B64n bln bexp) same_b (B754_infinity false) (b_ofZ 1) (update_vars_from_prim Isot 8 (init_bc BNoGradients 2) (init_bc BNoGradients 2) (demo_mesh (B64n bln bexp) 8) (demo_vars Isot 8 (odd_cell bln bexp (B754_infinity false)))) = true.
Proof. intros bln bexp. vm_compute. reflexivity. Qed.

Example C28_nan_example : forall bln bexp, let A := B64n bln bexp in let l := init_bc BNoGradients 2 in
  exists u u' u2 : state A, consistent Isot 8 l l (demo_mesh A 8) (cent u) /\ consistent Isot 8 l l (demo_mesh A 8) (cent u') /\ consistent Isot 8 l l (demo_mesh A 8) (cent u2) /\
  (forall i, (i < 8)%nat -> is_finite (at1 (n0 A) (m_cell_width_inv (demo_mesh A 8)) i : b64) = true /\ B2R (at1 (n0 A) (m_cell_width_inv (demo_mesh A 8)) i : b64) <> 0) /\
  (forall i, (i < 8)%nat -> at2 (n0 A) (prim (cent u)) 1 i = (if (i =? 4)%nat then B754_nan else b_ofZ 1 : nF A) /\ at1 (n0 A) (c_sound (cent u)) i = (b_ofZ 1 : nF A)) /\
  (forall i, (i < 8)%nat -> at2 (n0 A) (prim (cent u')) 1 i = (if (i =? 4)%nat then b_ofZ (-1) else b_ofZ 1 : nF A) /\ at1 (n0 A) (c_sound (cent u')) i = (b_ofZ 1 : nF A)) /\
  at2 (n0 A) (prim (cent u2)) 1 4 = (B754_infinity false : nF A).
Proof.
  intros bln bexp A l.
  pose proof (odd_runs bln bexp) as H0. apply andb_true_iff in H0. destruct H0 as (H0 & R3). apply andb_true_iff in H0. destruct H0 as (R1 & R2).
  destruct (odd_gen A _ _ _ _ _ _ same_b_eq R1) as (v & Cv & Hv).
  destruct (odd_gen A _ _ _ _ _ _ same_b_eq R2) as (v' & Cv' & Hv').
  destruct (odd_gen A _ _ _ _ _ _ same_b_eq R3) as (v2 & Cv2 & Hv2). clear R1 R2 R3.
  exists (mkState v v v), (mkState v' v' v'), (mkState v2 v2 v2). cbn [cent].
  split; [exact Cv|]. split; [exact Cv'|]. split; [exact Cv2|]. split; [|split; [exact Hv|split; [exact Hv'|refine (proj1 (Hv2 4%nat _)); lia]]].
  assert (H : forallb (fun i => is_finite (at1 (n0 A) (m_cell_width_inv (demo_mesh A 8)) i : b64) && Bltb (b_ofZ 1) (at1 (n0 A) (m_cell_width_inv (demo_mesh A 8)) i : b64)) (seq 0 8) = true) by (vm_compute; reflexivity).
  intros i Hi. rewrite forallb_forall in H. specialize (H i ltac:(apply in_seq; lia)). set (w := at1 (n0 A) _ i : b64) in *. apply andb_true_iff in H. destruct H as (F & L).
  split; [exact F|]. rewrite (Bltb_correct 53 1024) in L by (exact F || reflexivity). destruct (Rlt_bool_spec (B2R (b_ofZ 1)) (B2R w)) as [K|]; [|discriminate L].
  assert (E1 : B2R (b_ofZ 1) = 1) by (vm_compute; lra). rewrite E1 in K. clearbody w. lra.
Qed.

Lemma solver_hll : forall A (c : config A) p S (m : mesh A) (u : state A), nc_numflux (cf_numerics c) = CHll -> exists s : sim A (Hll A),
  solver_new (Hll A) p S c m u = Ok s /\ s_u s = u /\ s_ts s = ts_new (cf_numerics c) (cf_output_max c).
Proof.
  intros A c p S m u Hc. destruct (rhs_new (Hll A) p S c m) as [rh|e| |] eqn:E;
    try (unfold rhs_new in E; cbn [nf_new Hll] in E; unfold hll_new in E; rewrite Hc in E; discriminate E).
  exists (mkSim (ts_new (cf_numerics c) (cf_output_max c)) u (rkf_new p S c) rh).
  unfold solver_new. rewrite E. split; [reflexivity|]. split; reflexivity.
Qed.

Example C28_infinite_example : forall bln bexp, let A := B64n bln bexp in let l := init_bc BNoGradients 2 in
  exists s : sim A (Hll A), consistent Isot 8 l l (demo_mesh A 8) (cent (s_u s)) /\
  is_finite (ts_cfl (s_ts s) : b64) = true /\ is_finite (ts_dt_min (s_ts s) : b64) = true /\ 0 < B2R (ts_dt_min (s_ts s) : b64) /\
  b_add (at2 (n0 A) (prim (cent (s_u s))) 1 4 : b64) (at1 (n0 A) (c_sound (cent (s_u s))) 4 : b64) = B754_infinity false /\
  is_finite (at1 (n0 A) (m_cell_width_inv (demo_mesh A 8)) 4 : b64) = true /\ B2R (at1 (n0 A) (m_cell_width_inv (demo_mesh A 8)) 4 : b64) <> 0.
Proof.
  intros bln bexp A l.
  destruct (C28_nan_example bln bexp) as (_ & _ & _ & _ & _ & _ & Hw & _).
  pose proof (odd_runs bln bexp) as H0. apply andb_true_iff in H0. destruct H0 as (_ & R3).
  destruct (odd_gen A _ _ _ _ _ _ same_b_eq R3) as (v2 & Cv2 & Hv2). clear R3.
  assert (T : forall c, c = demo_cfg (A:=A) CHll SSPRK5 false 10 (nQ A (4 # 10)) -> is_finite (ts_cfl (ts_new (cf_numerics c) (cf_output_max c)) : b64) && (is_finite (ts_dt_min (ts_new (cf_numerics c) (cf_output_max c)) : b64) &&
    Bltb (b_ofZ 0) (ts_dt_min (ts_new (cf_numerics c) (cf_output_max c)) : b64)) = true) by (intros c ->; vm_compute; reflexivity).
  specialize (T _ eq_refl).
  assert (Hc : nc_numflux (cf_numerics (demo_cfg (A:=A) CHll SSPRK5 false 10 (nQ A (4 # 10)))) = CHll) by reflexivity.
  set (c := demo_cfg _ _ _ _ _) in T, Hc. clearbody c.
  destruct (solver_hll A c Isot 8 (demo_mesh A 8) (mkState v2 v2 v2) Hc) as (s & _ & Eu & Et).
  rewrite <- Et in T. exists s. rewrite Eu. cbn [cent]. clear Et Eu.
  apply andb_true_iff in T. destruct T as (T1 & T). apply andb_true_iff in T. destruct T as (T2 & T3).
  split; [exact Cv2|]. split; [exact T1|]. split; [exact T2|]. split.
  - set (x := ts_dt_min (s_ts s) : b64) in *. rewrite (Bltb_correct 53 1024) in T3 by (exact T2 || reflexivity).
    destruct (Rlt_bool_spec (B2R (b_ofZ 0)) (B2R x)) as [K|]; [exact K|discriminate T3].
  - split; [|exact (Hw 4%nat ltac:(lia))]. destruct (Hv2 4%nat ltac:(lia)) as (-> & ->). apply same_b_eq. vm_compute. reflexivity.
Qed.
