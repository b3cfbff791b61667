(** Step size selection: concrete states and floating point, proofs. *)

From Coq Require Import Reals ZArith NArith QArith Qreals List Bool Lia Lra.
From Flocq Require Import Core BinarySingleNaN Sterbenz.
From Verif Require Import Base Num XReal B64 Config Mesh State NumFlux Time Spec SpecFlow SpecStep
  ConfigProofs MeshProofs BoundaryProofs PhysicsProofs FluxProofs UpdateProofs VanLeer StepProofs StepInv TimeProofs.
Import ListNotations.
Local Open Scope R_scope.

Notation ng p := (init_bc BNoGradients (nE p)).

(** ** A consistent state with given primitive variables *)
Definition rvars (p : phys) (S : nat) (g cs : R) (q : nat -> nat -> R) : vars XRn :=
  mkVars (mtab (nE p) S (fun j i => Fin (q j i) : nF XRn)) (zeros2 (nE p) S) (repeat (Fin cs : nF XRn) S) (zeros2 (nE p) S) (zeros2 (nE p) S)
         (Fin g : nF XRn) (zeros S).

Lemma rvars_wsv : forall p S g cs q, wsv XRn p S (rvars p S g cs q).
Proof.
  intros. assert (Z : shape (nE p) S (zeros2 (A:=XRn) (nE p) S)) by apply shape_zeros2.
  unfold wsv, rvars; cbn. repeat match goal with |- _ /\ _ => split end; auto; try apply shape_mtab; apply repeat_length.
Qed.

Lemma rdemo : forall p S g cs q (m : mesh XRn), (6 <= S)%nat ->
  exists v, update_vars_from_prim p S (ng p) (ng p) m (rvars p S g cs q) = Ok v /\
    consistent p S (ng p) (ng p) m v /\ wsv XRn p S v /\ gamma v = Fin g /\
    (forall j i, (j < nE p)%nat -> (i < S)%nat -> at2 (n0 XRn) (prim v) j i = Fin (q j (clamp S i))) /\
    (forall i, (i < S)%nat -> p = Isot -> at1 (n0 XRn) (c_sound v) i = Fin cs).
Proof.
  intros p S g cs q m HS. pose proof (rvars_wsv p S g cs q) as W.
  destruct (ng_prim XRn p S m _ (Nat.lt_le_incl _ _ HS) W) as (v & E & P). exists v.
  destruct (update_from_prim_view XRn p S _ _ m _ v ltac:(lia) W E) as (W' & G & _ & Ci & _ & _).
  split; [exact E|]. split; [exact (prim_consistent XRn p S _ _ m _ _ HS W E)|]. split; [exact W'|]. split; [exact G|]. split.
  - intros j i Hj Hi. rewrite P by assumption. cbn [prim rvars]. rewrite at2_mtab; [reflexivity|assumption|]. apply interior_lt; [lia|]. apply clamp_interior. lia.
  - intros i Hi Hp. rewrite (Ci Hp). cbn [c_sound rvars]. unfold at1. rewrite nth_indep with (d' := Fin cs : nF XRn) by (rewrite repeat_length; exact Hi). apply nth_repeat.
Qed.

Definition one_state (v : vars XRn) : state XRn := mkState v v v.

(** ** A fresh time step in binary64 *)
Lemma fresh_b64_eq : forall d t : b64, is_finite d = true -> is_finite t = true -> 0 < B2R d -> 0 <= B2R t -> Bsign t = false ->
  b_add t (if Bltb (b_ofZ 1) (b_div (b_add d t) t) then b_sub t t else d) = t.
Proof.
  intros d t Fd Ft Hd Ht Sg.
  destruct (Bltb (b_ofZ 1) (b_div (b_add d t) t)) eqn:L.
  - rewrite b_sub_self by exact Ft. destruct t as [s|s| |s mm e B]; try discriminate.
    + cbn in Sg. subst s. reflexivity.
    + reflexivity.
  - pose proof (fresh_b64 d t Fd Ft Hd Ht Sg) as E. rewrite L in E.
    destruct (Rle_lt_or_eq_dec 0 (B2R t) Ht) as [Hp|Hz].
    + destruct (cap_b64 d t t Fd Ft Ft Hd Ht Hp L) as (F & Le).
      destruct (b_add_ge d t Fd Ft Hd Ht F) as (Ge & Ex & F2).
      assert (Eq : B2R (b_add t d) = B2R t) by lra.
      apply B2R_Bsign_inj; [exact F2|exact Ft|exact Eq|]. rewrite Sg. apply b_pos_sign. lra.
    + exfalso. destruct t as [s|s| |s mm e B]; try discriminate.
      * cbn in Sg. subst s. destruct d as [s|s| |s mm e B]; try discriminate; cbn in Hd; [lra|].
        pose proof (b_pos_sign (B754_finite s mm e B) Hd) as Sd. cbn in Sd. subst s. cbn in L.
        assert (K : Bltb (b_ofZ 1) (B754_infinity false : b64) = true) by (apply Bltb_xlt; rewrite b_one; exact I).
        congruence.
      * cbn in Hz. destruct s; [assert (G : @F2R radix2 {| Fnum := Z.neg mm; Fexp := e |} = 0) by (symmetry; exact Hz)|assert (G : @F2R radix2 {| Fnum := Z.pos mm; Fexp := e |} = 0) by (symmetry; exact Hz)]; apply eq_0_F2R in G; discriminate.
Qed.

Lemma b_min_pos : forall d x : b64, is_finite d = true -> 0 < B2R d -> xlt (Fin 0) (b2x x) ->
  is_finite (b_min d x) = true /\ 0 < B2R (b_min d x).
Proof.
  intros d x Fd Hd Hx. unfold b_min. destruct (is_nan d) eqn:Nd; [destruct d; discriminate|].
  destruct (is_nan x) eqn:Nx; [auto|]. destruct (Bltb d x) eqn:L; [auto|].
  destruct x as [s|s| |s mm e B]; cbn [b2x xlt] in Hx; try discriminate.
  - cbn in Hx. lra.
  - destruct s; [destruct Hx|]. exfalso.
    assert (K : Bltb d (B754_infinity false) = true) by (apply Bltb_xlt; rewrite (b_fin_b2x d Fd); exact I). congruence.
  - split; [reflexivity|exact Hx].
Qed.

(** The CFL step of a non-failing step is positive. *)
Lemma dt_pos_b64 : forall d x : b64, is_finite d = true -> xlt (Fin 0) (b2x x) -> Bltb d x = false -> 0 < B2R d.
Proof.
  intros d x Fd Hx L. destruct (Rlt_or_le 0 (B2R d)) as [H|H]; [exact H|]. exfalso.
  assert (K : Bltb d x = true); [|congruence]. apply Bltb_xlt. rewrite (b_fin_b2x d Fd).
  destruct (b2x x) as [r| | |]; cbn [xlt] in *; auto. lra.
Qed.

Lemma cfl_fin : forall A p S u c m dt, st_calc_dt_cfl (A:=A) p S u c m = Ok dt -> nfin A dt = true.
Proof.
  intros A p S u c m dt H. unfold st_calc_dt_cfl, calc_dt_cfl in H.
  match type of H with (if nfin A ?x then _ else _) = _ => set (y := x) in * end.
  destruct (nfin A y) eqn:E; [|discriminate]. injection H as <-. exact E.
Qed.

Lemma fresh_step : forall bln bexp (N : numflux_impl (B64n bln bexp)) val fuel p S m (s s' : sim (B64n bln bexp) N) o,
  bt_asc (rk_bt (s_rk s)) = false ->
  xlt (Fin 0) (b2x (ts_dt_min (s_ts s))) -> xlt (Fin 0) (b2x (ts_dt_max (s_ts s))) ->
  is_finite (ts_t (s_ts s)) = true -> 0 <= B2R (ts_t (s_ts s)) -> Bsign (ts_t (s_ts s)) = false ->
  ts_t_next (s_ts s) = ts_t (s_ts s) ->
  solver_next val fuel p S m s = (s', o) -> ts_t (s_ts s') = ts_t (s_ts s).
Proof.
  intros bln bexp N val fuel p S m s s' o Ha Hmin Hmax Ft Ht Sg Hn E.
  unfold solver_next in E. destruct (rkf_next val fuel p S m s) as [s1 o1] eqn:E1.
  assert (Es : s' = s1).
  { destruct o1 as [[]|e| |]; try (injection E as <- _; reflexivity).
    destruct (ts_iter_max (s_ts s1) <=? ts_iter (s_ts s1))%N; injection E as <- _; reflexivity. }
  subst s'. clear E.
  destruct (rkf_next_cases _ _ _ _ _ _ _ _ _ _ E1) as (_ & _ & _ & _ & [(_ & _ & T)|(k & _ & [(_ & _ & T)|(v & _ & _ & [(e & _ & _ & _ & T)|(-> & _ & T)])])]); auto.
  destruct (next_dt _ _ _ _ _ _ _ _ _ Ha E1) as (dt & C & L & D).
  rewrite T, D. apply cfl_fin in C. unfold cap_dt. cbn [ts_dt ts_dt_max ts_t ts_t_next ts_set_dt nmin nadd ndiv nltb n1 nsub].
  rewrite Hn. pose proof (dt_pos_b64 dt _ C Hmin L) as P. destruct (b_min_pos dt _ C P Hmax) as (Fm & Pm).
  set (d := b_min dt (ts_dt_max (s_ts s))) in *.
  pose proof (fresh_b64_eq d (ts_t (s_ts s)) Fm Ft Pm Ht Sg) as F.
  change (nadd (B64n bln bexp)) with b_add. change (nmin (B64n bln bexp)) with b_min. fold d.
  change (n1 (B64n bln bexp)) with (b_ofZ 1). change (ndiv (B64n bln bexp)) with b_div. change (nsub (B64n bln bexp)) with b_sub. change (nltb (B64n bln bexp)) with (@Bltb 53 1024).
  destruct (Bltb (b_ofZ 1) (b_div (b_add d (ts_t (s_ts s))) (ts_t (s_ts s)))); cbn [ts_dt ts_set_dt]; rewrite ?Hn; exact F.
Qed.

(** ** Landing on the next output time *)
Lemma land_exact : forall t tn : b64, is_finite t = true -> is_finite tn = true ->
  0 <= B2R t <= B2R tn -> B2R t = 0 \/ B2R tn <= 2 * B2R t -> b2x (b_add t (b_sub tn t)) = b2x tn.
Proof.
  intros t tn Ft Fn H Hc.
  pose proof (FLT_exp_valid (3 - 1024 - 53) 53 : Valid_exp (SpecFloat.fexp 53 1024)) as Ve.
  assert (Gt : generic_format radix2 (SpecFloat.fexp 53 1024) (B2R t)) by apply generic_format_B2R.
  assert (Gn : generic_format radix2 (SpecFloat.fexp 53 1024) (B2R tn)) by apply generic_format_B2R.
  assert (Gd : generic_format radix2 (SpecFloat.fexp 53 1024) (B2R tn - B2R t)).
  { destruct Hc as [Hz|Hs]; [rewrite Hz, Rminus_0_r; exact Gn|].
    assert (Mo : Monotone_exp (SpecFloat.fexp 53 1024)) by (apply (FLT_exp_monotone (3 - 1024 - 53) 53)).
    apply (sterbenz radix2 (SpecFloat.fexp 53 1024)); [exact Gn|exact Gt|]. lra. }
  assert (Bn : Rabs (B2R tn) < bpow radix2 1024) by apply abs_B2R_lt_emax.
  pose proof (Bminus_correct 53 1024 Hp64 He64 mode_NE tn t Fn Ft) as C. cbn [round_mode] in C.
  rewrite round_generic in C by (first [exact Gd|apply valid_rnd_N|exact Ve]).
  rewrite Rlt_bool_true in C.
  2:{ apply Rle_lt_trans with (2 := Bn). rewrite !Rabs_pos_eq by lra. lra. }
  destruct C as (C1 & C2 & _). change (Bminus mode_NE tn t) with (b_sub tn t) in C1, C2.
  pose proof (Bplus_correct 53 1024 Hp64 He64 mode_NE t (b_sub tn t) Ft C2) as D. cbn [round_mode] in D.
  assert (E : B2R t + B2R (b_sub tn t) = B2R tn) by (rewrite C1; ring).
  rewrite E in D. rewrite round_generic in D by (first [exact Gn|apply valid_rnd_N|exact Ve]).
  rewrite Rlt_bool_true in D by exact Bn.
  destruct D as (D1 & D2 & _). change (Bplus mode_NE t (b_sub tn t)) with (b_add t (b_sub tn t)) in D1, D2. rewrite !b_fin_b2x by assumption. f_equal. exact D1.
Qed.

(** ** Uniform isothermal flow *)
Lemma uniform_cfl : forall S md a b c vel cs, (6 <= S)%nat -> a < b -> 0 < c -> vel + cs <> 0 ->
  let m := mesh_build (A:=XRn) S (mkMC (A:=XRn) md (Fin a) (Fin b)) in
  exists u, consistent Isot S (ng Isot) (ng Isot) m (cent u) /\ wsv XRn Isot S (cent u) /\
    (forall i, (i < S)%nat -> at2 (n0 XRn) (prim (cent u)) 0 i = Fin 1 /\ at2 (n0 XRn) (prim (cent u)) 1 i = Fin vel /\ at1 (n0 XRn) (c_sound (cent u)) i = Fin cs) /\
    st_calc_dt_cfl Isot S u (Fin c : nF XRn) m = Ok (Fin (c * ((b - a) / INR (S - 4)) / Rabs (vel + cs)) : nF XRn).
Proof.
  intros S md a b c vel cs HS Hab Hc Hne m.
  destruct (rdemo Isot S (14 / 10) cs (fun j _ => match j with 0%nat => 1 | _ => vel end) m HS) as (v & _ & Co & W & _ & P & Q).
  exists (one_state v). cbn [cent one_state]. split; [exact Co|]. split; [exact W|].
  assert (PQ : forall i, (i < S)%nat -> at2 (n0 XRn) (prim v) 0 i = Fin 1 /\ at2 (n0 XRn) (prim v) 1 i = Fin vel /\ at1 (n0 XRn) (c_sound v) i = Fin cs).
  { intros i Hi. split; [apply (P 0%nat i); cbn; lia|]. split; [apply (P 1%nat i); cbn; lia|]. apply Q; auto. }
  split; [exact PQ|].
  pose proof (cfl_mesh Isot S md a b c (one_state v) _ _ (fun _ => vel) (fun _ => cs) ltac:(lia) Hab Hc Co) as K.
  specialize (K ltac:(apply W) ltac:(intros i Hi; split; apply PQ; exact Hi)). fold m in K.
  destruct (st_calc_dt_cfl Isot S (one_state v) (Fin c : nF XRn) m) as [x|e| |]; try contradiction.
  - destruct x as [dt| | |]; try contradiction. destruct K as (K1 & _ & i & Hi & K3). unfold hx in K3.
    assert (Rabs (vel + cs) <> 0) by (apply Rabs_no_R0; exact Hne).
    assert (Ed : dt = c * ((b - a) / INR (S - 4)) / Rabs (vel + cs)) by (rewrite <- K3; field; assumption). rewrite Ed. reflexivity.
  - destruct e; try contradiction. exfalso. apply Hne. apply (K 0%nat). lia.
Qed.

(** ** Repeated calls that leave the time alone *)
Lemma solver_next_static : forall A (N : numflux_impl A) val fuel p S m (s s' : sim A N) o, solver_next val fuel p S m s = (s', o) ->
  rk_bt (s_rk s') = rk_bt (s_rk s) /\ ts_dt_min (s_ts s') = ts_dt_min (s_ts s) /\ ts_dt_max (s_ts s') = ts_dt_max (s_ts s) /\
  ts_t_next (s_ts s') = ts_t_next (s_ts s).
Proof.
  intros A N val fuel p S m s s' o E. unfold solver_next in E. destruct (rkf_next val fuel p S m s) as [s1 o1] eqn:E1.
  assert (Es : s' = s1).
  { destruct o1 as [[]|e| |]; try (injection E as <- _; reflexivity).
    destruct (ts_iter_max (s_ts s1) <=? ts_iter (s_ts s1))%N; injection E as <- _; reflexivity. }
  subst s1. destruct (rkf_next_cases _ _ _ _ _ _ _ _ _ _ E1) as (R & _ & T & _).
  destruct T as (_ & _ & T1 & T2 & _ & _ & T3). destruct R as (R1 & _). auto.
Qed.

Lemma stuck_n : forall A (N : numflux_impl A) val fuel p S m (P : timestep A -> Prop) bt,
  (forall s s' o, rk_bt (s_rk s) = bt -> P (s_ts s) -> solver_next (N:=N) val fuel p S m s = (s', o) -> ts_t (s_ts s') = ts_t (s_ts s)) ->
  (forall t t', P t -> ts_dt_min t' = ts_dt_min t -> ts_dt_max t' = ts_dt_max t -> ts_t_next t' = ts_t_next t -> ts_t t' = ts_t t -> P t') ->
  forall n s s' o, rk_bt (s_rk s) = bt -> P (s_ts s) -> next_n (N:=N) val fuel p S m n s = (s', o) -> ts_t (s_ts s') = ts_t (s_ts s).
Proof.
  intros A N val fuel p S m P bt Hs HP. induction n as [|n IH]; intros s s' o Hb Hp E; cbn [next_n] in E; [injection E as <- _; reflexivity|].
  destruct (solver_next val fuel p S m s) as [s1 o1] eqn:E1. pose proof (Hs _ _ _ Hb Hp E1) as T.
  destruct (solver_next_static _ _ _ _ _ _ _ _ _ _ E1) as (S1 & S2 & S3 & S4).
  destruct o1 as [x|e| |]; [|injection E as <- _; exact T..].
  rewrite <- T. apply (IH _ _ _ (eq_trans S1 Hb) (HP _ _ Hp S2 S3 S4 T) E).
Qed.

Lemma fresh_step_R : forall (N : numflux_impl XRn) val fuel p S m (s s' : sim XRn N) o t,
  bt_asc (rk_bt (s_rk s)) = false ->
  xlt (Fin 0) (ts_dt_min (s_ts s)) -> xlt (Fin 0) (ts_dt_max (s_ts s)) ->
  ts_t (s_ts s) = Fin t -> 0 <= t -> ts_t_next (s_ts s) = ts_t (s_ts s) ->
  solver_next val fuel p S m s = (s', o) -> ts_t (s_ts s') = ts_t (s_ts s).
Proof.
  intros N val fuel p S m s s' o t Ha Hmin Hmax Ft Ht Hn E.
  unfold solver_next in E. destruct (rkf_next val fuel p S m s) as [s1 o1] eqn:E1.
  assert (Es : s' = s1).
  { destruct o1 as [[]|e| |]; try (apply (f_equal fst) in E; cbn [fst] in E; congruence).
    destruct (ts_iter_max (s_ts s1) <=? ts_iter (s_ts s1))%N; apply (f_equal fst) in E; cbn [fst] in E; congruence. }
  subst s'. clear E.
  destruct (rkf_next_cases _ _ _ _ _ _ _ _ _ _ E1) as (_ & _ & _ & _ & [(_ & _ & T)|(k & _ & [(_ & _ & T)|(v & _ & _ & [(e & _ & _ & _ & T)|(-> & _ & T)])])]); auto.
  destruct (next_dt _ _ _ _ _ _ _ _ _ Ha E1) as (dt & C & L & D).
  apply cfl_fin in C. apply xfin_inv in C. destruct C as (d & ->).
  assert (Hd : 0 < d).
  { destruct (ts_dt_min (s_ts s)) as [x| | |]; cbn [xlt] in Hmin; try contradiction.
    - rewrite X_ltb in L. destruct (Rlt_dec d x); [discriminate|lra].
    - discriminate L. }
  destruct (cap_R (ts_set_dt (Fin d : nF XRn) (s_ts s)) d t t eq_refl Ft) as (d' & D1 & D2 & D3 & _).
  { cbn [ts_t_next ts_set_dt]. congruence. } { lra. } { lra. }
  { cbn [ts_dt_max ts_set_dt]. destruct (ts_dt_max (s_ts s)); cbn [xlt xle] in *; auto; lra. }
  { right. split; [exact Hd|exact Hmax]. }
  rewrite T, D, D1, Ft, X_add. f_equal. lra.
Qed.

Lemma fin_nonneg : forall x y : b64, xle (Fin 0) (b2x x) -> xlt (b2x x) (b2x y) -> is_finite x = true /\ 0 <= B2R x.
Proof.
  intros x y V0 V1. destruct x as [z|z| |z mm e B]; cbn [b2x xle xlt] in V0; try contradiction; auto.
  exfalso. destruct z; cbn [b2x xle xlt] in V0, V1; [exact V0|]. destruct (b2x y); exact V1.
Qed.
