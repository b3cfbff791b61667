(** A uniform state stays uniform: proofs. *)

From Coq Require Import ZArith NArith List Bool Lia.
From Verif Require Import Base Num Config Mesh State NumFlux Time Spec SpecFlow SpecStep SpecEuler SpecFlat
  MeshProofs BoundaryProofs PhysicsProofs FluxProofs UpdateProofs FluxThms StepProofs StepInv StepEq EulerStep EulerThms.
Import ListNotations.
Local Open Scope nat_scope.

Section Flat.
Variable A : Num.
Variables (p : phys) (S : nat) (c0 : mesh_config A).
Hypothesis HS : 5 <= S.
Let m := mesh_build S c0.
Notation F := (nF A).
Notation ng p := (init_bc BNoGradients (nE p)).

(** the same values in all computational cells *)
Definition flat_in (c : list (list F)) : Prop :=
  forall j i k, j < nE p -> 2 <= i <= S - 3 -> 2 <= k <= S - 3 -> at2 (n0 A) c j i = at2 (n0 A) c j k.

Lemma flat_scaled : forall x k c, flat_in k -> flat_in c -> flat_in (sub_scaled (nE p) S x k c).
Proof.
  intros x k c Hk Hc j i l Hj Hi Hl. unfold sub_scaled. rewrite !at2_mtab by (assumption || lia).
  rewrite (Hk j i l), (Hc j i l) by assumption. reflexivity.
Qed.

Lemma flat_nil : flat_in [].
Proof. intros j i k _ _ _. unfold at2. destruct j; destruct i; destruct k; reflexivity. Qed.

Lemma flat_combine : forall dt b k o c, (forall q, flat_in (nth q k [])) -> flat_in c -> flat_in (rkf_combine (nE p) S dt b k o c).
Proof.
  intros dt b k o c Hk. unfold rkf_combine. generalize (seq 0 o) as l. intros l. revert c.
  induction l as [|q l IH]; intros c H; cbn [fold_left]; [assumption|]. apply IH. apply flat_scaled; auto.
Qed.

(** ** Updating from uniform conserved variables *)
Lemma flat_update : forall v, wsv A p S v -> flat_in (cons v) ->
  (forall i k, i < S -> k < S -> at1 (n0 A) (c_sound v) i = at1 (n0 A) (c_sound v) k) ->
  exists v', update_vars_from_cons p S (ng p) (ng p) m v = Ok v' /\ wsv A p S v' /\ uniform_vars p S v' /\
    (forall j i k, j < nE p -> i < S -> k < S -> at2 (n0 A) (eigen_vals v') j i = at2 (n0 A) (eigen_vals v') j k).
Proof.
  intros v W Hc Hs. destruct (ng_cons A p S m v HS W) as (v' & E & P). exists v'. split; [exact E|].
  destruct (update_from_cons_view A p S _ _ m v v' HS W E) as (W' & _ & _ & _ & _ & V). split; [exact W'|].
  assert (Hp : forall j i k, j < nE p -> i < S -> k < S -> at2 (n0 A) (prim v') j i = at2 (n0 A) (prim v') j k).
  { intros j i k Hj Hi Hk. rewrite !P by assumption. apply c2p_ext. intros l Hl. apply Hc; [exact Hl| |].
    - pose proof (clamp_interior S i HS) as [? ?]. lia.
    - pose proof (clamp_interior S k HS) as [? ?]. lia. }
  assert (Hcs : forall i k, i < S -> k < S -> at1 (n0 A) (c_sound v') i = at1 (n0 A) (c_sound v') k).
  { intros i k Hi Hk. destruct (V i Hi) as (_ & X & _). destruct (V k Hk) as (_ & Y & _). rewrite X, Y, (Hs i k) by assumption.
    apply kt_sound_ext. intros l Hl. apply Hp; assumption. }
  split; [split; [exact Hp|split; [|exact Hcs]]|].
  - intros j i k Hj Hi Hk. destruct (V i Hi) as (X & _). destruct (V k Hk) as (Y & _). rewrite X, Y by assumption.
    apply p2c_ext. intros l Hl. apply Hp; assumption.
  - intros j i k Hj Hi Hk. destruct (V i Hi) as (_ & _ & X). destruct (V k Hk) as (_ & _ & Y). rewrite X, Y by assumption.
    rewrite (Hcs i k), (Hp 1 i k) by (assumption || (destruct p; cbn; lia)). reflexivity.
Qed.

(** ** HLL *)
Lemma flat_hll_fn : forall v j i k, wsv A p S v -> uniform_vars p S v ->
  (forall j i k, j < nE p -> i < S -> k < S -> at2 (n0 A) (eigen_vals v) j i = at2 (n0 A) (eigen_vals v) j k) ->
  j < nE p -> i + 1 < S -> k + 1 < S -> hll_fn A p S v j i = hll_fn A p S v j k.
Proof.
  intros v j i k W (Hp & Hc & Hs) He Hj Hi Hk. unfold hll_fn.
  assert (Fx : forall i k, i < S -> k < S -> at2 (n0 A) (flux (update_flux p S v)) j i = at2 (n0 A) (flux (update_flux p S v)) j k).
  { intros a b Ha Hb. rewrite !update_flux_at by (assumption || apply W). rewrite (Hs a b) by assumption.
    apply pflux_ext; intros l Hl; [apply Hp|apply Hc]; assumption. }
  assert (N1 : 0 < nE p /\ nE p - 1 < nE p) by (destruct p; cbn; lia).
  rewrite (He 0 i k), (He 0 (i + 1) (k + 1)), (He (nE p - 1) i k), (He (nE p - 1) (i + 1) (k + 1)), (Fx i k), (Fx (i + 1) (k + 1)), (Hc j i k), (Hc j (i + 1) (k + 1)) by (assumption || lia).
  reflexivity.
Qed.

Lemma dddv_flat : forall i k, i < S -> k < S -> at1 (n0 A) (m_deta_dphi_d_volume m) i = at1 (n0 A) (m_deta_dphi_d_volume m) k.
Proof.
  assert (Z : forall (f : F -> F) (l : list F) d i, i < length l -> nth i (map f l) d = f (nth i l d)).
  { intros f l d i Hi. rewrite nth_indep with (d' := f d) by (rewrite map_length; exact Hi). apply map_nth. }
  intros i k Hi Hk.
  assert (G : forall i, i < S -> at1 (n0 A) (m_deta_dphi_d_volume m) i =
     ndiv A (nmul A (n1 A) (n1 A)) (nadd A (nEPS A) (nmul A (nmul A (nmul A (nmul A (nmul A (n1 A) (n1 A)) (n1 A)) (m_dxi m)) (n1 A)) (n1 A)))).
  { intros x Hx. unfold m, mesh_build. cbn [m_deta_dphi_d_volume m_dxi].
    assert (L : forall (g : F -> F) (h : nat -> F), map g (tab S h) = tab S (fun i => g (h i))) by (intros; unfold tab; rewrite map_map; reflexivity).
    assert (ZW : forall (f : F -> F -> F) (g h : nat -> F), zipw A f (tab S g) (tab S h) = tab S (fun i => f (g i) (h i))).
    { intros f g h. unfold zipw, tab. generalize (seq 0 S) as l. induction l as [|y l IH]; cbn; [reflexivity|]. f_equal. exact IH. }
    rewrite !L. rewrite !ZW. rewrite !L. rewrite at1_tab by exact Hx. reflexivity. }
  rewrite (G i Hi), (G k Hk). reflexivity.
Qed.

Lemma flat_rhs : forall val (h : rhs A (Hll A)) u h' w o, wss p S u -> flat_in (cons (cent u)) ->
  (forall i k, i < S -> k < S -> at1 (n0 A) (c_sound (cent u)) i = at1 (n0 A) (c_sound (cent u)) k) ->
  r_bw h = ng p -> r_be h = ng p ->
  rhs_update val p S h u m = (h', w, o) -> flat_in (r_full h') /\ r_bw h' = ng p /\ r_be h' = ng p.
Proof.
  intros val h u h' w o (W & _) Hc Hs Bw Be E. destruct (flat_update _ W Hc Hs) as (v' & Ev & W' & U & He).
  unfold rhs_update, st_update_from_cons in E. rewrite Bw, Be, Ev in E. cbn [bind] in E.
  destruct (nf_calc (Hll A) val p S (r_nf h) (r_full h) (set_cent v' u) m) as [[[n d] x] o1] eqn:En.
  apply (f_equal (fun x => r_full (fst (fst x)))) in E as E1. cbn [fst r_full] in E1.
  apply (f_equal (fun x => r_bw (fst (fst x)))) in E as E2. cbn [fst r_bw] in E2.
  apply (f_equal (fun x => r_be (fst (fst x)))) in E as E3. cbn [fst r_be] in E3.
  rewrite <- E1, <- E2, <- E3. split; [|auto]. intros j i k Hj Hi Hk.
  assert (K : forall i, 2 <= i <= S - 3 -> at2 (n0 A) d j i = nmul A (at1 (n0 A) (m_deta_dphi_d_volume m) i) (nsub A (hll_fn A p S v' j i) (hll_fn A p S v' j (i - 1)))).
  { intros l Hl. pose proof (hll_dflux A val p S (r_nf h) (r_full h) (set_cent v' u) m (std_build A S c0) j l Hj ltac:(lia)) as Q.
    cbn [nf_calc Hll] in En. rewrite En in Q. cbn [fst snd cent set_cent] in Q.
    replace ((2 <=? l) && (l <=? S - 3)) with true in Q by (symmetry; apply andb_true_intro; split; apply Nat.leb_le; lia). exact Q. }
  rewrite (K i Hi), (K k Hk), (dddv_flat i k), (flat_hll_fn v' j i k), (flat_hll_fn v' j (i - 1) (k - 1)) by (assumption || lia). reflexivity.
Qed.

Lemma flat_value : forall val (h : rhs A (Hll A)) u h' w o j i, wss p S u -> uniform_vars p S (cent u) ->
  r_bw h = ng p -> r_be h = ng p -> rhs_update val p S h u m = (h', w, o) -> j < nE p -> 2 <= i <= S - 3 ->
  let x := at2 (n0 A) (h_flux_num (r_nf h')) j i in
  at2 (n0 A) (r_full h') j i = nmul A (at1 (n0 A) (m_deta_dphi_d_volume m) i) (nsub A x x).
Proof.
  intros val h u h' w o j i Wu (_ & Uc & Us) Bw Be E Hj Hi.
  destruct (flat_update (cent u) ltac:(apply Wu) ltac:(intros a b d Ha Hb Hd; apply Uc; lia) Us) as (v' & Ev & W' & U' & He).
  unfold rhs_update, st_update_from_cons in E. rewrite Bw, Be, Ev in E. cbn [bind] in E.
  destruct (nf_calc (Hll A) val p S (r_nf h) (r_full h) (set_cent v' u) m) as [[[n d] x] o1] eqn:En.
  apply (f_equal (fun x => fst (fst x))) in E. cbn [fst] in E. subst h'. cbn [r_full r_nf] in *.
  pose proof (hll_dflux A val p S (r_nf h) (r_full h) (set_cent v' u) m (std_build A S c0) j i Hj ltac:(lia)) as Q.
  pose proof (hll_num A val p S (r_nf h) (r_full h) (set_cent v' u) m (std_build A S c0) j i Hj ltac:(lia) ltac:(lia) ltac:(lia)) as K.
  cbn [nf_calc Hll] in En. rewrite En in Q, K. cbn [fst snd cent set_cent] in Q, K.
  replace ((2 <=? i) && (i <=? S - 3)) with true in Q by (symmetry; apply andb_true_intro; split; apply Nat.leb_le; lia).
  rewrite Q. rewrite (flat_hll_fn v' j (i - 1) i W' U' He Hj ltac:(lia) ltac:(lia)). rewrite <- K. reflexivity.
Qed.

Notation SS k h := (same_setup p S (fun _ : nf_T (Hll A) => True) k h k h).
Let Hm : memoryless (Hll A) p S m (fun _ => True) := hll_memoryless A p S m HS (std_build A S c0).

Lemma flat_stages : forall val dt u, wss p S u -> flat_in (cons (cent u)) ->
  (forall i k, i < S -> k < S -> at1 (n0 A) (c_sound (cent u)) i = at1 (n0 A) (c_sound (cent u)) k) ->
  forall qs (k : rkf A) (h : rhs A (Hll A)) k' h' o, SS k h -> (forall q, flat_in (nth q (rk_k k) [])) ->
  r_bw h = ng p -> r_be h = ng p -> rkf_stages val p S m dt u qs k h = (k', h', o) ->
  (forall q, flat_in (nth q (rk_k k') [])) /\ r_bw h' = ng p /\ r_be h' = ng p.
Proof.
  intros val dt u Hu Hc Hs. induction qs as [|q qs IH]; intros k h k' h' o Hk Fk Bw Be E; cbn [rkf_stages] in E.
  - injection E as <- <- <-. auto.
  - cbn [cent state_assign] in E. cbn [cons vars_assign set_c_sound set_cons set_prim] in E.
    set (c := fold_left (fun c pp => sub_scaled (nE p) S (nmul A dt (at2 (n0 A) (bt_a (rk_bt k)) pp q)) (nth pp (rk_k k) []) c) (seq 0 q) (cons (cent u))) in *.
    assert (G : forall l x, shape (nE p) S x -> flat_in x -> let y := fold_left (fun c pp => sub_scaled (nE p) S (nmul A dt (at2 (n0 A) (bt_a (rk_bt k)) pp q)) (nth pp (rk_k k) []) c) l x in shape (nE p) S y /\ flat_in y).
    { induction l as [|y l IHl]; intros x Hx Fx; cbn [fold_left]; [split; assumption|]. apply IHl; [apply shape_mtab|]. apply flat_scaled; auto. }
    destruct (G (seq 0 q) (cons (cent u)) ltac:(apply Hu) Hc) as (Hcs & Hcf). fold c in Hcs, Hcf.
    change (set_cent (set_cons c (vars_assign (cent (rk_utilde k)) (cent u))) (state_assign (rk_utilde k) u)) with (stage_state A c (rk_utilde k) u) in E.
    destruct (rhs_update val p S h (stage_state A c (rk_utilde k) u) m) as [[g w] o1] eqn:R.
    pose proof (stage_keeps A (Hll A) p S m (fun _ => True) HS Hm val c u k h g w o1 Hu Hcs Hk R) as Kp.
    assert (Wt : wss p S (stage_state A c (rk_utilde k) u)).
    { destruct Hk as [_ S1 S2 Sg _ _ _ _ _ _ _]. destruct (same_stage A p S c _ _ u Hu S1 S2 Sg Hcs) as (X1 & X2 & X3). split; [apply X1|split; [apply X2|apply X3]]. }
    destruct (flat_rhs val h _ g w o1 Wt Hcf Hs Bw Be R) as (Fg & Gw & Ge).
    destruct o1 as [[]|e| |].
    2,3,4: injection E as <- <- <-; cbn [rk_k rk_set_utilde]; auto.
    assert (K2 : same_setup p S (fun _ : nf_T (Hll A) => True) k h (rk_set_k (upd q (r_full g) (rk_k (rk_set_utilde w k))) (rk_set_utilde w k)) g).
    { destruct Kp as [a1 a2 a3 a4 a5 a6 a7 a8 a9 a10 a11]. split; cbn [rk_utilde rk_bt rk_set_utilde rk_set_k] in *; auto. }
    eapply IH; [| | | |exact E]; auto.
    + eapply same_setup_trans; [eapply same_setup_sym; exact K2|exact K2].
    + cbn [rk_k rk_set_k rk_set_utilde]. intros q'. destruct (Nat.eq_dec q' q) as [->|Hne].
      * destruct (Nat.lt_ge_cases q (length (rk_k k))) as [L|L]; [rewrite nth_upd_eq by exact L; exact Fg|].
        rewrite nth_overflow by (rewrite length_upd; exact L). apply flat_nil.
      * rewrite nth_upd_ne by auto. apply Fk.
Qed.

Lemma flat_calc : forall val dt u (k : rkf A) (h : rhs A (Hll A)) k' h' o, wss p S u -> flat_in (cons (cent u)) ->
  (forall i k, i < S -> k < S -> at1 (n0 A) (c_sound (cent u)) i = at1 (n0 A) (c_sound (cent u)) k) ->
  SS k h -> r_bw h = ng p -> r_be h = ng p -> calc_rkf_solution val p S dt u k h m = (k', h', o) ->
  (forall q, flat_in (nth q (rk_k k') [])).
Proof.
  intros val dt u k h k' h' o Hu Hc Hs SS0 Bw Be E. unfold calc_rkf_solution in E.
  set (z := repeat (zeros2 (A:=A) (nE p) S) (bt_order (rk_bt k))) in *.
  destruct (rkf_stages val p S m dt u (seq 0 (bt_order (rk_bt k))) (rk_set_k z k) h) as [[l g] o1] eqn:R.
  assert (SZ : SS (rk_set_k z k) h) by (destruct SS0; split; cbn [rk_utilde rk_bt rk_set_k] in *; auto).
  assert (FZ : forall q, flat_in (nth q (rk_k (rk_set_k z k)) [])).
  { intros q. cbn [rk_k rk_set_k]. unfold z. destruct (Nat.lt_ge_cases q (bt_order (rk_bt k))) as [L|L].
    - rewrite nth_repeat_lt by exact L. intros j a b Hj Ha Hb. unfold zeros2, at2. rewrite nth_repeat_lt by exact Hj. unfold at1, zeros. rewrite !nth_repeat_lt by lia. reflexivity.
    - rewrite nth_overflow by (rewrite repeat_length; exact L). apply flat_nil. }
  destruct (flat_stages val dt u Hu Hc Hs _ _ _ _ _ _ SZ FZ Bw Be R) as (Fl & _).
  destruct o1 as [[]|e| |]; [|injection E as <- <- <-; exact Fl..].
  cbn [rk_accepted rk_set_utilde] in E.
  destruct (rk_accepted l);
  match type of E with context [if val then ?x else _] => destruct (if val then x else Ok tt) as [[]|e1| |] end;
  injection E as <- <- <-; exact Fl.
Qed.

Lemma flat_next : forall val fuel (s s' : sim A (Hll A)) o, solver_ok p S (fun _ => True) s ->
  r_bw (s_rhs s) = ng p -> r_be (s_rhs s) = ng p ->
  uniform_vars p S (cent (s_u s)) -> rkf_next val fuel p S m s = (s', o) -> uniform_vars p S (cent (s_u s')).
Proof.
  intros val fuel s s' o (Hu & Hg & Hss) Bw Be U E. pose proof U as (_ & Uc & Us).
  assert (Fc : flat_in (cons (cent (s_u s)))) by (intros j i k Hj Hi Hk; apply Uc; lia).
  unfold rkf_next in E.
  destruct (calc_dt_expl p S (ts_set_iter (ts_iter (s_ts s) + 1)%N (s_ts s)) (s_u s) m) as [ts1 o1].
  destruct o1 as [[]|e| |]; [|injection E as <- <-; exact U..].
  destruct (rkf_asc val fuel p S (cap_dt ts1) (s_u s) (s_rk s) (s_rhs s) m) as [[[ts2 rk2] rh2] o2] eqn:E2.
  pose proof (rkf_asc_keep A (Hll A) p S m _ HS Hm val (s_u s) fuel (cap_dt ts1) _ _ _ _ _ _ Hu Hss E2) as K2.
  apply rkf_asc_static in E2. destruct E2 as (G1 & (W2 & W3) & _).
  destruct o2 as [[]|e| |]; [|injection E as <- <-; exact U..].
  assert (SS2 : SS rk2 rh2) by (eapply same_setup_trans; [eapply same_setup_sym; exact K2|exact K2]).
  destruct (calc_rkf_solution val p S (ts_dt ts2) (s_u s) rk2 rh2 m) as [[rk3 rh3] o3] eqn:E3.
  pose proof (flat_calc val (ts_dt ts2) (s_u s) rk2 rh2 rk3 rh3 o3 Hu Fc Us SS2 ltac:(congruence) ltac:(congruence) E3) as Fk.
  pose proof (calc_static A (Hll A) _ _ _ _ _ _ _ _ _ _ _ E3) as (_ & (W4 & W5) & _ & Hc3).
  destruct o3 as [x|e| |]; [|injection E as <- <-; exact U..].
  specialize (Hc3 x eq_refl). rewrite Hc3 in E.
  set (c := rkf_combine _ _ _ _ _ _ _) in E.
  assert (Hcf : flat_in c) by (apply flat_combine; assumption).
  assert (Hcs : shape (nE p) S c) by (apply shape_combine; apply Hu).
  assert (W1 : wsv A p S (set_cons c (cent (s_u s)))) by (apply wsv_set_cons; [apply Hu|exact Hcs]).
  destruct (flat_update (set_cons c (cent (s_u s))) W1 Hcf Us) as (v' & Ev & _ & Uv & _).
  unfold st_update_from_cons in E. cbn [cent set_cent] in E. rewrite W4, W5, W2, W3, Bw, Be, Ev in E. cbn [bind] in E.
  destruct (if val then _ else _) as [[]|e| |] in E; injection E as <- <-; exact Uv.
Qed.
End Flat.
