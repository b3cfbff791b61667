(** The checked loops compute the element formulas: numerical fluxes. *)

From Coq Require Import List ZArith NArith QArith Bool Lia Permutation.
From Verif Require Import Base Num Config Mesh State NumFlux Time Writer Runner Spec SpecFlow SpecStep PhysicsProofs BoundaryProofs FluxProofs PanicProofs Loops LoopBase LoopProofs.
Import ListNotations.
Local Open Scope nat_scope.

Section Flux.
Variable A : Num.
Notation F := (nF A).
Variable ord : nat -> nat -> list nat.
Hypothesis ord_ok : forall l n, Permutation (ord l n) (seq 0 n).

Lemma par_assign_ok : forall l S lo hi f g dst, length dst = S -> lo <= hi + 1 -> hi + 1 <= S -> (forall k, k < hi + 1 - lo -> f k = Ok (g k)) ->
  par_assign ord l lo hi (hi + 1 - lo) f dst = Ok (upd_range (n0 A) S lo hi (fun i => g (i - lo)) dst).
Proof.
  intros l S lo hi f g dst L H1 H2 Hf. unfold par_assign. rewrite (slice_ok _ (n0 A) _ _ _ S) by assumption. cbn [bind].
  rewrite length_tab, Nat.eqb_refl.
  assert (Hl : forall k, In k (ord l (hi + 1 - lo)) -> k < hi + 1 - lo).
  { intros k Hk. apply (Permutation_in _ (ord_ok _ _)) in Hk. apply in_seq in Hk. lia. }
  rewrite (loop_vec _ (n0 A) S lo g).
  - f_equal. apply tab_ext. intros i Hi. rewrite (mem_perm _ _ _ (ord_ok _ _)), mem_seq.
    destruct (Nat.leb_spec lo i); cbn [andb]; [|reflexivity].
    destruct (Nat.leb_spec i hi); destruct (Nat.ltb_spec (i - lo) (0 + (hi + 1 - lo))); try lia; reflexivity.
  - exact L.
  - intros k Hk. apply Hl in Hk. lia.
  - intros k v Hk Hv. apply Hl in Hk. rewrite Hf by exact Hk. cbn [bind]. apply wr1_ok. lia.
Qed.

Lemma rd1_tab : forall X n (f : nat -> X) k, k < n -> rd1 (tab n f) k = Ok (f k).
Proof. intros X n f k H. rewrite (rd1_ok _ (f 0)) by (rewrite length_tab; exact H). rewrite nth_tab by exact H. reflexivity. Qed.

Lemma par2_ok : forall l S lo hi f a b dst, length dst = S -> lo <= hi + 1 -> hi + 1 <= S ->
  par2 ord l lo hi f (tab (hi + 1 - lo) a) (tab (hi + 1 - lo) b) dst = Ok (upd_range (n0 A) S lo hi (fun i => f (a (i - lo)) (b (i - lo))) dst).
Proof.
  intros l S lo hi f a b dst L H1 H2. unfold par2. rewrite !length_tab, Nat.eqb_refl.
  apply (par_assign_ok l S lo hi _ (fun k => f (a k) (b k))); try assumption. intros k Hk. rewrite !rd1_tab by exact Hk. reflexivity.
Qed.

Lemma par3_ok : forall l S lo hi f a b c dst, length dst = S -> lo <= hi + 1 -> hi + 1 <= S ->
  par3 ord l lo hi f (tab (hi + 1 - lo) a) (tab (hi + 1 - lo) b) (tab (hi + 1 - lo) c) dst
  = Ok (upd_range (n0 A) S lo hi (fun i => f (a (i - lo)) (b (i - lo)) (c (i - lo))) dst).
Proof.
  intros l S lo hi f a b c dst L H1 H2. unfold par3. rewrite !length_tab, Nat.eqb_refl. cbn [andb].
  apply (par_assign_ok l S lo hi _ (fun k => f (a k) (b k) (c k))); try assumption. intros k Hk. rewrite !rd1_tab by exact Hk. reflexivity.
Qed.

(** A loop that fills the columns [lo .. hi] of every row. *)
Lemma rows_range : forall e S lo hi f g (m : list (list F)), shape e S m ->
  (forall j r, j < e -> length r = S -> f j r = Ok (upd_range (n0 A) S lo hi (g j) r)) ->
  for_in (range 0 e) (fun j m => on_row j (f j) m) m = Ok (upd_range2 e S lo hi g m).
Proof.
  intros e S lo hi f g m Hm Hf.
  rewrite (loop_rows _ e S (fun j r => upd_range (n0 A) S lo hi (g j) r)); [|exact Hm| | | |].
  - f_equal. unfold upd_range2, mtab. apply tab_ext. intros j Hj. unfold range. rewrite mem_seq.
    destruct (Nat.leb_spec 0 j); [|lia]. destruct (Nat.ltb_spec j (0 + (e - 0))); [|lia]. cbn [andb]. unfold upd_range. apply tab_ext. intros i Hi. reflexivity.
  - intros j Hj. apply in_seq in Hj. lia.
  - apply seq_NoDup.
  - intros j r _ Hr. apply length_upd_range.
  - intros j q Hj Hq. apply in_seq in Hj. apply (on_row_ok _ e S); [exact Hq|lia|]. apply Hf; [lia|]. apply (shape_row _ e); [exact Hq|lia].
Qed.

Lemma calc_dfluxL_ok : forall E S dflux fnum m, 5 <= S -> mesh_rows A S m -> shape E S dflux -> shape E S fnum ->
  calc_dfluxL E dflux fnum m = Ok (calc_dflux_generic E S dflux fnum m).
Proof.
  intros E S dflux fnum m HS (I1 & I2 & M) Hd Hf. unfold calc_dfluxL, calc_dflux_generic. rewrite I1, I2. rewrite !usub_ok by lia. cbn [bind].
  apply (rows_range E S 2 (S - 3)); [exact Hd|]. intros j r Hj Hr.
  assert (Lf : length (nth j fnum []) = S) by (apply (shape_row _ E); assumption).
  rewrite (slice_ok _ (n0 A) 2 (S - 3) _ S) by (apply M || lia). cbn [bind]. rewrite (rd1_row _ E S) by assumption. cbn [bind].
  rewrite (slice_ok _ (n0 A) 2 (S - 3) _ S) by (assumption || lia). cbn [bind].
  rewrite (slice_ok _ (n0 A) (2 - 1) (S - 3 - 1) _ S) by (assumption || lia). cbn [bind].
  replace (S - 3 - 1 + 1 - (2 - 1)) with (S - 3 + 1 - 2) by lia.
  rewrite zip2_tab. cbn [bind]. rewrite zip2_tab. cbn [bind].
  rewrite (assign_slice_ok _ (n0 A) _ _ S) by (assumption || lia). f_equal. apply upd_range_ext. intros i Hi Hi'. unfold at2, at1.
  replace (2 + (i - 2)) with i by lia. replace (2 - 1 + (i - 2)) with (i - 1) by lia. reflexivity.
Qed.

Definition hll_sized (p : phys) (S : nat) (h : hll A) : Prop :=
  length (h_sl h) = S /\ length (h_sr h) = S /\ length (h_inv h) = S /\ length (h_srsl h) = S /\ shape (nE p) S (h_flux_num h).
Definition kt_sized (p : phys) (S : nat) (k : kt A) : Prop :=
  length (k_a_plus k) = S /\ length (k_a_minus k) = S /\ length (k_b k) = S /\ length (k_c k) = S /\ shape (nE p) S (k_flux_num k) /\
  length (k_dist_west k) = S /\ length (k_dist_east k) = S.

Lemma shape_upd_range2 : forall e n lo hi f (m : list (list F)), shape e n (upd_range2 e n lo hi f m).
Proof. intros. apply shape_mtab. Qed.

Ltac sl S :=
  match goal with |- context [bind (slice ?lo ?hi ?v) _] =>
    rewrite (slice_ok _ (n0 A) lo hi v S) by (first [assumption | apply length_upd_range | lia]); cbn [bind] end;
  try replace (S - 3 + 1 + 1 - 2) with (S - 3 + 1 - 1) by lia.

Lemma hllL_ok : forall v p S h dflux u m, 5 <= S -> mesh_rows A S m -> hll_sized p S h -> shape (nE p) S dflux -> wss p S u ->
  hll_calcL ord v p S h dflux u m = hll_calc v p S h dflux u m.
Proof.
  intros v p S h dflux u m HS Hm (L1 & L2 & L3 & L4 & L5) Hd (Hc & Hw & He). pose proof Hm as (I1 & I2 & M).
  assert (E2 : 2 <= nE p) by (destruct p; cbn; lia).
  unfold hll_calcL, hll_stepL, hll_calc. rewrite update_fluxL_ok by exact Hc. cbn [bind].
  pose proof (wsv_update_flux A p S (cent u) Hc) as Hf. set (c := update_flux p S (cent u)) in *.
  destruct Hf as (F1 & F2 & F3 & F4 & F5). cbn [cent set_cent].
  rewrite (rd1_row _ (nE p) S) by (assumption || lia). cbn [bind]. rewrite usub_ok by lia. cbn [bind].
  rewrite (rd1_row _ (nE p) S) by (assumption || lia). cbn [bind]. rewrite I1, I2. rewrite usub_ok by lia. cbn [bind]. cbn [Nat.sub].
  fold (eigen_min c) (eigen_max p c).
  assert (Lmin : length (eigen_min c) = S) by (apply (shape_row _ (nE p)); [exact F3|lia]).
  assert (Lmax : length (eigen_max p c) = S) by (apply (shape_row _ (nE p)); [exact F3|lia]).
  sl S. sl S. rewrite (par2_ok _ S) by (assumption || lia). cbn [bind].
  rewrite (upd_range_ext _ (n0 A) S 1 (S - 3) _ (fun i => nmin A (n0 A) (nmin A (at1 (n0 A) (eigen_min c) i) (at1 (n0 A) (eigen_min c) (i + 1))))).
  2:{ intros i Hi _. replace (1 + (i - 1)) with i by lia. replace (2 + (i - 1)) with (i + 1) by lia. reflexivity. }
  set (sl := upd_range (n0 A) S 1 (S - 3) (fun i => nmin A (n0 A) (nmin A (at1 (n0 A) (eigen_min c) i) (at1 (n0 A) (eigen_min c) (i + 1)))) (h_sl h)).
  assert (Lsl : length sl = S) by apply length_upd_range.
  sl S. sl S. rewrite (par2_ok _ S) by (assumption || lia). cbn [bind].
  rewrite (upd_range_ext _ (n0 A) S 1 (S - 3) _ (fun i => nmax A (n0 A) (nmax A (at1 (n0 A) (eigen_max p c) i) (at1 (n0 A) (eigen_max p c) (i + 1))))).
  2:{ intros i Hi _. replace (1 + (i - 1)) with i by lia. replace (2 + (i - 1)) with (i + 1) by lia. reflexivity. }
  set (sr := upd_range (n0 A) S 1 (S - 3) (fun i => nmax A (n0 A) (nmax A (at1 (n0 A) (eigen_max p c) i) (at1 (n0 A) (eigen_max p c) (i + 1)))) (h_sr h)).
  assert (Lsr : length sr = S) by apply length_upd_range.
  sl S. sl S. rewrite (par2_ok _ S) by (assumption || lia). cbn [bind].
  rewrite (upd_range_ext _ (n0 A) S 1 (S - 3) _ (fun i => ndiv A (n1 A) (nsub A (at1 (n0 A) sr i) (at1 (n0 A) sl i)))).
  2:{ intros i Hi _. replace (1 + (i - 1)) with i by lia. reflexivity. }
  set (inv := upd_range (n0 A) S 1 (S - 3) (fun i => ndiv A (n1 A) (nsub A (at1 (n0 A) sr i) (at1 (n0 A) sl i))) (h_inv h)).
  assert (Linv : length inv = S) by apply length_upd_range.
  rewrite (par2_ok _ S) by (assumption || lia). cbn [bind].
  rewrite (upd_range_ext _ (n0 A) S 1 (S - 3) _ (fun i => nmul A (at1 (n0 A) sr i) (at1 (n0 A) sl i))).
  2:{ intros i Hi _. replace (1 + (i - 1)) with i by lia. reflexivity. }
  set (srsl := upd_range (n0 A) S 1 (S - 3) (fun i => nmul A (at1 (n0 A) sr i) (at1 (n0 A) sl i)) (h_srsl h)).
  assert (Lsrsl : length srsl = S) by apply length_upd_range.
  rewrite (rows_range (nE p) S 1 (S - 3) _ (fun j i => (at1 (n0 A) inv i * (at1 (n0 A) sr i * at2 (n0 A) (flux c) j i - at1 (n0 A) sl i * at2 (n0 A) (flux c) j (i + 1)
       + at1 (n0 A) srsl i * (at2 (n0 A) (cons c) j (i + 1) - at2 (n0 A) (cons c) j i)))%num)); [|exact L5|].
  2:{ intros j r Hj Hr.
      assert (R1 : length (nth j (flux c) []) = S) by (apply (shape_row _ (nE p)); assumption).
      assert (R2 : length (nth j (cons c) []) = S) by (apply (shape_row _ (nE p)); assumption).
      repeat first [sl S | rewrite (rd1_row _ (nE p) S) by assumption; cbn [bind]].
      repeat (rewrite zip2_tab; cbn [bind]).
      rewrite (assign_slice_ok _ (n0 A) _ _ S) by (assumption || lia). f_equal. apply upd_range_ext. intros i Hi _.
      replace (1 + (i - 1)) with i by lia. replace (2 + (i - 1)) with (i + 1) by lia. reflexivity. }
  cbn [bind]. rewrite (calc_dfluxL_ok _ S) by (try assumption; apply shape_upd_range2). reflexivity.
Qed.

Lemma hll_sized_calc : forall v p S h dflux u m, hll_sized p S (fst (fst (fst (hll_calc v p S h dflux u m)))).
Proof. intros. unfold hll_calc, hll_sized. cbn [fst]. repeat match goal with |- _ /\ _ => split end; cbn; try apply length_upd_range. apply shape_upd_range2. Qed.

Lemma hll_sized_new : forall p S c m h, hll_new p S c m = Ok h -> hll_sized p S h.
Proof.
  intros p S c m h H. unfold hll_new in H. destruct c; [|discriminate]. injection H as <-. unfold hll_sized; cbn. unfold zeros. rewrite !repeat_length.
  repeat match goal with |- _ /\ _ => split end; try reflexivity. apply PhysicsProofs.shape_zeros2.
Qed.

(** ** Kurganov-Tadmor *)
Lemma dist_ok : forall S (v c : list F), length v = S -> length c = S ->
  for_in (range 0 S) (fun i d => do x <- rd1 v i; do y <- rd1 c i; Ok (d ++ [nsub A x y])) [] = Ok (tab S (fun i => nsub A (at1 (n0 A) v i) (at1 (n0 A) c i))).
Proof.
  intros S v c Hv Hc. unfold range, tab. rewrite Nat.sub_0_r.
  assert (G : forall n a d, a + n <= S -> for_in (seq a n) (fun i d => do x <- rd1 v i; do y <- rd1 c i; Ok (d ++ [nsub A x y])) d
    = Ok (d ++ map (fun i => nsub A (at1 (n0 A) v i) (at1 (n0 A) c i)) (seq a n))).
  { induction n as [|n IH]; intros a d Ha; cbn [seq for_in map]; [rewrite app_nil_r; reflexivity|].
    rewrite (rd1_at _ (n0 A) v a S) by (assumption || lia). cbn [bind]. rewrite (rd1_at _ (n0 A) c a S) by (assumption || lia). cbn [bind].
    rewrite IH by lia. rewrite <- app_assoc. reflexivity. }
  rewrite G by lia. reflexivity.
Qed.

Lemma kt_newL_ok : forall p S c m, mesh_rows A S m -> kt_newL p S c m = kt_new p S c m.
Proof.
  intros p S c m (_ & _ & M1 & M2 & M3 & _). unfold kt_newL, kt_new. destruct c; [reflexivity|].
  rewrite (dist_ok S (m_xi_west m)) by assumption. cbn [bind]. rewrite (dist_ok S (m_xi_east m)) by assumption. reflexivity.
Qed.

Lemma kt_sized_new : forall p S c m k, kt_new p S c m = Ok k -> kt_sized p S k.
Proof.
  intros p S c m h H. unfold kt_new in H. destruct c; [discriminate|]. injection H as <-. unfold kt_sized; cbn. unfold zeros. rewrite !repeat_length, !length_tab.
  repeat match goal with |- _ /\ _ => split end; try reflexivity. apply PhysicsProofs.shape_zeros2.
Qed.

(** nested loops writing one element of each of two matrices *)
Lemma loop_pair_cols : forall e S j (gw ge : nat -> F) f l (w x : list (list F)), shape e S w -> shape e S x -> j < e -> (forall i, In i l -> i < S) ->
  (forall i w x, In i l -> shape e S w -> shape e S x -> f i (w, x) = Ok (upd2 j i (gw i) w, upd2 j i (ge i) x)) ->
  for_in l f (w, x) = Ok (fold_left (fun w i => upd2 j i (gw i) w) l w, fold_left (fun x i => upd2 j i (ge i) x) l x).
Proof.
  intros e S j gw ge f l. induction l as [|i l IH]; intros w x Hw Hx Hj Hl Hf; cbn [for_in fold_left]; [reflexivity|].
  rewrite Hf by (try (left; reflexivity); assumption). cbn [bind]. apply IH; try assumption; try (apply shape_upd2; assumption).
  - intros k Hk. apply Hl. right. exact Hk.
  - intros k a b Hk. apply Hf. right. exact Hk.
Qed.

Lemma cols_fold : forall e S j (g : nat -> F) l w, shape e S w -> j < e -> (forall i, In i l -> i < S) ->
  fold_left (fun w i => upd2 j i (g i) w) l w = mtab e S (fun a i => if (a =? j) && mem i l then g i else at2 (n0 A) w a i).
Proof.
  intros e S j g l. induction l as [|i l IH]; intros w Hw Hj Hl; cbn [fold_left].
  - rewrite (mat_tab _ (n0 A) e S w Hw) at 1. unfold mtab. apply tab_ext. intros a Ha. apply tab_ext. intros i Hi. rewrite andb_false_r. reflexivity.
  - rewrite IH; [|apply shape_upd2; exact Hw|exact Hj|intros k Hk; apply Hl; right; exact Hk].
    unfold mtab. apply tab_ext. intros a Ha. apply tab_ext. intros k Hk.
    rewrite (at2_upd2 _ (n0 A) (g i) e S w j i a k Hw Hj) by (apply Hl; left; reflexivity).
    change (mem k (i :: l)) with ((k =? i) || mem k l). rewrite (Nat.eqb_sym j a), (Nat.eqb_sym i k).
    destruct (a =? j); cbn [andb]; [|reflexivity]. destruct (Nat.eqb_spec k i) as [->|]; cbn [orb]; [|reflexivity]. destruct (mem i l); reflexivity.
Qed.

Lemma shape_cols_fold : forall e S j (g : nat -> F) l w, shape e S w -> shape e S (fold_left (fun w i => upd2 j i (g i) w) l w).
Proof. intros e S j g l. induction l as [|i l IH]; intros w Hw; cbn [fold_left]; [exact Hw|]. apply IH. apply shape_upd2. exact Hw. Qed.

Lemma rows_fold : forall e S lo hi (g : nat -> nat -> F) js w, shape e S w -> (forall j, In j js -> j < e) -> hi < S ->
  fold_left (fun w j => fold_left (fun w i => upd2 j i (g j i) w) (range lo (hi + 1)) w) js w
  = mtab e S (fun a i => if mem a js && ((lo <=? i) && (i <=? hi)) then g a i else at2 (n0 A) w a i).
Proof.
  intros e S lo hi g js. induction js as [|j js IH]; intros w Hw Hj Hh; cbn [fold_left].
  - rewrite (mat_tab _ (n0 A) e S w Hw) at 1. reflexivity.
  - assert (Hj0 : j < e) by (apply Hj; left; reflexivity).
    assert (Hr : forall i, In i (range lo (hi + 1)) -> i < S) by (intros i Hi; apply in_seq in Hi; lia).
    rewrite IH; [|apply shape_cols_fold; exact Hw|intros k Hk; apply Hj; right; exact Hk|exact Hh].
    unfold mtab at 1 2. apply tab_ext. intros a Ha. apply tab_ext. intros i Hi.
    rewrite (cols_fold e S) by assumption. rewrite at2_mtab by assumption. change (mem a (j :: js)) with ((a =? j) || mem a js).
    assert (Em : mem i (range lo (hi + 1)) = (lo <=? i) && (i <=? hi)).
    { unfold range. rewrite mem_seq. destruct (Nat.leb_spec lo i); cbn [andb]; [|reflexivity].
      destruct (Nat.leb_spec i hi); destruct (Nat.ltb_spec i (lo + (hi + 1 - lo))); try lia; reflexivity. }
    rewrite Em. destruct (Nat.eqb_spec a j) as [->|]; cbn [orb]; destruct (mem _ js); cbn [andb]; try reflexivity. destruct ((lo <=? i) && (i <=? hi)); reflexivity.
Qed.

Lemma kt_reconL_ok : forall k p S u, 5 <= S -> kt_sized p S k -> wss p S u -> kt_reconstructL k (nE p) S u = Ok (kt_reconstruct k (nE p) S u).
Proof.
  intros k p S u HS (_ & _ & _ & _ & _ & K1 & K2) (Hc & Hw & He). unfold kt_reconstructL, kt_reconstruct. rewrite usub_ok by lia. cbn [bind].
  replace (S - 1) with (S - 2 + 1) by lia.
  set (c := cons (cent u)).
  set (gw := fun j i => (at2 (n0 A) c j i + kt_slope k c j i * at1 (n0 A) (k_dist_west k) i)%num).
  set (ge := fun j i => (at2 (n0 A) c j i + kt_slope k c j i * at1 (n0 A) (k_dist_east k) i)%num).
  match goal with |- bind (for_in ?l ?f ?a) _ = _ =>
    assert (G : for_in l f a = Ok (fold_left (fun w j => fold_left (fun w i => upd2 j i (gw j i) w) (range 1 (S - 2 + 1)) w) l (fst a),
                                   fold_left (fun w j => fold_left (fun w i => upd2 j i (ge j i) w) (range 1 (S - 2 + 1)) w) l (snd a))) end.
  { assert (Hl : forall j, In j (range 0 (nE p)) -> j < nE p) by (intros j Hj; apply in_seq in Hj; lia). cbn [fst snd].
    assert (W0 : shape (nE p) S (cons (west u))) by apply Hw. assert (E0 : shape (nE p) S (cons (east u))) by apply He.
    revert Hl W0 E0. generalize (cons (west u)), (cons (east u)). induction (range 0 (nE p)) as [|j l IH]; intros w x Hl W0 E0; cbn [for_in fold_left]; [reflexivity|].
    assert (Hj : j < nE p) by (apply Hl; left; reflexivity).
    rewrite (loop_pair_cols (nE p) S j (gw j) (ge j)); [cbn [bind]; apply IH|exact W0|exact E0|exact Hj| |].
    - intros i Hi. apply Hl. right. exact Hi.
    - apply shape_cols_fold. exact W0.
    - apply shape_cols_fold. exact E0.
    - intros i Hi. apply in_seq in Hi. lia.
    - intros i a b Hi Ha Hb. apply in_seq in Hi. destruct Hc as (_ & C2 & _). cbn [fst snd].
      rewrite usub_ok by lia. cbn [bind]. rewrite !(rd2_ok _ (n0 A) (nE p) S) by (assumption || lia). cbn [bind].
      rewrite (rd1_at _ (n0 A) _ i S K1) by lia. cbn [bind]. rewrite (wr2_ok _ (nE p) S) by (assumption || lia). cbn [bind].
      rewrite (rd1_at _ (n0 A) _ i S K2) by lia. cbn [bind]. rewrite (wr2_ok _ (nE p) S) by (assumption || lia). reflexivity. }
  rewrite G. cbn [bind fst snd].
  rewrite !(rows_fold (nE p) S 1 (S - 2)); try lia; try (apply Hw); try (apply He); try (intros j Hj; apply in_seq in Hj; lia).
  do 2 f_equal; f_equal; unfold upd_range2, mtab; apply tab_ext; intros a Ha; apply tab_ext; intros i Hi; unfold range; rewrite mem_seq;
    (destruct (Nat.leb_spec 0 a); [|lia]); (destruct (Nat.ltb_spec a (0 + (nE p - 0))); [|lia]); reflexivity.
Qed.

Lemma wsv_face : forall p S v, wsv A p S v -> wsv A p S (kt_face p S v).
Proof. intros p S v H. unfold kt_face. apply wsv_update_flux. apply wsv_eigen_max. apply wsv_eigen_min. apply wsv_c_sound. apply wsv_update_prim. exact H. Qed.

Lemma ktL_ok : forall v p S k dflux u m, 5 <= S -> mesh_rows A S m -> kt_sized p S k -> shape (nE p) S dflux -> wss p S u ->
  kt_calcL ord v p S k dflux u m = kt_calc v p S k dflux u m.
Proof.
  intros v p S h dflux u m HS Hm Hk Hd Hu. pose proof Hk as (L1 & L2 & L3 & L4 & L5 & L6 & L7). pose proof Hu as (Hc & Hw & He). pose proof Hm as (I1 & I2 & _ & _ & _ & _ & _ & _ & MA).
  assert (E2 : 2 <= nE p) by (destruct p; cbn; lia).
  unfold kt_calcL, kt_stepL, kt_calc. rewrite kt_reconL_ok by assumption. cbn [bind].
  set (u0 := kt_reconstruct h (nE p) S u). 
  assert (W0 : wsv A p S (west u0)) by (destruct Hw as (Q1 & Q2 & Q3); split; [exact Q1|]; split; [apply shape_upd_range2|exact Q3]).
  assert (E0 : wsv A p S (east u0)) by (destruct He as (Q1 & Q2 & Q3); split; [exact Q1|]; split; [apply shape_upd_range2|exact Q3]).
  rewrite update_primL_ok by exact W0. cbn [bind]. rewrite update_primL_ok by exact E0. cbn [bind].
  rewrite update_c_soundL_ok by (apply wsv_update_prim; exact W0). cbn [bind]. rewrite update_c_soundL_ok by (apply wsv_update_prim; exact E0). cbn [bind].
  rewrite (eigen_minL_ok A p S) by (apply wsv_c_sound, wsv_update_prim; exact W0). cbn [bind]. rewrite (eigen_minL_ok A p S) by (apply wsv_c_sound, wsv_update_prim; exact E0). cbn [bind].
  rewrite (eigen_maxL_ok A p S) by (apply wsv_eigen_min, wsv_c_sound, wsv_update_prim; exact W0). cbn [bind]. rewrite (eigen_maxL_ok A p S) by (apply wsv_eigen_min, wsv_c_sound, wsv_update_prim; exact E0). cbn [bind].
  rewrite update_fluxL_ok by (apply wsv_eigen_max, wsv_eigen_min, wsv_c_sound, wsv_update_prim; exact W0). cbn [bind].
  rewrite update_fluxL_ok by (apply wsv_eigen_max, wsv_eigen_min, wsv_c_sound, wsv_update_prim; exact E0). cbn [bind].
  fold (kt_face p S (west u0)) (kt_face p S (east u0)). cbn [cent west east].
  pose proof (wsv_face p S _ W0) as (F1 & F2 & F3 & F4 & F5). pose proof (wsv_face p S _ E0) as (G1 & G2 & G3 & G4 & G5).
  set (w := kt_face p S (west u0)) in *. set (e := kt_face p S (east u0)) in *.
  rewrite usub_ok by lia. cbn [bind]. do 4 (rewrite (rd1_row _ (nE p) S) by (assumption || lia); cbn [bind]).
  rewrite I1, I2. rewrite usub_ok by lia. cbn [bind]. cbn [Nat.sub].
  fold (eigen_min w) (eigen_max p w) (eigen_min e) (eigen_max p e).
  assert (Lwmin : length (eigen_min w) = S) by (apply (shape_row _ (nE p)); [exact F3|lia]).
  assert (Lwmax : length (eigen_max p w) = S) by (apply (shape_row _ (nE p)); [exact F3|lia]).
  assert (Lemin : length (eigen_min e) = S) by (apply (shape_row _ (nE p)); [exact G3|lia]).
  assert (Lemax : length (eigen_max p e) = S) by (apply (shape_row _ (nE p)); [exact G3|lia]).
  sl S. sl S. rewrite (par2_ok _ S) by (assumption || lia). cbn [bind].
  rewrite (upd_range_ext _ (n0 A) S 1 (S - 3) _ (fun i => mmax (n0 A) (mmax (at1 (n0 A) (eigen_max p w) (i + 1)) (at1 (n0 A) (eigen_max p e) i)))).
  2:{ intros i Hi _. replace (1 + (i - 1)) with i by lia. replace (2 + (i - 1)) with (i + 1) by lia. reflexivity. }
  set (ap := upd_range (n0 A) S 1 (S - 3) (fun i => mmax (n0 A) (mmax (at1 (n0 A) (eigen_max p w) (i + 1)) (at1 (n0 A) (eigen_max p e) i))) (k_a_plus h)).
  assert (Lap : length ap = S) by apply length_upd_range.
  sl S. sl S. rewrite (par2_ok _ S) by (assumption || lia). cbn [bind].
  rewrite (upd_range_ext _ (n0 A) S 1 (S - 3) _ (fun i => mmin (n0 A) (mmin (at1 (n0 A) (eigen_min w) (i + 1)) (at1 (n0 A) (eigen_min e) i)))).
  2:{ intros i Hi _. replace (1 + (i - 1)) with i by lia. replace (2 + (i - 1)) with (i + 1) by lia. reflexivity. }
  set (am := upd_range (n0 A) S 1 (S - 3) (fun i => mmin (n0 A) (mmin (at1 (n0 A) (eigen_min w) (i + 1)) (at1 (n0 A) (eigen_min e) i))) (k_a_minus h)).
  assert (Lam : length am = S) by apply length_upd_range.
  sl S. sl S. sl S. rewrite (par3_ok _ S) by (assumption || lia). cbn [bind].
  rewrite (upd_range_ext _ (n0 A) S 1 (S - 3) _ (fun i => ndiv A (at1 (n0 A) (m_d_area_east m) i) (nsub A (at1 (n0 A) ap i) (at1 (n0 A) am i)))).
  2:{ intros i Hi _. replace (1 + (i - 1)) with i by lia. reflexivity. }
  set (b := upd_range (n0 A) S 1 (S - 3) (fun i => ndiv A (at1 (n0 A) (m_d_area_east m) i) (nsub A (at1 (n0 A) ap i) (at1 (n0 A) am i))) (k_b h)).
  assert (Lb : length b = S) by apply length_upd_range.
  rewrite (par2_ok _ S) by (assumption || lia). cbn [bind].
  rewrite (upd_range_ext _ (n0 A) S 1 (S - 3) _ (fun i => nmul A (at1 (n0 A) ap i) (at1 (n0 A) am i))).
  2:{ intros i Hi _. replace (1 + (i - 1)) with i by lia. reflexivity. }
  set (c := upd_range (n0 A) S 1 (S - 3) (fun i => nmul A (at1 (n0 A) ap i) (at1 (n0 A) am i)) (k_c h)).
  assert (Lc : length c = S) by apply length_upd_range.
  rewrite (rows_range (nE p) S 1 (S - 3) _ (fun j i => (at1 (n0 A) b i * (at1 (n0 A) ap i * at2 (n0 A) (flux e) j i - at1 (n0 A) am i * at2 (n0 A) (flux w) j (i + 1)
       + at1 (n0 A) c i * (at2 (n0 A) (cons w) j (i + 1) - at2 (n0 A) (cons e) j i)))%num)); [|exact L5|].
  2:{ intros j r Hj Hr.
      assert (R1 : length (nth j (flux e) []) = S) by (apply (shape_row _ (nE p)); assumption).
      assert (R2 : length (nth j (flux w) []) = S) by (apply (shape_row _ (nE p)); assumption).
      assert (R3 : length (nth j (cons w) []) = S) by (apply (shape_row _ (nE p)); assumption).
      assert (R4 : length (nth j (cons e) []) = S) by (apply (shape_row _ (nE p)); assumption).
      repeat first [sl S | rewrite (rd1_row _ (nE p) S) by assumption; cbn [bind]].
      repeat (rewrite zip2_tab; cbn [bind]).
      rewrite (assign_slice_ok _ (n0 A) _ _ S) by (assumption || lia). f_equal. apply upd_range_ext. intros i Hi _.
      replace (1 + (i - 1)) with i by lia. replace (2 + (i - 1)) with (i + 1) by lia. reflexivity. }
  cbn [bind]. rewrite (calc_dfluxL_ok _ S) by (try assumption; apply shape_upd_range2). reflexivity.
Qed.

Lemma kt_sized_calc : forall v p S k dflux u m, kt_sized p S k -> kt_sized p S (fst (fst (fst (kt_calc v p S k dflux u m)))).
Proof.
  intros v p S k dflux u m (L1 & L2 & L3 & L4 & L5 & L6 & L7). unfold kt_calc, kt_sized. cbn [fst k_a_plus k_a_minus k_b k_c k_flux_num k_dist_west k_dist_east].
  repeat match goal with |- _ /\ _ => split end; try apply length_upd_range; try assumption. apply shape_upd_range2.
Qed.
End Flux.
