(** The checked loops compute the element formulas: time stepping. *)

From Coq Require Import List ZArith NArith QArith Bool Lia Permutation.
From Verif Require Import Base Num Config Mesh State NumFlux Time Writer Runner Spec SpecFlow SpecStep PhysicsProofs BoundaryProofs FluxProofs StepInv Loops LoopBase LoopProofs.
Import ListNotations.
Local Open Scope nat_scope.

Section Step.
Variable A : Num.
Notation F := (nF A).
Variable N : numflux_impl A.
Variable calc : bool -> phys -> nat -> nf_T N -> list (list F) -> state A -> mesh A -> (nf_T N * list (list F) * state A) * res unit.
Variable p : phys.
Variable S : nat.
Variable m : mesh A.
Variable good : nf_T N -> Prop.
Hypothesis HS : 5 <= S.
Hypothesis Hm : mesh_rows A S m.
Hypothesis calc_ok : forall v n d u, good n -> shape (nE p) S d -> wss p S u -> calc v p S n d u m = nf_calc N v p S n d u m.
Hypothesis calc_inv : forall v n d u n' d' u' o, good n -> shape (nE p) S d -> wss p S u -> nf_calc N v p S n d u m = (n', d', u', o) ->
  good n' /\ shape (nE p) S d' /\ wss p S u'.

Definition rhs_sized (r : rhs A N) : Prop := good (r_nf r) /\ shape (nE p) S (r_full r).
Definition bt_sized (bt : butcher A) : Prop :=
  shape (bt_order bt) (bt_order bt) (bt_a bt) /\ length (bt_high bt) = bt_order bt /\ length (bt_low bt) = bt_order bt.
Definition k_sized (n : nat) (k : list (list (list F))) : Prop := length k = n /\ forall q, q < n -> shape (nE p) S (nth q k []).
Definition rkf_sized (rk : rkf A) : Prop :=
  bt_sized (rk_bt rk) /\ k_sized (bt_order (rk_bt rk)) (rk_k rk) /\ shape (nE p) S (rk_low rk) /\ wss p S (rk_utilde rk).
Definition sim_sized (s : sim A N) : Prop := wss p S (s_u s) /\ rkf_sized (s_rk s) /\ rhs_sized (s_rhs s).

Lemma from_cons_eq : forall bw be (u : state A), wss p S u ->
  update_vars_from_consL p S bw be m (cent u) = update_vars_from_cons p S bw be m (cent u).
Proof. intros bw be u Hu. apply from_consL_ok; [lia|exact Hm|apply Hu]. Qed.

Lemma wss_cent : forall (u : state A) v, wss p S u -> wsv A p S v -> wss p S (set_cent v u).
Proof. intros u v (_ & H2 & H3) H. split; [exact H|]. split; [exact H2|exact H3]. Qed.

Lemma rhsL_ok : forall v r u, rhs_sized r -> wss p S u -> rhs_updateL calc v p S r u m = rhs_update v p S r u m.
Proof.
  intros v r u (Hr1 & Hr2) Hu. unfold rhs_updateL, rhs_update, st_update_from_cons. rewrite from_cons_eq by exact Hu.
  destruct (update_vars_from_cons p S (r_bw r) (r_be r) m (cent u)) as [c|e| |] eqn:E; cbn [bind]; try reflexivity.
  rewrite calc_ok; [reflexivity|exact Hr1|exact Hr2|]. apply wss_cent; [exact Hu|]. eapply from_cons_wsv; [|exact E]. apply Hu.
Qed.

Lemma rhs_inv : forall v r u r' u' o, rhs_sized r -> wss p S u -> rhs_update v p S r u m = (r', u', o) -> rhs_sized r' /\ wss p S u'.
Proof.
  intros v r u r' u' o Hr Hu H. unfold rhs_update, st_update_from_cons in H.
  destruct (update_vars_from_cons p S (r_bw r) (r_be r) m (cent u)) as [c|e| |] eqn:E; cbn [bind] in H; try (injection H as <- <- <-; auto).
  destruct (nf_calc N v p S (r_nf r) (r_full r) (set_cent c u) m) as [[[n' d'] u2] o2] eqn:C. injection H as <- <- <-. destruct Hr as (Hr1 & Hr2).
  assert (Hc : wss p S (set_cent c u)) by (apply wss_cent; [exact Hu|]; eapply from_cons_wsv; [|exact E]; apply Hu).
  destruct (calc_inv _ _ _ _ _ _ _ _ Hr1 Hr2 Hc C) as (G & D & U).
  split; [split; [exact G|exact D]|exact U].
Qed.

Lemma sub_scaledL_ok : forall c k mm, shape (nE p) S k -> shape (nE p) S mm -> sub_scaledL (A:=A) c k mm = Ok (sub_scaled (A:=A) (nE p) S c k mm).
Proof.
  intros c k mm Hk Hmm. unfold sub_scaledL, sub_scaled.
  assert (Hk' : shape (nE p) S (map (map (fun x => nmul A c x)) k)).
  { destruct Hk as (K1 & K2). split; [rewrite map_length; exact K1|]. intros j Hj.
    change (@nil F) with (map (fun x => nmul A c x) []). rewrite map_nth, map_length. apply K2. exact Hj. }
  rewrite (mzip2_ok _ _ _ (n0 A) (n0 A) _ (nE p) S) by assumption. f_equal. unfold mtab. apply tab_ext. intros j Hj. apply tab_ext. intros i Hi. f_equal.
  unfold at2. change (@nil F) with (map (fun x => nmul A c x) []) at 1. rewrite map_nth.
  destruct Hk as (_ & K2). rewrite (nth_indep _ (n0 A) (nmul A c (n0 A))) by (rewrite map_length, K2; assumption).
  rewrite (map_nth (fun x => nmul A c x)). reflexivity.
Qed.

Lemma combine_loop : forall dt (b : list F) k l c n, k_sized n k -> length b = n -> (forall q, In q l -> q < n) -> shape (nE p) S c ->
  for_in l (fun q c => do x <- rd1 b q; do kq <- rd1 k q; sub_scaledL (A:=A) (nmul A dt x) kq c) c
  = Ok (fold_left (fun c q => sub_scaled (A:=A) (nE p) S (nmul A dt (at1 (n0 A) b q)) (nth q k []) c) l c).
Proof.
  intros dt b k l. induction l as [|q l IH]; intros c n (K1 & K2) Hb Hl Hc; cbn [for_in fold_left]; [reflexivity|].
  assert (Hq : q < n) by (apply Hl; left; reflexivity).
  rewrite (rd1_at _ (n0 A) b q n) by assumption. cbn [bind]. rewrite (rd1_ok _ [] k q) by lia. cbn [bind].
  rewrite sub_scaledL_ok by (auto). cbn [bind]. apply (IH _ n); [split; assumption|exact Hb|intros x Hx; apply Hl; right; exact Hx|apply shape_mtab].
Qed.

Lemma combineL_ok : forall dt b k n dst c, k_sized n k -> length b = n -> shape (nE p) S dst -> shape (nE p) S c ->
  rkf_combineL (A:=A) dt b k n dst c = Ok (rkf_combine (A:=A) (nE p) S dt b k n c).
Proof.
  intros dt b k n dst c Hk Hb Hd Hc. unfold rkf_combineL, rkf_combine. rewrite (assign2_ok _ (nE p) S) by assumption. cbn [bind].
  unfold range. rewrite Nat.sub_0_r. apply (combine_loop dt b k _ c n); try assumption. intros q Hq. apply in_seq in Hq. lia.
Qed.

Definition stage_state (dt : F) (u : state A) (q : nat) (rk : rkf A) : state A :=
  let ut := state_assign (rk_utilde rk) u in
  set_cent (set_cons (fold_left (fun c pp => sub_scaled (A:=A) (nE p) S (nmul A dt (at2 (n0 A) (bt_a (rk_bt rk)) pp q)) (nth pp (rk_k rk) []) c) (seq 0 q) (cons (cent ut))) (cent ut)) ut.

Lemma shape_fold_sub : forall (f : nat -> F) (g : nat -> list (list F)) l c, shape (nE p) S c ->
  shape (nE p) S (fold_left (fun c q => sub_scaled (A:=A) (nE p) S (f q) (g q) c) l c).
Proof. intros f g l. induction l as [|q l IH]; intros c Hc; cbn [fold_left]; [exact Hc|]. apply IH. apply shape_mtab. Qed.

Lemma stage_wss : forall dt u q rk, rkf_sized rk -> wss p S u -> wss p S (stage_state dt u q rk).
Proof.
  intros dt u q rk (_ & _ & _ & Hu') Hu. pose proof (wss_assign A p S _ _ Hu' Hu) as Ha. apply wss_cent; [exact Ha|].
  apply wsv_set_cons; [apply Ha|]. apply shape_fold_sub. apply Ha.
Qed.

Lemma stage_startL_ok : forall dt u q rk, rkf_sized rk -> wss p S u -> q < bt_order (rk_bt rk) ->
  stage_startL dt u q rk = Ok (stage_state dt u q rk).
Proof.
  intros dt u q rk ((B1 & B2 & B3) & (K1 & K2) & _ & Hu') Hu Hq. unfold stage_startL, stage_state. rewrite (state_assign_okL A p S) by assumption. cbn [bind].
  pose proof (wss_assign A p S _ _ Hu' Hu) as Ha. set (ut := state_assign (rk_utilde rk) u) in *.
  unfold range. rewrite Nat.sub_0_r.
  assert (G : forall l c, (forall x, In x l -> x < q) -> shape (nE p) S c ->
    for_in l (fun pp c => do a <- rd2 (bt_a (rk_bt rk)) pp q; do k <- rd1 (rk_k rk) pp; sub_scaledL (nmul A dt a) k c) c
    = Ok (fold_left (fun c pp => sub_scaled (A:=A) (nE p) S (nmul A dt (at2 (n0 A) (bt_a (rk_bt rk)) pp q)) (nth pp (rk_k rk) []) c) l c)).
  { induction l as [|x l IH]; intros c Hl Hc; cbn [for_in fold_left]; [reflexivity|].
    assert (Hx : x < q) by (apply Hl; left; reflexivity).
    rewrite (rd2_ok _ (n0 A) (bt_order (rk_bt rk)) (bt_order (rk_bt rk))) by (assumption || lia). cbn [bind].
    rewrite (rd1_ok _ []) by lia. cbn [bind]. rewrite sub_scaledL_ok by (try assumption; apply K2; lia). cbn [bind].
    apply IH; [intros y Hy; apply Hl; right; exact Hy|apply shape_mtab]. }
  rewrite G; [reflexivity| |apply Ha]. intros x Hx. apply in_seq in Hx. lia.
Qed.

Lemma rkf_sized_utilde : forall rk u, rkf_sized rk -> wss p S u -> rkf_sized (rk_set_utilde u rk).
Proof. intros rk u (H1 & H2 & H3 & H4) Hu. split; [exact H1|]. split; [exact H2|]. split; [exact H3|exact Hu]. Qed.

Lemma k_sized_upd : forall n k q r, k_sized n k -> shape (nE p) S r -> k_sized n (upd q r k).
Proof.
  intros n k q r (H1 & H2) Hr. split; [rewrite length_upd; exact H1|]. intros j Hj. rewrite nth_upd. destruct (Nat.eqb_spec q j) as [->|]; cbn [andb].
  - destruct (Nat.ltb_spec j (length k)); [exact Hr|lia].
  - apply H2. exact Hj.
Qed.

Lemma stagesL_ok : forall v dt u qs rk rh, wss p S u -> rkf_sized rk -> rhs_sized rh -> (forall q, In q qs -> q < bt_order (rk_bt rk)) ->
  rkf_stagesL calc v p S m dt u qs rk rh = rkf_stages v p S m dt u qs rk rh /\
  forall rk' rh' o, rkf_stages v p S m dt u qs rk rh = (rk', rh', o) -> rkf_sized rk' /\ rhs_sized rh' /\ rk_bt rk' = rk_bt rk /\ rk_accepted rk' = rk_accepted rk.
Proof.
  intros v dt u qs. induction qs as [|q qs IH]; intros rk rh Hu Hk Hr Hq; cbn [rkf_stagesL rkf_stages].
  - split; [reflexivity|]. intros rk' rh' o H. injection H as <- <- <-. auto.
  - assert (Hq0 : q < bt_order (rk_bt rk)) by (apply Hq; left; reflexivity).
    rewrite stage_startL_ok by assumption.
    change (set_cent _ (state_assign (rk_utilde rk) u)) with (stage_state dt u q rk).
    pose proof (stage_wss dt u q rk Hk Hu) as Hs. rewrite rhsL_ok by assumption.
    destruct (rhs_update v p S rh (stage_state dt u q rk) m) as [[rh1 ut] o1] eqn:E. destruct (rhs_inv _ _ _ _ _ _ Hr Hs E) as (Hr1 & Hut).
    destruct o1 as [[]|e| |]; cbn [rk_set_utilde rk_k].
    + pose proof Hk as (B & (K1 & K2) & L & U).
      rewrite (rd1_ok _ []) by (rewrite K1; exact Hq0). cbn [bind]. rewrite (assign2_ok _ (nE p) S); [|apply K2; exact Hq0|apply Hr1]. cbn [bind].
      rewrite wr1_ok by (rewrite K1; exact Hq0).
      change (mkRkf (rk_bt rk) (rk_k rk) (rk_err_new rk) (rk_err_old rk) (rk_n_asc rk) (rk_rtol rk) (rk_atol rk) (rk_friction rk) (rk_accepted rk) (rk_low rk) ut) with (rk_set_utilde ut rk).
      assert (Hk1 : rkf_sized (rk_set_k (upd q (r_full rh1) (rk_k rk)) (rk_set_utilde ut rk))).
      { split; [exact B|]. split; [apply k_sized_upd; [split; assumption|apply Hr1]|]. split; [exact L|exact Hut]. }
      destruct (IH _ rh1 Hu Hk1 Hr1 (fun x Hx => Hq x (or_intror Hx))) as (I1 & I2). split; [exact I1|]. intros rk' rh' o H. exact (I2 _ _ _ H).
    + split; [reflexivity|]. intros rk' rh' o H. injection H as <- <- <-. split; [|auto]. apply rkf_sized_utilde; assumption.
    + split; [reflexivity|]. intros rk' rh' o H. injection H as <- <- <-. split; [|auto]. apply rkf_sized_utilde; assumption.
    + split; [reflexivity|]. intros rk' rh' o H. injection H as <- <- <-. split; [|auto]. apply rkf_sized_utilde; assumption.
Qed.

Lemma slices_ok : forall (q : list (list F)) acc, (forall r, In r q -> length r = S) ->
  for_in q (fun r l => do x <- slice 2 (S - 3) r; Ok (l ++ [x])) acc = Ok (acc ++ map (fun r => tab (S - 4) (fun i => at1 (n0 A) r (2 + i))) q).
Proof.
  induction q as [|r q IH]; intros acc Hq; cbn [for_in map]; [rewrite app_nil_r; reflexivity|].
  rewrite (slice_ok _ (n0 A) 2 (S - 3) r S) by (try (apply Hq; left; reflexivity); lia). cbn [bind].
  rewrite IH by (intros x Hx; apply Hq; right; exact Hx). rewrite <- app_assoc. replace (S - 3 + 1 - 2) with (S - 4) by lia. reflexivity.
Qed.

Lemma shape_in : forall E (q : list (list F)), shape E S q -> forall r, In r q -> length r = S.
Proof. intros E q (H1 & H2) r Hr. destruct (In_nth _ _ [] Hr) as (j & Hj & <-). apply H2. lia. Qed.

Lemma map_rows : forall E (q : list (list F)), shape E S q -> map (fun r => tab (S - 4) (fun i => at1 (n0 A) r (2 + i))) q = mtab E (S - 4) (fun j i => at2 (n0 A) q j (2 + i)).
Proof.
  intros E q (H1 & H2). rewrite <- (tab_self _ [] E q H1) at 1. rewrite map_tab. unfold mtab. apply tab_ext. intros j Hj. reflexivity.
Qed.

Lemma fold_concat : forall (z : list (list F)) a, fold_left (nmax A) (concat z) a = fold_left (fun a r => fold_left (nmax A) r a) z a.
Proof. induction z as [|r z IH]; intros a; cbn [concat fold_left]; [reflexivity|]. rewrite fold_left_app. apply IH. Qed.

Lemma fold_seq_shift : forall Y (f : Y -> nat -> Y) n k y, fold_left (fun a i => f a (k + i)) (seq 0 n) y = fold_left f (seq k n) y.
Proof.
  intros Y f. assert (G : forall n k s y, fold_left (fun a i => f a (k + i)) (seq s n) y = fold_left f (seq (k + s) n) y).
  { intros n. induction n as [|n' IH]; intros k s y; cbn [seq fold_left]; [reflexivity|]. rewrite IH. replace (k + Datatypes.S s) with (Datatypes.S (k + s)) by lia. reflexivity. }
  intros n k y. rewrite G, Nat.add_0_r. reflexivity.
Qed.

Lemma fold_ext_in : forall X Y (f g : Y -> X -> Y) l y, (forall y x, In x l -> f y x = g y x) -> fold_left f l y = fold_left g l y.
Proof. intros X Y f g l. induction l as [|x l IH]; intros y H; cbn [fold_left]; [reflexivity|]. rewrite H by (left; reflexivity). apply IH. intros z w Hw. apply H. right. exact Hw. Qed.

Lemma asc_errorL_ok : forall rt at_ high low, shape (nE p) S high -> shape (nE p) S low ->
  asc_errorL (A:=A) S rt at_ high low = Ok (asc_error (A:=A) (nE p) S rt at_ high low).
Proof.
  intros rt at_ high low Hh Hl. unfold asc_errorL, asc_error. rewrite !usub_ok by lia. cbn [bind].
  rewrite slices_ok by (exact (shape_in _ _ Hh)). cbn [bind app]. rewrite slices_ok by (exact (shape_in _ _ Hl)). cbn [bind app].
  rewrite (map_rows _ _ Hh), (map_rows _ _ Hl).
  rewrite (mzip2_ok _ _ _ (n0 A) (n0 A) _ (nE p) (S - 4)) by apply shape_mtab. cbn [bind]. f_equal. rewrite fold_concat.
  unfold mtab at 1. unfold tab at 1. rewrite fold_left_map. apply fold_ext_in. intros a j Hj. apply in_seq in Hj.
  unfold tab at 1. rewrite fold_left_map. rewrite <- (fold_seq_shift _ _ (S - 4) 2). apply fold_ext_in. intros b i Hi. apply in_seq in Hi.
  rewrite !at2_mtab by lia. reflexivity.
Qed.

Lemma finishL_ok : forall dt u rk, wss p S u -> rkf_sized rk ->
  rkf_finishL S dt u rk =
  (let bt := rk_bt rk in
   let c0 := cons (cent u) in
   let high := rkf_combine (nE p) S dt (bt_high bt) (rk_k rk) (bt_order bt) c0 in
   let ut := rk_utilde rk in
   let rk := rk_set_utilde (set_cent (set_cons high (cent ut)) ut) rk in
   Ok (if rk_accepted rk then (rk, dt)
       else
         let low := rkf_combine (nE p) S dt (bt_low bt) (rk_k rk) (bt_order bt) c0 in
         let err_new := asc_error (nE p) S (rk_rtol rk) (rk_atol rk) high low in
         (rk_set_err err_new low rk, asc_propose (bt_order bt) (rk_friction rk) err_new (rk_err_old rk) dt))).
Proof.
  intros dt u rk Hu ((B1 & B2 & B3) & K & L & U). unfold rkf_finishL. cbv zeta.
  assert (C0 : shape (nE p) S (cons (cent u))) by apply Hu.
  rewrite combineL_ok; [|exact K|exact B2|apply U|exact C0]. cbn [bind rk_set_utilde rk_accepted rk_k rk_low rk_rtol rk_atol rk_friction rk_err_old].
  destruct (rk_accepted rk); [reflexivity|].
  rewrite combineL_ok; [|exact K|exact B3|exact L|exact C0]. cbn [bind].
  rewrite asc_errorL_ok; [reflexivity|apply shape_combine; exact C0|apply shape_combine; exact C0].
Qed.

Lemma map_const : forall (r : list F) n, length r = n -> map (fun _ : F => n0 A) r = repeat (n0 A) n.
Proof. intros r. induction r as [|x r IH]; intros n H; cbn in H; subst n; [reflexivity|]. cbn. rewrite (IH (length r)) by reflexivity. reflexivity. Qed.

Lemma fill_zero : forall n k, k_sized n k -> map (map (map (fun _ => n0 A))) k = repeat (zeros2 (A:=A) (nE p) S) n.
Proof.
  intros n k (K1 & K2). apply list_ext with (d := []).
  - rewrite map_length, repeat_length. exact K1.
  - intros q Hq. rewrite map_length in Hq. change (@nil (list F)) with (map (map (fun _ : F => n0 A)) []) at 1. rewrite map_nth.
    rewrite (nth_indep (repeat (zeros2 (nE p) S) n) [] (zeros2 (nE p) S)) by (rewrite repeat_length; lia). rewrite nth_repeat.
    assert (Hs : shape (nE p) S (nth q k [])) by (apply K2; lia). destruct Hs as (S1 & S2). apply list_ext with (d := []).
    + rewrite map_length, S1. unfold zeros2. rewrite repeat_length. reflexivity.
    + intros j Hj. rewrite map_length, S1 in Hj. change (@nil F) with (map (fun _ : F => n0 A) []) at 1. rewrite map_nth.
      unfold zeros2. rewrite (nth_indep (repeat (zeros S) (nE p)) [] (zeros S)) by (rewrite repeat_length; exact Hj). rewrite nth_repeat. unfold zeros.
      apply map_const. exact (S2 j Hj).
Qed.

Lemma k_sized_zero : forall n, k_sized n (repeat (zeros2 (A:=A) (nE p) S) n).
Proof.
  intros n. split; [apply repeat_length|]. intros q Hq. rewrite (nth_indep _ [] (zeros2 (nE p) S)) by (rewrite repeat_length; exact Hq). rewrite nth_repeat. apply PhysicsProofs.shape_zeros2.
Qed.

Lemma calcL_ok : forall v dt u rk rh, wss p S u -> rkf_sized rk -> rhs_sized rh ->
  calc_rkf_solutionL calc v p S dt u rk rh m = calc_rkf_solution v p S dt u rk rh m /\
  forall rk' rh' o, calc_rkf_solution v p S dt u rk rh m = (rk', rh', o) -> rkf_sized rk' /\ rhs_sized rh' /\ rk_bt rk' = rk_bt rk.
Proof.
  intros v dt u rk rh Hu Hk Hr. unfold calc_rkf_solutionL, calc_rkf_solution. pose proof Hk as (B & K & L & U). rewrite (fill_zero _ _ K). cbn [rk_set_k rk_bt]. cbv zeta.
  change (mkRkf (rk_bt rk) (repeat (zeros2 (nE p) S) (bt_order (rk_bt rk))) (rk_err_new rk) (rk_err_old rk) (rk_n_asc rk) (rk_rtol rk) (rk_atol rk) (rk_friction rk) (rk_accepted rk) (rk_low rk) (rk_utilde rk))
    with (rk_set_k (repeat (zeros2 (nE p) S) (bt_order (rk_bt rk))) rk).
  assert (Hk0 : rkf_sized (rk_set_k (repeat (zeros2 (nE p) S) (bt_order (rk_bt rk))) rk)).
  { split; [exact B|]. split; [apply k_sized_zero|]. split; [exact L|exact U]. }
  unfold range. rewrite Nat.sub_0_r.
  destruct (stagesL_ok v dt u (seq 0 (bt_order (rk_bt rk))) _ rh Hu Hk0 Hr) as (E & I).
  { intros q Hq. apply in_seq in Hq. cbn. lia. }
  rewrite E. destruct (rkf_stages v p S m dt u (seq 0 (bt_order (rk_bt rk))) (rk_set_k (repeat (zeros2 (nE p) S) (bt_order (rk_bt rk))) rk) rh) as [[rk1 rh1] o1].
  destruct (I _ _ _ eq_refl) as (Hk1 & Hr1 & B1 & A1). cbn [rk_set_k rk_bt] in B1.
  destruct o1 as [[]|e| |]; try (split; [reflexivity|intros rk' rh' o H; injection H as <- <- <-; auto]).
  rewrite finishL_ok by assumption. cbv zeta. rewrite B1. cbn [rk_set_utilde rk_accepted rk_k rk_low rk_rtol rk_atol rk_friction rk_err_old].
  assert (C0 : forall b, shape (nE p) S (rkf_combine (A:=A) (nE p) S dt b (rk_k rk1) (bt_order (rk_bt rk)) (cons (cent u)))) by (intros b; apply shape_combine; apply Hu).
  pose proof Hk1 as (B1' & K1 & L1 & U1).
  assert (U2 : wss p S (set_cent (set_cons (rkf_combine (nE p) S dt (bt_high (rk_bt rk)) (rk_k rk1) (bt_order (rk_bt rk)) (cons (cent u))) (cent (rk_utilde rk1))) (rk_utilde rk1))).
  { apply wss_cent; [exact U1|]. apply wsv_set_cons; [apply U1|apply C0]. }
  destruct (rk_accepted rk1).
  - split; [reflexivity|]. intros rk' rh' o H.
    match type of H with (match ?x with _ => _ end) = _ => destruct x end; injection H as <- <- <-; (split; [|auto]); (split; [exact B1'|]; split; [exact K1|]; split; [exact L1|exact U2]).
  - split; [reflexivity|]. intros rk' rh' o H.
    match type of H with (match ?x with _ => _ end) = _ => destruct x end; injection H as <- <- <-; (split; [|auto]); (split; [exact B1'|]; split; [exact K1|]; split; [apply C0|exact U2]).
Qed.

Lemma ascL_ok : forall v fuel ts u rk rh, wss p S u -> rkf_sized rk -> rhs_sized rh ->
  asc_loopL calc v fuel p S ts u rk rh m = asc_loop v fuel p S ts u rk rh m /\
  forall ts' rk' rh' o, asc_loop v fuel p S ts u rk rh m = (ts', rk', rh', o) -> rkf_sized rk' /\ rhs_sized rh'.
Proof.
  intros v fuel. induction fuel as [|fuel IH]; intros ts u rk rh Hu Hk Hr; cbn [asc_loopL asc_loop].
  - destruct (rk_accepted rk); (split; [reflexivity|]); intros ts' rk' rh' o H; injection H as <- <- <- <-; auto.
  - destruct (rk_accepted rk); [split; [reflexivity|]; intros ts' rk' rh' o H; injection H as <- <- <- <-; auto|].
    destruct (calcL_ok v (ts_dt ts) u rk rh Hu Hk Hr) as (E & I). rewrite E.
    destruct (calc_rkf_solution v p S (ts_dt ts) u rk rh m) as [[rk1 rh1] o1]. destruct (I _ _ _ eq_refl) as (Hk1 & Hr1 & _).
    destruct o1 as [dt|e| |]; try (split; [reflexivity|intros ts' rk' rh' o H; injection H as <- <- <- <-; auto]).
    destruct (nltb A (rk_err_new rk1) (n1 A)); cbv beta iota zeta; apply IH; try assumption.
Qed.

Lemma dt_explL_ok : forall ts u, wss p S u -> calc_dt_explL p ts u m = calc_dt_expl p S ts u m.
Proof.
  intros ts u (Hc & _). unfold calc_dt_explL, calc_dt_expl, st_calc_dt_cfl, eigen_max. assert (E2 : 2 <= nE p) by (destruct p; cbn; lia).
  rewrite usub_ok by lia. cbn [bind]. rewrite (rd1_row _ (nE p) S); [|apply Hc|lia]. cbn [bind].
  rewrite (dt_cflL_ok A S); [reflexivity| |apply Hm]. apply (shape_row _ (nE p)); [apply Hc|lia].
Qed.

Lemma nextL_ok : forall v fuel s, sim_sized s ->
  rkf_nextL calc v fuel p S m s = rkf_next v fuel p S m s /\
  forall s' o, rkf_next v fuel p S m s = (s', o) -> sim_sized s'.
Proof.
  intros v fuel s (Hu & Hk & Hr). unfold rkf_nextL, rkf_next, rkf_asc. rewrite dt_explL_ok by exact Hu.
  destruct (calc_dt_expl p S _ (s_u s) m) as [ts1 o1].
  destruct o1 as [[]|e| |]; try (split; [reflexivity|intros s' o H; injection H as <- <-; split; [exact Hu|split; [exact Hk|exact Hr]]]).
  assert (G : (if bt_asc (rk_bt (s_rk s)) then asc_loopL calc v fuel p S (cap_dt ts1) (s_u s) (rk_set_n_asc 0 (rk_set_accepted false (s_rk s))) (s_rhs s) m else (cap_dt ts1, s_rk s, s_rhs s, Ok tt))
    = (if bt_asc (rk_bt (s_rk s)) then asc_loop v fuel p S (cap_dt ts1) (s_u s) (rk_set_n_asc 0 (rk_set_accepted false (s_rk s))) (s_rhs s) m else (cap_dt ts1, s_rk s, s_rhs s, Ok tt)) /\
    forall ts' rk' rh' o, (if bt_asc (rk_bt (s_rk s)) then asc_loop v fuel p S (cap_dt ts1) (s_u s) (rk_set_n_asc 0 (rk_set_accepted false (s_rk s))) (s_rhs s) m else (cap_dt ts1, s_rk s, s_rhs s, Ok tt)) = (ts', rk', rh', o) -> rkf_sized rk' /\ rhs_sized rh').
  { destruct (bt_asc (rk_bt (s_rk s))); [apply ascL_ok; assumption|]. split; [reflexivity|]. intros ts' rk' rh' o H. injection H as <- <- <- <-. auto. }
  destruct G as (G1 & G2). rewrite G1.
  match goal with |- context [match (if ?b then ?x else ?y) with _ => _ end] => destruct (if b then x else y) as [[[ts2 rk2] rh2] o2] end.
  destruct (G2 _ _ _ _ eq_refl) as (Hk2 & Hr2).
  destruct o2 as [[]|e| |]; try (split; [reflexivity|intros s' o H; injection H as <- <-; split; [exact Hu|split; [exact Hk2|exact Hr2]]]).
  destruct (calcL_ok v (ts_dt ts2) (s_u s) rk2 rh2 Hu Hk2 Hr2) as (E & I). rewrite E.
  destruct (calc_rkf_solution v p S (ts_dt ts2) (s_u s) rk2 rh2 m) as [[rk3 rh3] o3]. destruct (I _ _ _ eq_refl) as (Hk3 & Hr3 & _).
  destruct o3 as [dt|e| |]; try (split; [reflexivity|intros s' o H; injection H as <- <-; split; [exact Hu|split; [exact Hk3|exact Hr3]]]).
  assert (C3 : shape (nE p) S (cons (cent (rk_utilde rk3)))) by apply Hk3.
  rewrite (assign2_ok _ (nE p) S); [|apply Hu|exact C3].
  assert (Hu1 : wss p S (set_cent (set_cons (cons (cent (rk_utilde rk3))) (cent (s_u s))) (s_u s))).
  { apply wss_cent; [exact Hu|]. apply wsv_set_cons; [apply Hu|exact C3]. }
  unfold st_update_from_cons. rewrite from_cons_eq by exact Hu1.
  match goal with |- context [update_vars_from_cons p S ?a ?b m ?c] => destruct (update_vars_from_cons p S a b m c) as [v4|e4| |] eqn:E4 end; cbn [bind];
    try (split; [reflexivity|intros s' o H; injection H as <- <-; split; [exact Hu1|split; [exact Hk3|exact Hr3]]]).
  assert (Hu4 : wss p S (set_cent v4 (set_cent (set_cons (cons (cent (rk_utilde rk3))) (cent (s_u s))) (s_u s)))).
  { apply wss_cent; [exact Hu1|]. eapply from_cons_wsv; [|exact E4]. apply Hu1. }
  split; [reflexivity|]. intros s' o H.
  match type of H with (match ?x with _ => _ end) = _ => destruct x end; injection H as <- <-; (split; [exact Hu4|split; [exact Hk3|exact Hr3]]).
Qed.

Lemma solver_nextL_ok : forall v fuel s, sim_sized s ->
  solver_nextL calc v fuel p S m s = solver_next v fuel p S m s /\
  forall s' o, solver_next v fuel p S m s = (s', o) -> sim_sized s'.
Proof.
  intros v fuel s Hs. unfold solver_nextL, solver_next. destruct (nextL_ok v fuel s Hs) as (E & I). rewrite E. split; [reflexivity|].
  intros s' o H. destruct (rkf_next v fuel p S m s) as [s1 o1]. specialize (I _ _ eq_refl).
  destruct o1 as [[]|e| |]; try (injection H as <- <-; exact I).
  destruct (N.leb _ _); injection H as <- <-; exact I.
Qed.
End Step.
