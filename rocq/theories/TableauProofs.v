(** Butcher tableaus: proofs. *)

From Coq Require Import Reals ZArith NArith QArith Qabs Qreals List Bool Lia Lra.
From Verif Require Import Base Num XReal Config Mesh State NumFlux Time SpecTableau.
Import ListNotations.
Local Open Scope nat_scope.

(** ** Enumeration of trees *)
Fixpoint fsize (l : list rtree) : nat := match l with [] => 0 | t :: l => rsize t + fsize l end.
Lemma rsize_Node : forall l, rsize (Node l) = S (fsize l).
Proof. reflexivity. Qed.

(** all forests with [n] nodes; [fuel] at least [n] *)
Fixpoint forests (fuel n : nat) : list (list rtree) :=
  match fuel with
  | O => [[]]
  | S fuel =>
      match n with
      | O => [[]]
      | S n => flat_map (fun k => flat_map (fun f => map (fun g => Node f :: g) (forests fuel (n - k))) (forests fuel k)) (seq 0 (S n))
      end
  end.

Lemma forests_complete : forall fuel n l, n <= fuel -> fsize l = n -> In l (forests fuel n).
Proof.
  induction fuel as [|fuel IH]; intros n l Hn Hl; cbn [forests].
  - destruct l as [|[c] l]; [left; reflexivity|]. cbn [fsize] in Hl. rewrite rsize_Node in Hl. lia.
  - destruct l as [|[c] l]; [destruct n; [left; reflexivity|discriminate]|].
    cbn [fsize] in Hl. rewrite rsize_Node in Hl. destruct n as [|n]; [lia|].
    apply in_flat_map. exists (fsize c). split; [apply in_seq; lia|].
    apply in_flat_map. exists c. split; [apply IH; lia|]. apply in_map. apply IH; lia.
Qed.

(** ** Elementary weights with reduced fractions, all stages at once *)
Fixpoint rdot (u v : list Q) : Q :=
  match u, v with x :: u, y :: v => Qred (Qred (x * y) + rdot u v) | _, _ => 0%Q end.
Fixpoint rmulv (u v : list Q) : list Q :=
  match u, v with x :: u, y :: v => Qred (x * y) :: rmulv u v | _, _ => [] end.
Fixpoint swv (n : nat) (a : list (list Q)) (t : rtree) : list Q :=
  match t with Node l =>
    (fix prods l := match l with
                    | [] => repeat 1%Q n
                    | t :: l => rmulv ((fun w => map (fun row => rdot row w) a) (swv n a t)) (prods l)
                    end) l
  end.

Lemma rdot_sum : forall n u v, length u = n -> length v = n -> (rdot u v == qsum n (fun j => qat u j * qat v j))%Q.
Proof.
  assert (Shift : forall n f, (qsum (S n) f == f 0%nat + qsum n (fun j => f (S j)))%Q).
  { induction n as [|n IH]; intros f; [cbn [qsum]; ring|]. change (qsum (S (S n)) f) with (qsum (S n) f + f (S n))%Q. rewrite IH. cbn [qsum]. ring. }
  induction n as [|n IH]; intros [|x u] [|y v] Hu Hv; try discriminate; cbn [rdot]; [reflexivity|].
  rewrite !Qred_correct. rewrite Shift. rewrite (IH u v) by (cbn in *; lia). reflexivity.
Qed.

Lemma rmulv_at : forall n u v i, length u = n -> length v = n -> i < n -> (qat (rmulv u v) i == qat u i * qat v i)%Q.
Proof.
  induction n as [|n IH]; intros [|x u] [|y v] [|i] Hu Hv Hi; try discriminate; try lia; cbn [rmulv]; unfold qat in *; cbn [nth].
  - apply Qred_correct.
  - apply IH; cbn in *; lia.
Qed.
Lemma rmulv_length : forall u v, length u = length v -> length (rmulv u v) = length u.
Proof. induction u as [|x u IH]; intros [|y v] H; try discriminate; cbn; [reflexivity|]. f_equal. apply IH. injection H as H. exact H. Qed.

Section Reduced.
Variables (n : nat) (a : list (list Q)).
Hypothesis Ha : length a = n.
Hypothesis Hr : forall r, In r a -> length r = n.

Lemma swv_ok : forall k l, fsize l <= k -> length (swv n a (Node l)) = n /\ forall i, i < n -> (qat (swv n a (Node l)) i == stage_weight n a (Node l) i)%Q.
Proof.
  induction k as [|k IH]; intros l Hl.
  - destruct l as [|[c] l]; [|cbn [fsize] in Hl; rewrite rsize_Node in Hl; lia].
    cbn [swv stage_weight]. split; [apply repeat_length|]. intros i Hi. unfold qat. rewrite nth_indep with (d' := 1%Q) by (rewrite repeat_length; exact Hi).
    rewrite nth_repeat. reflexivity.
  - destruct l as [|[c] l].
    + cbn [swv stage_weight]. split; [apply repeat_length|]. intros i Hi. unfold qat. rewrite nth_indep with (d' := 1%Q) by (rewrite repeat_length; exact Hi).
      rewrite nth_repeat. reflexivity.
    + cbn [fsize] in Hl. rewrite rsize_Node in Hl.
      destruct (IH c ltac:(lia)) as (L1 & W1). destruct (IH l ltac:(lia)) as (L2 & W2).
      change (swv n a (Node (Node c :: l))) with (rmulv (map (fun row => rdot row (swv n a (Node c))) a) (swv n a (Node l))).
      assert (L3 : length (map (fun row => rdot row (swv n a (Node c))) a) = n) by (rewrite map_length; exact Ha).
      split; [rewrite rmulv_length; congruence|]. intros i Hi.
      rewrite (rmulv_at n) by assumption. rewrite W2 by exact Hi.
      change (stage_weight n a (Node (Node c :: l)) i) with (qsum n (fun j => qat2 a i j * stage_weight n a (Node c) j) * stage_weight n a (Node l) i)%Q.
      assert (E : (qat (map (fun row => rdot row (swv n a (Node c))) a) i == qsum n (fun j => qat2 a i j * stage_weight n a (Node c) j))%Q).
      { unfold qat at 1. rewrite nth_indep with (d' := rdot [] (swv n a (Node c))) by (rewrite map_length; lia).
        rewrite (map_nth (fun row => rdot row (swv n a (Node c)))).
        rewrite (rdot_sum n) by (try exact L1; apply Hr, nth_In; lia).
        assert (G : forall q, q <= n -> (qsum q (fun j => qat (nth i a []) j * qat (swv n a (Node c)) j) == qsum q (fun j => qat2 a i j * stage_weight n a (Node c) j))%Q).
        { induction q as [|q IHq]; intros Hq; cbn [qsum]; [reflexivity|]. rewrite IHq by lia. rewrite W1 by lia. reflexivity. }
        apply G. lia. }
      rewrite E. reflexivity.
Qed.

Lemma weight_red : forall b l, length b = n -> (weight n a b (Node l) == rdot b (swv n a (Node l)))%Q.
Proof.
  intros b l Hb. destruct (swv_ok (fsize l) l (le_n _)) as (L & W). rewrite (rdot_sum n) by assumption. unfold weight.
  assert (G : forall q, q <= n -> (qsum q (fun i => qat b i * stage_weight n a (Node l) i) == qsum q (fun j => qat b j * qat (swv n a (Node l)) j))%Q).
  { induction q as [|q IHq]; intros Hq; cbn [qsum]; [reflexivity|]. rewrite IHq by lia. rewrite W by lia. reflexivity. }
  apply G. lia.
Qed.
End Reduced.

Definition square (n : nat) (a : list (list Q)) (b : list Q) : bool :=
  (length a =? n)%nat && forallb (fun r => (length r =? n)%nat) a && (length b =? n)%nat.
Lemma square_ok : forall n a b, square n a b = true -> length a = n /\ (forall r, In r a -> length r = n) /\ length b = n.
Proof.
  intros n a b H. unfold square in H. apply andb_true_iff in H. destruct H as [H H3]. apply andb_true_iff in H. destruct H as [H1 H2].
  apply Nat.eqb_eq in H1, H3. rewrite forallb_forall in H2. split; [exact H1|]. split; [|exact H3]. intros r Hr. apply Nat.eqb_eq. auto.
Qed.

Definition order_check (k n : nat) (a : list (list Q)) (b : list Q) : bool :=
  square n a b &&
  forallb (fun m => forallb (fun f => Qeq_bool (rdot b (swv n a (Node f))) (1 / inject_Z (Z.of_nat (rdensity (Node f))))) (forests m m)) (seq 0 k).

Lemma order_check_ok : forall k n a b, order_check k n a b = true -> has_order k n a b.
Proof.
  intros k n a b H [l] Hs. rewrite rsize_Node in Hs. unfold order_check in H. apply andb_true_iff in H. destruct H as [Hq H].
  apply square_ok in Hq. destruct Hq as (H1 & H2 & H3). rewrite forallb_forall in H.
  specialize (H (fsize l) ltac:(apply in_seq; lia)). rewrite forallb_forall in H.
  specialize (H l (forests_complete _ _ l (le_n _) eq_refl)). apply Qeq_bool_eq in H. rewrite weight_red by assumption. exact H.
Qed.

Definition near_check (eps : Q) (k n : nat) (a : list (list Q)) (b : list Q) : bool :=
  square n a b &&
  forallb (fun m => forallb (fun f => Qle_bool (Qabs (rdot b (swv n a (Node f)) - 1 / inject_Z (Z.of_nat (rdensity (Node f))))) eps) (forests m m)) (seq 0 k).

Lemma near_check_ok : forall eps k n a b, near_check eps k n a b = true -> near_order eps k n a b.
Proof.
  intros eps k n a b H [l] Hs. rewrite rsize_Node in Hs. unfold near_check in H. apply andb_true_iff in H. destruct H as [Hq H].
  apply square_ok in Hq. destruct Hq as (H1 & H2 & H3). rewrite forallb_forall in H.
  specialize (H (fsize l) ltac:(apply in_seq; lia)). rewrite forallb_forall in H.
  specialize (H l (forests_complete _ _ l (le_n _) eq_refl)). apply Qle_bool_iff in H. rewrite weight_red by assumption. exact H.
Qed.

(** ** The tableaus of the code, over the rationals *)
Definition Qnum_ops : Num := {|
  nF := Q; nZ := inject_Z; nQ := fun q => q;
  nadd := Qplus; nsub := Qminus; nmul := Qmult; ndiv := Qdiv;
  nneg := Qopp; nabs := fun x => x; nsqrt := fun x => x; nln := fun x => x; nexp := fun x => x;
  nltb := fun _ _ => false; nleb := fun _ _ => false; nmin := fun x _ => x; nmax := fun x _ => x;
  nfin := fun _ => true; npos := fun _ => true; ntrunc := fun _ => 0;
  nEPS := 0%Q; nMIN := 0%Q; nMAX := 0%Q |}.

Definition qtab (md : rkf_mode) : butcher Qnum_ops :=
  bt_new (A:=Qnum_ops) (mkRC (A:=Qnum_ops) md true 0%Q 0%Q 0%Q).

Lemma Q2R_inject : forall z, Q2R (inject_Z z) = IZR z.
Proof. intros. unfold Q2R, inject_Z. cbn. field. Qed.

Lemma fr_R : forall a b, b <> 0%Z -> ndiv XRn (nZ XRn a) (nZ XRn b) = Fin (Q2R (inject_Z a / inject_Z b)).
Proof.
  intros a b Hb. rewrite !X_Z, X_div by (apply IZR_neq; exact Hb). f_equal. rewrite Q2R_div, !Q2R_inject; [reflexivity|].
  intros H. apply Hb. unfold Qeq in H. cbn in H. lia.
Qed.

(** The real values of the stored tableau. *)
Lemma tab_real : forall (c : rkf_config XRn),
  let t := bt_new c in let q := qtab (rc_mode c) in
  bt_order t = bt_order q /\
  bt_a t = map (map (fun x => Fin (Q2R x))) (bt_a q) /\
  bt_high t = map (fun x => Fin (Q2R x)) (bt_high q) /\
  bt_low t = map (fun x => Fin (Q2R x)) (bt_low q) /\
  bt_c t = map (fun x => Fin (Q2R x)) (bt_c q).
Proof.
  intros [md asc r1 r2 r3]. cbn [rc_mode].
  assert (Z0 : forall z, nZ XRn z = Fin (Q2R (inject_Z z))) by (intros; rewrite Q2R_inject; reflexivity).
  destruct md; unfold bt_new, qtab; cbn [rc_mode rc_asc get_order bt_order bt_a bt_high bt_low bt_c map];
    rewrite ?fr_R by discriminate; rewrite ?Z0; repeat split; reflexivity.
Qed.

Definition explicit_check (n : nat) (a : list (list Q)) : bool :=
  (length a =? n)%nat && forallb (fun r => (length r =? n)%nat) a &&
  forallb (fun i => forallb (fun j => Qeq_bool (qat2 a i j) 0) (seq i (n - i))) (seq 0 n).

Lemma explicit_check_ok : forall n a, explicit_check n a = true -> explicit n a.
Proof.
  intros n a H. unfold explicit_check in H. apply andb_true_iff in H. destruct H as [H H3]. apply andb_true_iff in H. destruct H as [H1 H2].
  apply Nat.eqb_eq in H1. rewrite forallb_forall in H2, H3. split; [exact H1|]. split.
  - intros r Hr. apply Nat.eqb_eq. apply H2. exact Hr.
  - intros i j Hij. destruct (Nat.lt_ge_cases j n) as [L|L].
    + specialize (H3 i ltac:(apply in_seq; lia)). rewrite forallb_forall in H3. apply Qeq_bool_eq. apply H3. apply in_seq. lia.
    + unfold qat2. destruct (Nat.lt_ge_cases i n) as [L'|L'].
      * assert (Hin : In (nth i a []) a) by (apply nth_In; lia). specialize (H2 _ Hin). apply Nat.eqb_eq in H2.
        rewrite nth_overflow by lia. reflexivity.
      * rewrite (nth_overflow a) by lia. destruct j; reflexivity.
Qed.

Definition rows_check (n : nat) (a : list (list Q)) (c : list Q) : bool :=
  forallb (fun i => Qeq_bool (qsum n (qat2 a i)) (qat c i)) (seq 0 n).
Lemma rows_check_ok : forall n a c, rows_check n a c = true -> forall i, (i < n)%nat -> row_sum n a c i.
Proof.
  intros n a c H i Hi. unfold rows_check in H. rewrite forallb_forall in H. apply Qeq_bool_eq. apply H. apply in_seq. lia.
Qed.
