(** Multiplying quantities by positive factors (a change of units), and the
    array helpers. *)

From Coq Require Import Reals ZArith QArith Qreals List Bool Lia Lra.
From Verif Require Import Base Num XReal.
Import ListNotations.
Local Open Scope R_scope.

(** a quantity in units that are [/ k] times as large; infinities and NaN stay *)
Definition xs (k : R) (x : nF XRn) : nF XRn := match x with Fin r => Fin (k * r) | o => o end.

(** [x'] is [x] in the other units *)
Definition sc (k : R) (x x' : nF XRn) : Prop := x' = xs k x.

Lemma sgn_sc : forall k a, 0 < k -> xinf_sgn (k * a) = xinf_sgn a.
Proof. intros k a Hk. unfold xinf_sgn. destruct (Rlt_dec 0 a), (Rlt_dec 0 (k * a)), (Rlt_dec a 0), (Rlt_dec (k * a) 0); try reflexivity; exfalso; nra. Qed.

Lemma sc_one : forall x x', sc 1 x x' -> x' = x.
Proof. intros [r| | |] x' ->; cbn -[IZR]; try reflexivity; f_equal; lra. Qed.
Lemma sc_refl1 : forall k x, k = 1 -> sc k x x.
Proof. intros k [r| | |] ->; unfold sc; cbn -[IZR]; try reflexivity; f_equal; lra. Qed.
Lemma sc_zero : forall k, sc k (n0 XRn) (n0 XRn).
Proof. intros k. unfold sc. cbn -[IZR]. f_equal. lra. Qed.
Lemma sc_add : forall k x y x' y', sc k x x' -> sc k y y' -> sc k (nadd XRn x y) (nadd XRn x' y').
Proof. intros k [a| | |] [b| | |] x' y' -> ->; unfold sc; cbn -[IZR]; try reflexivity; f_equal; lra. Qed.
Lemma sc_sub : forall k x y x' y', sc k x x' -> sc k y y' -> sc k (nsub XRn x y) (nsub XRn x' y').
Proof. intros k [a| | |] [b| | |] x' y' -> ->; unfold sc; cbn -[IZR]; try reflexivity; f_equal; lra. Qed.
Lemma sc_neg : forall k x x', sc k x x' -> sc k (nneg XRn x) (nneg XRn x').
Proof. intros k [a| | |] x' ->; unfold sc; cbn -[IZR]; try reflexivity; f_equal; lra. Qed.
Lemma xs_neg : forall k x, xs k (xneg x) = xneg (xs k x).
Proof. intros k [a| | |]; cbn -[IZR]; try reflexivity; f_equal; lra. Qed.
Lemma xs_sgn : forall k a, xs k (xinf_sgn a) = xinf_sgn a.
Proof. intros k a. unfold xinf_sgn. destruct (Rlt_dec 0 a), (Rlt_dec a 0); reflexivity. Qed.
Lemma sc_mul : forall k l kl x y x' y', 0 < k -> 0 < l -> sc k x x' -> sc l y y' -> kl = k * l -> sc kl (nmul XRn x y) (nmul XRn x' y').
Proof.
  intros k l kl [a| | |] [b| | |] x' y' Hk Hl -> -> ->; unfold sc; cbn -[IZR]; try reflexivity; rewrite ?sgn_sc by assumption; rewrite ?xs_neg, ?xs_sgn; try reflexivity.
  f_equal. ring.
Qed.
Lemma sc_div : forall k l kl x y x' y', 0 < k -> 0 < l -> sc k x x' -> sc l y y' -> kl = k / l -> sc kl (ndiv XRn x y) (ndiv XRn x' y').
Proof.
  intros k l kl [a| | |] [b| | |] x' y' Hk Hl -> -> ->; unfold sc; cbn -[IZR]; try reflexivity.
  - destruct (Req_EM_T b 0) as [->|Hb], (Req_EM_T (l * _) 0) as [Hc|Hc]; try (exfalso; nra).
    + rewrite sgn_sc, xs_sgn by assumption. reflexivity.
    + cbn. f_equal. field. split; lra.
  - f_equal. lra.
  - f_equal. lra.
  - destruct (Rlt_dec b 0), (Rlt_dec (l * b) 0); try reflexivity; exfalso; nra.
  - destruct (Rlt_dec b 0), (Rlt_dec (l * b) 0); try reflexivity; exfalso; nra.
Qed.
Lemma sc_abs : forall k x x', 0 < k -> sc k x x' -> sc k (nabs XRn x) (nabs XRn x').
Proof. intros k [a| | |] x' Hk ->; unfold sc; cbn -[IZR]; try reflexivity; f_equal. rewrite Rabs_mult, (Rabs_pos_eq k) by lra. reflexivity. Qed.
Lemma sc_sqrt : forall k kk x x', 0 < k -> kk = k * k -> sc kk x x' -> sc k (nsqrt XRn x) (nsqrt XRn x').
Proof.
  intros k kk [a| | |] x' Hk -> ->; unfold sc; cbn -[IZR]; try reflexivity.
  assert (0 < k * k) by nra.
  destruct (Rlt_dec a 0) as [Ha|Ha], (Rlt_dec (k * k * a) 0) as [Hb|Hb]; [reflexivity|exfalso; nra|exfalso; nra|]. cbn. f_equal.
  rewrite sqrt_mult_alt by nra. rewrite sqrt_square by lra. reflexivity.
Qed.
Lemma sc_ltb : forall k x y x' y', 0 < k -> sc k x x' -> sc k y y' -> nltb XRn x' y' = nltb XRn x y.
Proof. intros k [a| | |] [b| | |] x' y' Hk -> ->; cbn -[IZR]; try reflexivity. destruct (Rlt_dec a b), (Rlt_dec (k * a) (k * b)); try reflexivity; exfalso; nra. Qed.
Lemma sc_leb : forall k x y x' y', 0 < k -> sc k x x' -> sc k y y' -> nleb XRn x' y' = nleb XRn x y.
Proof. intros k [a| | |] [b| | |] x' y' Hk -> ->; cbn -[IZR]; try reflexivity. destruct (Rle_dec a b), (Rle_dec (k * a) (k * b)); try reflexivity; exfalso; nra. Qed.
Lemma sc_if : forall k (b b' : bool) x y x' y', b' = b -> sc k x x' -> sc k y y' -> sc k (if b then x else y) (if b' then x' else y').
Proof. intros k b b' x y x' y' -> Hx Hy. destruct b; assumption. Qed.
Lemma sc_min : forall k x y x' y', 0 < k -> sc k x x' -> sc k y y' -> sc k (nmin XRn x y) (nmin XRn x' y').
Proof.
  intros k x y x' y' Hk Hx Hy. pose proof (sc_ltb k x y x' y' Hk Hx Hy) as L. cbn [nmin nltb XRn] in *.
  destruct x, y; unfold sc in *; cbn [xs] in *; subst; cbn [xmin] in *; try reflexivity; rewrite ?L; clear L; match goal with |- context [if ?b then _ else _] => destruct b end; reflexivity.
Qed.
Lemma sc_max : forall k x y x' y', 0 < k -> sc k x x' -> sc k y y' -> sc k (nmax XRn x y) (nmax XRn x' y').
Proof.
  intros k x y x' y' Hk Hx Hy. pose proof (sc_ltb k y x y' x' Hk Hy Hx) as L. cbn [nmax nltb XRn] in *.
  destruct x, y; unfold sc in *; cbn [xs] in *; subst; cbn [xmax] in *; try reflexivity; rewrite ?L; clear L; match goal with |- context [if ?b then _ else _] => destruct b end; reflexivity.
Qed.
Lemma sc_fin : forall k x x', sc k x x' -> nfin XRn x' = nfin XRn x.
Proof. intros k [a| | |] x' ->; reflexivity. Qed.
Lemma sc_pos : forall k x x', 0 < k -> sc k x x' -> npos XRn x' = npos XRn x.
Proof. intros k [a| | |] x' Hk ->; cbn -[IZR]; try reflexivity. destruct (Rle_dec 0 a), (Rle_dec 0 (k * a)); try reflexivity; exfalso; nra. Qed.

(** ** Arrays *)

Definition rv (k : R) (v v' : list (nF XRn)) : Prop := v' = map (xs k) v.
Definition rm (f : nat -> R) (M M' : list (list (nF XRn))) : Prop :=
  length M' = length M /\ forall j, rv (f j) (nth j M []) (nth j M' []).

Lemma xs0 : forall k, xs k (n0 XRn) = n0 XRn.
Proof. intros k. cbn -[IZR]. f_equal. lra. Qed.

Lemma rv_at : forall k v v' i, rv k v v' -> sc k (at1 (n0 XRn) v i) (at1 (n0 XRn) v' i).
Proof. intros k v v' i ->. unfold at1, sc. rewrite <- (xs0 k) at 1. apply map_nth. Qed.
Lemma rm_at : forall f M M' j i, rm f M M' -> sc (f j) (at2 (n0 XRn) M j i) (at2 (n0 XRn) M' j i).
Proof. intros f M M' j i (_ & H). apply (rv_at _ _ _ i (H j)). Qed.
Lemma rm_row : forall f M M' j, rm f M M' -> rv (f j) (nth j M []) (nth j M' []).
Proof. intros f M M' j (_ & H). apply H. Qed.

Lemma rv_tab : forall k n g g', (forall i, (i < n)%nat -> sc k (g i) (g' i)) -> rv k (tab n g) (tab n g').
Proof. intros k n g g' H. unfold rv, tab. rewrite map_map. apply map_ext_in. intros i Hi. apply in_seq in Hi. apply H. lia. Qed.
Lemma rv_repeat : forall k n x x', sc k x x' -> rv k (repeat x n) (repeat x' n).
Proof. intros k n x x' ->. unfold rv. induction n; cbn; [reflexivity|f_equal; exact IHn]. Qed.
Lemma rv_nil : forall k, rv k [] [].
Proof. reflexivity. Qed.

Lemma length_upd : forall X (l : list X) i x, length (upd i x l) = length l.
Proof. intros X l. induction l as [|h t IH]; intros [|i] x; cbn; try reflexivity; f_equal; apply IH. Qed.
Lemma nth_upd : forall X (l : list X) i x j d, nth j (upd i x l) d = if (j =? i)%nat && (j <? length l)%nat then x else nth j l d.
Proof.
  intros X l. induction l as [|h t IH]; intros [|i] x [|j] d; cbn [upd nth length andb Nat.eqb]; try reflexivity.
  - destruct (j =? i)%nat; reflexivity.
  - rewrite IH. reflexivity.
Qed.
Lemma rm_upd : forall f M M' j r r', rm f M M' -> rv (f j) r r' -> rm f (upd j r M) (upd j r' M').
Proof.
  intros f M M' j r r' (L & H) Hr. split; [rewrite !length_upd; exact L|]. intros i. rewrite !nth_upd, L.
  destruct (Nat.eqb_spec i j) as [->|]; cbn [andb]; [|apply H]. destruct (j <? length M)%nat; [exact Hr|apply H].
Qed.
Lemma rv_upd : forall k v v' i x x', rv k v v' -> sc k x x' -> rv k (upd i x v) (upd i x' v').
Proof. intros k v v' i x x' -> ->. unfold rv. revert i. induction v as [|h t IH]; intros [|i]; cbn; try reflexivity. f_equal. apply IH. Qed.
Lemma rm_upd2 : forall f M M' j i x x', rm f M M' -> sc (f j) x x' -> rm f (upd2 j i x M) (upd2 j i x' M').
Proof. intros f M M' j i x x' H Hx. unfold upd2. apply rm_upd; [exact H|]. apply rv_upd; [apply H|exact Hx]. Qed.
Lemma nth_tab' : forall X n (g : nat -> X) j d, nth j (tab n g) d = if (j <? n)%nat then g j else d.
Proof.
  intros X n g j d. destruct (Nat.ltb_spec j n); [apply nth_tab; assumption|]. apply nth_overflow. rewrite length_tab. assumption.
Qed.
Lemma rm_mtab : forall f e n g g', (forall j i, (j < e)%nat -> (i < n)%nat -> sc (f j) (g j i) (g' j i)) -> rm f (mtab e n g) (mtab e n g').
Proof.
  intros f e n g g' H. unfold mtab. split; [rewrite !length_tab; reflexivity|]. intros j. rewrite !nth_tab'.
  destruct (Nat.ltb_spec j e); [|apply rv_nil]. apply rv_tab. intros i Hi. apply H; assumption.
Qed.
Lemma rm_repeat : forall f e n x, (forall k, sc k x x) -> rm f (repeat (repeat x n) e) (repeat (repeat x n) e).
Proof.
  intros f e n x Hx. split; [reflexivity|]. intros j. destruct (Nat.lt_ge_cases j e).
  - rewrite nth_indep with (d' := repeat x n) by (rewrite repeat_length; assumption). rewrite nth_repeat. apply rv_repeat, Hx.
  - rewrite nth_overflow by (rewrite repeat_length; assumption). apply rv_nil.
Qed.
Lemma rv_range : forall k n lo hi g g' v v', (forall i, (i < n)%nat -> (lo <= i <= hi)%nat -> sc k (g i) (g' i)) -> rv k v v' ->
  rv k (upd_range (n0 XRn) n lo hi g v) (upd_range (n0 XRn) n lo hi g' v').
Proof.
  intros k n lo hi g g' v v' H Hv. unfold upd_range. apply rv_tab. intros i Hi.
  destruct (Nat.leb_spec lo i), (Nat.leb_spec i hi); cbn [andb]; try (apply rv_at; exact Hv). apply H; lia.
Qed.
Lemma rv_fin : forall k v v', rv k v v' -> forallb (nfin XRn) v' = forallb (nfin XRn) v.
Proof. intros k v v' ->. induction v as [|h t IH]; cbn [map forallb]; [reflexivity|]. rewrite IH. f_equal. apply (sc_fin k). reflexivity. Qed.
Lemma rm_fin : forall f M M', rm f M M' -> forallb (forallb (nfin XRn)) M' = forallb (forallb (nfin XRn)) M.
Proof.
  intros f M M' (L & H). revert f M' L H. induction M as [|r t IH]; intros f [|r' t'] L H; try discriminate; [reflexivity|]. cbn [forallb].
  rewrite (rv_fin (f 0%nat) r r' (H 0%nat)). f_equal. apply (IH (fun j => f (Datatypes.S j))); [injection L; auto|]. intros j. exact (H (Datatypes.S j)).
Qed.

(** ** Proof search *)

Lemma sc_eq : forall k k' x x', sc k x x' -> k = k' -> sc k' x x'.
Proof. intros k k' x x' H <-. exact H. Qed.
Lemma sc_mul' : forall k l kl x y x' y', sc k x x' -> sc l y y' -> k * l = kl -> 0 < k -> 0 < l -> sc kl (nmul XRn x y) (nmul XRn x' y').
Proof. intros. apply (sc_mul k l); auto. Qed.
Lemma sc_div' : forall k l kl x y x' y', sc k x x' -> sc l y y' -> k / l = kl -> 0 < k -> 0 < l -> sc kl (ndiv XRn x y) (ndiv XRn x' y').
Proof. intros. apply (sc_div k l); auto. Qed.

Ltac ppos := repeat first [assumption | apply Rlt_0_1 | apply Rmult_lt_0_compat | apply Rdiv_lt_0_compat | apply Rinv_0_lt_compat].
Ltac pne := apply Rgt_not_eq; unfold Rgt; ppos.
Ltac rel := first [reflexivity | field; repeat match goal with |- _ /\ _ => split end; pne | ring].

(** [leaf] solves the goals about array entries, with an unknown factor *)
Ltac sx leaf :=
  match goal with
  | |- sc _ (n0 XRn) (n0 XRn) => apply sc_zero
  | |- sc _ ?x ?x => apply sc_refl1; rel
  | |- sc _ (nmul _ _ _) (nmul _ _ _) => eapply sc_mul'; [sx leaf | sx leaf | rel | ppos | ppos]
  | |- sc _ (ndiv _ _ _) (ndiv _ _ _) => eapply sc_div'; [sx leaf | sx leaf | rel | ppos | ppos]
  | |- sc _ (nadd _ _ _) (nadd _ _ _) => eapply sc_add; [sx leaf | sx leaf]
  | |- sc _ (nsub _ _ _) (nsub _ _ _) => eapply sc_sub; [sx leaf | sx leaf]
  | |- sc _ (nabs _ _) (nabs _ _) => eapply sc_abs; [| sx leaf]; ppos
  | |- sc _ (nsqrt _ _) (nsqrt _ _) => eapply sc_sqrt; [| reflexivity | sx leaf]; ppos
  | |- sc _ (nmin _ _ _) (nmin _ _ _) => eapply sc_min; [| sx leaf | sx leaf]; ppos
  | |- sc _ (nmax _ _ _) (nmax _ _ _) => eapply sc_max; [| sx leaf | sx leaf]; ppos
  | |- sc _ _ _ => eapply sc_eq; [leaf | rel]
  end.
