(** Outcomes and array helpers shared by the whole model.

    Nothing in this file is specific to corries: [res] models a Rust
    [Result] together with the possibility of a panic, and the array
    functions model [ndarray] containers as lists. *)

From Coq Require Import List Arith Lia Bool.
Import ListNotations.

(** The errors the modelled code can return.  Each constructor names the
    [bail!]/[ensure!] site it stands for; message texts are not modelled. *)
Inductive err : Type :=
| EConfig           (* a failing check in one of the config validators, src/config.rs and below *)
| ENumFluxMismatch  (* src/rhs/numflux/hll.rs L85-95, src/rhs/numflux/kt.rs L129-148: config/type mismatch *)
| ENonFinite        (* check_finite_* macros, src/macros.rs L82-145 *)
| EDtNonFinite      (* src/state/physics.rs L231-240: CFL step not finite *)
| EDtMin            (* src/time/timestep.rs L138-144: dt < dt_min *)
| EIterMax          (* src/solver.rs L115-127: iteration limit reached *)
| EInitFn           (* src/initfuncs.rs L76, L152: wrong physics for the initial condition *)
| ECollect          (* bail! in the Collectable implementations and write_vector *)
| EIO               (* an operating system error while writing *)
| EOther.           (* an error raised by user supplied code *)

(** Outcome of a Rust call: a value, an [Err], or a panic.  [Fuel] is not an
    outcome of the code: it says that the bound the model puts on the number of
    iterations of a [while]/[loop] ran out before the call returned. *)
Inductive res (A : Type) : Type :=
| Ok (a : A)
| Err (e : err)
| Panic
| Fuel.
Arguments Ok {A} _.
Arguments Err {A} _.
Arguments Panic {A}.
Arguments Fuel {A}.

(** The [?] operator. *)
Definition bind {A B} (x : res A) (f : A -> res B) : res B :=
  match x with
  | Ok a => f a
  | Err e => Err e
  | Panic => Panic
  | Fuel => Fuel
  end.

Notation "'do' x <- a ; b" := (bind a (fun x => b))
  (at level 200, x pattern, a at level 100, b at level 200, right associativity).

(** [ensure!] *)
Definition ensure (b : bool) (e : err) : res unit := if b then Ok tt else Err e.

(** Array of length [n] whose entry [i] is [f i]: the effect of a loop
    [for i in 0..n { v[i] = f(i) }] that does not read [v]. *)
Definition tab {X} (n : nat) (f : nat -> X) : list X := map f (seq 0 n).

(** Overwrite one entry; out of range indices leave the list unchanged
    (every use in the model is in range, see the comments there). *)
Fixpoint upd {X} (i : nat) (x : X) (l : list X) : list X :=
  match l, i with
  | [], _ => []
  | _ :: t, O => x :: t
  | h :: t, S i' => h :: upd i' x t
  end.

(** Entry access with a default; the default is never observed for in-range
    indices. *)
Definition at1 {X} (d : X) (v : list X) (i : nat) : X := nth i v d.
Definition at2 {X} (d : X) (m : list (list X)) (j i : nat) : X := nth i (nth j m []) d.

(** [m[[j, i]] = x] *)
Definition upd2 {X} (j i : nat) (x : X) (m : list (list X)) : list (list X) :=
  upd j (upd i x (nth j m [])) m.

(** Overwrite the entries [lo..=hi] of a vector of length [n]. *)
Definition upd_range {X} (d : X) (n lo hi : nat) (f : nat -> X) (v : list X) : list X :=
  tab n (fun i => if (lo <=? i) && (i <=? hi) then f i else at1 d v i).

(** Matrix with [e] rows and [n] columns given by its entries. *)
Definition mtab {X} (e n : nat) (f : nat -> nat -> X) : list (list X) :=
  tab e (fun j => tab n (f j)).

(** A matrix has [e] rows of length [n] each. *)
Definition shape {X} (e n : nat) (m : list (list X)) : Prop :=
  length m = e /\ forall j, j < e -> length (nth j m []) = n.

(** ** Facts about these helpers *)

Lemma length_tab : forall X n (f : nat -> X), length (tab n f) = n.
Proof. intros; unfold tab; rewrite map_length, seq_length; reflexivity. Qed.

Lemma nth_tab : forall X n (f : nat -> X) d i, i < n -> nth i (tab n f) d = f i.
Proof.
  intros X n f d i H. unfold tab.
  rewrite nth_indep with (d' := f 0) by (rewrite map_length, seq_length; exact H).
  rewrite map_nth with (d := 0). rewrite seq_nth by exact H. reflexivity.
Qed.

Lemma at1_tab : forall X n (f : nat -> X) d i, i < n -> at1 d (tab n f) i = f i.
Proof. intros; apply nth_tab; assumption. Qed.

Lemma tab_ext : forall X n (f g : nat -> X),
  (forall i, i < n -> f i = g i) -> tab n f = tab n g.
Proof.
  intros X n f g H. unfold tab. apply map_ext_in.
  intros a Ha. apply in_seq in Ha. apply H. lia.
Qed.

Lemma list_ext : forall X (d : X) (l l' : list X),
  length l = length l' -> (forall i, i < length l -> nth i l d = nth i l' d) -> l = l'.
Proof.
  intros X d l; induction l as [|a l IH]; intros [|b l'] Hlen H; simpl in *; try discriminate; auto.
  f_equal.
  - apply (H 0); lia.
  - apply IH; [lia|]. intros i Hi. apply (H (S i)); lia.
Qed.

Lemma tab_self : forall X (d : X) n (v : list X), length v = n -> tab n (at1 d v) = v.
Proof.
  intros X d n v H. apply list_ext with (d := d).
  - rewrite length_tab; auto.
  - rewrite length_tab. intros i Hi. rewrite nth_tab by exact Hi. reflexivity.
Qed.

Lemma length_upd : forall X (x : X) l i, length (upd i x l) = length l.
Proof. intros X x l; induction l as [|a l IH]; intros [|i]; simpl; auto. Qed.

Lemma nth_upd_eq : forall X (x d : X) l i, i < length l -> nth i (upd i x l) d = x.
Proof.
  intros X x d l; induction l as [|a l IH]; intros [|i] H; simpl in *; try lia; auto.
  apply IH; lia.
Qed.

Lemma nth_upd_ne : forall X (x d : X) l i k, i <> k -> nth k (upd i x l) d = nth k l d.
Proof.
  intros X x d l; induction l as [|a l IH]; intros [|i] [|k] H; simpl; auto; try lia.
Qed.

Lemma nth_upd : forall X (x d : X) l i k,
  nth k (upd i x l) d = if (i =? k) && (i <? length l) then x else nth k l d.
Proof.
  intros X x d l i k.
  destruct (Nat.eqb_spec i k) as [->|Hne]; simpl.
  - destruct (Nat.ltb_spec k (length l)).
    + apply nth_upd_eq; assumption.
    + rewrite !nth_overflow; auto; rewrite ?length_upd; lia.
  - apply nth_upd_ne; assumption.
Qed.

Lemma upd_out : forall X (x : X) l i, length l <= i -> upd i x l = l.
Proof.
  intros X x l; induction l as [|a l IH]; intros [|i] H; simpl in *; auto; try lia.
  f_equal; apply IH; lia.
Qed.

Lemma upd_upd_same : forall X (x y : X) l i, upd i x (upd i y l) = upd i x l.
Proof. intros X x y l; induction l as [|a l IH]; intros [|i]; simpl; auto. f_equal; apply IH. Qed.

Lemma upd_comm : forall X (x y : X) l i k, i <> k -> upd i x (upd k y l) = upd k y (upd i x l).
Proof.
  intros X x y l; induction l as [|a l IH]; intros [|i] [|k] H; simpl; auto; try lia.
  f_equal; apply IH; lia.
Qed.

Lemma upd_same : forall X (d : X) l i, upd i (nth i l d) l = l.
Proof.
  intros X d l; induction l as [|a l IH]; intros [|i]; simpl; auto. f_equal; apply IH.
Qed.

Lemma at2_upd2_eq : forall X (d x : X) m j i,
  j < length m -> i < length (nth j m []) -> at2 d (upd2 j i x m) j i = x.
Proof.
  intros. unfold at2, upd2. rewrite nth_upd_eq by assumption. apply nth_upd_eq; assumption.
Qed.

Lemma at2_upd2_row : forall X (d x : X) m j i j' i',
  j <> j' -> at2 d (upd2 j i x m) j' i' = at2 d m j' i'.
Proof. intros. unfold at2, upd2. rewrite nth_upd_ne by assumption. reflexivity. Qed.

Lemma at2_upd2_col : forall X (d x : X) m j i j' i',
  i <> i' -> at2 d (upd2 j i x m) j' i' = at2 d m j' i'.
Proof.
  intros X d x m j i j' i' H. unfold at2, upd2. rewrite nth_upd.
  destruct (Nat.eqb_spec j j') as [->|]; simpl; auto.
  destruct (j' <? length m); auto. apply nth_upd_ne; assumption.
Qed.

Lemma at2_upd2 : forall X (d x : X) e n m j i j' i',
  shape e n m -> j < e -> i < n ->
  at2 d (upd2 j i x m) j' i' = if (j =? j') && (i =? i') then x else at2 d m j' i'.
Proof.
  intros X d x e n m j i j' i' [Hl Hr] Hj Hi.
  destruct (Nat.eqb_spec j j') as [->|Hne]; simpl.
  - destruct (Nat.eqb_spec i i') as [->|Hne]; simpl.
    + apply at2_upd2_eq; [lia|]. rewrite Hr; auto.
    + apply at2_upd2_col; assumption.
  - apply at2_upd2_row; assumption.
Qed.

Lemma shape_upd2 : forall X (x : X) e n m j i, shape e n m -> shape e n (upd2 j i x m).
Proof.
  intros X x e n m j i [Hl Hr]. split; unfold upd2.
  - rewrite length_upd; assumption.
  - intros k Hk. rewrite nth_upd.
    destruct (Nat.eqb_spec j k) as [->|]; simpl; auto.
    destruct (k <? length m); auto. rewrite length_upd; auto.
Qed.

Lemma shape_upd_row : forall X e n m j (r : list X), shape e n m -> length r = n -> shape e n (upd j r m).
Proof.
  intros X e n m j r [Hl Hr] H. split.
  - rewrite length_upd; assumption.
  - intros k Hk. rewrite nth_upd.
    destruct (Nat.eqb_spec j k) as [->|]; simpl; auto.
    destruct (k <? length m); auto.
Qed.

Lemma shape_mtab : forall X e n (f : nat -> nat -> X), shape e n (mtab e n f).
Proof.
  intros. unfold mtab. split; [apply length_tab|].
  intros j Hj. rewrite nth_tab by assumption. apply length_tab.
Qed.

Lemma at2_mtab : forall X (d : X) e n f j i, j < e -> i < n -> at2 d (mtab e n f) j i = f j i.
Proof. intros. unfold at2, mtab. rewrite nth_tab by assumption. apply nth_tab; assumption. Qed.

Lemma mat_ext : forall X (d : X) e n m m',
  shape e n m -> shape e n m' ->
  (forall j i, j < e -> i < n -> at2 d m j i = at2 d m' j i) -> m = m'.
Proof.
  intros X d e n m m' [H1 H2] [H3 H4] H.
  apply list_ext with (d := []); [congruence|].
  intros j Hj. apply list_ext with (d := d).
  - rewrite H2, H4; auto; congruence.
  - intros i Hi. apply H; [lia|]. rewrite H2 in Hi; auto; congruence.
Qed.

Lemma length_upd_range : forall X (d : X) n lo hi f v, length (upd_range d n lo hi f v) = n.
Proof. intros; apply length_tab. Qed.

Lemma at1_upd_range : forall X (d : X) n lo hi f v i, i < n ->
  at1 d (upd_range d n lo hi f v) i = if (lo <=? i) && (i <=? hi) then f i else at1 d v i.
Proof. intros; unfold upd_range; apply at1_tab; assumption. Qed.

Lemma bind_Ok : forall A B (x : res A) (f : A -> res B) b,
  bind x f = Ok b -> exists a, x = Ok a /\ f a = Ok b.
Proof. intros A B [a|e| |] f b H; simpl in H; try discriminate. exists a; auto. Qed.
