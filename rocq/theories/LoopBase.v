(** Checked array operations in range: what they compute. *)

From Coq Require Import List ZArith NArith QArith Bool Lia Permutation.
From Verif Require Import Base Num Config Mesh State NumFlux Time Writer Runner Loops.
Import ListNotations.
Local Open Scope nat_scope.

Lemma rd1_ok : forall X (d : X) v i, i < length v -> rd1 v i = Ok (nth i v d).
Proof. intros X d v i H. unfold rd1. rewrite (nth_error_nth' v d H). reflexivity. Qed.

Lemma rd1_at : forall X (d : X) v i n, length v = n -> i < n -> rd1 v i = Ok (at1 d v i).
Proof. intros X d v i n H Hi. apply rd1_ok. lia. Qed.

Lemma rd1_row : forall X e n (m : list (list X)) j, shape e n m -> j < e -> rd1 m j = Ok (nth j m []).
Proof. intros X e n m j [H _] Hj. apply rd1_ok. lia. Qed.

Lemma rd2_ok : forall X (d : X) e n m j i, shape e n m -> j < e -> i < n -> rd2 m j i = Ok (at2 d m j i).
Proof.
  intros X d e n m j i Hs Hj Hi. unfold rd2. rewrite (rd1_row _ _ _ _ _ Hs Hj). cbn [bind].
  apply rd1_ok. destruct Hs as [_ H]. rewrite H; assumption.
Qed.

Lemma wr1_ok : forall X v i (x : X), i < length v -> wr1 v i x = Ok (upd i x v).
Proof. intros X v i x H. unfold wr1. rewrite (rd1_ok _ x v i H). reflexivity. Qed.

Lemma wr2_ok : forall X e n m j i (x : X), shape e n m -> j < e -> i < n -> wr2 m j i x = Ok (upd2 j i x m).
Proof.
  intros X e n m j i x Hs Hj Hi. unfold wr2. rewrite (rd1_row _ _ _ _ _ Hs Hj). cbn [bind].
  destruct Hs as [H1 H2]. rewrite wr1_ok by (rewrite H2; assumption). cbn [bind]. rewrite wr1_ok by lia. reflexivity.
Qed.

Lemma usub_ok : forall a b, b <= a -> usub a b = Ok (a - b).
Proof. intros a b H. unfold usub. destruct (Nat.leb_spec b a); [reflexivity|lia]. Qed.

Lemma shape_row : forall X e n (m : list (list X)) j, shape e n m -> j < e -> length (nth j m []) = n.
Proof. intros X e n m j [_ H]. apply H. Qed.

(** ** Vectors as tables *)
Lemma firstn_skipn_tab : forall X (d : X) lo n v, lo + n <= length v -> firstn n (skipn lo v) = tab n (fun k => nth (lo + k) v d).
Proof.
  intros X d lo n v H. apply list_ext with (d := d).
  - rewrite length_tab, firstn_length, skipn_length. lia.
  - intros i Hi. rewrite firstn_length, skipn_length in Hi. rewrite nth_tab by lia.
    rewrite <- (firstn_skipn lo v) at 2. rewrite app_nth2 by (rewrite firstn_length; lia).
    rewrite firstn_length. replace (lo + i - Nat.min lo (length v)) with i by lia.
    rewrite <- (firstn_skipn n (skipn lo v)) at 2. rewrite app_nth1; [reflexivity|]. rewrite firstn_length, skipn_length. lia.
Qed.

Lemma slice_ok : forall X (d : X) lo hi v n, length v = n -> lo <= hi + 1 -> hi + 1 <= n ->
  slice lo hi v = Ok (tab (hi + 1 - lo) (fun k => at1 d v (lo + k))).
Proof.
  intros X d lo hi v n L H1 H2. unfold slice. destruct (Nat.leb_spec lo (hi + 1)); [|lia]. destruct (Nat.leb_spec (hi + 1) (length v)); [|lia].
  cbn [andb]. rewrite (firstn_skipn_tab _ d) by lia. reflexivity.
Qed.

Lemma combine_tab : forall X Y n (f : nat -> X) (g : nat -> Y), combine (tab n f) (tab n g) = tab n (fun k => (f k, g k)).
Proof.
  intros X Y n f g. unfold tab. generalize (seq 0 n). intros l. induction l as [|a l IH]; [reflexivity|]. cbn. rewrite IH. reflexivity.
Qed.

Lemma map_tab : forall X Y (h : X -> Y) n f, map h (tab n f) = tab n (fun k => h (f k)).
Proof. intros. unfold tab. rewrite map_map. reflexivity. Qed.

Lemma zip2_tab : forall X Y Z (h : X -> Y -> Z) n f g, zip2 h (tab n f) (tab n g) = Ok (tab n (fun k => h (f k) (g k))).
Proof. intros. unfold zip2. rewrite !length_tab, Nat.eqb_refl, combine_tab, map_tab. reflexivity. Qed.

Lemma zip2_ok : forall X Y Z (d : X) (d' : Y) (h : X -> Y -> Z) n a b, length a = n -> length b = n ->
  zip2 h a b = Ok (tab n (fun k => h (at1 d a k) (at1 d' b k))).
Proof.
  intros X Y Z d d' h n a b Ha Hb. rewrite <- (tab_self _ d n a Ha) at 1. rewrite <- (tab_self _ d' n b Hb) at 1. apply zip2_tab.
Qed.

Lemma assign1_ok : forall X (a b : list X), length a = length b -> assign1 a b = Ok b.
Proof. intros X a b H. unfold assign1. rewrite H, Nat.eqb_refl. reflexivity. Qed.

Lemma assign_slice_ok : forall X (d : X) lo hi n f dst, length dst = n -> lo <= hi + 1 -> hi + 1 <= n ->
  assign_slice lo hi (tab (hi + 1 - lo) f) dst = Ok (upd_range d n lo hi (fun i => f (i - lo)) dst).
Proof.
  intros X d lo hi n f dst L H1 H2. unfold assign_slice. rewrite (slice_ok _ d _ _ _ _ L H1 H2). cbn [bind].
  rewrite assign1_ok by (rewrite !length_tab; reflexivity). cbn [bind]. f_equal.
  apply list_ext with (d := d).
  - rewrite length_upd_range, !app_length, length_tab, firstn_length, skipn_length. lia.
  - rewrite !app_length, length_tab, firstn_length, skipn_length. intros i Hi.
    change (nth i (upd_range d n lo hi (fun i0 => f (i0 - lo)) dst) d) with (at1 d (upd_range d n lo hi (fun i0 => f (i0 - lo)) dst) i).
    rewrite at1_upd_range by lia.
    destruct (Nat.leb_spec lo i) as [A1|A1]; cbn [andb].
    + rewrite app_nth2 by (rewrite firstn_length; lia). rewrite firstn_length. replace (Nat.min lo (length dst)) with lo by lia.
      destruct (Nat.leb_spec i hi) as [A2|A2].
      * rewrite app_nth1 by (rewrite length_tab; lia). rewrite nth_tab by lia. reflexivity.
      * rewrite app_nth2 by (rewrite length_tab; lia). rewrite length_tab.
        unfold at1. rewrite <- (firstn_skipn (hi + 1) dst) at 2. rewrite app_nth2 by (rewrite firstn_length; lia).
        rewrite firstn_length. f_equal. lia.
    + rewrite app_nth1 by (rewrite firstn_length; lia). unfold at1.
      rewrite <- (firstn_skipn lo dst) at 2. rewrite app_nth1 by (rewrite firstn_length; lia). reflexivity.
Qed.

Lemma upd_range_ext : forall X (d : X) n lo hi f g v, (forall i, lo <= i <= hi -> i < n -> f i = g i) -> upd_range d n lo hi f v = upd_range d n lo hi g v.
Proof.
  intros X d n lo hi f g v H. unfold upd_range. apply tab_ext. intros i Hi.
  destruct (Nat.leb_spec lo i); destruct (Nat.leb_spec i hi); cbn [andb]; auto.
Qed.

(** ** Matrices *)
Lemma same_lengths : forall X Y e n (a : list (list X)) (b : list (list Y)), shape e n a -> shape e n b -> map (@length X) a = map (@length Y) b.
Proof.
  intros X Y e n a b [H1 H2] [H3 H4]. apply list_ext with (d := 0); rewrite !map_length; [congruence|].
  intros i Hi. change 0 with (@length X []) at 1. rewrite map_nth. change 0 with (@length Y []). rewrite map_nth. rewrite H2, H4; congruence || lia.
Qed.

Lemma assign2_ok : forall X e n (a b : list (list X)), shape e n a -> shape e n b -> assign2 a b = Ok b.
Proof. intros X e n a b H1 H2. unfold assign2. destruct (list_eq_dec _ _ _) as [_|N]; [reflexivity|]. elim N. eapply same_lengths; eassumption. Qed.

Lemma mat_tab : forall X (d : X) e n m, shape e n m -> m = mtab e n (at2 d m).
Proof. intros X d e n m H. apply mat_ext with (d := d) (e := e) (n := n); [exact H|apply shape_mtab|]. intros j i Hj Hi. rewrite at2_mtab by assumption. reflexivity. Qed.

Lemma mzip2_ok : forall X Y Z (d : X) (d' : Y) (h : X -> Y -> Z) e n a b, shape e n a -> shape e n b ->
  mzip2 h a b = Ok (mtab e n (fun j i => h (at2 d a j i) (at2 d' b j i))).
Proof.
  intros X Y Z d d' h e n a b H1 H2. unfold mzip2. destruct (list_eq_dec _ _ _) as [_|N]; [|elim N; eapply same_lengths; eassumption].
  f_equal. rewrite (mat_tab _ d e n a H1) at 1. rewrite (mat_tab _ d' e n b H2) at 1. unfold mtab. rewrite combine_tab, map_tab. apply tab_ext. intros j Hj. cbn [fst snd].
  rewrite combine_tab, map_tab. reflexivity.
Qed.

Lemma on_row_ok : forall X e n (m : list (list X)) j f r, shape e n m -> j < e -> f (nth j m []) = Ok r -> on_row j f m = Ok (upd j r m).
Proof.
  intros X e n m j f r H Hj Hf. unfold on_row. rewrite (rd1_row _ _ _ _ _ H Hj). cbn [bind]. rewrite Hf. cbn [bind]. apply wr1_ok. destruct H. lia.
Qed.

Lemma wr1_row : forall X e n (m : list (list X)) j r, shape e n m -> j < e -> wr1 m j r = Ok (upd j r m).
Proof. intros X e n m j r [H _] Hj. apply wr1_ok. lia. Qed.

(** ** Loops *)
Definition mem (i : nat) (l : list nat) : bool := existsb (Nat.eqb i) l.
Lemma mem_spec : forall i l, mem i l = true <-> In i l.
Proof.
  intros i l. unfold mem. rewrite existsb_exists. split.
  - intros (x & Hx & E). apply Nat.eqb_eq in E. subst. exact Hx.
  - intros H. exists i. rewrite Nat.eqb_refl. auto.
Qed.
Lemma mem_app : forall i l l', mem i (l ++ l') = mem i l || mem i l'.
Proof. intros. unfold mem. apply existsb_app. Qed.

(** One column of a matrix overwritten in the rows [js]. *)
Definition set_col {X} (js : list nat) (g : nat -> nat -> X) (i : nat) (q : list (list X)) : list (list X) :=
  fold_left (fun q j => upd2 j i (g j i) q) js q.

Lemma set_col_spec : forall X (d : X) e n js g i q, shape e n q -> (forall j, In j js -> j < e) -> i < n ->
  set_col js g i q = mtab e n (fun j k => if mem j js && (k =? i) then g j i else at2 d q j k).
Proof.
  intros X d e n js g i q Hq Hj Hi. revert q Hq. unfold set_col. induction js as [|j js IH]; intros q Hq; cbn [fold_left].
  - rewrite (mat_tab _ d e n q Hq) at 1. reflexivity.
  - rewrite IH; [|intros k Hk; apply Hj; right; exact Hk|apply shape_upd2; exact Hq].
    unfold mtab. apply tab_ext. intros k Hk. apply tab_ext. intros c Hc. change (mem k (j :: js)) with ((k =? j) || mem k js).
    rewrite (at2_upd2 _ d (g j i) e n q j i k c Hq) by (assumption || apply Hj; left; reflexivity).
    rewrite (Nat.eqb_sym i c), (Nat.eqb_sym j k).
    destruct (Nat.eqb_spec k j) as [->|]; destruct (mem _ js); destruct (c =? i); reflexivity.
Qed.

(** A loop over columns in any order. *)
Lemma loop_cols : forall X (d : X) e n js (g : nat -> nat -> X) f l q, shape e n q -> (forall j, In j js -> j < e) -> (forall i, In i l -> i < n) ->
  (forall i q, In i l -> shape e n q -> f i q = Ok (set_col js g i q)) ->
  for_in l f q = Ok (mtab e n (fun j i => if mem j js && mem i l then g j i else at2 d q j i)).
Proof.
  intros X d e n js g f l q Hq Hj Hl Hf. revert q Hq. induction l as [|i l IH]; intros q Hq; cbn [for_in].
  - rewrite (mat_tab _ d e n q Hq) at 1. f_equal. unfold mtab. apply tab_ext. intros j Jj. apply tab_ext. intros i Ii. rewrite andb_false_r. reflexivity.
  - rewrite Hf by (try left; auto). cbn [bind]. rewrite (set_col_spec _ d e n) by (auto; apply Hl; left; reflexivity).
    rewrite IH; [|intros k Hk; apply Hl; right; exact Hk|intros k x Hk; apply Hf; right; exact Hk|apply shape_mtab].
    f_equal. unfold mtab at 1 3. apply tab_ext. intros j Jj. apply tab_ext. intros k Kk. rewrite at2_mtab by assumption.
    change (mem k (i :: l)) with ((k =? i) || mem k l).
    destruct (Nat.eqb_spec k i) as [->|]; destruct (mem j js); destruct (mem _ l); reflexivity.
Qed.

(** A loop over the rows, in any order. *)
Lemma loop_rows : forall X e n (g : nat -> list X -> list X) f l q, shape e n q -> (forall j, In j l -> j < e) -> NoDup l ->
  (forall j r, In j l -> length r = n -> length (g j r) = n) ->
  (forall j q, In j l -> shape e n q -> f j q = Ok (upd j (g j (nth j q [])) q)) ->
  for_in l f q = Ok (tab e (fun j => if mem j l then g j (nth j q []) else nth j q [])).
Proof.
  intros X e n g f l q Hq Hl Nd Hg Hf. revert q Hq. induction l as [|j l IH]; intros q Hq; cbn [for_in].
  - f_equal. cbn [mem existsb]. rewrite <- (tab_self _ [] e q) at 1 by apply Hq. reflexivity.
  - rewrite Hf by (try left; auto). cbn [bind]. inversion Nd as [|? ? Nj Nd']; subst.
    assert (Hjr : length (nth j q []) = n) by (apply (shape_row _ e); [exact Hq|apply Hl; left; reflexivity]).
    rewrite IH; [|intros k Hk; apply Hl; right; exact Hk|exact Nd'|intros k r Hk; apply Hg; right; exact Hk|intros k x Hk; apply Hf; right; exact Hk|].
    + f_equal. apply tab_ext. intros k Hk. change (mem k (j :: l)) with ((k =? j) || mem k l). rewrite nth_upd.
      destruct (Nat.eqb_spec j k) as [<-|Hne].
      * rewrite Nat.eqb_refl. destruct (mem j l) eqn:M; [apply mem_spec in M; contradiction|]. destruct (Nat.ltb_spec j (length q)); [reflexivity|]. destruct Hq; lia.
      * destruct (Nat.eqb_spec k j); [congruence|]. reflexivity.
    + apply shape_upd_row; [exact Hq|]. apply Hg; [left; reflexivity|exact Hjr].
Qed.

(** A parallel loop over a slice, in any order. *)
Lemma loop_vec : forall X (d : X) n lo (g : nat -> X) f l v, length v = n -> (forall k, In k l -> lo + k < n) ->
  (forall k v, In k l -> length v = n -> f k v = Ok (upd (lo + k) (g k) v)) ->
  for_in l f v = Ok (tab n (fun i => if (lo <=? i) && mem (i - lo) l then g (i - lo) else at1 d v i)).
Proof.
  intros X d n lo g f l v Hv Hl Hf. revert v Hv. induction l as [|k l IH]; intros v Hv; cbn [for_in].
  - rewrite <- (tab_self _ d n v Hv) at 1. f_equal. apply tab_ext. intros i Hi. rewrite andb_false_r. reflexivity.
  - rewrite Hf by (try left; auto). cbn [bind]. rewrite IH; [|intros i Hi; apply Hl; right; exact Hi|intros i x Hi; apply Hf; right; exact Hi|rewrite length_upd; exact Hv].
    f_equal. apply tab_ext. intros i Hi. change (mem (i - lo) (k :: l)) with ((i - lo =? k) || mem (i - lo) l). unfold at1. rewrite nth_upd.
    assert (Hk : lo + k < n) by (apply Hl; left; reflexivity).
    destruct (Nat.leb_spec lo i); cbn [andb].
    + destruct (Nat.eqb_spec (i - lo) k) as [E|E].
      * replace (lo + k) with i by lia. rewrite Nat.eqb_refl. destruct (Nat.ltb_spec i (length v)); [|lia]. cbn. rewrite E. destruct (mem k l); reflexivity.
      * destruct (Nat.eqb_spec (lo + k) i); [lia|]. cbn. reflexivity.
    + destruct (Nat.eqb_spec (lo + k) i); [lia|]. reflexivity.
Qed.

Lemma mem_seq : forall i a n, mem i (seq a n) = (a <=? i) && (i <? a + n).
Proof.
  intros i a n. destruct (mem i (seq a n)) eqn:M.
  - apply mem_spec in M. apply in_seq in M. destruct (Nat.leb_spec a i); destruct (Nat.ltb_spec i (a + n)); cbn; lia || reflexivity.
  - destruct (Nat.leb_spec a i); destruct (Nat.ltb_spec i (a + n)); cbn; try reflexivity. exfalso.
    assert (In i (seq a n)) by (apply in_seq; lia). apply mem_spec in H1. congruence.
Qed.

Lemma mem_perm : forall l l' i, Permutation l l' -> mem i l = mem i l'.
Proof.
  intros l l' i H. destruct (mem i l) eqn:A; destruct (mem i l') eqn:B; try reflexivity.
  - apply mem_spec in A. apply (Permutation_in _ H) in A. apply mem_spec in A. congruence.
  - apply mem_spec in B. apply (Permutation_in _ (Permutation_sym H)) in B. apply mem_spec in B. congruence.
Qed.
