(** What the text of an output shows. *)

From Coq Require Import List ZArith NArith Bool String Ascii Lia.
From Verif Require Import Base Num Config Mesh State NumFlux Time Writer SpecWriter TextProofs.
Import ListNotations.
Local Open Scope string_scope.

Fixpoint join (d : ascii) (l : list string) : string :=
  match l with [] => "" | x :: t => match t with [] => x | _ => x ++ String d (join d t) end end.

Lemma join_cons : forall d x y t, join d (x :: y :: t) = x ++ String d (join d (y :: t)). Proof. reflexivity. Qed.

Lemma split_join : forall d l, l <> [] -> (forall x, In x l -> no_char d x) -> split d (join d l) = l.
Proof.
  intros d. induction l as [|x l IH]; intros H K; [congruence|]. destruct l as [|y l].
  - cbn [join]. apply split_none. apply K. left; reflexivity.
  - rewrite join_cons, split_app by (apply K; left; reflexivity). rewrite IH; [reflexivity|discriminate|]. intros z Hz. apply K. right; exact Hz.
Qed.

(** words *)
Lemma words_blank : forall k s, words (repeat_char " " k ++ s) = words s.
Proof. induction k; intros s; [reflexivity|]. cbn [repeat_char String.append]. unfold words in *. cbn [split]. rewrite Ascii.eqb_refl. cbn [filter]. cbn. apply IHk. Qed.

Lemma words_app : forall f t, f <> "" -> no_char " " f -> words (f ++ String " " t) = f :: words t.
Proof.
  intros f t H K. unfold words. rewrite split_app by exact K. cbn [filter]. destruct (String.eqb_spec f ""); [contradiction|]. reflexivity.
Qed.

Lemma words_one : forall f, f <> "" -> no_char " " f -> words f = [f].
Proof. intros f H K. unfold words. rewrite split_none by exact K. cbn [filter]. destruct (String.eqb_spec f ""); [contradiction|]. reflexivity. Qed.

Lemma words_join : forall w l, (forall x, In x l -> x <> "" /\ no_char " " x) -> words (join " " (map (pad_left " " w) l)) = l.
Proof.
  intros w. induction l as [|x l IH]; intros K; [reflexivity|]. destruct (K x ltac:(left; reflexivity)) as (K1 & K2). destruct l as [|y l].
  - cbn [map join]. unfold pad_left. rewrite words_blank. apply words_one; assumption.
  - cbn [map]. rewrite join_cons. unfold pad_left at 1. rewrite app_assoc_s, words_blank, words_app by assumption.
    f_equal. apply IH. intros z Hz. apply K. right; exact Hz.
Qed.

Lemma pad_zero : forall c s, pad_left c 0 s = s. Proof. reflexivity. Qed.

Lemma no_char_repeat : forall c d n, c <> d -> no_char d (repeat_char c n).
Proof. induction n; intros; cbn; auto. Qed.

Lemma no_char_pad : forall c d w s, c <> d -> no_char d s -> no_char d (pad_left c w s).
Proof. intros c d w s H K. unfold pad_left. apply no_char_app. split; [apply no_char_repeat; exact H|exact K]. Qed.

Lemma no_char_join : forall d c l, d <> c -> (forall x, In x l -> no_char c x) -> no_char c (join d l).
Proof.
  intros d c. induction l as [|x l IH]; intros H K; [exact I|]. destruct l as [|y l]; [apply K; left; reflexivity|].
  rewrite join_cons. apply no_char_app. split; [apply K; left; reflexivity|]. split; [exact H|]. apply IH; [exact H|]. intros z Hz. apply K. right; exact Hz.
Qed.

(** ** Fields do not contain separators *)
Definition good (s : string) : Prop := s <> "" /\ plain_text s.

Lemma good_no : forall s, good s -> no_char "," s /\ no_char " " s /\ no_char line_break s.
Proof.
  intros s (_ & H). induction s as [|c s IH]; [repeat split|]. cbn in H. destruct H as ((H1 & H2 & H3) & H4). destruct (IH H4) as (I1 & I2 & I3). repeat split; assumption.
Qed.

Lemma plain_app : forall a b, plain_text (a ++ b) <-> plain_text a /\ plain_text b.
Proof. induction a; intros b; cbn; [tauto|]. rewrite IHa. tauto. Qed.

Lemma digits_plain : forall s acc v, number acc s = Some v -> plain_text s.
Proof.
  induction s as [|c s IH]; intros acc v H; [exact I|]. cbn [number] in H. destruct (digit c) as [d|] eqn:D; [|discriminate].
  split; [|eapply IH; exact H]. repeat split; intros ->; vm_compute in D; discriminate D.
Qed.

Lemma good_dec : forall n, good (dec n).
Proof. intros n. split; [apply dec_nonempty|]. eapply digits_plain. apply number_dec. Qed.

(** a decision procedure for texts without separators *)
Fixpoint plainb (s : string) : bool :=
  match s with
  | EmptyString => true
  | String c t => negb (Ascii.eqb c ",") && negb (Ascii.eqb c " ") && negb (Ascii.eqb c line_break) && plainb t
  end.

Lemma plainb_ok : forall s, plainb s = true -> plain_text s.
Proof.
  induction s as [|c s IH]; intros H; [exact I|]. cbn [plainb] in H. apply andb_true_iff in H. destruct H as [H H4].
  apply andb_true_iff in H. destruct H as [H H3]. apply andb_true_iff in H. destruct H as [H1 H2].
  apply negb_true_iff in H1, H2, H3. apply Ascii.eqb_neq in H1, H2, H3.
  cbn [plain_text]. split; [unfold plain_char; auto|auto].
Qed.

Lemma good_lit : forall c s, plainb (String c s) = true -> good (String c s).
Proof. intros c s H. unfold good. split; [discriminate|apply plainb_ok; exact H]. Qed.

Lemma good_name : forall n, good (name_str n).
Proof.
  intros n. destruct n; try (apply good_lit; vm_compute; reflexivity).
  - unfold good, name_str. split; [discriminate|]. apply plain_app. split; [apply plainb_ok; vm_compute; reflexivity|apply good_dec].
  - unfold good, name_str. split; [discriminate|]. apply plain_app. split; [apply plainb_ok; vm_compute; reflexivity|apply good_dec].
Qed.

Section Fields.
Variable A : Num.
Variable fmt : nat -> nF A -> string.
Hypothesis Hf : plain fmt.

Lemma good_field : forall prec m ts v i n, good (field fmt prec m ts v i n).
Proof.
  intros prec m ts v i n. destruct n; cbn [field]; try apply Hf; [apply good_dec|]. destruct (ts_kind ts); apply good_lit; vm_compute; reflexivity.
Qed.
End Fields.

(** ** Collected data *)
Section Collected.
Variable A : Num.
Variable fmt : nat -> nF A -> string.

(** [d] holds the quantity [n] of the snapshot *)
Definition holds (m : mesh A) (ts : timestep A) (v : vars A) (off : nat) (n : data_name) (d : data A) : Prop :=
  d_name d = n /\
  match n with
  | DT => d_payload d = VFloat (ts_t ts)
  | DDt => d_payload d = VFloat (ts_dt ts)
  | DIter => d_payload d = VUsize (ts_iter ts)
  | DDtKind => d_payload d = VString (kind_str (ts_kind ts))
  | XiCent => d_payload d = VVec (slice off (m_xi_cent m))
  | XiWest => d_payload d = VVec (slice off (m_xi_west m))
  | XiEast => d_payload d = VVec (slice off (m_xi_east m))
  | DPrim j => exists r, nth_error (prim v) j = Some r /\ d_payload d = VVec (slice off r)
  | DCons j => exists r, nth_error (cons v) j = Some r /\ d_payload d = VVec (slice off r)
  | DCSound => d_payload d = VVec (slice off (c_sound v))
  end.

Lemma slice_0 : forall v : list (nF A), slice 0 v = v.
Proof. intros v. unfold slice. rewrite !Nat.sub_0_r. cbn [skipn]. apply firstn_all. Qed.

Lemma write_vector_ok : forall (f : list (nF A)) d off d', write_vector f d off = Ok d' -> d' = mkData (d_name d) (VVec (slice off f)).
Proof.
  intros f d off d' H. unfold write_vector in H. destruct (d_payload d) as [n|x|v|s]; try discriminate.
  destruct (Nat.eqb_spec off 0) as [->|E].
  - destruct (_ =? _)%nat; [|discriminate]. injection H as <-. rewrite slice_0. reflexivity.
  - destruct (_ =? _)%nat; [|discriminate]. injection H as <-. reflexivity.
Qed.

Lemma collect_holds : forall m v ts off d d', collect m v ts off d = Ok d' -> holds m ts v off (d_name d) d'.
Proof.
  intros m v ts off d d' H. unfold collect in H. unfold holds.
  destruct (d_name d) eqn:E; cbn [dn_assoc] in H; unfold collect_mesh, collect_vars, collect_time in H; rewrite E in H; cbn [dn_assoc] in H.
  all: try (apply write_vector_ok in H; subst d'; cbn [d_name d_payload]; auto; fail).
  all: try (injection H as <-; cbn [d_name d_payload]; auto; fail).
  all: unfold row in H; match type of H with context [nth_error ?a ?b] => destruct (nth_error a b) as [r|] eqn:Er end; cbn [bind] in H; [|discriminate].
  all: apply write_vector_ok in H; subst d'; cbn [d_name d_payload]; eauto.
Qed.

Lemma nth_slice : forall (v : list (nF A)) off r x, nth_error (slice off v) r = Some x -> nth_error v (off + r) = Some x.
Proof.
  intros v off r x H. unfold slice in H.
  assert (L : (r < Datatypes.length v - off - off)%nat). { assert (Q : nth_error (firstn (Datatypes.length v - off - off) (skipn off v)) r <> None) by congruence. apply nth_error_Some in Q. rewrite firstn_length in Q. lia. }
  rewrite <- (firstn_skipn off v). rewrite nth_error_app2; rewrite firstn_length_le by lia; [|lia].
  replace (off + r - off)%nat with r by lia.
  rewrite <- (firstn_skipn (Datatypes.length v - off - off) (skipn off v)). rewrite nth_error_app1; [exact H|].
  assert (Q : nth_error (firstn (Datatypes.length v - off - off) (skipn off v)) r <> None) by congruence. apply nth_error_Some in Q. exact Q.
Qed.

Lemma nth_at1 : forall (v : list (nF A)) i x, nth_error v i = Some x -> at1 (n0 A) v i = x.
Proof. intros v i x H. unfold at1. apply nth_error_nth. exact H. Qed.

(** the text of a field *)
Lemma format_field : forall o m ts v n d r s, holds m ts v (o_offset o) n d -> format_data fmt o d r = Ok s ->
  s = pad_left " " (o_width o) (field fmt (o_precision o) m ts v (o_offset o + r) n).
Proof.
  intros o m ts v n d r s (E & H) F. unfold format_data in F.
  destruct n; cbn [field]; try (rewrite H in F; injection F as <-; reflexivity).
  all: try (rewrite H in F; match type of F with context [nth_error ?a ?b] => destruct (nth_error a b) as [x|] eqn:X end; [|discriminate];
    injection F as <-; apply nth_slice in X; rewrite (nth_at1 _ _ _ X); reflexivity).
  all: destruct H as (q & Eq & H); rewrite H in F; match type of F with context [nth_error ?a ?b] => destruct (nth_error a b) as [x|] eqn:X end; [|discriminate];
    injection F as <-; apply nth_slice in X; unfold at2; rewrite (nth_error_nth _ _ [] Eq), (nth_error_nth _ _ (n0 A) X); reflexivity.
Qed.

(** the data of an output after collecting *)
Definition holds_all (m : mesh A) (ts : timestep A) (v : vars A) (o : output A) (ns : list data_name) : Prop :=
  Forall2 (holds m ts v (o_offset o)) ns (o_data o).

Lemma update_holds : forall m v ts o o', output_update m v ts o = (o', Ok tt) ->
  holds_all m ts v o' (map d_name (o_data o)) /\ exists d, o' = o_set_data d o.
Proof.
  intros m v ts o o' H. unfold output_update in H.
  destruct (try_each _ (o_data o)) as [ds r] eqn:E. injection H as <- ->. split; [|eauto]. unfold holds_all. cbn [o_data o_set_data o_offset].
  revert ds E. generalize (o_data o). intros l. induction l as [|d l IH]; intros ds E; cbn [try_each] in E; [injection E as <-; constructor|].
  unfold keep in E at 1. destruct (collect m v ts (o_offset o) d) as [d'|e| |] eqn:C; try discriminate.
  destruct (try_each _ l) as [t o1] eqn:T. injection E as <- ->. cbn [map]. constructor; [apply (collect_holds _ _ _ _ _ _ C)|apply IH; reflexivity].
Qed.

Lemma holds_names : forall m ts v o ns, holds_all m ts v o ns -> map d_name (o_data o) = ns.
Proof. intros m ts v o ns H. unfold holds_all in H. induction H as [|n d ns ds (H & _) _ IH]; cbn; congruence. Qed.

(** ** Lines *)
Lemma rest_join : forall o m ts v r ns ds t x, Forall2 (holds m ts v (o_offset o)) ns ds -> rest_of_line fmt o r ds = Ok t ->
  x ++ t = join (o_delim o) (x :: map (fun n => pad_left " " (o_width o) (field fmt (o_precision o) m ts v (o_offset o + r) n)) ns).
Proof.
  intros o m ts v r ns ds t x H. revert t x. induction H as [|n d ns ds Hd _ IH]; intros t x E; cbn [rest_of_line] in E.
  - injection E as <-. cbn. apply app_nil_s.
  - destruct (format_data fmt o d r) as [s|e| |] eqn:F; cbn [bind] in E; try discriminate.
    destruct (rest_of_line fmt o r ds) as [t'|e| |] eqn:R; cbn [bind] in E; try discriminate. injection E as <-.
    cbn [map]. rewrite join_cons, <- (IH _ _ eq_refl), (format_field _ _ _ _ _ _ _ _ Hd F). reflexivity.
Qed.

Definition fields (o : output A) (m : mesh A) (ts : timestep A) (v : vars A) (ns : list data_name) (r : nat) : list string :=
  map (fun n => field fmt (o_precision o) m ts v (o_offset o + r) n) ns.

Lemma line_join : forall o m ts v r ns t, holds_all m ts v o ns -> line fmt o r = Ok t ->
  ns <> [] /\ t = (match o_format o with TSV => " " | CSV => "" end ++ join (o_delim o) (map (pad_left " " (o_width o)) (fields o m ts v ns r))) ++ newline.
Proof.
  intros o m ts v r ns t H E. unfold line in E. unfold holds_all in H. remember (o_data o) as D eqn:ED. destruct H as [|n d ns ds Hd Hr]; [discriminate|].
  split; [discriminate|]. destruct (format_data fmt o d r) as [s|e| |] eqn:F; cbn [bind] in E; try discriminate.
  destruct (rest_of_line fmt o r ds) as [t'|e| |] eqn:R; cbn [bind] in E; try discriminate. injection E as <-.
  unfold fields. rewrite map_map. cbn [map]. rewrite <- (app_assoc_s s t' newline), (rest_join _ _ _ _ _ _ _ _ s Hr R).
  rewrite (format_field _ _ _ _ _ _ _ _ Hd F), app_assoc_s. reflexivity.
Qed.

Lemma str_pop_app : forall a c, str_pop (a ++ String c "") = a.
Proof. induction a as [|x a IH]; intros c; [reflexivity|]. cbn [String.append str_pop]. destruct (a ++ String c "") eqn:E; [destruct a; discriminate|]. rewrite <- E, IH. reflexivity. Qed.

Lemma header_join : forall (o : output A) ns, map d_name (o_data o) = ns -> ns <> [] ->
  header o = (o_comment o ++ join (o_delim o) (map (pad_left " " (o_width o)) (map name_str ns))) ++ newline.
Proof.
  intros o ns E H. unfold header. f_equal.
  assert (G : forall (l : list (data A)) acc, l <> [] -> fold_left (fun acc d => acc ++ pad_left " " (o_width o) (name_str (d_name d)) ++ String (o_delim o) "") l acc =
     (acc ++ join (o_delim o) (map (pad_left " " (o_width o)) (map name_str (map d_name l)))) ++ String (o_delim o) "").
  { induction l as [|d l IH]; intros acc Hl; [congruence|]. cbn [fold_left]. destruct l as [|d2 l].
    - cbn [fold_left map join]. rewrite app_assoc_s. reflexivity.
    - rewrite IH by discriminate. cbn [map]. rewrite join_cons, !app_assoc_s. reflexivity. }
  rewrite G by (intros Q; rewrite Q in E; cbn in E; congruence). rewrite E. apply str_pop_app.
Qed.

(** ** Tables *)
Hypothesis Hf : plain fmt.

(** the separators of a format *)
Definition styled (o : output A) : Prop :=
  o_delim o = match o_format o with TSV => " "%char | CSV => ","%char end /\
  o_comment o = match o_format o with TSV => "#" | CSV => "" end /\
  match o_format o with TSV => True | CSV => o_width o = 0%nat end.

Lemma map_pad0 : forall l, map (pad_left " " 0) l = l.
Proof. induction l; cbn; [reflexivity|]. rewrite IHl. reflexivity. Qed.

Lemma uncomment_app : forall a b, a <> "" -> uncomment (a ++ b) = uncomment a ++ b.
Proof. intros [|c a] b H; [congruence|]. cbn. destruct (Ascii.eqb c "#"); reflexivity. Qed.

Lemma complete_nonempty : forall a, complete a -> a <> "".
Proof. intros a (t & ->) H. destruct t; discriminate. Qed.

Lemma complete_uncomment : forall a, complete a -> complete (uncomment a).
Proof.
  intros a (t & ->). destruct t as [|c t]; [exists ""; reflexivity|]. cbn [String.append uncomment].
  destruct (Ascii.eqb c "#"); [exists t; reflexivity|]. exists (String c t). reflexivity.
Qed.

Definition row_ok (l : list string) : Prop := l <> [] /\ forall x, In x l -> good x.

Lemma no_break_join : forall o l, styled o -> row_ok l -> no_char line_break (join (o_delim o) (map (pad_left " " (o_width o)) l)).
Proof.
  intros o l (S1 & _) (_ & H). apply no_char_join; [rewrite S1; destruct (o_format o); discriminate|]. intros x Hx. apply in_map_iff in Hx. destruct Hx as (y & <- & Hy).
  apply no_char_pad; [discriminate|]. apply good_no. apply H. exact Hy.
Qed.

Lemma header_table : forall (o : output A) ns, styled o -> map d_name (o_data o) = ns -> ns <> [] ->
  is_table (o_format o) (header o) [map name_str ns].
Proof.
  intros o ns S E H. assert (R : row_ok (map name_str ns)). { split; [destruct ns; [congruence|discriminate]|]. intros x Hx. apply in_map_iff in Hx. destruct Hx as (y & <- & _). apply good_name. }
  pose proof (no_break_join o _ S R) as NB. destruct R as (R1 & R2). rewrite (header_join o ns E H). split; [apply complete_line|].
  destruct S as (S1 & S2 & S3). rewrite S1 in NB |- *. rewrite S2. unfold parse. destruct (o_format o).
  - cbn [String.append uncomment]. change (Ascii.eqb "#" "#") with true. cbv iota. unfold newline. change (ascii_of_nat 10) with line_break.
    rewrite text_lines_cons by exact NB. cbn [map]. rewrite text_lines_nil. cbn [map]. rewrite words_join; [reflexivity|]. intros x Hx. split; [apply R2; exact Hx|]. apply good_no. apply R2. exact Hx.
  - rewrite S3, map_pad0 in NB. rewrite S3, map_pad0. cbn [String.append]. unfold newline. change (ascii_of_nat 10) with line_break.
    rewrite text_lines_cons by exact NB. cbn [map]. rewrite text_lines_nil. cbn [map]. rewrite split_join; [reflexivity|exact R1|]. intros x Hx. apply good_no. apply R2. exact Hx.
Qed.

Lemma table_line : forall o m ts v ns r t T rows, styled o -> holds_all m ts v o ns -> line fmt o r = Ok t -> is_table (o_format o) T rows ->
  is_table (o_format o) (T ++ t) (rows ++ [fields o m ts v ns r]).
Proof.
  intros o m ts v ns r t T rows S H L (C & P). destruct (line_join o m ts v r ns t H L) as (Hn & ->).
  assert (R : row_ok (fields o m ts v ns r)). { split; [destruct ns; [congruence|discriminate]|]. intros x Hx. apply in_map_iff in Hx. destruct Hx as (y & <- & _). apply good_field. exact Hf. }
  pose proof (no_break_join o _ S R) as NB. destruct R as (R1 & R2). split; [apply complete_app; apply complete_line|].
  destruct S as (S1 & S2 & S3). rewrite S1 in NB |- *. unfold parse in *. destruct (o_format o).
  - rewrite uncomment_app by (apply complete_nonempty; exact C). rewrite text_lines_app, map_app, P by (apply complete_uncomment; exact C). f_equal.
    unfold newline. change (ascii_of_nat 10) with line_break.
    rewrite text_lines_cons by (apply no_char_app; split; [split; [discriminate|exact I]|exact NB]). cbn [map]. rewrite text_lines_nil. cbn [map].
    change " " with (repeat_char " " 1) at 1. rewrite words_blank, words_join; [reflexivity|]. intros x Hx. split; [apply R2; exact Hx|]. apply good_no. apply R2. exact Hx.
  - rewrite text_lines_app, map_app, P by exact C. f_equal. rewrite S3, map_pad0 in NB. rewrite S3, map_pad0. cbn [String.append]. unfold newline. change (ascii_of_nat 10) with line_break.
    rewrite text_lines_cons by exact NB. cbn [map]. rewrite text_lines_nil. cbn [map]. rewrite split_join; [reflexivity|exact R1|]. intros x Hx. apply good_no. apply R2. exact Hx.
Qed.

Lemma table_lines : forall o m ts v ns js t T rows, styled o -> holds_all m ts v o ns -> lines fmt o js = Ok t -> is_table (o_format o) T rows ->
  is_table (o_format o) (T ++ t) (rows ++ map (fields o m ts v ns) js).
Proof.
  intros o m ts v ns js. induction js as [|j js IH]; intros t T rows S H L B; cbn [lines] in L.
  - injection L as <-. cbn [map]. rewrite app_nil_s, app_nil_r. exact B.
  - destruct (line fmt o j) as [s|e| |] eqn:L1; cbn [bind] in L; try discriminate.
    destruct (lines fmt o js) as [u|e| |] eqn:L2; cbn [bind] in L; try discriminate. injection L as <-.
    rewrite <- app_assoc_s. cbn [map]. change (fields o m ts v ns j :: map (fields o m ts v ns) js) with ([fields o m ts v ns j] ++ map (fields o m ts v ns) js)%list.
    rewrite app_assoc. apply IH; [exact S|exact H|reflexivity|]. apply table_line; assumption.
Qed.

(** the text of one write *)
Lemma text_vector : forall o m ts v ns txt, styled o -> holds_all m ts v o ns -> ns <> [] -> o_conv o = Vector -> stream_text fmt o = Ok txt ->
  is_table (o_format o) txt (map name_str ns :: map (fields o m ts v ns) (seq 0 (o_rows o))).
Proof.
  intros o m ts v ns txt S H Hn C E. unfold stream_text in E. rewrite C in E. destruct (lines fmt o (seq 0 (o_rows o))) as [b|e| |] eqn:L; cbn [bind] in E; try discriminate. injection E as <-.
  apply (table_lines o m ts v ns _ b _ [map name_str ns] S H L). apply header_table; [exact S|apply (holds_names _ _ _ _ _ H)|exact Hn].
Qed.

Lemma text_scalar_first : forall o m ts v ns txt, styled o -> holds_all m ts v o ns -> ns <> [] -> o_conv o = Scalar -> o_first o = true -> o_rows o = 1%nat ->
  stream_text fmt o = Ok txt -> is_table (o_format o) txt [map name_str ns; fields o m ts v ns 0].
Proof.
  intros o m ts v ns txt S H Hn C F R E. unfold stream_text in E. rewrite C, F, R in E. destruct (lines fmt o (seq 0 1)) as [b|e| |] eqn:L; cbn [bind] in E; try discriminate. injection E as <-.
  apply (table_lines o m ts v ns _ b _ [map name_str ns] S H L). apply header_table; [exact S|apply (holds_names _ _ _ _ _ H)|exact Hn].
Qed.

Lemma text_scalar_next : forall o m ts v ns txt T rows, styled o -> holds_all m ts v o ns -> o_conv o = Scalar -> o_first o = false -> o_rows o = 1%nat ->
  stream_text fmt o = Ok txt -> is_table (o_format o) T rows -> is_table (o_format o) (T ++ txt) (rows ++ [fields o m ts v ns 0]).
Proof.
  intros o m ts v ns txt T rows S H C F R E B. unfold stream_text in E. rewrite C, F, R in E. destruct (lines fmt o (seq 0 1)) as [b|e| |] eqn:L; cbn [bind] in E; try discriminate. injection E as <-.
  cbn [String.append]. apply (table_lines o m ts v ns _ b _ rows S H L B).
Qed.

(** ** Outputs made from a configuration *)
Lemma styled_build : forall S c m mx, styled (output_build S c m mx : output A).
Proof. intros. unfold styled, output_build. cbn. destruct (oc_format c); repeat split. Qed.

Lemma same_refl : forall o : output A, same_output o o. Proof. intros o. exists (o_data o), (o_first o). destruct o; reflexivity. Qed.
Lemma same_trans : forall a b c : output A, same_output a b -> same_output b c -> same_output a c.
Proof. intros a b c (d1 & b1 & ->) (d2 & b2 & ->). exists d2, b2. destruct a; reflexivity. Qed.
Lemma same_path : forall a b : output A, same_output a b -> forall k, out_path b k = out_path a k.
Proof. intros a b (d & f & ->) k. destruct a; reflexivity. Qed.
Lemma same_styled : forall a b : output A, same_output a b -> styled a -> styled b.
Proof. intros a b (d & f & ->) H. destruct a; exact H. Qed.
End Collected.
Arguments styled {A}.
Arguments holds {A}. Arguments holds_all {A}. Arguments fields {A}.
