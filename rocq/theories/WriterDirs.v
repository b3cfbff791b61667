(** Which directories exist after Writer::new. *)

From Coq Require Import List ZArith NArith Bool String Ascii Lia.
From Verif Require Import Base Num Config Mesh State NumFlux Time Writer Runner Spec SpecWriter MeshProofs TextProofs TableProofs WriterProofs.
Import ListNotations.
Local Open Scope string_scope.

Lemma no_slash_char : forall s, no_slash s <-> no_char "/" s.
Proof. induction s as [|c s IH]; cbn; [tauto|]. rewrite IH. tauto. Qed.

Lemma number_no_slash : forall s acc n, number acc s = Some n -> no_char "/" s.
Proof.
  induction s as [|c s IH]; intros acc n H; cbn [no_char]; [exact I|]. cbn [number] in H. destruct (digit c) as [d|] eqn:D; [|discriminate].
  split; [|apply (IH _ _ H)]. intros ->. vm_compute in D. discriminate.
Qed.

Lemma dec_no_slash : forall n, no_char "/" (dec n).
Proof. intros n. apply (number_no_slash _ 0 n). apply reads_dec. Qed.

Lemma parent_none : forall s, no_char "/" s -> parent s = None.
Proof.
  induction s as [|c s IH]; intros H; [reflexivity|]. destruct H as [H1 H2]. cbn [parent]. rewrite (IH H2). destruct (Ascii.eqb_spec c "/"); [contradiction|reflexivity].
Qed.

Lemma parent_app : forall d s, no_char "/" s -> parent (d ++ "/" ++ s) = Some d.
Proof.
  induction d as [|c d IH]; intros s H.
  - cbn [String.append parent]. rewrite (parent_none s H). reflexivity.
  - change (String c d ++ "/" ++ s) with (String c (d ++ "/" ++ s)). cbn [parent]. rewrite (IH s H). reflexivity.
Qed.

Lemma parent_file : forall mx c k, no_slash (oc_file c) -> parent (file_of mx c k) = Some (dir_name (oc_folder c)).
Proof.
  intros mx c k H. unfold file_of. rewrite <- dir_slash. rewrite app_assoc_s. apply parent_app. apply no_slash_char in H. apply no_char_app. split; [exact H|]. apply no_char_app. split.
  - destruct (oc_conv c); [exact I|]. apply no_char_app. split; [split; [discriminate|exact I]|]. apply no_char_pad; [discriminate|apply dec_no_slash].
  - destruct (oc_format c); cbn; repeat split; discriminate.
Qed.

Lemma prefix_self : forall a, prefix a a = true.
Proof. intros a. replace a with (a ++ "") at 2 by apply app_nil_s. apply prefix_app. Qed.

Lemma is_dir_slash : forall w f g, folder_slash f = folder_slash g -> is_dir w f = is_dir w g.
Proof. intros w f g H. rewrite <- !dir_slash in H. unfold is_dir. apply app_inv_tail_s in H. rewrite H. reflexivity. Qed.

Lemma create_is_dir : forall f g w, is_dir (w_create_dir f w) g = if prefix (folder_slash g) (folder_slash f) then true else is_dir w g.
Proof. intros f g w. unfold is_dir. cbn [w_create_dir w_dirs]. rewrite dir_slash. reflexivity. Qed.

Lemma remove_is_dir : forall f g w, is_dir (w_remove_dir f w) g = if prefix (folder_slash f) (folder_slash g) then false else is_dir w g.
Proof. intros f g w. unfold is_dir. cbn [w_remove_dir w_dirs]. rewrite dir_slash. reflexivity. Qed.

(** the directories after preparing an output *)
Lemma prepare_dirs : forall c w w', output_prepare c w = (w', Ok tt) -> oc_stream c = File ->
  is_dir w' (oc_folder c) = true /\
  (forall g, is_dir w g = true -> oc_clear c = true -> properly_contains (oc_folder c) g -> is_dir w (oc_folder c) = true -> is_dir w' g = false) /\
  (forall g, is_dir w g = true -> ~ (oc_clear c = true /\ properly_contains (oc_folder c) g) -> is_dir w' g = true) /\
  (forall g, is_dir w (oc_folder c) = false \/ oc_clear c = true -> contains g (oc_folder c) -> is_dir w' g = true).
Proof.
  intros c w w' H F. unfold output_prepare in H. rewrite F in H. set (f := oc_folder c) in *.
  assert (Pr : forall g, ~ prefix (folder_slash g) (folder_slash f) = true -> prefix (folder_slash f) (folder_slash g) = true -> properly_contains f g).
  { intros g N P. split; [exact P|]. intros E. apply N. rewrite E. apply prefix_self. }
  destruct (oc_clear c && is_dir w f) eqn:Cl.
  - apply andb_true_iff in Cl. destruct Cl as [Cl Di]. destruct (w_bad w f) eqn:B; [discriminate|].
    rewrite remove_is_dir, prefix_self in H. cbn [w_bad w_remove_dir] in H. rewrite B in H. injection H as <-.
    split; [rewrite create_is_dir, prefix_self; reflexivity|]. split; [|split].
    + intros g _ _ (P1 & P2) _. rewrite create_is_dir, remove_is_dir. unfold contains in P1. rewrite P1. destruct (prefix (folder_slash g) (folder_slash f)) eqn:Q; [|reflexivity].
      exfalso. apply P2. apply prefix_inv in P1, Q. destruct P1 as (x & X), Q as (y & Y). rewrite X in Y. rewrite app_assoc_s in Y.
      assert (Z : x ++ y = ""). { apply (app_inv_head_s (folder_slash f)). rewrite <- Y. symmetry. apply app_nil_s. }
      destruct x; [|discriminate]. rewrite X. symmetry. apply app_nil_s.
    + intros g Dg N. rewrite create_is_dir, remove_is_dir. destruct (prefix (folder_slash g) (folder_slash f)) eqn:Q; [reflexivity|].
      destruct (prefix (folder_slash f) (folder_slash g)) eqn:P; [|exact Dg]. exfalso. apply N. split; [exact Cl|]. apply Pr; [congruence|exact P].
    + intros g _ P. rewrite create_is_dir. unfold contains in P. rewrite P. reflexivity.
  - destruct (is_dir w f) eqn:Di.
    + injection H as <-. split; [exact Di|]. split; [|split].
      * intros g _ C. rewrite C in Cl. discriminate.
      * auto.
      * intros g [X|X]; [discriminate|]. rewrite X in Cl. discriminate.
    + destruct (w_bad w f); [discriminate|]. injection H as <-.
      split; [rewrite create_is_dir, prefix_self; reflexivity|]. split; [|split].
      * discriminate.
      * intros g Dg _. rewrite create_is_dir. destruct (prefix _ _); auto.
      * intros g _ P. rewrite create_is_dir. unfold contains in P. rewrite P. reflexivity.
Qed.

Section Dirs.
Variable A : Num.

Lemma outputs_dirs : forall S cs (m : mesh A) mx w w' os, outputs_new S cs m mx w = (w', Ok os) ->
  (forall g, is_dir w g = true -> (forall c, In c cs -> oc_stream c = File -> oc_clear c = true -> ~ properly_contains (oc_folder c) g) -> is_dir w' g = true) /\
  ((forall i j ci cj, (i < j)%nat -> nth_error cs i = Some ci -> nth_error cs j = Some cj -> oc_stream ci = File -> oc_stream cj = File ->
     oc_clear cj = true -> ~ properly_contains (oc_folder cj) (oc_folder ci)) ->
   forall c, In c cs -> oc_stream c = File -> is_dir w' (oc_folder c) = true).
Proof.
  intros S cs m mx. induction cs as [|c cs IH]; intros w w' os H; cbn [outputs_new] in H.
  - injection H as <- <-. split; [auto|]. intros _ c [].
  - destruct (output_prepare c w) as [w1 r1] eqn:P. destruct r1 as [[]|e| |]; try discriminate.
    destruct (outputs_new S cs m mx w1) as [w2 r2] eqn:N. destruct r2 as [os2|e| |]; cbn [bind] in H; try discriminate. injection H as <- <-.
    destruct (IH _ _ _ N) as (I1 & I2). split.
    + intros g Dg Hg. apply I1; [|intros d Hd; apply Hg; right; exact Hd]. destruct (oc_stream c) eqn:F.
      * unfold output_prepare in P. rewrite F in P. injection P as <-. exact Dg.
      * destruct (prepare_dirs c w w1 P F) as (_ & _ & P3 & _). apply P3; [exact Dg|]. intros (C & Q). exact (Hg c (or_introl eq_refl) F C Q).
    + intros Hs d [<-|Hd] F.
      * apply I1; [exact (proj1 (prepare_dirs c w w1 P F))|]. intros e He Fe Ce. apply In_nth_error in He. destruct He as (j & Ej).
        apply (Hs 0%nat (Datatypes.S j) c e); [lia|reflexivity|exact Ej|exact F|exact Fe|exact Ce].
      * apply I2; [|exact Hd|exact F]. intros i j ci cj L Ei Ej. apply (Hs (Datatypes.S i) (Datatypes.S j)); [lia|exact Ei|exact Ej].
Qed.
End Dirs.
