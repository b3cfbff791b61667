(** C79: the methods of [State] and the accessors. *)

From Coq Require Import List ZArith NArith QArith Bool Lia.
From Verif Require Import Base Num XReal B64 Config Mesh State StateApi NumFlux Time Demo Spec SpecFlow SpecStep SpecApi ConfigProofs MeshProofs PhysicsProofs FluxProofs BoundaryProofs
  StepProofs StepInv.
Import ListNotations.
Local Open Scope nat_scope.

Section Api.
Variable A : Num.
Variable p : phys.
Variable S : nat.

Definition goodv (v : vars A) : Prop := wsv A p S v /\ zero_vec v = zeros (A:=A) S.
Definition goods (u : state A) : Prop := forall pl, goodv (at_place pl u).

Lemma with_ok : forall D f (u u' : state A), with_vars D f u = Ok u' ->
  exists pl v, D = code pl /\ f (at_place pl u) = Ok v /\ at_place pl u' = v /\ forall pl', pl' <> pl -> at_place pl' u' = at_place pl' u.
Proof.
  intros D f u u' H. unfold with_vars in H.
  destruct (Nat.eqb_spec D D_WEST) as [->|_]; [|destruct (Nat.eqb_spec D D_CENT) as [->|_]; [|destruct (Nat.eqb_spec D D_EAST) as [->|_]; [|discriminate H]]].
  - exists AtWest. destruct (f (west u)) as [v|e| |] eqn:E; try discriminate H. injection H as <-. exists v.
    repeat split; auto. intros []; cbn; congruence.
  - exists AtCent. destruct (f (cent u)) as [v|e| |] eqn:E; try discriminate H. injection H as <-. exists v.
    repeat split; auto. intros []; cbn; congruence.
  - exists AtEast. destruct (f (east u)) as [v|e| |] eqn:E; try discriminate H. injection H as <-. exists v.
    repeat split; auto. intros []; cbn; congruence.
Qed.

Lemma with_at : forall pl f (u : state A) v, f (at_place pl u) = Ok v -> exists u', with_vars (code pl) f u = Ok u'.
Proof. intros [] f u v H; cbn in H; unfold with_vars; cbn; rewrite H; cbn; eauto. Qed.
Lemma with_panic : forall D f (u : state A), (forall pl, D = code pl -> f (at_place pl u) = Panic) -> with_vars D f u = Panic.
Proof.
  intros D f u H. unfold with_vars.
  destruct (Nat.eqb_spec D D_WEST) as [E|_]; [rewrite (H AtWest E : f (west u) = Panic); reflexivity|].
  destruct (Nat.eqb_spec D D_CENT) as [E|_]; [rewrite (H AtCent E : f (cent u) = Panic); reflexivity|].
  destruct (Nat.eqb_spec D D_EAST) as [E|_]; [rewrite (H AtEast E : f (east u) = Panic); reflexivity|]. reflexivity.
Qed.

(** what a call at one place does with the variables there *)
Definition act (c : call A) (pl : place) (v : vars A) : res (vars A) :=
  match c with
  | UpdatePrim _ => Ok (update_prim p S v)
  | UpdateCons _ => Ok (update_cons p S v)
  | UpdateDerived _ => Ok (update_derived_variables p S v)
  | UpdateCSound _ => Ok (update_c_sound p S v)
  | UpdateEigen _ => Ok (update_eigen_vals p S v)
  | UpdateEigenMin _ => Ok (update_eigen_vals_min S v)
  | UpdateEigenMax _ => Ok (update_eigen_vals_max p S v)
  | UpdateFlux _ => Ok (update_flux p S v)
  | FromPrim _ bw be m => update_vars_from_prim p S bw be m v
  | FromCons _ bw be m => update_vars_from_cons p S bw be m v
  | AssignVars _ rhs => Ok (vars_assign v (at_place pl rhs))
  | WritePrim _ j i x => do m <- write2 (nE p) S j i x (prim v); Ok (set_prim m v)
  | WriteCons _ j i x => do m <- write2 (nE p) S j i x (cons v); Ok (set_cons m v)
  | WriteEigen _ j i x => do m <- write2 (nE p) S j i x (eigen_vals v); Ok (set_eigen_vals m v)
  | WriteFlux _ j i x => do m <- write2 (nE p) S j i x (flux v); Ok (set_flux m v)
  | WriteCSound _ i x => if Nat.ltb i S then Ok (set_c_sound (upd i x (c_sound v)) v) else Panic
  | WriteGamma _ x => Ok (mkVars (prim v) (cons v) (c_sound v) (eigen_vals v) (flux v) x (zero_vec v))
  | _ => Ok v
  end.

Lemma exec_ok : forall c D (u u' : state A), place_of c = Some D -> exec p S c u = Ok u' ->
  exists pl v, D = code pl /\ act c pl (at_place pl u) = Ok v /\ at_place pl u' = v /\ forall pl', pl' <> pl -> at_place pl' u' = at_place pl' u.
Proof.
  intros c D u u' E H. destruct c; cbn [place_of] in E; try discriminate E; injection E as ->; cbn [exec act] in *;
    try (apply with_ok in H; exact H).
  unfold assign_vars_d in H. destruct (get_vars D rhs) as [w|e| |] eqn:G; try discriminate H.
  apply with_ok in H. destruct H as (pl & v & -> & Ev & Eu & Fr). exists pl, v. split; [reflexivity|]. split; [|split; assumption].
  destruct pl; cbn in G; injection G as <-; exact Ev.
Qed.
Lemma exec_runs : forall c pl (u : state A) v, place_of c = Some (code pl) -> act c pl (at_place pl u) = Ok v -> exists u', exec p S c u = Ok u'.
Proof.
  intros c pl u v E H. destruct c; cbn [place_of] in E; try discriminate E; injection E as ->; cbn [exec act] in *;
    try (eapply with_at; exact H).
  unfold assign_vars_d. replace (get_vars (code pl) rhs) with (Ok (at_place pl rhs)) by (destruct pl; reflexivity). cbn [bind].
  eapply with_at. exact H.
Qed.
Lemma exec_panics : forall c D (u : state A), place_of c = Some D -> (forall pl, D = code pl -> act c pl (at_place pl u) = Panic) -> exec p S c u = Panic.
Proof.
  intros c D u E H. destruct c; cbn [place_of] in E; try discriminate E; injection E as ->; cbn [exec act] in *;
    try (apply with_panic; exact H).
  unfold assign_vars_d, get_vars.
  destruct (Nat.eqb_spec D D_WEST) as [E|_]; [discriminate (H AtWest E)|].
  destruct (Nat.eqb_spec D D_CENT) as [E|_]; [discriminate (H AtCent E)|].
  destruct (Nat.eqb_spec D D_EAST) as [E|_]; [discriminate (H AtEast E)|]. reflexivity.
Qed.

(** The two calls that concern several places. *)
Lemma assign_all_eq : forall rhs (u : state A), exec p S (AssignAll rhs) u = Ok (state_assign u rhs).
Proof. reflexivity. Qed.

Lemma c_sound_fields : forall v : vars A, prim (update_c_sound p S v) = prim v /\ cons (update_c_sound p S v) = cons v /\
  eigen_vals (update_c_sound p S v) = eigen_vals v /\ flux (update_c_sound p S v) = flux v /\ gamma (update_c_sound p S v) = gamma v /\ zero_vec (update_c_sound p S v) = zero_vec v /\
  (p = Isot -> c_sound (update_c_sound p S v) = c_sound v).
Proof. intros v. unfold update_c_sound. destruct p; cbn; repeat split; auto. discriminate. Qed.

Lemma vfp_Ok : forall bw be m (v v' : vars A), update_vars_from_prim p S bw be m v = Ok v' ->
  exists q, v' = update_derived_variables p S (update_cons p S (set_prim q v)) /\ (shape (nE p) S (prim v) -> shape (nE p) S q).
Proof.
  intros bw be m v v' H. unfold update_vars_from_prim, bc_apply in H.
  destruct (apply_modes West (nE p) S m bw (prim v)) as [q1|e| |] eqn:E1; try discriminate H. cbn [bind] in H.
  destruct (apply_modes East (nE p) S m be (prim (set_prim q1 v))) as [q2|e| |] eqn:E2; try discriminate H. cbn [bind] in H.
  injection H as <-. exists q2. split; [reflexivity|]. intros Sh.
  eapply apply_modes_shape; [|exact E2]. cbn [set_prim prim]. eapply apply_modes_shape; [exact Sh|exact E1].
Qed.

Lemma fields_zero : forall v : vars A, zero_vec (update_prim p S v) = zero_vec v /\ zero_vec (update_cons p S v) = zero_vec v /\
  zero_vec (update_flux p S v) = zero_vec v /\ zero_vec (update_derived_variables p S v) = zero_vec v.
Proof. intros v. destruct p; repeat split; reflexivity. Qed.

Lemma eigen_wsv : forall v : vars A, wsv A p S v -> wsv A p S (update_eigen_vals p S v) /\ wsv A p S (update_eigen_vals_min S v) /\ wsv A p S (update_eigen_vals_max p S v).
Proof.
  intros v (H1 & H2 & H3 & H4 & H5).
  assert (N0 : 2 <= nE p) by apply nE_pos.
  assert (R : length (nth JXI (prim v) []) = S) by (apply H1; unfold JXI; lia).
  assert (M : shape (nE p) S (eigen_vals (update_eigen_vals_min S v))).
  { unfold update_eigen_vals_min; cbn [set_eigen_vals eigen_vals]. apply shape_upd_row; auto using length_tab. }
  assert (X : forall w : vars A, shape (nE p) S (eigen_vals w) -> shape (nE p) S (eigen_vals (update_eigen_vals_max p S w))).
  { intros w Hw. unfold update_eigen_vals_max; cbn [set_eigen_vals eigen_vals]. apply shape_upd_row; auto using length_tab. }
  assert (Y : shape (nE p) S (eigen_vals (update_eigen_vals p S v))).
  { unfold update_eigen_vals. apply X. cbn [set_eigen_vals eigen_vals]. clear -M R. destruct p; cbn [nE Nat.sub seq fold_left]; [exact M|]. apply shape_upd_row; [exact M|exact R]. }
  split; [|split]; unfold wsv; repeat match goal with |- _ /\ _ => split end; first [assumption|apply X; assumption].
Qed.

Lemma write2_shape : forall j i x m m', shape (nE p) S m -> write2 (A:=A) (nE p) S j i x m = Ok m' -> shape (nE p) S m'.
Proof.
  intros j i x m m' H E. unfold write2 in E. destruct (Nat.ltb j (nE p) && Nat.ltb i S)%bool eqn:B; [|discriminate E]. injection E as <-.
  apply andb_true_iff in B. destruct B as (B1 & B2). apply Nat.ltb_lt in B1. unfold upd2. apply shape_upd_row; [exact H|]. rewrite length_upd. apply H. exact B1.
Qed.

Lemma act_good : forall c pl v v', goodv v -> (forall D rhs, c = AssignVars D rhs -> goods rhs) -> act c pl v = Ok v' -> goodv v'.
Proof.
  intros c pl v v' (W & Z) Hr H. destruct (fields_zero v) as (Z1 & Z2 & Z3 & Z4).
  destruct c; cbn [act] in H; try (injection H as <-);
    try (split; [|first [exact Z|rewrite ?Z1, ?Z2, ?Z3, ?Z4; exact Z]]; first [exact W|apply wsv_update_prim, W|apply wsv_update_cons, W|apply wsv_derived, W|apply wsv_update_flux, W|apply (eigen_wsv v W)]).
  - split; [|unfold update_c_sound; destruct p; exact Z].
    destruct W as (H1 & H2 & H3 & H4 & H5). unfold update_c_sound. destruct (is_adiabatic p); unfold wsv; cbn; auto using length_tab.
  - apply vfp_Ok in H. destruct H as (q & -> & Sh). split.
    + apply wsv_derived, wsv_update_cons, wsv_set_prim; [exact W|]. apply Sh, W.
    + destruct p; exact Z.
  - unfold update_vars_from_cons in H. apply vfp_Ok in H. destruct H as (q & -> & Sh). split.
    + apply wsv_derived, wsv_update_cons, wsv_set_prim; [apply wsv_update_prim, W|]. apply Sh. apply wsv_update_prim, W.
    + destruct p; exact Z.
  - split; [|exact Z]. apply wsv_assign; [exact W|]. apply (Hr _ _ eq_refl pl).
  - destruct (write2 (nE p) S j i x (prim v)) as [m|e| |] eqn:E; try discriminate H. injection H as <-. split; [|exact Z].
    apply wsv_set_prim; [exact W|]. refine (write2_shape _ _ _ _ _ _ E); apply W.
  - destruct (write2 (nE p) S j i x (cons v)) as [m|e| |] eqn:E; try discriminate H. injection H as <-. split; [|exact Z].
    apply wsv_set_cons; [exact W|]. refine (write2_shape _ _ _ _ _ _ E); apply W.
  - destruct (write2 (nE p) S j i x (eigen_vals v)) as [m|e| |] eqn:E; try discriminate H. injection H as <-. split; [|exact Z].
    pose proof W as (H1 & H2 & H3 & H4 & H5). unfold wsv; cbn. repeat match goal with |- _ /\ _ => split end; auto. eapply write2_shape; [exact H3|exact E].
  - destruct (write2 (nE p) S j i x (flux v)) as [m|e| |] eqn:E; try discriminate H. injection H as <-. split; [|exact Z].
    pose proof W as (H1 & H2 & H3 & H4 & H5). unfold wsv; cbn. repeat match goal with |- _ /\ _ => split end; auto. eapply write2_shape; [exact H4|exact E].
  - destruct (Nat.ltb i S); [|discriminate H]. injection H as <-. split; [|exact Z].
    pose proof W as (H1 & H2 & H3 & H4 & H5). unfold wsv; cbn. rewrite length_upd. auto.
Qed.

Lemma made_good : forall u, made p S u -> goods u.
Proof.
  intros u H. induction H as [cfg|c u u' Hu IHu Hr IHr E].
  - intros []; (split; [apply wsv_new|reflexivity]).
  - destruct (place_of c) as [D|] eqn:P.
    + destruct (exec_ok c D u u' P E) as (pl & v & -> & Ea & Ev & Fr). intros pl'.
      assert (G : goodv v) by (eapply (act_good c pl); [apply (IHu pl)| |exact Ea]; intros D rhs ->; apply IHr; eauto).
      destruct pl, pl'; try (rewrite Ev; exact G); rewrite Fr by discriminate; apply IHu.
    + destruct c; try discriminate P.
      * rewrite assign_all_eq in E. injection E as <-. specialize (IHr rhs (or_intror eq_refl)). intros pl.
        destruct (IHu pl) as (W1 & Z1), (IHr pl) as (W2 & _). destruct pl; (split; [apply wsv_assign; assumption|exact Z1]).
      * cbn [exec] in E. injection E as <-. intros pl. destruct (IHu AtCent) as (Wc & Zc). destruct (IHu pl) as (W1 & Z1).
        destruct pl; cbn [at_place init_west_east west cent east]; (split; [first [apply wsv_assign; assumption|assumption]|first [exact Z1|assumption]]).
Qed.

(** What a call leaves alone. *)
Lemma act_frame : forall c pl v v' f, place_of c <> None -> act c pl v = Ok v' -> ~ writes p c f -> same_field f v v'.
Proof.
  intros c pl v v' f N H W. destruct (c_sound_fields v) as (Q1 & Q2 & Q3 & Q4 & Q5 & _ & Q6).
  destruct (update_prim_fields A p S v) as (E1 & E2 & E3 & E4 & E5 & _).
  destruct (update_cons_fields A p S v) as (F1 & F2 & F3 & F4 & F5 & _).
  destruct (update_flux_fields A p S v) as (G1 & G2 & G3 & G4 & G5 & _).
  destruct c; cbn [act place_of writes] in *; try (exfalso; apply N; reflexivity);
    try (destruct (write2 (nE p) S j i x _) as [m'|e| |]; try discriminate H);
    try (destruct (Nat.ltb i S); [|discriminate H]); cbn [bind] in H.
  9:{ apply vfp_Ok in H. destruct H as (q & -> & _). clear -W. destruct f; try (exfalso; tauto); try (destruct p; reflexivity).
      destruct p; [reflexivity|exfalso; tauto]. }
  9:{ apply vfp_Ok in H. destruct H as (q & -> & _). clear -W. destruct f; try (exfalso; tauto); try (destruct p; reflexivity).
      destruct p; [reflexivity|exfalso; tauto]. }
  all: injection H as <-; destruct f; try (exfalso; tauto); cbn [same_field]; try reflexivity; try congruence; try (destruct p; reflexivity).
  all: destruct p; [reflexivity|exfalso; tauto].
Qed.
End Api.

(** A call changes nothing but the fields it is named after, and only at the
    position it is called for.  In particular no update ever changes the speed
    of sound in the isothermal system, and assigning a state copies neither
    eigenvalues nor fluxes nor the adiabatic index. *)
Theorem C79_footprint : forall A p S (c : call A) u u' pl f, exec p S c u = Ok u' ->
  ~ (writes_at c pl /\ writes p c f) -> same_field f (at_place pl u) (at_place pl u').
Proof.
  intros A p S c u u' pl f E N. destruct (place_of c) as [D|] eqn:P.
  - destruct (exec_ok A p S c D u u' P E) as (pl0 & v & -> & Ea & Ev & Fr).
    assert (Dec : pl = pl0 \/ pl <> pl0) by (destruct pl, pl0; (left; reflexivity) || (right; discriminate)).
    destruct Dec as [->|Ne]; [|rewrite (Fr pl Ne); destruct f; reflexivity].
    rewrite Ev. apply (act_frame A p S c pl0 _ _ f); [rewrite P; discriminate|exact Ea|]. intros W. apply N. split; [|exact W].
    destruct c; try discriminate P; exact P.
  - destruct c; try discriminate P.
    + rewrite assign_all_eq in E. injection E as <-. cbn [writes_at writes] in N. destruct pl, f; try reflexivity; exfalso; tauto.
    + cbn [exec] in E. injection E as <-. cbn [writes_at writes] in N.
      destruct pl; [|destruct f; reflexivity|]; destruct f; try reflexivity; exfalso; apply N; (split; [discriminate|tauto]).
Qed.
Print Assumptions C79_footprint.

(** A call works for every position in the same way: what it makes of the
    variables there depends on nothing else of the state. *)
Definition same_kind {A : Num} (c d : call A) : Prop :=
  match c, d with
  | UpdatePrim _, UpdatePrim _ | UpdateCons _, UpdateCons _ | UpdateDerived _, UpdateDerived _ | UpdateCSound _, UpdateCSound _
  | UpdateEigen _, UpdateEigen _ | UpdateEigenMin _, UpdateEigenMin _ | UpdateEigenMax _, UpdateEigenMax _ | UpdateFlux _, UpdateFlux _ => True
  | FromPrim _ bw be m, FromPrim _ bw' be' m' | FromCons _ bw be m, FromCons _ bw' be' m' => bw = bw' /\ be = be' /\ m = m'
  | _, _ => False
  end.
Theorem C79_every_position : forall A p S (c d : call A) u u' w w' pl pl',
  same_kind c d -> place_of c = Some (code pl) -> place_of d = Some (code pl') ->
  exec p S c u = Ok u' -> exec p S d w = Ok w' -> at_place pl u = at_place pl' w -> at_place pl u' = at_place pl' w'.
Proof.
  intros A p S c d u u' w w' pl pl' K Pc Pd Ec Ed E.
  destruct (exec_ok A p S c _ u u' Pc Ec) as (q & v & Eq & Ea & Ev & _). destruct (exec_ok A p S d _ w w' Pd Ed) as (q' & v' & Eq' & Ea' & Ev' & _).
  assert (q = pl) by (destruct q, pl; try reflexivity; discriminate Eq). assert (q' = pl') by (destruct q', pl'; try reflexivity; discriminate Eq'). subst q q'.
  rewrite Ev, Ev'. rewrite E in Ea. destruct c, d; try (destruct K); cbn [act] in Ea, Ea'; try congruence.
  all: destruct K as (-> & -> & ->) || (match goal with H : _ /\ _ |- _ => destruct H as (-> & ->) end; subst); congruence.
Qed.
Print Assumptions C79_every_position.

(** Which calls work: exactly those that name an existing position, existing
    entries and existing equations; all others panic, none returns an error. *)
Lemma modes_iff : forall A s E S (m : mesh A) l q, (forall j md, In (j, md) l -> j < E) <-> exists q', apply_modes s E S m l q = Ok q'.
Proof. intros. symmetry. apply apply_modes_ok_iff. Qed.
Lemma vfp_iff : forall A p S bw be (m : mesh A) v,
  ((forall j md, In (j, md) bw \/ In (j, md) be -> j < nE p) -> exists v', update_vars_from_prim p S bw be m v = Ok v') /\
  (~ (forall j md, In (j, md) bw \/ In (j, md) be -> j < nE p) -> update_vars_from_prim p S bw be m v = Panic).
Proof.
  intros A p S bw be m v. unfold update_vars_from_prim, bc_apply. split.
  - intros H. destruct (proj1 (modes_iff A West (nE p) S m bw (prim v))) as (q & ->); [intros; eapply H; eauto|]. cbn [bind].
    destruct (proj1 (modes_iff A East (nE p) S m be (prim (set_prim q v)))) as (q' & ->); [intros; eapply H; eauto|]. cbn [bind]. eauto.
  - intros H. destruct (apply_modes_ok_or_panic A West (nE p) S m bw (prim v)) as [E|(q & E)]; rewrite E; cbn [bind]; [reflexivity|].
    destruct (apply_modes_ok_or_panic A East (nE p) S m be (prim (set_prim q v))) as [E'|(q' & E')]; rewrite E'; cbn [bind]; [reflexivity|].
    exfalso. apply H. intros j md [I|I]; [apply (proj2 (modes_iff A West (nE p) S m bw (prim v)) (ex_intro _ _ E) j md I)|apply (proj2 (modes_iff A East (nE p) S m be _) (ex_intro _ _ E') j md I)].
Qed.
Lemma write_iff : forall A E S j i (x : nF A) m,
  (j < E /\ i < S -> exists m', write2 E S j i x m = Ok m') /\ (~ (j < E /\ i < S) -> write2 E S j i x m = Panic).
Proof.
  intros. unfold write2. destruct (Nat.ltb_spec j E), (Nat.ltb_spec i S); cbn; (split; [intros; eauto; lia|intros N; try reflexivity; exfalso; apply N; lia]).
Qed.
Lemma place_dec : forall D, (exists pl, D = code pl) \/ ~ (exists pl, D = code pl).
Proof.
  intros [|[|[|D]]]; [left; exists AtWest; reflexivity|left; exists AtCent; reflexivity|left; exists AtEast; reflexivity|].
  right. intros (pl & H). destruct pl; discriminate H.
Qed.
Theorem C79_which_calls_work : forall A p S (c : call A) u,
  (acceptable p S c -> exists u', exec p S c u = Ok u') /\ (~ acceptable p S c -> exec p S c u = Panic).
Proof.
  intros A p S c u. destruct (place_of c) as [D|] eqn:P.
  - destruct (place_dec D) as [(pl & ->)|ND].
    + assert (Q : acceptable p S c <-> match c with
         | FromPrim _ bw be _ | FromCons _ bw be _ => forall j md, In (j, md) bw \/ In (j, md) be -> j < nE p
         | WritePrim _ j i _ | WriteCons _ j i _ | WriteEigen _ j i _ | WriteFlux _ j i _ => j < nE p /\ i < S
         | WriteCSound _ i _ => i < S | _ => True end).
      { unfold acceptable. split; [intros H; apply H|]. intros H. split; [|exact H]. rewrite P. intros D [= <-]. exists pl. reflexivity. }
      assert (R : (acceptable p S c -> exists v, act A p S c pl (at_place pl u) = Ok v) /\ (~ acceptable p S c -> act A p S c pl (at_place pl u) = Panic)).
      { rewrite Q. clear Q. destruct c; cbn [act]; try (split; [intros; eexists; reflexivity|intros N; exfalso; apply N; exact Logic.I]).
        - apply vfp_iff.
        - apply vfp_iff.
        - destruct (write_iff A (nE p) S j i x (prim (at_place pl u))) as (W1 & W2). split; intros H; [destruct (W1 H) as (m' & ->); cbn; eauto|rewrite (W2 H); reflexivity].
        - destruct (write_iff A (nE p) S j i x (cons (at_place pl u))) as (W1 & W2). split; intros H; [destruct (W1 H) as (m' & ->); cbn; eauto|rewrite (W2 H); reflexivity].
        - destruct (write_iff A (nE p) S j i x (eigen_vals (at_place pl u))) as (W1 & W2). split; intros H; [destruct (W1 H) as (m' & ->); cbn; eauto|rewrite (W2 H); reflexivity].
        - destruct (write_iff A (nE p) S j i x (flux (at_place pl u))) as (W1 & W2). split; intros H; [destruct (W1 H) as (m' & ->); cbn; eauto|rewrite (W2 H); reflexivity].
        - destruct (Nat.ltb_spec i S); split; intros H'; eauto; lia. }
      destruct R as (R1 & R2). split; intros H.
      * destruct (R1 H) as (v & Hv). exact (exec_runs A p S c pl u v P Hv).
      * apply (exec_panics A p S c _ u P). intros pl' E. assert (pl' = pl) by (destruct pl, pl'; try reflexivity; discriminate E). subst pl'. exact (R2 H).
    + split; intros H.
      * exfalso. apply ND. apply H. exact P.
      * apply (exec_panics A p S c _ u P). intros pl E. exfalso. apply ND. exists pl. exact E.
  - destruct c; try discriminate P; (split; [intros _; eexists; reflexivity|]); intros N; exfalso; apply N; (split; [cbn; discriminate|exact Logic.I]).
Qed.
Print Assumptions C79_which_calls_work.

(** In every state a program can make, and after any steps of a solver that
    started from such a state, the accessors give the rows they are named
    after. *)
Lemma good_reads : forall A p S (v : vars A) i, goodv A p S v -> i < S -> reads_right p v i.
Proof.
  intros A p S v i ((H1 & H2 & H3 & H4 & H5) & Z) Hi.
  assert (Rw : forall m j, shape (nE p) S m -> j < nE p -> nth_error (nth j m []) i = Some (at2 (n0 A) m j i)).
  { intros m j Hm Hj. unfold at2. apply nth_error_nth'. rewrite (proj2 Hm j Hj). exact Hi. }
  assert (Zr : nth_error (zero_vec v) i = Some (n0 A)).
  { rewrite Z. unfold zeros. rewrite (nth_error_nth' (repeat (n0 A) S) (n0 A)) by (rewrite repeat_length; exact Hi). f_equal. apply nth_repeat. }
  assert (N : 2 <= nE p) by apply nE_pos.
  unfold reads_right. repeat match goal with |- _ /\ _ => split end.
  - apply Rw; [exact H1|unfold JRHO; lia].
  - apply Rw; [exact H2|unfold JRHO; lia].
  - apply Rw; [exact H1|unfold JXI; lia].
  - apply Rw; [exact H2|unfold JXI; lia].
  - exact Zr.
  - exact Zr.
  - destruct p; cbn; [exact Zr|apply Rw; [exact H1|cbn; lia]].
  - destruct p; cbn; [exact Zr|apply Rw; [exact H2|cbn; lia]].
  - apply Rw; [exact H3|lia].
  - destruct p; (apply Rw; [exact H3|cbn; lia]).
Qed.
Theorem C79_accessors : forall A p S (u : state A) pl i, made p S u -> i < S -> reads_right p (at_place pl u) i.
Proof. intros A p S u pl i M Hi. apply (good_reads A p S); [apply (made_good A p S u M)|exact Hi]. Qed.
Print Assumptions C79_accessors.

Theorem C79_accessors_after_steps : forall A (N : numflux_impl A) p S m (s0 s : sim A N) pl i, 5 <= S ->
  made p S (s_u s0) -> evolves p S m s0 s -> i < S -> reads_right p (at_place pl (s_u s)) i.
Proof.
  intros A N p S m s0 s pl i HS M Ev Hi. apply (good_reads A p S); [|exact Hi]. revert pl. change (goods A p S (s_u s)).
  apply made_good in M. induction Ev as [s1|s1 s2 s3 val fuel o Ev IH Hn|s1 s2 ts Ev IH]; [exact M| |exact (IH M)].
  specialize (IH M). clear M Ev s1. apply solver_next_rkf in Hn. destruct Hn as (o' & Hn & _).
  pose proof Hn as Hf. apply next_faces in Hf. destruct Hf as [Ew Ee].
  apply rkf_next_cases in Hn. destruct Hn as (_ & _ & _ & _ & [(_ & -> & _)|(k & H)]); [exact IH|]. cbn zeta in H.
  destruct (IH AtCent) as (W & Z). cbn [at_place] in W, Z.
  match type of H with context [set_cons ?c (cent (s_u s2))] =>
    assert (Wc : wsv A p S (set_cons c (cent (s_u s2)))) by (apply wsv_set_cons; [exact W|apply shape_combine; apply W]) end.
  destruct H as (_ & [(_ & Eu & _)|(v & Hv & Eu & _)]).
  - rewrite Eu. intros []; [apply (IH AtWest)| |apply (IH AtEast)]. split; [exact Wc|exact Z].
  - intros []; cbn [at_place]; [rewrite Ew; apply (IH AtWest)| |rewrite Ee; apply (IH AtEast)]. rewrite Eu. cbn [cent set_cent].
    unfold update_vars_from_cons in Hv. apply vfp_Ok in Hv. destruct Hv as (q & -> & Sh). split.
    + apply wsv_derived, wsv_update_cons, wsv_set_prim; [apply wsv_update_prim; exact Wc|]. apply Sh. apply wsv_update_prim; exact Wc.
    + destruct p; exact Z.
Qed.
Print Assumptions C79_accessors_after_steps.

(** The values an update computes, cell by cell, in terms of the variables
    before; and what writing an entry does. *)
Lemma two : forall X (l : list X), length l = 2 -> exists a b, l = [a; b].
Proof. intros X [|a [|b [|]]] H; try discriminate H. eauto. Qed.
Lemma three : forall X (l : list X), length l = 3 -> exists a b c, l = [a; b; c].
Proof. intros X [|a [|b [|c [|]]]] H; try discriminate H. eauto. Qed.
Lemma nth_upd_any : forall X (d x : X) l i k, i < length l -> nth k (upd i x l) d = if Nat.eqb k i then x else nth k l d.
Proof.
  intros X d x l i k H. destruct (Nat.eqb_spec k i) as [->|N]; [apply nth_upd_eq; exact H|apply nth_upd_ne; congruence].
Qed.
Lemma written_at : forall A E S j0 i0 (x : nF A) m m' i, shape E S m -> write2 E S j0 i0 x m = Ok m' -> i < S ->
  forall j, at2 (n0 A) m' j i = if (Nat.eqb j j0 && Nat.eqb i i0)%bool then x else at2 (n0 A) m j i.
Proof.
  intros A E S j0 i0 x m m' i (L & R) W Hi j. unfold write2 in W. destruct (Nat.ltb_spec j0 E) as [Hj|]; [|discriminate W].
  destruct (Nat.ltb_spec i0 S) as [Hi0|]; [|discriminate W]. cbn [andb] in W. injection W as <-. unfold at2, upd2.
  rewrite nth_upd_any by (rewrite L; exact Hj). destruct (Nat.eqb_spec j j0) as [->|N]; cbn [andb]; [|reflexivity].
  apply nth_upd_any. rewrite (R j0 Hj). exact Hi0.
Qed.
Lemma act_outcome : forall A p S (c : call A) pl v v' i, wsv A p S v -> act A p S c pl v = Ok v' -> i < S -> outcome p c v v' i.
Proof.
  intros A p S c pl v v' i W H Hi. pose proof W as (H1 & H2 & H3 & H4 & H5). assert (N := nE_pos p).
  destruct c; cbn [outcome act] in *; try exact Logic.I; try (injection H as <-).
  - pose proof (fun j Hj => update_prim_at A p S v j i H1 Hj Hi) as Q.
    repeat split; [|rewrite (Q 1) by lia|intros ->; rewrite (Q 2) by (cbn; lia)]; [rewrite (Q 0) by lia| |]; try (destruct p; reflexivity); reflexivity.
  - pose proof (fun j Hj => update_cons_at A p S v j i H2 Hj Hi) as Q.
    repeat split; [|rewrite (Q 1) by lia|intros ->; rewrite (Q 2) by (cbn; lia)]; [rewrite (Q 0) by lia| |]; try (destruct p; reflexivity); reflexivity.
  - intros ->. unfold update_c_sound. cbn [is_adiabatic set_c_sound c_sound]. rewrite at1_tab by exact Hi. reflexivity.
  - unfold update_eigen_vals, update_eigen_vals_max, update_eigen_vals_min. cbn [set_eigen_vals eigen_vals prim c_sound].
    pose proof (proj1 H3) as L. destruct p; cbn [nE Nat.sub seq fold_left] in *.
    + apply two in L. destruct L as (a & b & ->). cbn [upd]. refine (conj _ (conj _ _)); [| |discriminate];
        unfold at2 at 1; cbn [nth]; rewrite nth_tab by exact Hi; reflexivity.
    + apply three in L. destruct L as (a & b & d & ->). cbn [upd]. refine (conj _ (conj _ _)); [| |intros _; reflexivity];
        unfold at2 at 1; cbn [nth]; rewrite nth_tab by exact Hi; reflexivity.
  - unfold update_eigen_vals_min. cbn [set_eigen_vals eigen_vals]. pose proof (proj1 H3) as L. split.
    + unfold at2 at 1. rewrite nth_upd_any by lia. cbn [Nat.eqb]. rewrite nth_tab by exact Hi. reflexivity.
    + intros j Hj. unfold at2. rewrite nth_upd_any by lia. destruct (Nat.eqb_spec j 0); [contradiction|reflexivity].
  - unfold update_eigen_vals_max. cbn [set_eigen_vals eigen_vals]. pose proof (proj1 H3) as L. split.
    + unfold at2 at 1. rewrite nth_upd_any by lia. rewrite Nat.eqb_refl. rewrite nth_tab by exact Hi. reflexivity.
    + intros j Hj. unfold at2. rewrite nth_upd_any by lia. destruct (Nat.eqb_spec j (nE p - 1)); [contradiction|reflexivity].
  - pose proof (fun j Hj => update_flux_at A p S v j i H4 Hj Hi) as Q.
    split; [rewrite (Q 0) by lia; destruct p; reflexivity|]. destruct p; [rewrite (Q 1) by (cbn; lia); reflexivity|].
    split; [rewrite (Q 1) by (cbn; lia); reflexivity|rewrite (Q 2) by (cbn; lia); reflexivity].
  - destruct (write2 (nE p) S j i0 x (prim v)) as [m|e| |] eqn:E; try discriminate H. injection H as <-. exact (written_at A _ _ _ _ _ _ _ i H1 E Hi).
  - destruct (write2 (nE p) S j i0 x (cons v)) as [m|e| |] eqn:E; try discriminate H. injection H as <-. exact (written_at A _ _ _ _ _ _ _ i H2 E Hi).
  - destruct (write2 (nE p) S j i0 x (eigen_vals v)) as [m|e| |] eqn:E; try discriminate H. injection H as <-. exact (written_at A _ _ _ _ _ _ _ i H3 E Hi).
  - destruct (write2 (nE p) S j i0 x (flux v)) as [m|e| |] eqn:E; try discriminate H. injection H as <-. exact (written_at A _ _ _ _ _ _ _ i H4 E Hi).
  - destruct (Nat.ltb_spec i0 S) as [Hi0|]; [|discriminate H]. injection H as <-. cbn. unfold at1. apply nth_upd_any. rewrite H5. exact Hi0.
  - reflexivity.
Qed.
Theorem C79_values : forall A p S (c : call A) u u' pl i, made p S u -> place_of c = Some (code pl) -> exec p S c u = Ok u' -> i < S ->
  outcome p c (at_place pl u) (at_place pl u') i.
Proof.
  intros A p S c u u' pl i M P E Hi. destruct (exec_ok A p S c _ u u' P E) as (q & v & Eq & Ea & Ev & _).
  assert (q = pl) by (destruct q, pl; try reflexivity; discriminate Eq). subst q. rewrite Ev.
  exact (act_outcome A p S c pl _ _ i (proj1 (made_good A p S u M pl)) Ea Hi).
Qed.
Print Assumptions C79_values.

(** The larger updates are made of the smaller ones: derived variables are the
    speed of sound and then the eigenvalues; an update from primitive variables
    applies the boundary conditions, first west, then east, and updates the
    conserved and the derived variables; one from conserved variables updates
    the primitive ones first. *)
Lemma with_with : forall A D f g (u : state A), (do u1 <- with_vars D f u; with_vars D g u1) = with_vars D (fun v => do v1 <- f v; g v1) u.
Proof.
  intros A D f g u. unfold with_vars.
  destruct (Nat.eqb D D_WEST); [destruct (f (west u)) as [v|e| |]; cbn [bind west cent east]; [destruct (g v); reflexivity|reflexivity..]|].
  destruct (Nat.eqb D D_CENT); [destruct (f (cent u)) as [v|e| |]; cbn [bind west cent east]; [destruct (g v); reflexivity|reflexivity..]|].
  destruct (Nat.eqb D D_EAST); [destruct (f (east u)) as [v|e| |]; cbn [bind west cent east]; [destruct (g v); reflexivity|reflexivity..]|]. reflexivity.
Qed.
Lemma bind_id : forall X (r : res X), (do x <- r; Ok x) = r.
Proof. intros X []; reflexivity. Qed.
Lemma with_ext : forall A D f g (u : state A), (forall v, f v = g v) -> with_vars D f u = with_vars D g u.
Proof. intros A D f g u H. unfold with_vars. rewrite !H. reflexivity. Qed.
Theorem C79_composed : forall A p S D bw be (m : mesh A) (u : state A),
  exec p S (UpdateDerived D) u = exec_all p S [UpdateCSound D; UpdateEigen D] u /\
  exec p S (FromPrim D bw be m) u =
    (do u1 <- with_vars D (bc_apply West p S m bw) u; do u2 <- with_vars D (bc_apply East p S m be) u1;
     exec_all p S [UpdateCons D; UpdateDerived D] u2) /\
  exec p S (FromCons D bw be m) u = exec_all p S [UpdatePrim D; FromPrim D bw be m] u.
Proof.
  intros A p S D bw be m u. cbn [exec_all exec]. split; [|split].
  - transitivity (do u0 <- with_vars D (fun v => Ok (update_c_sound p S v)) u; with_vars D (fun v => Ok (update_eigen_vals p S v)) u0).
    + rewrite with_with. apply with_ext. intros v. cbn [bind]. destruct p; reflexivity.
    + destruct (with_vars D (fun v => Ok (update_c_sound p S v)) u); cbn [bind]; rewrite ?bind_id; reflexivity.
  - transitivity (do u1 <- with_vars D (bc_apply West p S m bw) u; do u2 <- with_vars D (bc_apply East p S m be) u1;
      do u3 <- with_vars D (fun v => Ok (update_cons p S v)) u2; with_vars D (fun v => Ok (update_derived_variables p S v)) u3).
    + transitivity (do u1 <- with_vars D (bc_apply West p S m bw) u; do u2 <- with_vars D (bc_apply East p S m be) u1;
        with_vars D (fun v => Ok (update_derived_variables p S (update_cons p S v))) u2).
      * transitivity (do u1 <- with_vars D (bc_apply West p S m bw) u; with_vars D (fun v => do v1 <- bc_apply East p S m be v; Ok (update_derived_variables p S (update_cons p S v1))) u1).
        -- rewrite with_with. reflexivity.
        -- destruct (with_vars D (bc_apply West p S m bw) u); cbn [bind]; try reflexivity. symmetry. apply with_with.
      * destruct (with_vars D (bc_apply West p S m bw) u) as [u1|e| |]; cbn [bind]; try reflexivity.
        destruct (with_vars D (bc_apply East p S m be) u1) as [u2|e| |]; cbn [bind]; try reflexivity. rewrite with_with. reflexivity.
    + destruct (with_vars D (bc_apply West p S m bw) u) as [u1|e| |]; cbn [bind]; try reflexivity.
      destruct (with_vars D (bc_apply East p S m be) u1) as [u2|e| |]; cbn [bind]; try reflexivity.
      destruct (with_vars D (fun v => Ok (update_cons p S v)) u2) as [u3|e| |]; cbn [bind]; rewrite ?bind_id; reflexivity.
  - transitivity (do u0 <- with_vars D (fun v => Ok (update_prim p S v)) u; with_vars D (update_vars_from_prim p S bw be m) u0).
    + rewrite with_with. reflexivity.
    + destruct (with_vars D (fun v => Ok (update_prim p S v)) u); cbn [bind]; rewrite ?bind_id; reflexivity.
Qed.
Print Assumptions C79_composed.

(** The consistency check of the physics accepts exactly the variables whose
    densities, and in the adiabatic system pressures, are all positive. *)
Theorem C79_validate : forall A p S (u : state A) pl, made p S u ->
  let v := at_place pl u in
  (physics_validate p v = Ok tt <->
   forall i, i < S -> nltb A (n0 A) (at2 (n0 A) (prim v) 0 i) = true /\ (p = Adiab -> nltb A (n0 A) (at2 (n0 A) (prim v) 2 i) = true)).
Proof.
  intros A p S u pl M v. destruct (made_good A p S u M pl) as ((H1 & _) & _). fold v in H1.
  assert (Rw : forall j, j < nE p -> (forallb (fun x => nltb A (n0 A) x) (nth j (prim v) []) = true <-> forall i, i < S -> nltb A (n0 A) (at2 (n0 A) (prim v) j i) = true)).
  { intros j Hj. rewrite forallb_forall. pose proof (proj2 H1 j Hj) as L. split.
    - intros H i Hi. apply H. unfold at2. apply nth_In. rewrite L. exact Hi.
    - intros H x Hx. destruct (In_nth _ _ (n0 A) Hx) as (i & Hi & <-). apply H. rewrite <- L. exact Hi. }
  assert (N : 2 <= nE p) by apply nE_pos.
  pose proof (Rw 0 ltac:(lia)) as R0. unfold physics_validate. change (rho_prim v) with (nth 0 (prim v) []).
  destruct (forallb (fun x => nltb A (n0 A) x) (nth 0 (prim v) [])) eqn:E0.
  - cbn [ensure bind]. destruct p.
    + split; [|reflexivity]. intros _ i Hi. split; [apply R0; [reflexivity|exact Hi]|discriminate].
    + pose proof (Rw 2 ltac:(cbn; lia)) as R2. change (pressure Adiab v) with (nth 2 (prim v) []).
      destruct (forallb (fun x => nltb A (n0 A) x) (nth 2 (prim v) [])) eqn:E2; cbn [ensure].
      * split; [|reflexivity]. intros _ i Hi. split; [apply R0; [reflexivity|exact Hi]|]. intros _. apply R2; [reflexivity|exact Hi].
      * split; [discriminate|]. intros H. exfalso. assert (Q : false = true) by (apply R2; intros i Hi; apply (H i Hi); reflexivity). discriminate Q.
  - cbn [ensure bind]. split; [discriminate|]. intros H. exfalso. assert (Q : false = true) by (apply R0; intros i Hi; apply (H i Hi)). discriminate Q.
Qed.
Print Assumptions C79_validate.

(** Assigning copies the primitive and conservative variables and the speed of
    sound, at the position that was asked for or at all three. *)
Theorem C79_assign : forall A p S (u u' rhs : state A) f, f = FPrim \/ f = FCons \/ f = FCSound ->
  (forall pl, exec p S (AssignVars (code pl) rhs) u = Ok u' -> same_field f (at_place pl u') (at_place pl rhs)) /\
  (exec p S (AssignAll rhs) u = Ok u' -> forall pl, same_field f (at_place pl u') (at_place pl rhs)) /\
  (exec p S InitWestEast u = Ok u' -> forall pl, same_field f (at_place pl u') (cent u)).
Proof.
  intros A p S u u' rhs f Hf. split; [|split].
  - intros pl E. destruct (exec_ok A p S (AssignVars (code pl) rhs) (code pl) u u' eq_refl E) as (q & v & Eq & Ea & Ev & _).
    assert (q = pl) by (destruct q, pl; try reflexivity; discriminate Eq). subst q. cbn [act] in Ea. injection Ea as <-. rewrite Ev.
    destruct Hf as [->|[->| ->]]; reflexivity.
  - intros E pl. rewrite assign_all_eq in E. injection E as <-. destruct Hf as [->|[->| ->]], pl; reflexivity.
  - intros E pl. cbn [exec] in E. injection E as <-. destruct Hf as [->|[->| ->]], pl; reflexivity.
Qed.
Print Assumptions C79_assign.

(** Calling an update twice in a row is calling it once. *)
Definition is_update {A : Num} (c : call A) : Prop :=
  match c with
  | UpdatePrim _ | UpdateCons _ | UpdateDerived _ | UpdateCSound _ | UpdateEigen _ | UpdateEigenMin _ | UpdateEigenMax _ | UpdateFlux _
  | AssignVars _ _ | AssignAll _ | InitWestEast => True
  | _ => False
  end.
Lemma act_twice : forall A p S (c : call A) pl v v' v'', is_update c -> wsv A p S v -> act A p S c pl v = Ok v' -> act A p S c pl v' = Ok v'' -> v'' = v'.
Proof.
  intros A p S c pl v v' v'' K W H H'. destruct W as ((L1 & _) & (L2 & _) & (L3 & _) & (L4 & _) & _).
  destruct v as [pr co cs ei fl g z]. cbn [prim cons eigen_vals flux c_sound] in *.
  destruct p; cbn [nE] in *;
    [apply two in L1, L2, L3, L4; destruct L1 as (? & ? & ->), L2 as (? & ? & ->), L3 as (? & ? & ->), L4 as (? & ? & ->)
    |apply three in L1, L2, L3, L4; destruct L1 as (? & ? & ? & ->), L2 as (? & ? & ? & ->), L3 as (? & ? & ? & ->), L4 as (? & ? & ? & ->)];
  destruct c; try (exfalso; exact K); cbn [act] in H, H'; injection H as <-; injection H' as <-; reflexivity.
Qed.
Theorem C79_repeated : forall A p S (c : call A) u u' u'', made p S u -> is_update c -> exec p S c u = Ok u' -> exec p S c u' = Ok u'' -> u'' = u'.
Proof.
  intros A p S c u u' u'' M K E E'.
  assert (Ext : forall x y : state A, (forall pl, at_place pl x = at_place pl y) -> x = y).
  { intros [a b d] [a' b' d'] H. pose proof (H AtCent) as H1. pose proof (H AtWest) as H2. pose proof (H AtEast) as H3. cbn in *. congruence. }
  destruct (place_of c) as [D|] eqn:P.
  - destruct (exec_ok A p S c D u u' P E) as (q & v & Eq & Ea & Ev & Fr). destruct (exec_ok A p S c D u' u'' P E') as (q' & v' & Eq' & Ea' & Ev' & Fr').
    rewrite Eq in Eq'. assert (q' = q) by (destruct q, q'; try reflexivity; discriminate Eq'). subst q'.
    apply Ext. intros pl. assert (Dec : pl = q \/ pl <> q) by (destruct pl, q; (left; reflexivity) || (right; discriminate)).
    destruct Dec as [->|Ne]; [|apply Fr'; exact Ne]. rewrite Ev in Ea' |- *. rewrite Ev'.
    exact (act_twice A p S c q _ _ _ K (proj1 (made_good A p S u M q)) Ea Ea').
  - destruct c; try discriminate P.
    + rewrite assign_all_eq in E, E'. injection E as <-. injection E' as <-. reflexivity.
    + cbn [exec] in E, E'. injection E as <-. injection E' as <-. reflexivity.
Qed.
Print Assumptions C79_repeated.

(** Calls for different positions do not interfere. *)
Theorem C79_independent : forall A p S (c d : call A) u u1 u2 w1 w2 pl pl', pl <> pl' ->
  place_of c = Some (code pl) -> place_of d = Some (code pl') ->
  exec p S c u = Ok u1 -> exec p S d u1 = Ok u2 -> exec p S d u = Ok w1 -> exec p S c w1 = Ok w2 -> u2 = w2.
Proof.
  intros A p S c d u u1 u2 w1 w2 pl pl' Ne Pc Pd E1 E2 F1 F2.
  assert (Inj : forall a b, code a = code b -> b = a) by (intros [] [] Q; try reflexivity; discriminate Q).
  destruct (exec_ok A p S c _ _ _ Pc E1) as (a1 & x1 & Q1 & Ea1 & Ev1 & Fr1). apply Inj in Q1. subst a1.
  destruct (exec_ok A p S d _ _ _ Pd E2) as (a2 & x2 & Q2 & Ea2 & Ev2 & Fr2). apply Inj in Q2. subst a2.
  destruct (exec_ok A p S d _ _ _ Pd F1) as (b1 & y1 & Q3 & Eb1 & Ew1 & Gr1). apply Inj in Q3. subst b1.
  destruct (exec_ok A p S c _ _ _ Pc F2) as (b2 & y2 & Q4 & Eb2 & Ew2 & Gr2). apply Inj in Q4. subst b2.
  rewrite (Fr1 pl') in Ea2 by (intros Q; apply Ne; congruence). rewrite (Gr1 pl Ne) in Eb2.
  assert (H : forall q, at_place q u2 = at_place q w2).
  { intros q. assert (Dec : q = pl \/ q <> pl) by (destruct pl, q; (left; reflexivity) || (right; discriminate)).
    destruct Dec as [->|N1]; [rewrite Fr2 by exact Ne; rewrite Ev1, Ew2; congruence|]. rewrite (Gr2 q N1).
    assert (Dec : q = pl' \/ q <> pl') by (destruct pl', q; (left; reflexivity) || (right; discriminate)).
    destruct Dec as [->|N2]; [rewrite Ev2, Ew1; congruence|]. rewrite (Fr2 q N2), (Gr1 q N2). apply Fr1. exact N1. }
  destruct u2 as [a b d2], w2 as [a' b' d']. pose proof (H AtCent) as H1. pose proof (H AtWest) as H2. pose proof (H AtEast) as H3. cbn in *. congruence.
Qed.
Print Assumptions C79_independent.

(** The documentation of [assign] says that the fields of the argument are
    assigned.  The eigenvalues are not: the CFL step of the copy is not that of
    the original (here it does not even exist).  The adiabatic index is not
    either: from then on the two states compute different pressures from equal
    conserved variables. *)
Definition plain_call {A : Num} (c : call A) : Prop := match c with AssignVars _ _ | AssignAll _ => False | _ => True end.
Lemma made_all : forall A p S l (u u' : state A), made p S u -> Forall plain_call l -> exec_all p S l u = Ok u' -> made p S u'.
Proof.
  intros A p S l. induction l as [|c l IH]; intros u u' M F E; cbn [exec_all] in E; [injection E as <-; exact M|].
  destruct (exec p S c u) as [u1|e| |] eqn:E1; try discriminate E. cbn [bind] in E. inversion F as [|? ? Fc Fl]; subst.
  apply (IH u1 u'); [|exact Fl|exact E]. apply (made_call p S c u u1 M); [|exact E1].
  intros rhs [(D & ->)| ->]; destruct Fc.
Qed.
Definition gas_calls (A : Num) (g : nF A) : list (call A) :=
  flat_map (fun i => [WriteCons D_CENT 0 i (n1 A); WriteCons D_CENT 1 i (n1 A); WriteCons D_CENT 2 i (nZ A 3); WriteCSound D_CENT i (n1 A)]) (seq 0 8)
  ++ [WriteGamma D_CENT g; UpdatePrim D_CENT; UpdateDerived D_CENT].
Definition is_ok {X} (r : res X) : bool := match r with Ok _ => true | _ => false end.
Theorem C79_assign_refuted : forall bln bexp, let A := B64n bln bexp in
  exists u rhs u' ur ur' : state A, made Adiab 8 u /\ made Adiab 8 rhs /\ exec Adiab 8 (AssignAll rhs) u = Ok u' /\
    is_ok (st_calc_dt_cfl Adiab 8 rhs (nQ A (4 # 10)) (demo_mesh A 8)) = true /\
    st_calc_dt_cfl Adiab 8 u' (nQ A (4 # 10)) (demo_mesh A 8) = Err EDtNonFinite /\
    exec Adiab 8 (UpdatePrim D_CENT) u' = Ok ur /\ exec Adiab 8 (UpdatePrim D_CENT) rhs = Ok ur' /\
    cons (cent ur) = cons (cent ur') /\ nltb A (at2 (n0 A) (prim (cent ur)) 2 4) (at2 (n0 A) (prim (cent ur')) 2 4) = true.
Proof.
  intros bln bexp A.
  assert (H : match exec_all Adiab 8 (gas_calls A (nZ A 2)) (state_new Adiab 8 (default_physics_config A)) with
    | Ok rhs => (is_ok (st_calc_dt_cfl Adiab 8 rhs (nQ A (4 # 10)) (demo_mesh A 8)) &&
        match st_calc_dt_cfl Adiab 8 (state_assign (state_new Adiab 8 (default_physics_config A)) rhs) (nQ A (4 # 10)) (demo_mesh A 8) with Err EDtNonFinite => true | _ => false end &&
        nltb A (at2 (n0 A) (prim (update_prim Adiab 8 (cent (state_assign (state_new Adiab 8 (default_physics_config A)) rhs)))) 2 4)
               (at2 (n0 A) (prim (update_prim Adiab 8 (cent rhs))) 2 4))%bool
    | _ => false end = true) by (vm_compute; reflexivity).
  assert (M0 : made Adiab 8 (state_new Adiab 8 (default_physics_config A))) by apply made_new.
  generalize dependent (state_new Adiab 8 (default_physics_config A)). intros u H M0.
  destruct (exec_all Adiab 8 (gas_calls A (nZ A 2)) u) as [rhs|e| |] eqn:E; [|discriminate H..].
  apply andb_true_iff in H. destruct H as [H H3]. apply andb_true_iff in H. destruct H as [H1 H2].
  exists u, rhs, (state_assign u rhs), (set_cent (update_prim Adiab 8 (cent (state_assign u rhs))) (state_assign u rhs)), (set_cent (update_prim Adiab 8 (cent rhs)) rhs).
  split; [exact M0|]. split.
  { apply (made_all A Adiab 8 (gas_calls A (nZ A 2)) u rhs); [exact M0| |exact E].
    unfold gas_calls. apply Forall_app. split; [|repeat constructor]. apply Forall_flat_map. apply Forall_forall. intros i _. repeat constructor. }
  split; [reflexivity|]. split; [exact H1|]. split.
  { destruct (st_calc_dt_cfl Adiab 8 (state_assign u rhs) (nQ A (4 # 10)) (demo_mesh A 8)) as [x|[]| |]; try discriminate H2. reflexivity. }
  split; [reflexivity|]. split; [reflexivity|]. split; [reflexivity|]. exact H3.
Qed.
Print Assumptions C79_assign_refuted.

(** A concrete state made by calls, the result of an update at the east faces,
    and a call for a position that does not exist. *)
Example C79_example : forall bln bexp, let A := B64n bln bexp in
  exists u u' : state A, made Adiab 8 u /\ exec Adiab 8 (UpdateFlux D_EAST) u = Ok u' /\
    ~ same_field FFlux (at_place AtEast u) (at_place AtEast u') /\ same_field FFlux (at_place AtCent u) (at_place AtCent u') /\
    acceptable (A:=A) Adiab 8 (UpdateFlux D_EAST) /\ physics_validate Adiab (cent u') = Ok tt /\
    exec Adiab 8 (UpdateFlux 3) u = Panic.
Proof.
  intros bln bexp A.
  assert (H : match exec_all Adiab 8 (gas_calls A (nZ A 2) ++ [InitWestEast]) (state_new Adiab 8 (default_physics_config A)) with
    | Ok u => (negb (nltb A (at2 (n0 A) (flux (update_flux Adiab 8 (east u))) 0 4) (n1 A)) &&
               nltb A (at2 (n0 A) (flux (east u)) 0 4) (n1 A) && is_ok (physics_validate Adiab (cent u)))%bool
    | _ => false end = true) by (vm_compute; reflexivity).
  assert (M0 : made Adiab 8 (state_new Adiab 8 (default_physics_config A))) by apply made_new.
  generalize dependent (state_new Adiab 8 (default_physics_config A)). intros u0 H M0.
  destruct (exec_all Adiab 8 (gas_calls A (nZ A 2) ++ [InitWestEast]) u0) as [u|e| |] eqn:E; [|discriminate H..].
  apply andb_true_iff in H. destruct H as [H H3]. apply andb_true_iff in H. destruct H as [H1 H2].
  exists u, (mkState (cent u) (west u) (update_flux Adiab 8 (east u))).
  split.
  { apply (made_all A Adiab 8 (gas_calls A (nZ A 2) ++ [InitWestEast]) u0 u); [exact M0| |exact E].
    unfold gas_calls. apply Forall_app. split; [|repeat constructor]. apply Forall_app. split; [|repeat constructor]. apply Forall_flat_map. apply Forall_forall. intros i _. repeat constructor. }
  split; [reflexivity|]. split.
  { cbn [same_field at_place east]. intros Q. rewrite <- Q, H2 in H1. discriminate H1. }
  split; [reflexivity|]. split; [split; [intros D [= <-]; exists AtEast; reflexivity|exact Logic.I]|]. split; [|reflexivity].
  change (cent (mkState (cent u) (west u) (update_flux Adiab 8 (east u)))) with (cent u). destruct (physics_validate Adiab (cent u)) as [[]|e| |]; try discriminate H3. reflexivity.
Qed.
