(** Properties C07 - C10: conversions, fluxes and wave speeds of the two
    physics systems. *)

From Coq Require Import Reals ZArith QArith List String Lra Lia.
From Flocq Require Import Core BinarySingleNaN.
From Verif Require Import Base Num XReal B64 Config Mesh State Spec ConfigProofs MeshProofs BoundaryProofs PhysicsProofs.
Import ListNotations.
Local Open Scope nat_scope.

(** A state for the examples: cell [i] has density, velocity (and pressure)
    [i + 1], adiabatic index 2. *)
Definition ramp2 (A : Num) (p : phys) (S : nat) : vars A :=
  let m := mtab (nE p) S (fun _ i => nZ A (Z.of_nat i + 1)) in
  set_cons m (set_prim m (set_c_sound (tab S (fun _ => nZ A 1)) (vars_new p S (mkPC (nZ A 2) SI)))).

(** C07: every cell with real (not infinite or NaN) values and non-zero density
    survives the round trip, independently of the contents of all other cells. *)
Theorem C07_prim_roundtrip : forall p S (v : vars XRn) g (f : nat -> R) i,
  shape (nE p) S (prim v) -> shape (nE p) S (cons v) -> i < S ->
  gamma v = Fin g -> (p = Adiab -> g <> 1)%R ->
  (forall j, j < nE p -> at2 (n0 XRn) (prim v) j i = Fin (f j)) -> (f 0%nat <> 0)%R ->
  forall j, j < nE p -> at2 (n0 XRn) (prim (update_prim p S (update_cons p S v))) j i = at2 (n0 XRn) (prim v) j i.
Proof. exact prim_roundtrip_cell. Qed.
Print Assumptions C07_prim_roundtrip.

Theorem C07_cons_roundtrip : forall p S (v : vars XRn) g (f : nat -> R) i,
  shape (nE p) S (prim v) -> shape (nE p) S (cons v) -> i < S ->
  gamma v = Fin g -> (p = Adiab -> g <> 1)%R ->
  (forall j, j < nE p -> at2 (n0 XRn) (cons v) j i = Fin (f j)) -> (f 0%nat <> 0)%R ->
  forall j, j < nE p -> at2 (n0 XRn) (cons (update_cons p S (update_prim p S v))) j i = at2 (n0 XRn) (cons v) j i.
Proof. exact cons_roundtrip_cell. Qed.
Print Assumptions C07_cons_roundtrip.

(** The converted variables are the textbook ones (so that the round trips are
    not between two wrong conversions). *)
Theorem C07_conserved_quantities : forall p S (v : vars XRn) g (f : nat -> R) i,
  shape (nE p) S (cons v) -> i < S -> gamma v = Fin g -> (p = Adiab -> g <> 1)%R ->
  (forall j, j < nE p -> at2 (n0 XRn) (prim v) j i = Fin (f j)) ->
  forall j, j < nE p -> at2 (n0 XRn) (cons (update_cons p S v)) j i = Fin (conserved p g f j).
Proof. exact cons_is_conserved. Qed.
Print Assumptions C07_conserved_quantities.

Example C07_example : let v := ramp2 XRn Adiab 7 in
  shape (nE Adiab) 7 (prim v) /\ shape (nE Adiab) 7 (cons v) /\ gamma v = Fin 2 /\
  (forall j, j < 3 -> at2 (n0 XRn) (prim v) j 4 = Fin 5) /\
  (forall j, j < 3 -> at2 (n0 XRn) (cons v) j 4 = Fin 5) /\ (5 <> 0)%R /\
  at2 (n0 XRn) (cons (update_cons Adiab 7 v)) 2 4 = Fin (5 / (2 - 1) + 5 * (5 * 5) / 2)%R.
Proof.
  intros v.
  assert (E : forall m, m = prim v \/ m = cons v -> forall j, j < 3 -> at2 (n0 XRn) m j 4 = Fin 5).
  { intros m Hm j Hj. assert (Em : m = mtab 3 7 (fun _ i => nZ XRn (Z.of_nat i + 1))) by (destruct Hm as [Hm | Hm]; rewrite Hm; reflexivity).
    rewrite Em, at2_mtab by lia. reflexivity. }
  split; [apply shape_mtab|]. split; [apply shape_mtab|]. split; [reflexivity|].
  split; [apply E; auto|]. split; [apply E; auto|]. split; [lra|].
  exact (cons_is_conserved Adiab 7 v 2 (fun _ => 5%R) 4 (shape_mtab _ _ _ _) ltac:(lia) eq_refl ltac:(intros _; lra)
           (E _ (or_introl eq_refl)) 2 ltac:(cbn; lia)).
Qed.

(** C08: in every arithmetic the density row is copied. *)
Theorem C08_density_copied : forall A p S (v : vars A), shape (nE p) S (prim v) -> shape (nE p) S (cons v) ->
  nth 0 (cons (update_cons p S v)) [] = nth 0 (prim v) [] /\
  nth 0 (prim (update_prim p S v)) [] = nth 0 (cons v) [].
Proof. exact density_unchanged. Qed.
Print Assumptions C08_density_copied.

Example C08_example : forall A, let v := ramp2 A Adiab 3 in
  shape (nE Adiab) 3 (prim v) /\ shape (nE Adiab) 3 (cons v) /\
  nth 0 (cons (update_cons Adiab 3 v)) [] = [nZ A 1; nZ A 2; nZ A 3].
Proof.
  intros A v. split; [apply shape_mtab|]. split; [apply shape_mtab|].
  rewrite (proj1 (density_unchanged A Adiab 3 v (shape_mtab _ _ _ _) (shape_mtab _ _ _ _))). reflexivity.
Qed.

(** C09: after the updates of a flux evaluation, a cell with positive density
    (and pressure) holds its conserved quantities, their Euler flux, and the
    complete list of characteristic speeds of that flux. *)
Theorem C09_euler_system : forall p S (v w : vars XRn) g f i cs0,
  shape (nE p) S (prim v) -> shape (nE p) S (cons v) -> shape (nE p) S (flux v) -> shape (nE p) S (eigen_vals v) ->
  i < S -> gamma v = Fin g -> (1 < g)%R ->
  (forall j, j < nE p -> at2 (n0 XRn) (prim v) j i = Fin (f j)) ->
  (0 < f 0%nat)%R -> (p = Adiab -> 0 < f 2%nat)%R ->
  (p = Isot -> at1 (n0 XRn) (c_sound v) i = Fin cs0) ->
  w = update_flux p S (update_derived_variables p S (update_cons p S v)) ->
  let U := conserved p g f in
  exists cs lam,
    (p = Isot -> cs = cs0) /\ (p = Adiab -> cs = sqrt (g * f 2%nat / f 0%nat)) /\
    (forall j, j < nE p -> at2 (n0 XRn) (cons w) j i = Fin (U j)) /\
    (forall j, j < nE p -> at2 (n0 XRn) (flux w) j i = Fin (euler_flux p g cs U j)) /\
    (forall j, j < nE p -> at2 (n0 XRn) (eigen_vals w) j i = Fin (lam j)) /\
    (forall l, char_speed p g cs U l <-> exists j, j < nE p /\ l = lam j).
Proof. exact euler_system. Qed.
Print Assumptions C09_euler_system.

Example C09_example : let v := ramp2 XRn Adiab 7 in
  shape (nE Adiab) 7 (prim v) /\ shape (nE Adiab) 7 (cons v) /\ shape (nE Adiab) 7 (flux v) /\
  shape (nE Adiab) 7 (eigen_vals v) /\ gamma v = Fin 2 /\
  (forall j, j < 3 -> at2 (n0 XRn) (prim v) j 4 = Fin 5).
Proof.
  intros v. split; [first [apply shape_mtab | apply shape_zeros2]|]. split; [first [apply shape_mtab | apply shape_zeros2]|]. split; [first [apply shape_mtab | apply shape_zeros2]|].
  split; [first [apply shape_mtab | apply shape_zeros2]|]. split; [reflexivity|]. intros j Hj.
  change (prim v) with (mtab 3 7 (fun _ i => nZ XRn (Z.of_nat i + 1))). rewrite at2_mtab by lia. reflexivity.
Qed.
Example C09_example_isot : let v := ramp2 XRn Isot 7 in
  shape (nE Isot) 7 (flux v) /\ at1 (n0 XRn) (c_sound v) 4 = Fin 1 /\
  (forall j, j < 2 -> at2 (n0 XRn) (prim v) j 4 = Fin 5).
Proof.
  intros v. split; [first [apply shape_mtab | apply shape_zeros2]|]. split; [reflexivity|]. intros j Hj.
  change (prim v) with (mtab 2 7 (fun _ i => nZ XRn (Z.of_nat i + 1))). rewrite at2_mtab by lia. reflexivity.
Qed.

(** C10: order of the eigenvalue rows, exactly and in doubles. *)
Theorem C10_eigenvalues_ordered : forall p S (v : vars XRn) i a c,
  shape (nE p) S (prim v) -> shape (nE p) S (eigen_vals v) -> i < S ->
  at2 (n0 XRn) (prim v) 1 i = Fin a ->
  at1 (n0 XRn) (c_sound (update_derived_variables p S v)) i = Fin c -> (0 <= c)%R ->
  let w := update_derived_variables p S v in
  exists e : nat -> R, (forall j, j < nE p -> at2 (n0 XRn) (eigen_vals w) j i = Fin (e j)) /\
    (forall j, j + 1 < nE p -> (e j <= e (j + 1)%nat)%R) /\
    e 0%nat = (a - c)%R /\ e (nE p - 1) = (a + c)%R /\ (e 0%nat <= a <= e (nE p - 1)%nat)%R.
Proof. exact eigen_ordered. Qed.
Print Assumptions C10_eigenvalues_ordered.

Theorem C10_eigenvalues_ordered_b64 : forall bln bexp p S (v : vars (B64n bln bexp)) i,
  let B := B64n bln bexp in let w := update_derived_variables p S v in
  let vel : b64 := at2 (n0 B) (prim v) 1 i in let c : b64 := at1 (n0 B) (c_sound w) i in
  shape (nE p) S (prim v) -> shape (nE p) S (eigen_vals v) -> i < S ->
  is_finite vel = true -> is_finite c = true -> xle (Fin 0) (b2x c) ->
  xle (b2x (at2 (n0 B) (eigen_vals w) 0 i)) (b2x vel) /\
  xle (b2x vel) (b2x (at2 (n0 B) (eigen_vals w) (nE p - 1) i)).
Proof. exact eigen_ordered_b64. Qed.
Print Assumptions C10_eigenvalues_ordered_b64.

Theorem C10_sound_speed : forall S (v : vars XRn) g r pr i, i < S ->
  gamma v = Fin g -> at2 (n0 XRn) (prim v) 0 i = Fin r -> at2 (n0 XRn) (prim v) 2 i = Fin pr ->
  (r <> 0)%R -> (0 <= g * pr / r)%R ->
  at1 (n0 XRn) (c_sound (update_derived_variables Adiab S v)) i = Fin (sqrt (g * pr / r)) /\
  (0 <= sqrt (g * pr / r))%R.
Proof. intros. split; [apply sound_speed_adiab; assumption|apply sqrt_pos]. Qed.
Print Assumptions C10_sound_speed.

Example C10_example : let v := ramp2 XRn Isot 7 in
  shape (nE Isot) 7 (prim v) /\ shape (nE Isot) 7 (eigen_vals v) /\ at2 (n0 XRn) (prim v) 1 3 = Fin 4 /\
  at1 (n0 XRn) (c_sound (update_derived_variables Isot 7 v)) 3 = Fin 1.
Proof.
  intros v. split; [first [apply shape_mtab | apply shape_zeros2]|]. split; [first [apply shape_mtab | apply shape_zeros2]|]. split; [|reflexivity].
  change (prim v) with (mtab 2 7 (fun _ i => nZ XRn (Z.of_nat i + 1))). rewrite at2_mtab by lia. reflexivity.
Qed.
Example C10_example_b64 : forall bln bexp, let v := ramp2 (B64n bln bexp) Adiab 6 in
  shape (nE Adiab) 6 (prim v) /\ shape (nE Adiab) 6 (eigen_vals v) /\
  is_finite (at2 (n0 (B64n bln bexp)) (prim v) 1 3 : b64) = true /\
  is_finite (at1 (n0 (B64n bln bexp)) (c_sound (update_derived_variables Adiab 6 v)) 3 : b64) = true /\
  xle (Fin 0) (b2x (at1 (n0 (B64n bln bexp)) (c_sound (update_derived_variables Adiab 6 v)) 3 : b64)).
Proof.
  intros bln bexp v. split; [first [apply shape_mtab | apply shape_zeros2]|]. split; [first [apply shape_mtab | apply shape_zeros2]|].
  split; [vm_compute; reflexivity|]. split; [vm_compute; reflexivity|].
  change (Fin 0) with (b2x (b_ofZ 0)). apply Bleb_xle. vm_compute. reflexivity.
Qed.
