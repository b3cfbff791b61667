(** Specification vocabulary for flows: which states a theorem talks about. *)

From Coq Require Import Reals List Bool Lia.
From Verif Require Import Base Num XReal Config State NumFlux Spec.
Local Open Scope R_scope.

(** All arrays of [v] have the sizes the type parameters E and S of the code
    prescribe. *)
Definition wsv (A : Num) (p : phys) (S : nat) (v : vars A) : Prop :=
  shape (nE p) S (prim v) /\ shape (nE p) S (cons v) /\ shape (nE p) S (eigen_vals v) /\
  shape (nE p) S (flux v) /\ length (c_sound v) = S.

(** the centre variables of cell [i] agree *)
Definition same_cell (A : Num) (p : phys) (v w : vars A) (i : nat) : Prop :=
  (forall j, (j < nE p)%nat ->
     at2 (n0 A) (prim v) j i = at2 (n0 A) (prim w) j i /\
     at2 (n0 A) (cons v) j i = at2 (n0 A) (cons w) j i /\
     at2 (n0 A) (eigen_vals v) j i = at2 (n0 A) (eigen_vals w) j i) /\
  at1 (n0 A) (c_sound v) i = at1 (n0 A) (c_sound w) i.

(** The sound speed of the primitive variables [f]; [c0] is the constant
    isothermal sound speed. *)
Definition rsound (p : phys) (g c0 : R) (f : nat -> R) : R :=
  match p with Isot => c0 | Adiab => sqrt (g * f 2%nat / f 0%nat) end.

(** A uniform state: the computational cells hold the conserved variables of
    the primitive variables [f]; sound speed [c0] (isothermal). *)
Definition uniform_state (p : phys) (S : nat) (g : R) (f : nat -> R) (c0 : R) (u : state XRn) : Prop :=
  (forall v, v = cent u \/ v = west u \/ v = east u ->
     wsv XRn p S v /\ gamma v = Fin g /\
     (p = Isot -> forall i, (i < S)%nat -> at1 (n0 XRn) (c_sound v) i = Fin c0)) /\
  forall j i, (j < nE p)%nat -> (2 <= i <= S - 3)%nat -> at2 (n0 XRn) (cons (cent u)) j i = Fin (conserved p g f j).

Definition uniform_ok (p : phys) (g : R) (f : nat -> R) (c0 : R) : Prop :=
  1 < g /\ 0 < f 0%nat /\ (p = Adiab -> 0 < f 2%nat) /\ (p = Isot -> 0 < c0).

(** primitive variables seen in a mirror *)
Definition mirrored (q : nat -> R) (j : nat) : R := if Nat.eqb j 1 then - q 1%nat else q j.
Definition mirror_sign (j : nat) : R := if Nat.eqb j 1 then -1 else 1.

(** A flow: the computational cells hold the conserved variables of the
    primitive variables [f i]; [c i] is the (isothermal) sound speed. *)
Definition flow_state (p : phys) (S : nat) (g : R) (f : nat -> nat -> R) (c : nat -> R) (u : state XRn) : Prop :=
  wsv XRn p S (cent u) /\ gamma (cent u) = Fin g /\
  (p = Isot -> forall i, (i < S)%nat -> at1 (n0 XRn) (c_sound (cent u)) i = Fin (c i)) /\
  forall j i, (j < nE p)%nat -> (2 <= i <= S - 3)%nat -> at2 (n0 XRn) (cons (cent u)) j i = Fin (conserved p g (f i) j).

Definition flow_ok (p : phys) (S : nat) (g : R) (f : nat -> nat -> R) (c : nat -> R) : Prop :=
  1 < g /\ forall i, (i < S)%nat -> ((2 <= i <= S - 3)%nat -> 0 < f i 0%nat /\ (p = Adiab -> 0 < f i 2%nat)) /\ (p = Isot -> 0 < c i).

(** The limiters whose reconstruction is free of new extrema; [th] is the
    parameter of Monocent. *)
Definition tvd_limiter (l : limiter_mode XRn) (th : R) : Prop :=
  match l with MinMod | Superbee => True | Monocent _ => 0 < th <= 2 | _ => False end.


(** [k] has the same configuration as [k0]; only the buffers may differ. *)
Definition kt_like (A : Num) (k k0 : kt A) : Prop :=
  k_limiter k = k_limiter k0 /\ k_inv_dxi k = k_inv_dxi k0 /\ k_theta k = k_theta k0 /\
  k_dist_west k = k_dist_west k0 /\ k_dist_east k = k_dist_east k0.

(** The parameter of the Monocent limiter, 0 for the other limiters. *)
Definition limiter_theta (l : limiter_mode XRn) : XR := match l with Monocent x => x | _ => Fin 0 end.
