(** Specification vocabulary for mirror-symmetric problems (C71). *)

From Coq Require Import List Arith.
From Flocq Require Import Core BinarySingleNaN.
From Verif Require Import Base Num B64 Config Mesh State NumFlux Time Spec SpecStep.

(** The two doubles denote the same number: they are equal, or both are zero. *)
Definition same_number (x y : b64) : Prop :=
  x = y \/ (is_finite x = true /\ is_finite y = true /\ B2R x = B2R y).

(** In the mirror the velocity and the momentum (row 1) change their sign,
    density, energy and pressure do not. *)
Definition flip {A : Num} (j : nat) (x : nF A) : nF A := if (j =? 1)%nat then nneg A x else x.

(** Cell [i] counted from the west is the mirror image of cell [i] counted from
    the east; [same] says when two numbers count as equal. *)
Definition mirror_rows {A : Num} (same : nF A -> nF A -> Prop) (E S : nat) (q : list (list (nF A))) : Prop :=
  forall j i, (j < E)%nat -> (i < S)%nat -> same (at2 (n0 A) q j i) (flip j (at2 (n0 A) q j (S - 1 - i))).

Definition mirror_symmetric {A : Num} (same : nF A -> nF A -> Prop) (p : phys) (S : nat) (v : vars A) : Prop :=
  mirror_rows same (nE p) S (prim v) /\ mirror_rows same (nE p) S (cons v) /\
  forall i, (i < S)%nat -> same (at1 (n0 A) (c_sound v) i) (at1 (n0 A) (c_sound v) (S - 1 - i)).

(** Boundary conditions that are their own mirror image: every variable has one
    and none of them looks at the direction of the flow or at the coordinates.
    The density must be copied or reflected; extrapolation is linear where the
    mesh is not logarithmic. *)
Definition even_handed (logarithmic : bool) (E : nat) (l : list (nat * cbmode)) : Prop :=
  (forall j, (j < E)%nat -> In j (map fst l)) /\
  forall j md, In (j, md) l ->
    md = NoGradients \/ md = Reflecting \/ (j <> 0%nat /\ ((md = Extrapolate /\ logarithmic = false) \/ md = NearZero)).

(** An initial condition function whose result, from any state with arrays of
    the right sizes, is its own mirror image, with a usable density everywhere. *)
Definition symmetric_start {A : Num} {N : numflux_impl A} (same : nF A -> nF A -> Prop) (usable : nF A -> Prop) (p : phys) (S : nat)
    (init : sim A N -> mesh A -> sim A N * res unit) : Prop :=
  forall s m s', wss p S (s_u s) -> init s m = (s', Ok tt) ->
  (forall j i, (j < nE p)%nat -> (2 <= i <= S - 3)%nat ->
     same (at2 (n0 A) (prim (cent (s_u s'))) j i) (flip j (at2 (n0 A) (prim (cent (s_u s'))) j (S - 1 - i)))) /\
  (p = Isot -> forall i, (i < S)%nat -> same (at1 (n0 A) (c_sound (cent (s_u s'))) i) (at1 (n0 A) (c_sound (cent (s_u s'))) (S - 1 - i))) /\
  forall i, (2 <= i <= S - 3)%nat -> usable (at2 (n0 A) (prim (cent (s_u s'))) 0 i).

(** Any double but a zero. *)
Definition nonzero (x : b64) : Prop := match x with B754_zero _ => False | _ => True end.
