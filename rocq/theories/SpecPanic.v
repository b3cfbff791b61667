(** Specification vocabulary for panics. *)

From Coq Require Import List String.
From Verif Require Import Base Num Config Mesh State NumFlux Time Writer Runner SpecFlow SpecWriter.
Import ListNotations.

(** Building and evaluating the flux scheme never panics. *)
Definition never_panics {A} (N : numflux_impl A) : Prop :=
  (forall p S c m, nf_new N p S c m <> Panic) /\
  forall validation p S n d u m, snd (nf_calc N validation p S n d u m) <> Panic.

(** All equation indices of a boundary configuration exist. *)
Definition equations_exist (p : phys) (b : bmode) : Prop :=
  match b with
  | BNoGradients => True
  | BCustom l => forall j md, In (j, md) l -> (j < nE p)%nat
  end.

(** Every output has data names, and they exist for the physics system. *)
Definition data_exists (p : phys) (l : list output_config) : Prop :=
  forall c, In c l -> oc_names c <> [] /\ forall n, In n (oc_names c) -> name_exists p n.

(** An initial condition function that does not panic, keeps the sizes of the
    state's arrays and leaves the solver's boundary conditions alone. *)
Definition tame {A} {N : numflux_impl A} (p : phys) (S : nat) (init : sim A N -> mesh A -> sim A N * res unit) : Prop :=
  forall s m s' r, init s m = (s', r) ->
  r <> Panic /\ r_bw (s_rhs s') = r_bw (s_rhs s) /\ r_be (s_rhs s') = r_be (s_rhs s) /\
  (wsv A p S (cent (s_u s)) -> wsv A p S (cent (s_u s'))).
