(** Specification of a change of the units of mass and time (C62), in exact
    arithmetic.  Densities are multiplied by [lam] and velocities by [sig]
    (lengths keep their unit), so times are multiplied by [/ sig] and
    pressures, momenta and energies by products of these factors. *)

From Coq Require Import Reals List.
From Verif Require Import Base Num XReal Config Mesh State NumFlux Time Writer Runner ScaleBase ScaleRun.
Import ListNotations.
Local Open Scope R_scope.

(** the factors of density, velocity and pressure (rows of the primitive
    variables) and of density, momentum and energy (rows of the conservative
    variables) *)
Definition prim_factor (lam sig : R) (j : nat) : R :=
  match j with O => lam | S O => sig | _ => lam * sig * sig end.
Definition cons_factor (lam sig : R) (j : nat) : R :=
  match j with O => lam | S O => lam * sig | _ => lam * sig * sig end.

(** the rows of an array of primitive variables in the other units *)
Definition rescale_prim (lam sig : R) (q : list (list (nF XRn))) : list (list (nF XRn)) :=
  map (fun jr => map (xs (prim_factor lam sig (fst jr))) (snd jr)) (combine (seq 0 (length q)) q).

(** [x'] records what [x] records, in the other units *)
Record same_in_units (lam sig : R) (x x' : snapshot XRn) : Prop := {
  su_iter : ts_iter (fst x') = ts_iter (fst x);
  su_kind : ts_kind (fst x') = ts_kind (fst x);
  su_t : ts_t (fst x') = xs (/ sig) (ts_t (fst x));
  su_dt : ts_dt (fst x') = xs (/ sig) (ts_dt (fst x));
  su_prim : forall j i, at2 (n0 XRn) (prim (snd x')) j i = xs (prim_factor lam sig j) (at2 (n0 XRn) (prim (snd x)) j i);
  su_cons : forall j i, at2 (n0 XRn) (cons (snd x')) j i = xs (cons_factor lam sig j) (at2 (n0 XRn) (cons (snd x)) j i);
  su_sound : forall i, at1 (n0 XRn) (c_sound (snd x')) i = xs sig (at1 (n0 XRn) (c_sound (snd x)) i)
}.

(** What a program does: initialisation, then the run.  Its outcome, and the
    records of all outputs. *)
Definition program {A} {N : numflux_impl A} fmt val meta banner ms sched afuel fuel (init : sim A N -> mesh A -> sim A N * res unit) p S c w
  : res (res unit * list (snapshot A)) :=
  match init_corries val meta banner ms init p S c w with
  | (w1, Ok k) =>
      let '(e, r) := run_loop fmt val sched afuel fuel p S (c_mesh k) (c_sim k) (c_writer k) w1 in Ok (r, e_trace e)
  | (_, Err e) => Err e
  | (_, Panic) => Panic
  | (_, Fuel) => Fuel
  end.

(** the same outcome and the same records in the other units *)
Definition same_program (lam sig : R) (x x' : res (res unit * list (snapshot XRn))) : Prop :=
  match x, x' with
  | Ok (r, l), Ok (r', l') => r' = r /\ Forall2 (same_in_units lam sig) l l'
  | Err e, Err e' => e' = e
  | Panic, Panic => True
  | Fuel, Fuel => True
  | _, _ => False
  end.
