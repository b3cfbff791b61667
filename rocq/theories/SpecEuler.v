(** What an explicit Runge-Kutta method computes, independent of the code. *)

From Coq Require Import Reals QArith Qreals List Arith.
From Verif Require Import Config SpecTableau.
Import ListNotations.
Local Open Scope R_scope.

Fixpoint rsum (n : nat) (f : nat -> R) : R := match n with O => 0 | S n => rsum n f + f n end.

(** sum over the computational cells [2 .. S-3] *)
Definition inner_sum (S : nat) (f : nat -> R) : R := rsum (S - 4) (fun i => f (i + 2)%nat).

(** The slopes of an explicit method with coefficients [a] for du/dt = -f(u):
    k_q = f(u - dt * sum_(p<q) a_qp * k_p). *)
Fixpoint rk_slopes (f : R -> R) (a : list (list Q)) (dt u : R) (n : nat) : list R :=
  match n with
  | O => []
  | S q =>
      let ks := rk_slopes f a dt u q in
      ks ++ [f (u - dt * rsum q (fun p => Q2R (qat2 a q p) * nth p ks 0))]
  end.

(** One step with [n] stages and weights [b]. *)
Definition rk_step (f : R -> R) (n : nat) (a : list (list Q)) (b : list Q) (dt u : R) : R :=
  u - dt * rsum n (fun q => Q2R (qat b q) * nth q (rk_slopes f a dt u n) 0).

(** The sums of the weights of the methods: one, up to the rounding of the
    published coefficients of SSPRK5. *)
Definition weight_sum (md : rkf_mode) : R := match md with SSPRK5 => 999995 / 1000000 | _ => 1 end.

(** The modes whose embedded weights sum to one as well. *)
Definition embedded (md : rkf_mode) : bool :=
  match md with RK3 | Heun2 | RKF12 | RKF45 | SSPRK3 => true | _ => false end.

(** The arrays of a state have the right sizes and the configured adiabatic
    index, as those of [State::new] and every state made from it by assigning
    primitive or conserved variables. *)
From Verif Require Import Base Num XReal Mesh State NumFlux Time SpecFlow SpecStep.
Definition prepared {A} (p : phys) (S : nat) (c : config A) (u : state A) : Prop :=
  wss p S u /\ gamma (cent u) = pc_gamma (cf_physics c) /\ gamma (west u) = pc_gamma (cf_physics c) /\
  gamma (east u) = pc_gamma (cf_physics c).

(** [s] is reached from a new solver for the state [u0] by any number of calls
    of [next_solution]. *)
Definition reached {A} {N : numflux_impl A} (p : phys) (S : nat) (c : config A) (m : mesh A) (good : nf_T N -> Prop) (s : sim A N) : Prop :=
  exists u0 s0, prepared p S c u0 /\ solver_new N p S c m u0 = Ok s0 /\ good (r_nf (s_rhs s0)) /\ evolves p S m s0 s.

(** Evaluated at the state of [s], the right-hand side of the computational
    cells is [f]. *)
Definition slopes {N : numflux_impl XRn} (p : phys) (S : nat) (m : mesh XRn) (s : sim XRn N) (f : nat -> nat -> R) : Prop :=
  exists validation h w, rhs_update validation p S (s_rhs s) (s_u s) m = (h, w, Ok tt) /\
  forall j i, (j < nE p)%nat -> (2 <= i <= S - 3)%nat -> at2 (n0 XRn) (r_full h) j i = Fin (f j i).

(** An ordinary situation before a step: finite conserved variables [U] and
    right-hand sides [f] in the computational cells, CFL step [d], time [t],
    next output time [tn], largest step [M]. *)
Definition ordinary {N : numflux_impl XRn} (p : phys) (S : nat) (m : mesh XRn) (s : sim XRn N) (f U : nat -> nat -> R) (d t tn M : R) : Prop :=
  slopes p S m s f /\
  (forall j i, (j < nE p)%nat -> (2 <= i <= S - 3)%nat -> at2 (n0 XRn) (cons (cent (s_u s))) j i = Fin (U j i)) /\
  st_calc_dt_cfl p S (s_u s) (ts_cfl (s_ts s)) m = Ok (Fin d : nF XRn) /\
  ts_t (s_ts s) = Fin t /\ ts_t_next (s_ts s) = Fin tn /\ ts_dt_max (s_ts s) = Fin M /\
  0 < tn /\ 0 <= M /\ t <= tn.

(** [s] is reached from a new solver by successful steps, each taken in an
    ordinary situation; between the steps the time data may be replaced. *)
Inductive ordinary_run {N : numflux_impl XRn} (p : phys) (S : nat) (c : config XRn) (m : mesh XRn) (good : nf_T N -> Prop) : sim XRn N -> Prop :=
| or_new : forall u0 s, prepared p S c u0 -> solver_new N p S c m u0 = Ok s -> good (r_nf (s_rhs s)) -> ordinary_run p S c m good s
| or_step : forall s s' validation fuel f U d t tn M, ordinary_run p S c m good s -> ordinary p S m s f U d t tn M ->
    solver_next validation fuel p S m s = (s', Ok tt) -> ordinary_run p S c m good s'
| or_time : forall s ts, ordinary_run p S c m good s -> ordinary_run p S c m good (mkSim ts (s_u s) (s_rk s) (s_rhs s)).
