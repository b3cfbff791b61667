(** Specification vocabulary for whole runs. *)

From Coq Require Import List NArith ZArith QArith Reals String.
From Verif Require Import Base Num XReal Config Mesh State NumFlux Time Writer Runner.
Import ListNotations.

(** The flux scheme always returns (Ok, Err or a panic). *)
Definition returns {A} (N : numflux_impl A) : Prop :=
  forall validation p S n d u m, snd (nf_calc N validation p S n d u m) <> Fuel.

Section SpecRun.
Variable A : Num.
Variable N : numflux_impl A.

(** [n] calls of [next_solution], whatever they return, lead from [s] to
    [s']; between the calls only the next output time is moved and the kind of
    the time step relabelled. *)
Inductive calls (validation : bool) (afuel : nat) (p : phys) (S : nat) (m : mesh A) : nat -> sim A N -> sim A N -> Prop :=
| ca_none : forall s, calls validation afuel p S m 0 s s
| ca_call : forall n s s1 s2 o, calls validation afuel p S m n s s1 ->
    solver_next validation afuel p S m s1 = (s2, o) -> calls validation afuel p S m (Datatypes.S n) s s2
| ca_next : forall n s s1 t, calls validation afuel p S m n s s1 ->
    calls validation afuel p S m n s (mkSim (ts_set_next t (s_ts s1)) (s_u s1) (s_rk s1) (s_rhs s1))
| ca_kind : forall n s s1 k, calls validation afuel p S m n s s1 ->
    calls validation afuel p S m n s (mkSim (ts_set_kind k (s_ts s1)) (s_u s1) (s_rk s1) (s_rhs s1)).

(** An output is due: the time has come within [dt_min] of the next output
    time. *)
Definition due (s : sim A N) : bool := nleb A (nsub A (ts_t_next (s_ts s)) (ts_dt_min (s_ts s))) (ts_t (s_ts s)).

(** The end time is reached up to a hundredth of [dt_min]. *)
Definition finished (s : sim A N) : bool :=
  nleb A (ts_t_end (s_ts s)) (nadd A (ts_t (s_ts s)) (nmul A (ts_dt_min (s_ts s)) (nQ A (1 # 100)))).

(** The simulation with the next output time moved on by the output
    interval. *)
Definition moved_on (s : sim A N) : sim A N :=
  mkSim (ts_set_next (nadd A (ts_t_next (s_ts s)) (ts_dt_output (s_ts s))) (s_ts s)) (s_u s) (s_rk s) (s_rhs s).

Variable fmt : nat -> nF A -> string.

(** One output: collect the data of [s], then write it. *)
Inductive outputs (sched : BinNums.N -> list nat) (m : mesh A) (s : sim A N) (wr : writer A) (w : world)
  : writer A -> world -> res unit -> Prop :=
| ou_written : forall wr1 wr2 w2 r, writer_update m (cent (s_u s)) (s_ts s) wr = (wr1, Ok tt) ->
    writer_write fmt (sched (wr_counter wr1)) wr1 w = (wr2, w2, r) -> outputs sched m s wr w wr2 w2 r
| ou_not_collected : forall wr1 r, writer_update m (cent (s_u s)) (s_ts s) wr = (wr1, r) -> r <> Ok tt ->
    outputs sched m s wr w wr1 w r.

(** The history of a run: starting with [s0], after [n] successful steps the
    run holds [s], [wr], [w] and has output [tr]. *)
Inductive after (validation : bool) (sched : BinNums.N -> list nat) (afuel : nat) (p : phys) (S : nat) (m : mesh A)
    (s0 : sim A N) (wr0 : writer A) (w0 : world) : nat -> sim A N -> writer A -> world -> list (snapshot A) -> Prop :=
| af_start : after validation sched afuel p S m s0 wr0 w0 0 s0 wr0 w0 []
| af_due : forall n s wr w tr wr1 w1 s2, after validation sched afuel p S m s0 wr0 w0 n s wr w tr ->
    due s = true -> outputs sched m (moved_on s) wr w wr1 w1 (Ok tt) -> finished s = false ->
    solver_next validation afuel p S m (moved_on s) = (s2, Ok tt) ->
    after validation sched afuel p S m s0 wr0 w0 (Datatypes.S n) s2 wr1 w1 (tr ++ [(s_ts (moved_on s), cent (s_u s))])
| af_not_due : forall n s wr w tr s2, after validation sched afuel p S m s0 wr0 w0 n s wr w tr ->
    due s = false -> finished s = false -> solver_next validation afuel p S m s = (s2, Ok tt) ->
    after validation sched afuel p S m s0 wr0 w0 (Datatypes.S n) s2 wr w tr.

(** The same, at the point where the output of the iteration is done. *)
Inductive ready (validation : bool) (sched : BinNums.N -> list nat) (afuel : nat) (p : phys) (S : nat) (m : mesh A)
    (s0 : sim A N) (wr0 : writer A) (w0 : world) (n : nat) : sim A N -> writer A -> world -> list (snapshot A) -> Prop :=
| rd_due : forall s wr w tr wr1 w1, after validation sched afuel p S m s0 wr0 w0 n s wr w tr ->
    due s = true -> outputs sched m (moved_on s) wr w wr1 w1 (Ok tt) ->
    ready validation sched afuel p S m s0 wr0 w0 n (moved_on s) wr1 w1 (tr ++ [(s_ts (moved_on s), cent (s_u s))])
| rd_not_due : forall s wr w tr, after validation sched afuel p S m s0 wr0 w0 n s wr w tr -> due s = false ->
    ready validation sched afuel p S m s0 wr0 w0 n s wr w tr.

End SpecRun.
Arguments calls {A N}. Arguments due {A N}. Arguments finished {A N}. Arguments moved_on {A N}.
Arguments outputs {A N}. Arguments after {A N}. Arguments ready {A N}.

(** [s] is a simulation at its start: its time data and its time integrator
    are those a new solver has. *)
Definition at_start {A} {N : numflux_impl A} (p : phys) (S : nat) (c : config A) (s : sim A N) : Prop :=
  s_ts s = ts_new (cf_numerics c) (cf_output_max c) /\ s_rk s = rkf_new p S c.

(** The times of a configuration are the finite numbers [t0], [t1] (the end)
    and [dmin], and the [M] output intervals have length [D]. *)
Definition times (c : config XRn) (t0 t1 dmin : R) (M : N) (D : R) : Prop :=
  nc_t0 (cf_numerics c) = Fin t0 /\ nc_t_end (cf_numerics c) = Fin t1 /\ nc_dt_min (cf_numerics c) = Fin dmin /\
  cf_output_max c = M /\ (0 < M)%N /\ (D * IZR (Z.of_N M) = t1 - t0)%R.
