(** Specification vocabulary for the domain of dependence of steps (C70). *)

From Coq Require Import List.
From Verif Require Import Base Num Config Mesh State NumFlux Time Spec SpecFlow SpecStep.

(** The cells at most [r] cells away from cell [i]. *)
Definition near (i r k : nat) : Prop := (i <= k + r /\ k <= i + r)%nat.

(** Two states with the same gas in the cells at most [r] away from cell [i]:
    the same conserved variables and, in isothermal gas, the same (constant)
    sound speeds. *)
Definition same_near {A} (p : phys) (S i r : nat) (u w : state A) : Prop :=
  forall k, near i r k -> (k < S)%nat ->
  (forall j, (j < nE p)%nat -> at2 (n0 A) (cons (cent u)) j k = at2 (n0 A) (cons (cent w)) j k) /\
  (p = Isot -> at1 (n0 A) (c_sound (cent u)) k = at1 (n0 A) (c_sound (cent w)) k /\
               at1 (n0 A) (c_sound (west u)) k = at1 (n0 A) (c_sound (west w)) k /\
               at1 (n0 A) (c_sound (east u)) k = at1 (n0 A) (c_sound (east w)) k).

(** Successful steps of sizes [ds] lead from [s] to [s']; between the steps the
    time data may be replaced, as the run loop does. *)
Inductive steps_of {A} {N : numflux_impl A} (p : phys) (S : nat) (m : mesh A) : sim A N -> list (nF A) -> sim A N -> Prop :=
| so_nil : forall s, steps_of p S m s nil s
| so_time : forall s ts ds s', steps_of p S m (mkSim ts (s_u s) (s_rk s) (s_rhs s)) ds s' -> steps_of p S m s ds s'
| so_step : forall validation fuel s s1 ds s', solver_next validation fuel p S m s = (s1, Ok tt) ->
    steps_of p S m s1 ds s' -> steps_of p S m s (List.cons (ts_dt (s_ts s1)) ds) s'.

(** A scheme whose flux differences in a computational cell depend on the cells
    at most [W] away only; [good] is its configuration data. *)
Definition local_scheme {A} (N : numflux_impl A) (p : phys) (S : nat) (m : mesh A) (good : nf_T N -> Prop) (W : nat) : Prop :=
  forall val1 val2 n1 n2 d1 d2 u1 u2 n1' d1' u1' o1 n2' d2' u2' o2 i j,
  good n1 -> good n2 -> wsv A p S (cent u1) -> wsv A p S (cent u2) ->
  wsv A p S (west u1) -> wsv A p S (west u2) -> wsv A p S (east u1) -> wsv A p S (east u2) ->
  gamma (west u1) = gamma (west u2) -> gamma (east u1) = gamma (east u2) ->
  nf_calc N val1 p S n1 d1 u1 m = (n1', d1', u1', o1) -> nf_calc N val2 p S n2 d2 u2 m = (n2', d2', u2', o2) ->
  (2 <= i <= S - 3)%nat -> (j < nE p)%nat ->
  (forall k, near i W k -> (k < S)%nat -> same_cell A p (cent u1) (cent u2) k /\
    (p = Isot -> at1 (n0 A) (c_sound (west u1)) k = at1 (n0 A) (c_sound (west u2)) k /\
                 at1 (n0 A) (c_sound (east u1)) k = at1 (n0 A) (c_sound (east u2)) k)) ->
  at2 (n0 A) d1' j i = at2 (n0 A) d2' j i.
