(** src/time/timestep.rs, src/time/rkf.rs, src/time/rkf/butchertableau.rs and
    src/solver.rs: time stepping. *)

From Coq Require Import List ZArith NArith QArith Bool.
From Verif Require Import Base Num Config Mesh State NumFlux.
Import ListNotations.
Local Open Scope num_scope.

(** src/time.rs L18-28 *)
Inductive dtkind := KInit | KCfl | KErrorDump.

Section Time.
Variable A : Num.
Notation F := (nF A).
Notation vec := (list F).
Notation mat := (list vec).
Notation "v .[ i ]" := (at1 (n0 A) v i) (at level 2, format "v .[ i ]").
Notation "m .[ j , i ]" := (at2 (n0 A) m j i) (at level 2, format "m .[ j ,  i ]").

(** ** src/time/timestep.rs *)

(** src/time/timestep.rs L19-53.  [iter] is a [usize] in the code; its
    overflow (2^64 iterations) is not modelled. *)
Record timestep := mkTS {
  ts_iter : N; ts_iter_max : N;
  ts_t : F; ts_t_end : F;
  ts_dt : F; ts_dt_min : F; ts_dt_max : F; ts_cfl : F;
  ts_kind : dtkind;
  ts_dt_output : F; ts_t_next : F
}.

Definition ts_set_iter (n : N) (s : timestep) : timestep :=
  mkTS n (ts_iter_max s) (ts_t s) (ts_t_end s) (ts_dt s) (ts_dt_min s) (ts_dt_max s) (ts_cfl s)
       (ts_kind s) (ts_dt_output s) (ts_t_next s).
Definition ts_set_t (t : F) (s : timestep) : timestep :=
  mkTS (ts_iter s) (ts_iter_max s) t (ts_t_end s) (ts_dt s) (ts_dt_min s) (ts_dt_max s) (ts_cfl s)
       (ts_kind s) (ts_dt_output s) (ts_t_next s).
Definition ts_set_dt (d : F) (s : timestep) : timestep :=
  mkTS (ts_iter s) (ts_iter_max s) (ts_t s) (ts_t_end s) d (ts_dt_min s) (ts_dt_max s) (ts_cfl s)
       (ts_kind s) (ts_dt_output s) (ts_t_next s).
Definition ts_set_kind (k : dtkind) (s : timestep) : timestep :=
  mkTS (ts_iter s) (ts_iter_max s) (ts_t s) (ts_t_end s) (ts_dt s) (ts_dt_min s) (ts_dt_max s) (ts_cfl s)
       k (ts_dt_output s) (ts_t_next s).
Definition ts_set_next (t : F) (s : timestep) : timestep :=
  mkTS (ts_iter s) (ts_iter_max s) (ts_t s) (ts_t_end s) (ts_dt s) (ts_dt_min s) (ts_dt_max s) (ts_cfl s)
       (ts_kind s) (ts_dt_output s) t.

(** src/time/timestep.rs L84-98, [TimeStep::new] *)
Definition ts_new (c : numerics_config A) (output_counter_max : N) : timestep :=
  {| ts_iter := 0%N; ts_iter_max := nc_iter_max c;
     ts_t := nc_t0 c; ts_t_end := nc_t_end c;
     ts_dt := n0 A; ts_dt_min := nc_dt_min c; ts_dt_max := nc_dt_max c; ts_cfl := nc_dt_cfl c;
     ts_kind := KInit;
     ts_dt_output := (nc_t_end c - nc_t0 c) / nZ A (Z.of_N output_counter_max);
     ts_t_next := nc_t0 c |}.

(** src/time/timestep.rs L130-147, [TimeStep::calc_dt_expl] *)
Definition calc_dt_expl (p : phys) (S : nat) (ts : timestep) (u : state A) (m : mesh A) : timestep * res unit :=
  match st_calc_dt_cfl p S u (ts_cfl ts) m with
  | Ok dt =>
      let ts := ts_set_dt dt ts in
      if dt <? ts_dt_min ts then (ts, Err EDtMin) else (ts_set_kind KCfl ts, Ok tt)
  | Err e => (ts, Err e)
  | Panic => (ts, Panic)
  | Fuel => (ts, Fuel)
  end.

(** src/time/timestep.rs L151-156, [TimeStep::cap_dt] *)
Definition cap_dt (ts : timestep) : timestep :=
  let ts := ts_set_dt (nmin A (ts_dt ts) (ts_dt_max ts)) ts in
  if n1 A <? (ts_dt ts + ts_t ts) / ts_t_next ts
  then ts_set_dt (ts_t_next ts - ts_t ts) ts
  else ts.

(** ** src/time/rkf/butchertableau.rs *)

(** src/time/rkf/butchertableau.rs L16-34 *)
Record butcher := mkBT { bt_order : nat; bt_a : mat; bt_high : vec; bt_low : vec; bt_c : vec; bt_asc : bool }.

(** src/time/rkf/butchertableau.rs L272-284 *)
Definition get_order (md : rkf_mode) : nat :=
  match md with
  | RK1 => 1 | RK2 => 2 | RK3 => 3 | RK4 => 4 | Heun2 => 2 | RKF12 => 3 | RKF45 => 6 | SSPRK3 => 3 | SSPRK5 => 5
  end.

(** src/time/rkf/butchertableau.rs L46-267, [ButcherTableau::new].  [z n] is
    the literal [n.0], [q x] another decimal literal, [fr a b] the division
    [a.0/b.0]. *)
Definition bt_new (c : rkf_config A) : butcher :=
  let order := get_order (rc_mode c) in
  let asc := rc_asc c in
  let z := nZ A in
  let q := nQ A in
  let fr a b := nZ A a / nZ A b in
  match rc_mode c with
  | RK1 => mkBT order [[z 0%Z]] [z 1%Z] [z 0%Z] [z 0%Z] false
  | RK2 => mkBT order
      [[z 0%Z; z 0%Z]; [q (1#2); z 0%Z]]
      [z 0%Z; z 1%Z] [z 0%Z; z 0%Z] [z 0%Z; q (1#2)] false
  | RK3 => mkBT order
      [[z 0%Z; z 0%Z; z 0%Z]; [q (1#2); z 0%Z; z 0%Z]; [z (-1)%Z; z 2%Z; z 0%Z]]
      [fr 1%Z 6%Z; fr 2%Z 3%Z; fr 1%Z 6%Z] [z 0%Z; z 1%Z; z 0%Z] [z 0%Z; q (1#2); z 1%Z] asc
  | RK4 => mkBT order
      [[z 0%Z; z 0%Z; z 0%Z; z 0%Z]; [q (1#2); z 0%Z; z 0%Z; z 0%Z];
       [z 0%Z; q (1#2); z 0%Z; z 0%Z]; [z 0%Z; z 0%Z; z 1%Z; z 0%Z]]
      [fr 1%Z 6%Z; fr 1%Z 3%Z; fr 1%Z 3%Z; fr 1%Z 6%Z] [z 0%Z; z 0%Z; z 0%Z; z 0%Z]
      [z 0%Z; q (1#2); q (1#2); z 1%Z] false
  | Heun2 => mkBT order
      [[z 0%Z; z 0%Z]; [z 1%Z; z 0%Z]]
      [q (1#2); q (1#2)] [z 1%Z; z 0%Z] [z 0%Z; z 1%Z] asc
  | RKF12 => mkBT order
      [[z 0%Z; z 0%Z; z 0%Z]; [q (1#2); z 0%Z; z 0%Z]; [fr 1%Z 256%Z; fr 255%Z 256%Z; z 0%Z]]
      [fr 1%Z 512%Z; fr 255%Z 256%Z; fr 1%Z 512%Z] [fr 1%Z 256%Z; fr 255%Z 256%Z; z 0%Z]
      [z 0%Z; q (1#2); z 1%Z] asc
  | RKF45 => mkBT order
      [[z 0%Z; z 0%Z; z 0%Z; z 0%Z; z 0%Z; z 0%Z];
       [q (1#4); z 0%Z; z 0%Z; z 0%Z; z 0%Z; z 0%Z];
       [fr 3%Z 32%Z; fr 9%Z 32%Z; z 0%Z; z 0%Z; z 0%Z; z 0%Z];
       [fr 1932%Z 2197%Z; fr (-7200)%Z 2197%Z; fr 7296%Z 2197%Z; z 0%Z; z 0%Z; z 0%Z];
       [fr 439%Z 216%Z; z (-8)%Z; fr 3680%Z 513%Z; fr (-845)%Z 4104%Z; z 0%Z; z 0%Z];
       [fr (-8)%Z 27%Z; z 2%Z; fr (-3544)%Z 2565%Z; fr 1859%Z 4104%Z; fr (-11)%Z 40%Z; z 0%Z]]
      [fr 16%Z 135%Z; z 0%Z; fr 6656%Z 12825%Z; fr 28561%Z 56430%Z; fr (-9)%Z 50%Z; fr 2%Z 55%Z]
      [fr 25%Z 216%Z; z 0%Z; fr 1408%Z 2565%Z; fr 2197%Z 4104%Z; q (-1#5); z 0%Z]
      [z 0%Z; q (1#4); q (375#1000); fr 12%Z 13%Z; z 1%Z; q (1#2)] asc
  | SSPRK3 => mkBT order
      [[z 0%Z; z 0%Z; z 0%Z]; [z 1%Z; z 0%Z; z 0%Z]; [q (1#4); q (1#4); z 0%Z]]
      [fr 1%Z 6%Z; fr 1%Z 6%Z; fr 2%Z 3%Z] [q (1#2); q (1#2); z 0%Z] [z 0%Z; z 1%Z; q (1#2)] asc
  | SSPRK5 => mkBT order
      [[z 0%Z; z 0%Z; z 0%Z; z 0%Z; z 0%Z];
       [q (36717#100000); z 0%Z; z 0%Z; z 0%Z; z 0%Z];
       [q (26802#100000); q (31720#100000); z 0%Z; z 0%Z; z 0%Z];
       [q (11606#100000); q (13735#100000); q (18816#100000); z 0%Z; z 0%Z];
       [q (11212#100000); q (13269#100000); q (18178#100000); q (41980#100000); z 0%Z]]
      [q (17279#100000); q (94505#1000000); q (12947#100000); q (29899#100000); q (30424#100000)]
      [q (12293#100000); q (31981#100000); q (-15316#100000); q (31887#100000); q (39155#100000)]
      [z 0%Z; q (36717#100000); q (58522#100000); q (44156#100000); q (8464#10000)] asc
  end.

(** ** src/time/rkf.rs *)

(** src/time/rkf.rs L27-60.  [n_asc] counts tries and is read nowhere. *)
Record rkf := mkRkf {
  rk_bt : butcher;
  rk_k : list mat;
  rk_err_new : F; rk_err_old : F;
  rk_n_asc : nat;
  rk_rtol : F; rk_atol : F; rk_friction : F;
  rk_accepted : bool;
  rk_low : mat;
  rk_utilde : state A
}.

Definition rk_set_k (k : list mat) (r : rkf) : rkf :=
  mkRkf (rk_bt r) k (rk_err_new r) (rk_err_old r) (rk_n_asc r) (rk_rtol r) (rk_atol r) (rk_friction r)
        (rk_accepted r) (rk_low r) (rk_utilde r).
Definition rk_set_utilde (u : state A) (r : rkf) : rkf :=
  mkRkf (rk_bt r) (rk_k r) (rk_err_new r) (rk_err_old r) (rk_n_asc r) (rk_rtol r) (rk_atol r) (rk_friction r)
        (rk_accepted r) (rk_low r) u.
Definition rk_set_accepted (b : bool) (r : rkf) : rkf :=
  mkRkf (rk_bt r) (rk_k r) (rk_err_new r) (rk_err_old r) (rk_n_asc r) (rk_rtol r) (rk_atol r) (rk_friction r)
        b (rk_low r) (rk_utilde r).
Definition rk_set_n_asc (n : nat) (r : rkf) : rkf :=
  mkRkf (rk_bt r) (rk_k r) (rk_err_new r) (rk_err_old r) n (rk_rtol r) (rk_atol r) (rk_friction r)
        (rk_accepted r) (rk_low r) (rk_utilde r).
Definition rk_set_err (e : F) (low : mat) (r : rkf) : rkf :=
  mkRkf (rk_bt r) (rk_k r) e e (rk_n_asc r) (rk_rtol r) (rk_atol r) (rk_friction r)
        (rk_accepted r) low (rk_utilde r).

(** src/time/rkf.rs L71-95, [RungeKuttaFehlberg::new] *)
Definition rkf_new (p : phys) (S : nat) (c : config A) : rkf :=
  let rc := nc_time (cf_numerics c) in
  let bt := bt_new rc in
  {| rk_bt := bt;
     rk_k := repeat (zeros2 (nE p) S) (bt_order bt);
     rk_err_new := n0 A; rk_err_old := n0 A; rk_n_asc := 0;
     rk_rtol := rc_rtol rc; rk_atol := rc_atol rc; rk_friction := rc_friction rc;
     rk_accepted := true;
     rk_low := zeros2 (nE p) S;
     rk_utilde := state_new p S (cf_physics c) |}.

(** [m -= &(c * &k)] on an array of shape [(E, S)], src/time/rkf.rs L166,
    L176, L183 *)
Definition sub_scaled (E S : nat) (c : F) (k m : mat) : mat :=
  mtab E S (fun j i => m.[j, i] - c * k.[j, i]).

Variable N : numflux_impl A.

(** src/time/rkf.rs L161-171, the loop over the stages; [qs] lists the
    remaining values of [q]. *)
Fixpoint rkf_stages (validation : bool) (p : phys) (S : nat) (m : mesh A) (dt : F) (u : state A)
    (qs : list nat) (rk : rkf) (rh : rhs A N) : (rkf * rhs A N) * res unit :=
  match qs with
  | [] => (rk, rh, Ok tt)
  | q :: t =>
      let ut := state_assign (rk_utilde rk) u in
      let c := fold_left (fun c pp => sub_scaled (nE p) S (dt * (bt_a (rk_bt rk)).[pp, q])
                                                 (nth pp (rk_k rk) []) c)
                         (seq 0 q) (cons (cent ut)) in
      let ut := set_cent (set_cons c (cent ut)) ut in
      let '(rh, ut, o) := rhs_update validation p S rh ut m in
      let rk := rk_set_utilde ut rk in
      match o with
      | Ok _ =>
          let rk := rk_set_k (upd q (r_full rh) (rk_k rk)) rk in
          rkf_stages validation p S m dt u t rk rh
      | Err e => (rk, rh, Err e)
      | Panic => (rk, rh, Panic)
      | Fuel => (rk, rh, Fuel)
      end
  end.

(** src/time/rkf.rs L176/L183, the weighted sum of the stage slopes *)
Definition rkf_combine (E S : nat) (dt : F) (b : vec) (k : list mat) (order : nat) (c : mat) : mat :=
  fold_left (fun c q => sub_scaled E S (dt * b.[q]) (nth q k []) c) (seq 0 order) c.

(** src/time/rkf.rs L187-194, the error estimate over the interior cells *)
Definition asc_error (E S : nat) (rtol atol : F) (high low : mat) : F :=
  fold_left (fun acc j =>
    fold_left (fun acc i =>
      nmax A acc (nabs A ((high.[j, i] - low.[j, i]) / (rtol * (high.[j, i] + atol)))))
      (seq 2 (S - 4)) acc) (seq 0 E) (n0 A).

(** src/time/rkf.rs L197-237, the proposed step *)
Definition asc_propose (order : nat) (friction err_new err_old dt : F) : F :=
  let dt_temp :=
    if n0 A <? err_new
    then nQ A (9 # 10) * dt * nexp A (nZ A (-1) * nln A err_new / nZ A (Z.of_nat order))
    else nZ A 4 * dt in
  let dt_new :=
    if n0 A <? err_old
    then dt_temp * nexp A (nZ A (-1) * friction * nln A (err_old / err_new))
    else dt_temp in
  if err_new <? n1 A then nmin A dt_new (nZ A 4 * dt)
  else
    let dt_new := if dt <? dt_new then dt_temp else dt_new in
    nmax A dt_new (nQ A (1 # 4) * dt).

(** src/time/rkf.rs L249-257 *)
Definition rkf_validate (r : rkf) : res unit :=
  do _ <- ensure (all_fin2 (rk_low r)) ENonFinite;
  state_validate (rk_utilde r).

(** src/time/rkf.rs L151-246, [calc_rkf_solution].  [u] is taken by [&mut] in
    the code but only read. *)
Definition calc_rkf_solution (validation : bool) (p : phys) (S : nat) (dt : F) (u : state A)
    (rk : rkf) (rh : rhs A N) (m : mesh A) : (rkf * rhs A N) * res F :=
  let E := nE p in
  let bt := rk_bt rk in
  let rk := rk_set_k (repeat (zeros2 E S) (bt_order bt)) rk in
  let '(rk, rh, o) := rkf_stages validation p S m dt u (seq 0 (bt_order bt)) rk rh in
  match o with
  | Ok _ =>
      let c0 := cons (cent u) in
      let high := rkf_combine E S dt (bt_high bt) (rk_k rk) (bt_order bt) c0 in
      let ut := rk_utilde rk in
      let rk := rk_set_utilde (set_cent (set_cons high (cent ut)) ut) rk in
      let '(rk, dt_out) :=
        if rk_accepted rk then (rk, dt)
        else
          let low := rkf_combine E S dt (bt_low bt) (rk_k rk) (bt_order bt) c0 in
          let err_new := asc_error E S (rk_rtol rk) (rk_atol rk) high low in
          let dt_out := asc_propose (bt_order bt) (rk_friction rk) err_new (rk_err_old rk) dt in
          (rk_set_err err_new low rk, dt_out) in
      match (if validation then rkf_validate rk else Ok tt) with
      | Ok _ => (rk, rh, Ok dt_out)
      | Err e => (rk, rh, Err e)
      | Panic => (rk, rh, Panic)
      | Fuel => (rk, rh, Fuel)
      end
  | Err e => (rk, rh, Err e)
  | Panic => (rk, rh, Panic)
  | Fuel => (rk, rh, Fuel)
  end.

(** src/time/rkf.rs L112-121, the [while] loop of the automated step control.
    [fuel] bounds the number of tries; running out of it is the outcome
    [Fuel], which no execution of the code has. *)
Fixpoint asc_loop (validation : bool) (fuel : nat) (p : phys) (S : nat) (ts : timestep) (u : state A)
    (rk : rkf) (rh : rhs A N) (m : mesh A) : (timestep * rkf * rhs A N) * res unit :=
  if rk_accepted rk then (ts, rk, rh, Ok tt)
  else
    match fuel with
    | O => (ts, rk, rh, Fuel)
    | Datatypes.S fuel =>
        let '(rk, rh, o) := calc_rkf_solution validation p S (ts_dt ts) u rk rh m in
        match o with
        | Ok dt =>
            let ts := ts_set_dt dt ts in
            let '(ts, rk) :=
              if rk_err_new rk <? n1 A then (cap_dt ts, rk_set_accepted true rk) else (ts, rk) in
            let rk := rk_set_n_asc (Datatypes.S (rk_n_asc rk)) rk in
            asc_loop validation fuel p S ts u rk rh m
        | Err e => (ts, rk, rh, Err e)
        | Panic => (ts, rk, rh, Panic)
        | Fuel => (ts, rk, rh, Fuel)
        end
    end.

(** Everything [TimeSolver::next_solution] may modify. *)
Record sim := mkSim { s_ts : timestep; s_u : state A; s_rk : rkf; s_rhs : rhs A N }.

(** src/time/rkf.rs L109-122 *)
Definition rkf_asc (validation : bool) (fuel : nat) (p : phys) (S : nat) (ts : timestep) (u : state A)
    (rk : rkf) (rh : rhs A N) (m : mesh A) : (timestep * rkf * rhs A N) * res unit :=
  if bt_asc (rk_bt rk)
  then asc_loop validation fuel p S ts u (rk_set_n_asc 0 (rk_set_accepted false rk)) rh m
  else (ts, rk, rh, Ok tt).

(** src/time/rkf.rs L97-139, [RungeKuttaFehlberg::next_solution] *)
Definition rkf_next (validation : bool) (fuel : nat) (p : phys) (S : nat) (m : mesh A) (s : sim) : sim * res unit :=
  let ts := ts_set_iter (ts_iter (s_ts s) + 1)%N (s_ts s) in
  let u := s_u s in
  let '(ts, o) := calc_dt_expl p S ts u m in
  match o with
  | Err e => (mkSim ts u (s_rk s) (s_rhs s), Err e)
  | Panic => (mkSim ts u (s_rk s) (s_rhs s), Panic)
  | Fuel => (mkSim ts u (s_rk s) (s_rhs s), Fuel)
  | Ok _ =>
      let ts := cap_dt ts in
      let '(ts, rk, rh, o) := rkf_asc validation fuel p S ts u (s_rk s) (s_rhs s) m in
      match o with
      | Err e => (mkSim ts u rk rh, Err e)
      | Panic => (mkSim ts u rk rh, Panic)
      | Fuel => (mkSim ts u rk rh, Fuel)
      | Ok _ =>
          let '(rk, rh, o) := calc_rkf_solution validation p S (ts_dt ts) u rk rh m in
          match o with
          | Err e => (mkSim ts u rk rh, Err e)
          | Panic => (mkSim ts u rk rh, Panic)
          | Fuel => (mkSim ts u rk rh, Fuel)
          | Ok _ =>
              let u1 := set_cent (set_cons (cons (cent (rk_utilde rk))) (cent u)) u in
              match st_update_from_cons p S (r_bw rh) (r_be rh) m u1 with
              | Ok u2 =>
                  match (if validation then state_validate u2 else Ok tt) with
                  | Ok _ => (mkSim (ts_set_t (ts_t ts + ts_dt ts) ts) u2 rk rh, Ok tt)
                  | Err e => (mkSim ts u2 rk rh, Err e)
                  | Panic => (mkSim ts u2 rk rh, Panic)
                  | Fuel => (mkSim ts u2 rk rh, Fuel)
                  end
              | Err e => (mkSim ts u1 rk rh, Err e)
              | Panic => (mkSim ts u1 rk rh, Panic)
              | Fuel => (mkSim ts u1 rk rh, Fuel)
              end
          end
      end
  end.

(** src/solver.rs L115-127, [Solver::next_solution] *)
Definition solver_next (validation : bool) (fuel : nat) (p : phys) (S : nat) (m : mesh A) (s : sim) : sim * res unit :=
  let '(s, o) := rkf_next validation fuel p S m s in
  match o with
  | Ok _ => if (ts_iter_max (s_ts s) <=? ts_iter (s_ts s))%N then (s, Err EIterMax) else (s, Ok tt)
  | Err e => (s, Err e)
  | Panic => (s, Panic)
  | Fuel => (s, Fuel)
  end.

(** src/solver.rs L76-83, [Solver::new], next to the state [u] *)
Definition solver_new (p : phys) (S : nat) (c : config A) (m : mesh A) (u : state A) : res sim :=
  let ts := ts_new (cf_numerics c) (cf_output_max c) in
  let rk := rkf_new p S c in
  do rh <- rhs_new N p S c m;
  Ok (mkSim ts u rk rh).

End Time.

Arguments mkTS {A}. Arguments ts_iter {A}. Arguments ts_iter_max {A}. Arguments ts_t {A}. Arguments ts_t_end {A}.
Arguments ts_dt {A}. Arguments ts_dt_min {A}. Arguments ts_dt_max {A}. Arguments ts_cfl {A}. Arguments ts_kind {A}.
Arguments ts_dt_output {A}. Arguments ts_t_next {A}.
Arguments ts_set_iter {A}. Arguments ts_set_t {A}. Arguments ts_set_dt {A}. Arguments ts_set_kind {A}. Arguments ts_set_next {A}.
Arguments ts_new {A}. Arguments calc_dt_expl {A}. Arguments cap_dt {A}.
Arguments mkBT {A}. Arguments bt_order {A}. Arguments bt_a {A}. Arguments bt_high {A}. Arguments bt_low {A}.
Arguments bt_c {A}. Arguments bt_asc {A}. Arguments bt_new {A}.
Arguments mkRkf {A}. Arguments rk_bt {A}. Arguments rk_k {A}. Arguments rk_err_new {A}. Arguments rk_err_old {A}.
Arguments rk_n_asc {A}. Arguments rk_rtol {A}. Arguments rk_atol {A}. Arguments rk_friction {A}. Arguments rk_accepted {A}.
Arguments rk_low {A}. Arguments rk_utilde {A}.
Arguments rk_set_k {A}. Arguments rk_set_utilde {A}. Arguments rk_set_accepted {A}. Arguments rk_set_n_asc {A}. Arguments rk_set_err {A}.
Arguments rkf_new {A}. Arguments sub_scaled {A}. Arguments rkf_stages {A N}. Arguments rkf_combine {A}.
Arguments asc_error {A}. Arguments asc_propose {A}. Arguments rkf_validate {A}. Arguments calc_rkf_solution {A N}.
Arguments asc_loop {A N}. Arguments mkSim {A N}. Arguments s_ts {A N}. Arguments s_u {A N}. Arguments s_rk {A N}. Arguments s_rhs {A N}.
Arguments rkf_asc {A N}. Arguments rkf_next {A N}. Arguments solver_next {A N}. Arguments solver_new {A}.
