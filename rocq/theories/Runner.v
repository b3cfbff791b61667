(** src/components.rs (the run loop), src/config.rs (init_corries),
    src/initfuncs.rs and src/units.rs. *)

From Coq Require Import List ZArith NArith QArith Bool String.
From Verif Require Import Base Num Config Mesh State NumFlux Time Writer.
Import ListNotations.
Local Open Scope num_scope.

Section Units.
Variable A : Num.
Notation F := (nF A).

(** src/units.rs L10, L13 *)
Definition LENGTH_CGS : F := nQ A (1 # 100).
Definition MASS_CGS : F := nQ A (1 # 1000).

(** src/units.rs L51-56 *)
Definition length_to_si (md : units_mode) (x : F) : F :=
  match md with SI => x | CGS => x * LENGTH_CGS end.
(** src/units.rs L59-64 *)
Definition time_to_si (md : units_mode) (x : F) : F := match md with SI => x | CGS => x end.
(** src/units.rs L67-72 *)
Definition mass_to_si (md : units_mode) (x : F) : F :=
  match md with SI => x | CGS => x * MASS_CGS end.
(** src/units.rs L75-81 *)
Definition length_to_cgs (md : units_mode) (x : F) : F :=
  let si := length_to_si md x in match md with SI => si | CGS => si / LENGTH_CGS end.
(** src/units.rs L84-90 *)
Definition time_to_cgs (md : units_mode) (x : F) : F :=
  let si := time_to_si md x in match md with SI => si | CGS => si end.
(** src/units.rs L93-99 *)
Definition mass_to_cgs (md : units_mode) (x : F) : F :=
  let si := mass_to_si md x in match md with SI => si | CGS => si / MASS_CGS end.
End Units.

Section InitFuncs.
Variable A : Num.
Notation F := (nF A).

(** [(S as f64 * 0.5) as usize], src/initfuncs.rs L78, L155 *)
Definition breakpoint (S : nat) : nat := ntrunc A (nZ A (Z.of_nat S) * nQ A (1 # 2)).

(** src/initfuncs.rs L62-95, [init_noh]; both physics systems are admitted.
    The loops [0..breakpoint] and [breakpoint..S] write every cell once. *)
Definition init_noh (p : phys) (S : nat) (u : state A) : state A * res unit :=
  let c := cent u in
  let q := upd JRHO (repeat (n1 A) S) (prim c) in
  let q := upd JXI (tab S (fun i => if (i <? breakpoint S)%nat then n1 A else nZ A (-1))) q in
  let c :=
    match p with
    | Adiab => set_prim (upd 2 (repeat (nQ A (1 # 100000)) S) q) c
    | Isot => set_c_sound (repeat (n1 A) S) (set_prim q c)
    end in
  (set_cent c u, Ok tt).

(** src/initfuncs.rs L138-166, [init_sod] *)
Definition init_sod (p : phys) (S : nat) (u : state A) : state A * res unit :=
  match p with
  | Isot => (u, Err EInitFn)
  | Adiab =>
      let c := cent u in
      let q : list (list F) := zeros2 3 S in
      let q := upd JRHO (tab S (fun i => if (i <? breakpoint S)%nat then n1 A else nQ A (125 # 1000))) q in
      let q := upd 2 (tab S (fun i => if (i <? breakpoint S)%nat then n1 A else nQ A (1 # 10))) q in
      (set_cent (set_prim q c) u, Ok tt)
  end.
End InitFuncs.

Section Runner.
Variable A : Num.
Notation F := (nF A).
Variable N : numflux_impl A.
Variable fmt : nat -> F -> string.

(** What an output records: the arguments [update_data] collects from (the
    mesh never changes).  This list of snapshots is bookkeeping of the model;
    the code writes them to files. *)
Definition snapshot : Type := timestep A * vars A.

(** src/components.rs L76-81 and L90-95: update the data, then write it *)
Definition do_output (sched : BinNums.N -> list nat) (m : mesh A) (s : sim A N) (wr : writer A) (w : world)
  : (writer A * world) * res unit :=
  let '(wr, r) := writer_update m (cent (s_u s)) (s_ts s) wr in
  match r with
  | Ok _ => writer_write fmt (sched (wr_counter wr)) wr w
  | r => (wr, w, r)
  end.

(** What [run_corries] leaves behind. *)
Record run_end := mkEnd { e_sim : sim A N; e_writer : writer A; e_world : world; e_trace : list snapshot }.

(** [solver.timestep] replaced *)
Definition sim_set_ts (ts : timestep A) (s : sim A N) : sim A N := mkSim ts (s_u s) (s_rk s) (s_rhs s).

(** src/components.rs L74-82, the output at the beginning of an iteration *)
Definition run_output (sched : BinNums.N -> list nat) (m : mesh A) (s : sim A N) (wr : writer A) (w : world)
  : (sim A N * writer A * world * list snapshot) * res unit :=
  let ts := s_ts s in
  if ts_t_next ts - ts_dt_min ts <=? ts_t ts then
    let s := sim_set_ts (ts_set_next (ts_t_next ts + ts_dt_output ts) ts) s in
    let '(wr, w, r) := do_output sched m s wr w in
    (s, wr, w, [(s_ts s, cent (s_u s))], r)
  else (s, wr, w, [], Ok tt).

(** src/components.rs L69-100, [run_corries].  [fuel] bounds the iterations of
    the [loop], [afuel] those of the step control loop inside a step; running
    out of either is the outcome [Fuel].  [sched] gives, per output counter,
    the order in which the parallel writes happen. *)
Fixpoint run_loop (validation : bool) (sched : BinNums.N -> list nat) (afuel fuel : nat) (p : phys) (S : nat)
    (m : mesh A) (s : sim A N) (wr : writer A) (w : world) : run_end * res unit :=
  match fuel with
  | O => (mkEnd s wr w [], Fuel)
  | Datatypes.S fuel =>
      let '(s, wr, w, tr, r) := run_output sched m s wr w in
      match r with
      | Ok _ =>
          let ts := s_ts s in
          if ts_t_end ts <=? ts_t ts + ts_dt_min ts * nQ A (1 # 100)
          then (mkEnd s wr w tr, Ok tt)
          else
            let '(s, r) := solver_next validation afuel p S m s in
            match r with
            | Ok _ =>
                let '(e, r) := run_loop validation sched afuel fuel p S m s wr w in
                (mkEnd (e_sim e) (e_writer e) (e_world e) (tr ++ e_trace e), r)
            | Err er =>
                let s := sim_set_ts (ts_set_kind KErrorDump (s_ts s)) s in
                let '(wr, w, r2) := do_output sched m s wr w in
                (mkEnd s wr w (tr ++ [(s_ts s, cent (s_u s))]),
                 match r2 with Ok _ => Err er | r2 => r2 end)
            | r => (mkEnd s wr w tr, r)
            end
      | r => (mkEnd s wr w tr, r)
      end
  end.

(** The four components [init_corries] returns; the state is part of
    [sim]. *)
Record components := mkComp { c_sim : sim A N; c_mesh : mesh A; c_writer : writer A }.

(** src/config.rs L203-237, [CorriesConfig::init_corries].  [init] is the
    initial condition function; it may modify the state and the solver
    (together [sim]).
    [sched] is the order of the parallel metadata writes.  The banner (L219-228)
    is [banner]. *)
Definition init_corries (validation : bool) (meta : config A -> string) (banner : string) (sched : list nat)
    (init : sim A N -> mesh A -> sim A N * res unit)
    (p : phys) (S : nat) (c : config A) (w : world) : world * res components :=
  match cf_validate c with
  | Ok _ =>
      match mesh_new validation S (cf_mesh c) with
      | Ok m =>
          let u := state_new p S (cf_physics c) in
          match solver_new N p S c m u with
          | Ok s =>
              let '(w, r) := writer_new meta S c m w in
              match r with
              | Ok wr =>
                  let w := if wr_banner wr then w_print banner w else w in
                  let '(w, r) := writer_metadata (wr_meta wr) sched (wr_outputs wr) w in
                  match r with
                  | Ok _ =>
                      let '(s, r) := init s m in
                      (w, do _ <- r;
                          do u <- st_update_from_prim p S (r_bw (s_rhs s)) (r_be (s_rhs s)) m (s_u s);
                          let u := init_west_east u in
                          Ok (mkComp (mkSim (s_ts s) u (s_rk s) (s_rhs s)) m wr))
                  | Err e => (w, Err e) | Panic => (w, Panic) | Fuel => (w, Fuel)
                  end
              | Err e => (w, Err e) | Panic => (w, Panic) | Fuel => (w, Fuel)
              end
          | Err e => (w, Err e) | Panic => (w, Panic) | Fuel => (w, Fuel)
          end
      | Err e => (w, Err e) | Panic => (w, Panic) | Fuel => (w, Fuel)
      end
  | Err e => (w, Err e) | Panic => (w, Panic) | Fuel => (w, Fuel)
  end.

End Runner.

Arguments LENGTH_CGS {A}. Arguments MASS_CGS {A}. Arguments length_to_si {A}. Arguments time_to_si {A}.
Arguments mass_to_si {A}. Arguments length_to_cgs {A}. Arguments time_to_cgs {A}. Arguments mass_to_cgs {A}.
Arguments breakpoint A S : clear implicits. Arguments init_noh {A}. Arguments init_sod {A}.
Arguments do_output {A N}. Arguments mkEnd {A N}. Arguments e_sim {A N}. Arguments e_writer {A N}.
Arguments e_world {A N}. Arguments e_trace {A N}. Arguments sim_set_ts {A N}. Arguments run_output {A N}.
Arguments run_loop {A N}. Arguments mkComp {A N}. Arguments c_sim {A N}. Arguments c_mesh {A N}. Arguments c_writer {A N}.
Arguments init_corries {A N}.
