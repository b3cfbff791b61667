(** src/state/variables.rs, src/state/physics.rs, src/state/systems/*.rs,
    src/state.rs and src/boundaryconditions/: the state of a simulation, the
    two physics systems and the boundary conditions.

    The trait [Physics] is modelled for its two implementors. *)

From Coq Require Import List ZArith QArith Bool.
From Verif Require Import Base Num Config Mesh.
Import ListNotations.
Local Open Scope num_scope.

(** The two [Physics] implementors, src/state/systems/euler1disot.rs and
    src/state/systems/euler1dadiabatic.rs. *)
Inductive phys := Isot | Adiab.

(** [NUM_EQ]: euler1disot.rs L76 ([E = 2]), euler1dadiabatic.rs L77 ([E = 3]) *)
Definition nE (p : phys) : nat := match p with Isot => 2%nat | Adiab => 3%nat end.
(** [IS_ADIABATIC]: euler1disot.rs L77, euler1dadiabatic.rs L78 *)
Definition is_adiabatic (p : phys) : bool := match p with Isot => false | Adiab => true end.
(** [JRHO], [JXI], [JPRESSURE]: euler1disot.rs L79-82, euler1dadiabatic.rs
    L79-82.  [None] stands for [usize::MAX], the marker of an absent
    variable. *)
Definition JRHO : nat := 0.
Definition JXI : nat := 1.
Definition JPRESSURE (p : phys) : option nat := match p with Isot => None | Adiab => Some 2%nat end.
Definition JETA : option nat := None.

(** Which border a boundary condition belongs to (src/directions.rs without
    [Cent], for which the code panics at construction). *)
Inductive side := West | East.

Section State.
Variable A : Num.
Notation F := (nF A).
Notation vec := (list F).
Notation mat := (list vec).
Notation "v .[ i ]" := (at1 (n0 A) v i) (at level 2, format "v .[ i ]").
Notation "m .[ j , i ]" := (at2 (n0 A) m j i) (at level 2, format "m .[ j ,  i ]").

(** src/state/variables.rs L16-37 *)
Record vars := mkVars {
  prim : mat;
  cons : mat;
  c_sound : vec;
  eigen_vals : mat;
  flux : mat;
  gamma : F;
  zero_vec : vec
}.

(** Field updates ([vars.prim = ...] etc.) *)
Definition set_prim (m : mat) (v : vars) : vars :=
  mkVars m (cons v) (c_sound v) (eigen_vals v) (flux v) (gamma v) (zero_vec v).
Definition set_cons (m : mat) (v : vars) : vars :=
  mkVars (prim v) m (c_sound v) (eigen_vals v) (flux v) (gamma v) (zero_vec v).
Definition set_c_sound (c : vec) (v : vars) : vars :=
  mkVars (prim v) (cons v) c (eigen_vals v) (flux v) (gamma v) (zero_vec v).
Definition set_eigen_vals (m : mat) (v : vars) : vars :=
  mkVars (prim v) (cons v) (c_sound v) m (flux v) (gamma v) (zero_vec v).
Definition set_flux (m : mat) (v : vars) : vars :=
  mkVars (prim v) (cons v) (c_sound v) (eigen_vals v) m (gamma v) (zero_vec v).

Definition zeros (n : nat) : vec := repeat (n0 A) n.
Definition zeros2 (e n : nat) : mat := repeat (zeros n) e.

(** src/state/variables.rs L61-71, [Variables::new] *)
Definition vars_new (p : phys) (S : nat) (c : physics_config A) : vars :=
  {| prim := zeros2 (nE p) S;
     cons := zeros2 (nE p) S;
     c_sound := zeros S;
     eigen_vals := zeros2 (nE p) S;
     flux := zeros2 (nE p) S;
     gamma := pc_gamma c;
     zero_vec := zeros S |}.

(** src/state/variables.rs L79-83, [Variables::assign]: copies three fields *)
Definition vars_assign (self rhs : vars) : vars :=
  set_c_sound (c_sound rhs) (set_cons (cons rhs) (set_prim (prim rhs) self)).

(** src/state/variables.rs L86-93 *)
Definition eigen_min (v : vars) : vec := nth 0 (eigen_vals v) [].
Definition eigen_max (p : phys) (v : vars) : vec := nth (nE p - 1) (eigen_vals v) [].

(** src/macros.rs L128-145 on a matrix *)
Definition all_fin2 (m : mat) : bool := forallb (all_fin (A:=A)) m.

(** src/state/variables.rs L113-118, [Variables::validate] *)
Definition vars_validate (v : vars) : res unit :=
  do _ <- ensure (all_fin2 (prim v)) ENonFinite;
  ensure (all_fin2 (cons v)) ENonFinite.

(** ** Physics, cell by cell *)

(** euler1disot.rs L136-138 *)
Definition isot_flux (rho xi_vel xi_mom cs : F) : F * F :=
  (xi_mom, rho * (xi_vel * xi_vel + cs * cs)).
(** euler1disot.rs L142-144 *)
Definition isot_cons_to_prim (rho_cons xi_mom : F) : F * F := (rho_cons, xi_mom / rho_cons).
(** euler1disot.rs L148-150 *)
Definition isot_prim_to_cons (rho_prim xi_vel : F) : F * F := (rho_prim, xi_vel * rho_prim).

(** euler1dadiabatic.rs L159-161 *)
Definition adiab_flux (xi_vel xi_mom pressure energy : F) : F * F * F :=
  (xi_mom, xi_vel * xi_mom + pressure, (energy + pressure) * xi_vel).
(** euler1dadiabatic.rs L165-172 *)
Definition adiab_cons_to_prim (rho_cons xi_mom energy g : F) : F * F * F :=
  (isot_cons_to_prim rho_cons xi_mom,
   (g - n1 A) * (energy - nQ A (1 # 2) / rho_cons * xi_mom * xi_mom)).
(** euler1dadiabatic.rs L176-183 *)
Definition adiab_prim_to_cons (rho_prim xi_vel pressure g : F) : F * F * F :=
  (isot_prim_to_cons rho_prim xi_vel,
   pressure * nrecip A (g - n1 A) + nQ A (1 # 2) * rho_prim * xi_vel * xi_vel).

(** ** Physics on whole arrays *)

(** euler1disot.rs L93-102, euler1dadiabatic.rs L93-111.  The loop over
    [0..S] writes the rows of [prim] and reads [cons] only, so each row is the
    table of the cell function. *)
Definition update_prim (p : phys) (S : nat) (v : vars) : vars :=
  let c := cons v in
  match p with
  | Isot =>
      let f i := isot_cons_to_prim c.[JRHO, i] c.[JXI, i] in
      set_prim (upd JXI (tab S (fun i => snd (f i)))
               (upd JRHO (tab S (fun i => fst (f i))) (prim v))) v
  | Adiab =>
      let f i := adiab_cons_to_prim c.[JRHO, i] c.[JXI, i] c.[2%nat, i] (gamma v) in
      set_prim (upd 2 (tab S (fun i => snd (f i)))
               (upd JXI (tab S (fun i => snd (fst (f i))))
               (upd JRHO (tab S (fun i => fst (fst (f i)))) (prim v)))) v
  end.

(** euler1disot.rs L105-114, euler1dadiabatic.rs L114-132 *)
Definition update_cons (p : phys) (S : nat) (v : vars) : vars :=
  let q := prim v in
  match p with
  | Isot =>
      let f i := isot_prim_to_cons q.[JRHO, i] q.[JXI, i] in
      set_cons (upd JXI (tab S (fun i => snd (f i)))
               (upd JRHO (tab S (fun i => fst (f i))) (cons v))) v
  | Adiab =>
      let f i := adiab_prim_to_cons q.[JRHO, i] q.[JXI, i] q.[2%nat, i] (gamma v) in
      set_cons (upd 2 (tab S (fun i => snd (f i)))
               (upd JXI (tab S (fun i => snd (fst (f i))))
               (upd JRHO (tab S (fun i => fst (fst (f i)))) (cons v)))) v
  end.

(** euler1disot.rs L117-126, euler1dadiabatic.rs L135-148 *)
Definition update_flux (p : phys) (S : nat) (v : vars) : vars :=
  let q := prim v in
  let c := cons v in
  match p with
  | Isot =>
      let f i := isot_flux c.[JRHO, i] q.[JXI, i] c.[JXI, i] (c_sound v).[i] in
      set_flux (upd JXI (tab S (fun i => snd (f i)))
               (upd JRHO (tab S (fun i => fst (f i))) (flux v))) v
  | Adiab =>
      let f i := adiab_flux q.[JXI, i] c.[JXI, i] q.[2%nat, i] c.[2%nat, i] in
      set_flux (upd 2 (tab S (fun i => snd (f i)))
               (upd JXI (tab S (fun i => snd (fst (f i))))
               (upd JRHO (tab S (fun i => fst (fst (f i)))) (flux v)))) v
  end.

(** src/state/physics.rs L51-142, the accessors: the row, or the vector of
    zeros when the physics lacks that variable. *)
Definition row_or_zero (j : option nat) (m : mat) (v : vars) : vec :=
  match j with Some j => nth j m [] | None => zero_vec v end.
Definition rho_prim (v : vars) : vec := nth JRHO (prim v) [].
Definition xi_vel (v : vars) : vec := nth JXI (prim v) [].
Definition pressure (p : phys) (v : vars) : vec := row_or_zero (JPRESSURE p) (prim v) v.
Definition energy (p : phys) (v : vars) : vec := row_or_zero (JPRESSURE p) (cons v) v.
Definition eta_vel (v : vars) : vec := row_or_zero JETA (prim v) v.

(** src/state/physics.rs L160-171, [update_c_sound] *)
Definition update_c_sound (p : phys) (S : nat) (v : vars) : vars :=
  if is_adiabatic p then
    set_c_sound (tab S (fun i => nsqrt A (gamma v * (pressure p v).[i] / (rho_prim v).[i]))) v
  else v.

(** src/state/physics.rs L184-188 *)
Definition update_eigen_vals_min (S : nat) (v : vars) : vars :=
  set_eigen_vals (upd 0 (tab S (fun i => (prim v).[JXI, i] - (c_sound v).[i])) (eigen_vals v)) v.

(** src/state/physics.rs L192-196 *)
Definition update_eigen_vals_max (p : phys) (S : nat) (v : vars) : vars :=
  set_eigen_vals (upd (nE p - 1) (tab S (fun i => (prim v).[JXI, i] + (c_sound v).[i])) (eigen_vals v)) v.

(** src/state/physics.rs L174-180 *)
Definition update_eigen_vals (p : phys) (S : nat) (v : vars) : vars :=
  let v1 := update_eigen_vals_min S v in
  let v2 := set_eigen_vals
              (fold_left (fun m j => upd j (nth JXI (prim v1) []) m) (seq 1 (nE p - 2)) (eigen_vals v1)) v1 in
  update_eigen_vals_max p S v2.

(** src/state/physics.rs L152-157 *)
Definition update_derived_variables (p : phys) (S : nat) (v : vars) : vars :=
  update_eigen_vals p S (if is_adiabatic p then update_c_sound p S v else v).

(** src/state/physics.rs L231-240, [calc_dt_cfl] *)
Definition calc_dt_cfl (S : nat) (ev : vec) (c_cfl : F) (m : mesh A) : res F :=
  let dt := c_cfl / fold_left (fun acc i => nmax A acc (nabs A (ev.[i] * (m_cell_width_inv m).[i])))
                              (seq 0 S) (n0 A) in
  if nfin A dt then Ok dt else Err EDtNonFinite.

(** euler1disot.rs L154-157, euler1dadiabatic.rs L150-154, L187-190,
    [Physics::validate] (src/macros.rs L218-235: every entry [> 0]) *)
Definition physics_validate (p : phys) (v : vars) : res unit :=
  do _ <- ensure (forallb (fun x => n0 A <? x) (rho_prim v)) ENonFinite;
  match p with
  | Isot => Ok tt
  | Adiab => ensure (forallb (fun x => n0 A <? x) (pressure p v)) ENonFinite
  end.

(** ** Boundary conditions, src/boundaryconditions/custom.rs.
    The functions act on row [j] of [prim]; [S] is the mesh size.  The index
    arithmetic is that of the code; with [S >= 4] all indices are in range. *)

(** custom.rs L74-91; [powi 1] is the value itself, [powi 2] its square. *)
Definition extrapolate_west (S : nat) (m : mesh A) (j : nat) (q : mat) : mat :=
  if m_is_logarithmic m then
    if negb (nfin A (n1 A / q.[j, 2%nat])) || negb (nfin A (n1 A / q.[j, 3%nat])) then
      upd2 j 1 (n0 A) (upd2 j 0 (n0 A) q)
    else
      let r (q : mat) := nabs A (q.[j, 2%nat] / q.[j, 3%nat]) in
      let q := upd2 j 1 (q.[j, 2%nat] * r q) q in
      upd2 j 0 (q.[j, 2%nat] * (r q * r q)) q
  else
    let q := upd2 j 1 (nZ A 2 * q.[j, 2%nat] - nZ A 1 * q.[j, 3%nat]) q in
    upd2 j 0 (nZ A 3 * q.[j, 2%nat] - nZ A 2 * q.[j, 3%nat]) q.

(** custom.rs L93-110 *)
Definition extrapolate_east (S : nat) (m : mesh A) (j : nat) (q : mat) : mat :=
  if m_is_logarithmic m then
    if negb (nfin A (n1 A / q.[j, (S - 3)%nat])) || negb (nfin A (n1 A / q.[j, (S - 4)%nat])) then
      upd2 j (S - 1) (n0 A) (upd2 j (S - 2) (n0 A) q)
    else
      let r (q : mat) := nabs A (q.[j, (S - 3)%nat] / q.[j, (S - 4)%nat]) in
      let q := upd2 j (S - 3 + 1) (q.[j, (S - 3)%nat] * r q) q in
      upd2 j (S - 3 + 2) (q.[j, (S - 3)%nat] * (r q * r q)) q
  else
    let q := upd2 j (S - 3 + 1) (nZ A 2 * q.[j, (S - 3)%nat] - nZ A 1 * q.[j, (S - 4)%nat]) q in
    upd2 j (S - 3 + 2) (nZ A 3 * q.[j, (S - 3)%nat] - nZ A 2 * q.[j, (S - 4)%nat]) q.

(** custom.rs L112-120 (density) and L132-140 (eta velocity), identical code *)
Definition kepler_west (m : mesh A) (j : nat) (q : mat) : mat :=
  let st i q := upd2 j i (q.[j, (i + 1)%nat] /
                  nsqrt A ((m_xi_cent m).[i] * (m_xi_cent_inv m).[(i + 1)%nat])) q in
  st 0%nat (st 1%nat q).

(** custom.rs L122-130 and L142-150 *)
Definition kepler_east (S : nat) (m : mesh A) (j : nat) (q : mat) : mat :=
  let st i q := upd2 j i (q.[j, (i - 1)%nat] /
                  nsqrt A ((m_xi_cent m).[i] * (m_xi_cent_inv m).[(i - 1)%nat])) q in
  st (S - 1)%nat (st (S - 2)%nat q).

(** custom.rs L152-156 *)
Definition near_zero_west (j : nat) (q : mat) : mat :=
  let st i q := upd2 j i (nQ A (1 # 10000000000) * q.[j, 2%nat]) q in
  st 1%nat (st 0%nat q).

(** custom.rs L158-162 *)
Definition near_zero_east (S : nat) (j : nat) (q : mat) : mat :=
  let st i q := upd2 j i (nQ A (1 # 10000000000) * q.[j, (S - 3)%nat]) q in
  st (S - 1)%nat (st (S - 2)%nat q).

(** custom.rs L164-168 *)
Definition no_gradients_west (j : nat) (q : mat) : mat :=
  let st i q := upd2 j i q.[j, 2%nat] q in
  st 1%nat (st 0%nat q).

(** custom.rs L170-174 *)
Definition no_gradients_east (S : nat) (j : nat) (q : mat) : mat :=
  let st i q := upd2 j i q.[j, (S - 3)%nat] q in
  st (S - 1)%nat (st (S - 2)%nat q).

(** custom.rs L208-212 *)
Definition reflecting_west (j : nat) (q : mat) : mat :=
  let st i q := upd2 j (2 - i) (nZ A (-1) * q.[j, (i + 1)%nat]) q in
  st 2%nat (st 1%nat q).

(** custom.rs L214-218 *)
Definition reflecting_east (S : nat) (j : nat) (q : mat) : mat :=
  let st i q := upd2 j (S - 3 + i) (nZ A (-1) * q.[j, (S - 2 - i)%nat]) q in
  st 2%nat (st 1%nat q).

(** custom.rs L176-182 *)
Definition outflow_no_gradients_west (j : nat) (q : mat) : mat :=
  if npos A q.[j, 2%nat] then reflecting_west j q else no_gradients_west j q.
(** custom.rs L184-190; [is_sign_negative] is the negation of
    [is_sign_positive]. *)
Definition outflow_no_gradients_east (S : nat) (j : nat) (q : mat) : mat :=
  if negb (npos A q.[j, (S - 3)%nat]) then reflecting_east S j q else no_gradients_east S j q.
(** custom.rs L192-198 *)
Definition outflow_extrapolate_west (S : nat) (m : mesh A) (j : nat) (q : mat) : mat :=
  if npos A q.[j, 2%nat] then reflecting_west j q else extrapolate_west S m j q.
(** custom.rs L200-206 *)
Definition outflow_extrapolate_east (S : nat) (m : mesh A) (j : nat) (q : mat) : mat :=
  if negb (npos A q.[j, (S - 3)%nat]) then reflecting_east S j q else extrapolate_east S m j q.

(** custom.rs L26-50, one entry of the list *)
Definition apply_mode (s : side) (S : nat) (m : mesh A) (md : cbmode) (j : nat) (q : mat) : mat :=
  match s, md with
  | West, Extrapolate => extrapolate_west S m j q
  | West, ExtrapolateDensityKepler => kepler_west m j q
  | West, ExtrapolateEtaVelocityKepler => kepler_west m j q
  | West, NearZero => near_zero_west j q
  | West, NoGradients => no_gradients_west j q
  | West, OutFlowExtrapolate => outflow_extrapolate_west S m j q
  | West, OutflowNoGradients => outflow_no_gradients_west j q
  | West, Reflecting => reflecting_west j q
  | East, Extrapolate => extrapolate_east S m j q
  | East, ExtrapolateDensityKepler => kepler_east S m j q
  | East, ExtrapolateEtaVelocityKepler => kepler_east S m j q
  | East, NearZero => near_zero_east S j q
  | East, NoGradients => no_gradients_east S j q
  | East, OutFlowExtrapolate => outflow_extrapolate_east S m j q
  | East, OutflowNoGradients => outflow_no_gradients_east S j q
  | East, Reflecting => reflecting_east S j q
  end.

(** custom.rs L26-50, the loop over the list.  Every branch indexes row [j]
    of [prim], which panics for [j >= E]. *)
Fixpoint apply_modes (s : side) (E S : nat) (m : mesh A) (l : list (nat * cbmode)) (q : mat) : res mat :=
  match l with
  | [] => Ok q
  | (j, md) :: t =>
      if (j <? E)%nat then apply_modes s E S m t (apply_mode s S m md j q) else Panic
  end.

(** [BoundaryCondition::apply] *)
Definition bc_apply (s : side) (p : phys) (S : nat) (m : mesh A) (l : list (nat * cbmode)) (v : vars) : res vars :=
  do q <- apply_modes s (nE p) S m l (prim v);
  Ok (set_prim q v).

(** src/boundaryconditions.rs L56-83, [init_boundary_condition] *)
Definition init_bc (b : bmode) (E : nat) : list (nat * cbmode) :=
  match b with
  | BCustom l => l
  | BNoGradients => map (fun j => (j, NoGradients)) (seq 0 E)
  end.

(** src/state/physics.rs L199-209, [update_vars_from_prim] *)
Definition update_vars_from_prim (p : phys) (S : nat) (bw be : list (nat * cbmode)) (m : mesh A) (v : vars) : res vars :=
  do v1 <- bc_apply West p S m bw v;
  do v2 <- bc_apply East p S m be v1;
  Ok (update_derived_variables p S (update_cons p S v2)).

(** src/state/physics.rs L212-220, [update_vars_from_cons] *)
Definition update_vars_from_cons (p : phys) (S : nat) (bw be : list (nat * cbmode)) (m : mesh A) (v : vars) : res vars :=
  update_vars_from_prim p S bw be m (update_prim p S v).

(** ** src/state.rs *)

(** src/state.rs, [struct State] *)
Record state := mkState { cent : vars; west : vars; east : vars }.

Definition set_cent (v : vars) (u : state) : state := mkState v (west u) (east u).

(** src/state.rs L50-58, [State::new] *)
Definition state_new (p : phys) (S : nat) (c : physics_config A) : state :=
  mkState (vars_new p S c) (vars_new p S c) (vars_new p S c).

(** src/state.rs L68-71, [State::init_west_east] *)
Definition init_west_east (u : state) : state :=
  mkState (cent u) (vars_assign (west u) (cent u)) (vars_assign (east u) (cent u)).

(** src/state.rs L559-563, [State::assign] *)
Definition state_assign (self rhs : state) : state :=
  mkState (vars_assign (cent self) (cent rhs))
          (vars_assign (west self) (west rhs))
          (vars_assign (east self) (east rhs)).

(** src/state.rs, [State::update_vars_from_prim]/[update_vars_from_cons]: on
    the centre variables *)
Definition st_update_from_prim (p : phys) (S : nat) (bw be : list (nat * cbmode)) (m : mesh A) (u : state) : res state :=
  do c <- update_vars_from_prim p S bw be m (cent u);
  Ok (set_cent c u).
Definition st_update_from_cons (p : phys) (S : nat) (bw be : list (nat * cbmode)) (m : mesh A) (u : state) : res state :=
  do c <- update_vars_from_cons p S bw be m (cent u);
  Ok (set_cent c u).

(** src/state.rs L642, [State::calc_dt_cfl] *)
Definition st_calc_dt_cfl (p : phys) (S : nat) (u : state) (c_cfl : F) (m : mesh A) : res F :=
  calc_dt_cfl S (eigen_max p (cent u)) c_cfl m.

(** src/state.rs L647-652, [State::validate] *)
Definition state_validate (u : state) : res unit := vars_validate (cent u).

End State.

Arguments mkVars {A}. Arguments prim {A}. Arguments cons {A}. Arguments c_sound {A}.
Arguments eigen_vals {A}. Arguments flux {A}. Arguments gamma {A}. Arguments zero_vec {A}.
Arguments set_prim {A}. Arguments set_cons {A}. Arguments set_c_sound {A}.
Arguments set_eigen_vals {A}. Arguments set_flux {A}.
Arguments zeros2 {A}. Arguments zeros {A}.
Arguments vars_new {A}. Arguments vars_assign {A}. Arguments eigen_min {A}. Arguments eigen_max {A}.
Arguments all_fin2 {A}. Arguments vars_validate {A}.
Arguments isot_flux {A}. Arguments isot_cons_to_prim {A}. Arguments isot_prim_to_cons {A}.
Arguments adiab_flux {A}. Arguments adiab_cons_to_prim {A}. Arguments adiab_prim_to_cons {A}.
Arguments update_prim {A}. Arguments update_cons {A}. Arguments update_flux {A}.
Arguments row_or_zero {A}. Arguments rho_prim {A}. Arguments xi_vel {A}. Arguments pressure {A}.
Arguments energy {A}. Arguments eta_vel {A}.
Arguments update_c_sound {A}. Arguments update_eigen_vals_min {A}. Arguments update_eigen_vals_max {A}.
Arguments update_eigen_vals {A}. Arguments update_derived_variables {A}. Arguments calc_dt_cfl {A}.
Arguments physics_validate {A}.
Arguments extrapolate_west {A}. Arguments extrapolate_east {A}. Arguments kepler_west {A}. Arguments kepler_east {A}.
Arguments near_zero_west {A}. Arguments near_zero_east {A}. Arguments no_gradients_west {A}. Arguments no_gradients_east {A}.
Arguments reflecting_west {A}. Arguments reflecting_east {A}.
Arguments outflow_no_gradients_west {A}. Arguments outflow_no_gradients_east {A}.
Arguments outflow_extrapolate_west {A}. Arguments outflow_extrapolate_east {A}.
Arguments apply_mode {A}. Arguments apply_modes {A}. Arguments bc_apply {A}.
Arguments update_vars_from_prim {A}. Arguments update_vars_from_cons {A}.
Arguments mkState {A}. Arguments cent {A}. Arguments west {A}. Arguments east {A}. Arguments set_cent {A}.
Arguments state_new {A}. Arguments init_west_east {A}. Arguments state_assign {A}.
Arguments st_update_from_prim {A}. Arguments st_update_from_cons {A}. Arguments st_calc_dt_cfl {A}.
Arguments state_validate {A}.
