(** src/state.rs L73-645 and src/state/physics.rs L51-142: the methods with
    which users of the library work on a [State], and the accessors.

    The code selects the position inside the cells by a [u8] template
    parameter [D]; it is a natural number here, so that wrong values are part
    of the model.  The methods without the suffix [_d] are the ones below with
    [D = 1] ([Direction::Cent]). *)

From Coq Require Import List ZArith.
From Verif Require Import Base Num Config Mesh State.
Import ListNotations.

(** src/directions.rs L14-22: [#[repr(u8)] enum Direction { West, Cent, East }] *)
Definition D_WEST : nat := 0.
Definition D_CENT : nat := 1.
Definition D_EAST : nat := 2.

Section Api.
Variable A : Num.

(** src/state.rs L78-85, [get_vars] *)
Definition get_vars (D : nat) (u : state A) : res (vars A) :=
  if Nat.eqb D D_WEST then Ok (west u) else
  if Nat.eqb D D_CENT then Ok (cent u) else
  if Nat.eqb D D_EAST then Ok (east u) else Panic.

(** src/state.rs L89-96, [get_vars_mut]; the closure [f] is what the caller does
    with the mutable reference *)
Definition with_vars (D : nat) (f : vars A -> res (vars A)) (u : state A) : res (state A) :=
  if Nat.eqb D D_WEST then (do v <- f (west u); Ok (mkState (cent u) v (east u))) else
  if Nat.eqb D D_CENT then (do v <- f (cent u); Ok (mkState v (west u) (east u))) else
  if Nat.eqb D D_EAST then (do v <- f (east u); Ok (mkState (cent u) (west u) v)) else Panic.

(** A call of one of the methods, or an assignment to an entry of one of the
    public arrays of [Variables] (src/state/variables.rs L17-33; the field
    [zero_vec] is private).  Replacing a whole array by one of another shape is
    not modelled. *)
Inductive call :=
| UpdatePrim (D : nat)             (* [update_prim_d], src/state.rs L120-122 *)
| UpdateCons (D : nat)             (* [update_cons_d], src/state.rs L167-169 *)
| UpdateDerived (D : nat)          (* [update_derived_variables_d], src/state.rs L215-217 *)
| UpdateCSound (D : nat)           (* [update_c_sound_d], src/state.rs L263-265 *)
| UpdateEigen (D : nat)            (* [update_eigen_vals_d], src/state.rs L310-312 *)
| UpdateEigenMin (D : nat)         (* [update_eigen_vals_min_d], src/state.rs L357-359 *)
| UpdateEigenMax (D : nat)         (* [update_eigen_vals_max_d], src/state.rs L404-406 *)
| UpdateFlux (D : nat)             (* [update_flux_d], src/state.rs L451-453 *)
| FromPrim (D : nat) (bw be : list (nat * cbmode)) (m : mesh A)  (* [update_vars_from_prim_d], src/state.rs L481-488 *)
| FromCons (D : nat) (bw be : list (nat * cbmode)) (m : mesh A)  (* [update_vars_from_cons_d], src/state.rs L509-516 *)
| AssignVars (D : nat) (rhs : state A)   (* [assign_vars_d], src/state.rs L602-604 *)
| AssignAll (rhs : state A)              (* [assign], src/state.rs L559-563 *)
| InitWestEast                           (* [init_west_east], src/state.rs L68-71 *)
| WritePrim (D j i : nat) (x : nF A)     (* u.cent.prim[[j, i]] = x etc. *)
| WriteCons (D j i : nat) (x : nF A)
| WriteEigen (D j i : nat) (x : nF A)
| WriteFlux (D j i : nat) (x : nF A)
| WriteCSound (D i : nat) (x : nF A)
| WriteGamma (D : nat) (x : nF A).

(** [m[[j, i]] = x] with the bounds check of ndarray *)
Definition write2 (E S j i : nat) (x : nF A) (m : list (list (nF A))) : res (list (list (nF A))) :=
  if (Nat.ltb j E && Nat.ltb i S)%bool then Ok (upd2 j i x m) else Panic.

(** src/state.rs L602-604: [self.get_vars_mut::<D>().assign(rhs.get_vars::<D>())] *)
Definition assign_vars_d (D : nat) (rhs u : state A) : res (state A) :=
  do w <- get_vars D rhs;
  with_vars D (fun v => Ok (vars_assign v w)) u.

(** src/state.rs L68-645, the bodies of the methods *)
Definition exec (p : phys) (S : nat) (c : call) (u : state A) : res (state A) :=
  match c with
  | UpdatePrim D => with_vars D (fun v => Ok (update_prim p S v)) u
  | UpdateCons D => with_vars D (fun v => Ok (update_cons p S v)) u
  | UpdateDerived D => with_vars D (fun v => Ok (update_derived_variables p S v)) u
  | UpdateCSound D => with_vars D (fun v => Ok (update_c_sound p S v)) u
  | UpdateEigen D => with_vars D (fun v => Ok (update_eigen_vals p S v)) u
  | UpdateEigenMin D => with_vars D (fun v => Ok (update_eigen_vals_min S v)) u
  | UpdateEigenMax D => with_vars D (fun v => Ok (update_eigen_vals_max p S v)) u
  | UpdateFlux D => with_vars D (fun v => Ok (update_flux p S v)) u
  | FromPrim D bw be m => with_vars D (update_vars_from_prim p S bw be m) u
  | FromCons D bw be m => with_vars D (update_vars_from_cons p S bw be m) u
  | AssignVars D rhs => assign_vars_d D rhs u
  | AssignAll rhs =>
      do u <- assign_vars_d D_CENT rhs u;
      do u <- assign_vars_d D_WEST rhs u;
      assign_vars_d D_EAST rhs u
  | InitWestEast => Ok (init_west_east u)
  | WritePrim D j i x => with_vars D (fun v => do m <- write2 (nE p) S j i x (prim v); Ok (set_prim m v)) u
  | WriteCons D j i x => with_vars D (fun v => do m <- write2 (nE p) S j i x (cons v); Ok (set_cons m v)) u
  | WriteEigen D j i x => with_vars D (fun v => do m <- write2 (nE p) S j i x (eigen_vals v); Ok (set_eigen_vals m v)) u
  | WriteFlux D j i x => with_vars D (fun v => do m <- write2 (nE p) S j i x (flux v); Ok (set_flux m v)) u
  | WriteCSound D i x => with_vars D (fun v => if Nat.ltb i S then Ok (set_c_sound (upd i x (c_sound v)) v) else Panic) u
  | WriteGamma D x => with_vars D (fun v => Ok (mkVars (prim v) (cons v) (c_sound v) (eigen_vals v) (flux v) x (zero_vec v))) u
  end.

(** A sequence of calls *)
Fixpoint exec_all (p : phys) (S : nat) (l : list call) (u : state A) : res (state A) :=
  match l with
  | [] => Ok u
  | c :: t => do u <- exec p S c u; exec_all p S t u
  end.

(** src/state/physics.rs L69-75, L95-101, L121-127: the accessors to conserved
    variables that State.v does not have *)
Definition rho_cons (v : vars A) : list (nF A) := nth JRHO (cons v) [].
Definition xi_mom (v : vars A) : list (nF A) := nth JXI (cons v) [].
Definition eta_mom (v : vars A) : list (nF A) := row_or_zero JETA (cons v) v.

End Api.

Arguments get_vars {A}. Arguments with_vars {A}. Arguments write2 {A}. Arguments assign_vars_d {A}.
Arguments exec {A}. Arguments exec_all {A}. Arguments rho_cons {A}. Arguments xi_mom {A}. Arguments eta_mom {A}.
Arguments UpdatePrim {A}. Arguments UpdateCons {A}. Arguments UpdateDerived {A}. Arguments UpdateCSound {A}.
Arguments UpdateEigen {A}. Arguments UpdateEigenMin {A}. Arguments UpdateEigenMax {A}. Arguments UpdateFlux {A}.
Arguments FromPrim {A}. Arguments FromCons {A}. Arguments AssignVars {A}. Arguments AssignAll {A}. Arguments InitWestEast {A}.
Arguments WritePrim {A}. Arguments WriteCons {A}. Arguments WriteEigen {A}. Arguments WriteFlux {A}.
Arguments WriteCSound {A}. Arguments WriteGamma {A}.
