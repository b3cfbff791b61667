(** What the methods of [State] may do: positions inside the cells, the public
    fields, and for each call the part of the state it belongs to. *)

From Coq Require Import List ZArith QArith.
From Verif Require Import Base Num Config Mesh State StateApi.
Import ListNotations.
Local Open Scope nat_scope.

(** The variables of a state at the west faces, in the centres and at the east
    faces of the cells. *)
Inductive place := AtWest | AtCent | AtEast.
Definition at_place {A : Num} (pl : place) (u : state A) : vars A :=
  match pl with AtWest => west u | AtCent => cent u | AtEast => east u end.
(** the number that selects a place in the methods *)
Definition code (pl : place) : nat := match pl with AtWest => 0 | AtCent => 1 | AtEast => 2 end.

(** The public fields of [Variables]. *)
Inductive field := FPrim | FCons | FCSound | FEigen | FFlux | FGamma.
Definition same_field {A : Num} (f : field) (v w : vars A) : Prop :=
  match f with
  | FPrim => prim v = prim w
  | FCons => cons v = cons w
  | FCSound => c_sound v = c_sound w
  | FEigen => eigen_vals v = eigen_vals w
  | FFlux => flux v = flux w
  | FGamma => gamma v = gamma w
  end.

(** Calls that concern one place, and which. *)
Definition place_of {A : Num} (c : call A) : option nat :=
  match c with
  | UpdatePrim D | UpdateCons D | UpdateDerived D | UpdateCSound D | UpdateEigen D | UpdateEigenMin D
  | UpdateEigenMax D | UpdateFlux D | FromPrim D _ _ _ | FromCons D _ _ _ | AssignVars D _
  | WritePrim D _ _ _ | WriteCons D _ _ _ | WriteEigen D _ _ _ | WriteFlux D _ _ _ | WriteCSound D _ _
  | WriteGamma D _ => Some D
  | AssignAll _ | InitWestEast => None
  end.

(** [c] may write at [pl] *)
Definition writes_at {A : Num} (c : call A) (pl : place) : Prop :=
  match c with
  | AssignAll _ => True
  | InitWestEast => pl <> AtCent
  | _ => place_of c = Some (code pl)
  end.

(** [c] may write the field [f] *)
Definition writes {A : Num} (p : phys) (c : call A) (f : field) : Prop :=
  match c with
  | UpdatePrim _ | WritePrim _ _ _ _ => f = FPrim
  | UpdateCons _ | WriteCons _ _ _ _ => f = FCons
  | UpdateCSound _ => p = Adiab /\ f = FCSound
  | UpdateEigen _ | UpdateEigenMin _ | UpdateEigenMax _ | WriteEigen _ _ _ _ => f = FEigen
  | UpdateDerived _ => f = FEigen \/ p = Adiab /\ f = FCSound
  | UpdateFlux _ | WriteFlux _ _ _ _ => f = FFlux
  | FromPrim _ _ _ _ | FromCons _ _ _ _ => f = FPrim \/ f = FCons \/ f = FEigen \/ p = Adiab /\ f = FCSound
  | AssignVars _ _ | AssignAll _ | InitWestEast => f = FPrim \/ f = FCons \/ f = FCSound
  | WriteCSound _ _ _ => f = FCSound
  | WriteGamma _ _ => f = FGamma
  end.

(** The position exists, and so do the entries and equations that are named. *)
Definition acceptable {A : Num} (p : phys) (S : nat) (c : call A) : Prop :=
  (forall D, place_of c = Some D -> exists pl, D = code pl) /\
  match c with
  | FromPrim _ bw be _ | FromCons _ bw be _ => forall j md, In (j, md) bw \/ In (j, md) be -> j < nE p
  | WritePrim _ j i _ | WriteCons _ j i _ | WriteEigen _ j i _ | WriteFlux _ j i _ => j < nE p /\ i < S
  | WriteCSound _ i _ => i < S
  | _ => True
  end.

(** The states a program can make with these methods. *)
Inductive made {A : Num} (p : phys) (S : nat) : state A -> Prop :=
| made_new : forall cfg, made p S (state_new p S cfg)
| made_call : forall c u u', made p S u ->
    (forall rhs, (exists D, c = AssignVars D rhs) \/ c = AssignAll rhs -> made p S rhs) ->
    exec p S c u = Ok u' -> made p S u'.

(** The accessors give the rows they are named after, in cell [i]; variables the
    system does not have read as zero. *)
Definition reads_right {A : Num} (p : phys) (v : vars A) (i : nat) : Prop :=
  nth_error (rho_prim v) i = Some (at2 (n0 A) (prim v) 0 i) /\
  nth_error (rho_cons v) i = Some (at2 (n0 A) (cons v) 0 i) /\
  nth_error (xi_vel v) i = Some (at2 (n0 A) (prim v) 1 i) /\
  nth_error (xi_mom v) i = Some (at2 (n0 A) (cons v) 1 i) /\
  nth_error (eta_vel v) i = Some (n0 A) /\
  nth_error (eta_mom v) i = Some (n0 A) /\
  nth_error (pressure p v) i = Some (match p with Adiab => at2 (n0 A) (prim v) 2 i | Isot => n0 A end) /\
  nth_error (energy p v) i = Some (match p with Adiab => at2 (n0 A) (cons v) 2 i | Isot => n0 A end) /\
  nth_error (eigen_min v) i = Some (at2 (n0 A) (eigen_vals v) 0 i) /\
  nth_error (eigen_max p v) i = Some (at2 (n0 A) (eigen_vals v) (match p with Adiab => 2 | Isot => 1 end) i).

(** What a call at one position makes of the variables [v] there, cell [i]. *)
Section Outcome.
Context {A : Num}.
Local Open Scope num_scope.
Notation "m .[ j , i ]" := (at2 (n0 A) m j i) (at level 2, format "m .[ j ,  i ]").
Notation "v .[ i ]" := (at1 (n0 A) v i) (at level 2, format "v .[ i ]").

Definition outcome (p : phys) (c : call A) (v v' : vars A) (i : nat) : Prop :=
  let g := gamma v in
  let written (m m' : list (list (nF A))) (j0 i0 : nat) (x : nF A) :=
    forall j, m'.[j, i] = if (Nat.eqb j j0 && Nat.eqb i i0)%bool then x else m.[j, i] in
  match c with
  | UpdatePrim _ =>
      (prim v').[0, i] = (cons v).[0, i] /\ (prim v').[1, i] = (cons v).[1, i] / (cons v).[0, i] /\
      (p = Adiab -> (prim v').[2, i] = (g - n1 A) * ((cons v).[2, i] - nQ A (1 # 2) / (cons v).[0, i] * (cons v).[1, i] * (cons v).[1, i]))
  | UpdateCons _ =>
      (cons v').[0, i] = (prim v).[0, i] /\ (cons v').[1, i] = (prim v).[1, i] * (prim v).[0, i] /\
      (p = Adiab -> (cons v').[2, i] = (prim v).[2, i] * nrecip A (g - n1 A) + nQ A (1 # 2) * (prim v).[0, i] * (prim v).[1, i] * (prim v).[1, i])
  | UpdateCSound _ => p = Adiab -> (c_sound v').[i] = nsqrt A (g * (prim v).[2, i] / (prim v).[0, i])
  | UpdateEigenMin _ => (eigen_vals v').[0, i] = (prim v).[1, i] - (c_sound v).[i] /\
      forall j, j <> 0%nat -> (eigen_vals v').[j, i] = (eigen_vals v).[j, i]
  | UpdateEigenMax _ => (eigen_vals v').[(nE p - 1)%nat, i] = (prim v).[1, i] + (c_sound v).[i] /\
      forall j, j <> (nE p - 1)%nat -> (eigen_vals v').[j, i] = (eigen_vals v).[j, i]
  | UpdateEigen _ => (eigen_vals v').[0, i] = (prim v).[1, i] - (c_sound v).[i] /\
      (eigen_vals v').[(nE p - 1)%nat, i] = (prim v).[1, i] + (c_sound v).[i] /\
      (p = Adiab -> (eigen_vals v').[1, i] = (prim v).[1, i])
  | UpdateFlux _ => (flux v').[0, i] = (cons v).[1, i] /\
      match p with
      | Isot => (flux v').[1, i] = (cons v).[0, i] * ((prim v).[1, i] * (prim v).[1, i] + (c_sound v).[i] * (c_sound v).[i])
      | Adiab => (flux v').[1, i] = (prim v).[1, i] * (cons v).[1, i] + (prim v).[2, i] /\
                 (flux v').[2, i] = ((cons v).[2, i] + (prim v).[2, i]) * (prim v).[1, i]
      end
  | WritePrim _ j0 i0 x => written (prim v) (prim v') j0 i0 x
  | WriteCons _ j0 i0 x => written (cons v) (cons v') j0 i0 x
  | WriteEigen _ j0 i0 x => written (eigen_vals v) (eigen_vals v') j0 i0 x
  | WriteFlux _ j0 i0 x => written (flux v) (flux v') j0 i0 x
  | WriteCSound _ i0 x => (c_sound v').[i] = if Nat.eqb i i0 then x else (c_sound v).[i]
  | WriteGamma _ x => gamma v' = x
  | _ => True
  end.
End Outcome.
