(** src/rhs/numflux.rs, src/rhs/numflux/hll.rs, src/rhs/numflux/kt.rs and
    src/rhs.rs: numerical fluxes and the right-hand side. *)

From Coq Require Import List ZArith QArith Bool.
From Verif Require Import Base Num Config Mesh State.
Import ListNotations.
Local Open Scope num_scope.

Section NumFlux.
Variable A : Num.
Notation F := (nF A).
Notation vec := (list F).
Notation mat := (list vec).
Notation "v .[ i ]" := (at1 (n0 A) v i) (at level 2, format "v .[ i ]").
Notation "m .[ j , i ]" := (at2 (n0 A) m j i) (at level 2, format "m .[ j ,  i ]").

(** A flux scheme, src/rhs/numflux.rs L16-86, [trait NumFlux].  [nf_T] is the
    implementing type.  [nf_calc validation p S self dflux u mesh] returns the
    new [self], [dflux_dxi] and [u] next to the result, since the Rust method
    takes all three by [&mut]. *)
Record numflux_impl := mkNF {
  nf_T : Type;
  nf_new : phys -> nat -> numflux_config A -> mesh A -> res nf_T;
  nf_calc : bool -> phys -> nat -> nf_T -> mat -> state A -> mesh A -> (nf_T * mat * state A) * res unit
}.

(** Columns [lo..=hi] of each of the [e] rows assigned, the rest kept. *)
Definition upd_range2 (e n lo hi : nat) (f : nat -> nat -> F) (m : mat) : mat :=
  mtab e n (fun j i => if (lo <=? i)%nat && (i <=? hi)%nat then f j i else m.[j, i]).

(** src/rhs/numflux.rs L99-114, [calc_dflux_xi_generic] *)
Definition calc_dflux_generic (E S : nat) (dflux flux_num : mat) (m : mesh A) : mat :=
  upd_range2 E S (m_ixi_in m) (m_ixi_out m)
    (fun j i => (m_deta_dphi_d_volume m).[i] * (flux_num.[j, i] - flux_num.[j, (i - 1)%nat])) dflux.

(** ** HLL *)

(** src/rhs/numflux/hll.rs L62-78 *)
Record hll := mkHll {
  h_sl : vec; h_sr : vec; h_inv : vec; h_srsl : vec; h_flux_num : mat
}.

(** src/rhs/numflux/hll.rs L84-95 *)
Definition hll_new (p : phys) (S : nat) (c : numflux_config A) (_ : mesh A) : res hll :=
  match c with
  | CHll => Ok (mkHll (zeros S) (zeros S) (zeros S) (zeros S) (zeros2 (nE p) S))
  | CKt _ => Err ENumFluxMismatch
  end.

(** src/rhs/numflux/hll.rs L152-157 *)
Definition hll_validate (h : hll) : res unit :=
  do _ <- ensure (all_fin (h_sl h)) ENonFinite;
  do _ <- ensure (all_fin (h_sr h)) ENonFinite;
  do _ <- ensure (all_fin (h_inv h)) ENonFinite;
  ensure (all_fin2 (h_flux_num h)) ENonFinite.

(** src/rhs/numflux/hll.rs L97-149, [Hll::calc_dflux_dxi].  The [par_azip!]
    loops write disjoint elements and are modelled as tables. *)
Definition hll_calc (validation : bool) (p : phys) (S : nat) (self : hll) (dflux : mat)
    (u : state A) (m : mesh A) : (hll * mat * state A) * res unit :=
  let u := set_cent (update_flux p S (cent u)) u in
  let uflux := flux (cent u) in
  let ucons := cons (cent u) in
  let emin := eigen_min (cent u) in
  let emax := eigen_max p (cent u) in
  let lo := (m_ixi_in m - 1)%nat in
  let hi := m_ixi_out m in
  let z := n0 A in
  let sl := upd_range z S lo hi (fun i => nmin A z (nmin A emin.[i] emin.[(i + 1)%nat])) (h_sl self) in
  let sr := upd_range z S lo hi (fun i => nmax A z (nmax A emax.[i] emax.[(i + 1)%nat])) (h_sr self) in
  let inv := upd_range z S lo hi (fun i => n1 A / (sr.[i] - sl.[i])) (h_inv self) in
  let srsl := upd_range z S lo hi (fun i => sr.[i] * sl.[i]) (h_srsl self) in
  let fnum := upd_range2 (nE p) S lo hi
                (fun j i => inv.[i] * (sr.[i] * uflux.[j, i] - sl.[i] * uflux.[j, (i + 1)%nat]
                                       + srsl.[i] * (ucons.[j, (i + 1)%nat] - ucons.[j, i])))
                (h_flux_num self) in
  let self := mkHll sl sr inv srsl fnum in
  let dflux := calc_dflux_generic (nE p) S dflux fnum m in
  (self, dflux, u, if validation then hll_validate self else Ok tt).

Definition Hll : numflux_impl := mkNF hll hll_new hll_calc.

(** ** Kurganov-Tadmor *)

(** src/rhs/numflux/kt.rs L91-123 *)
Record kt := mkKt {
  k_a_plus : vec; k_a_minus : vec; k_b : vec; k_c : vec; k_flux_num : mat;
  k_limiter : limiter_mode A; k_inv_dxi : F; k_theta : F; k_dist_west : vec; k_dist_east : vec
}.

(** src/rhs/numflux/kt.rs L129-148 *)
Definition kt_new (p : phys) (S : nat) (c : numflux_config A) (m : mesh A) : res kt :=
  match c with
  | CHll => Err ENumFluxMismatch
  | CKt l =>
      Ok {| k_a_plus := zeros S; k_a_minus := zeros S; k_b := zeros S; k_c := zeros S;
            k_flux_num := zeros2 (nE p) S;
            k_limiter := l;
            k_inv_dxi := n1 A / m_dxi m;
            k_theta := match l with Monocent x => x | _ => n0 A end;
            k_dist_west := tab S (fun i => (m_xi_west m).[i] - (m_xi_cent m).[i]);
            k_dist_east := tab S (fun i => (m_xi_east m).[i] - (m_xi_cent m).[i]) |}
  end.

(** src/rhs/numflux/kt.rs L278-283 *)
Definition kt_validate (k : kt) : res unit :=
  do _ <- ensure (all_fin (k_a_plus k)) ENonFinite;
  do _ <- ensure (all_fin (k_a_minus k)) ENonFinite;
  do _ <- ensure (all_fin (k_b k)) ENonFinite;
  ensure (all_fin2 (k_flux_num k)) ENonFinite.

(** src/rhs/numflux/kt.rs L17-34, the [min!] and [max!] macros *)
Definition mmin (a b : F) : F := if a <? b then a else b.
Definition mmax (a b : F) : F := if b <? a then a else b.

(** src/rhs/numflux/kt.rs L223-229 *)
Definition sgn (a : F) : Z := if n0 A <? a then 1%Z else (-1)%Z.

(** src/rhs/numflux/kt.rs L233-261, the slope functions *)
Definition slope_fn (l : limiter_mode A) (a b c th : F) : F :=
  match l with
  | NoLimiter => nQ A (1 # 2) * (a + b)
  | MinMod =>
      if (0 <? sgn a * sgn b)%Z then nZ A (sgn a) * mmin (nabs A a) (nabs A b) else n0 A
  | Superbee =>
      if n0 A <? a * b
      then nZ A (sgn a) * mmin (mmin (nabs A a) (nabs A b)) (nQ A (1 # 2) * mmax (nabs A a) (nabs A b))
      else n0 A
  | Monocent _ =>
      if (0 <? sgn a * sgn b)%Z && (0 <? sgn b * sgn c)%Z
      then nZ A (sgn a) * mmin (nabs A (th * a)) (mmin (nabs A (th * b)) (nabs A c))
      else n0 A
  | VanLeer =>
      let abs_a := nabs A a in
      let abs_b := nabs A b in
      (a * abs_b + b * abs_a) / (abs_a + abs_b + nMIN A)
  end.

(** src/rhs/numflux/kt.rs L264-270, the slope in cell [i] of row [j] *)
Definition kt_slope (k : kt) (c : mat) (j i : nat) : F :=
  k_inv_dxi k * slope_fn (k_limiter k)
                  (c.[j, i] - c.[j, (i - 1)%nat])
                  (c.[j, (i + 1)%nat] - c.[j, i])
                  (nQ A (1 # 2) * (c.[j, (i + 1)%nat] - c.[j, (i - 1)%nat]))
                  (k_theta k).

(** src/rhs/numflux/kt.rs L232-275, [Kt::reconstruct]; the loop reads only the
    centre values and writes only the face values. *)
Definition kt_reconstruct (k : kt) (E S : nat) (u : state A) : state A :=
  let c := cons (cent u) in
  mkState (cent u)
    (set_cons (upd_range2 E S 1 (S - 2) (fun j i => c.[j, i] + kt_slope k c j i * (k_dist_west k).[i])
                 (cons (west u))) (west u))
    (set_cons (upd_range2 E S 1 (S - 2) (fun j i => c.[j, i] + kt_slope k c j i * (k_dist_east k).[i])
                 (cons (east u))) (east u)).

(** src/rhs/numflux/kt.rs L159-168, the updates of one face *)
Definition kt_face (p : phys) (S : nat) (v : vars A) : vars A :=
  update_flux p S (update_eigen_vals_max p S (update_eigen_vals_min S (update_c_sound p S (update_prim p S v)))).

(** src/rhs/numflux/kt.rs L150-220, [Kt::calc_dflux_dxi] *)
Definition kt_calc (validation : bool) (p : phys) (S : nat) (self : kt) (dflux : mat)
    (u : state A) (m : mesh A) : (kt * mat * state A) * res unit :=
  let u := kt_reconstruct self (nE p) S u in
  let u := mkState (cent u) (kt_face p S (west u)) (kt_face p S (east u)) in
  let emin_w := eigen_min (west u) in
  let emin_e := eigen_min (east u) in
  let emax_w := eigen_max p (west u) in
  let emax_e := eigen_max p (east u) in
  let fw := flux (west u) in
  let fe := flux (east u) in
  let cw := cons (west u) in
  let ce := cons (east u) in
  let lo := (m_ixi_in m - 1)%nat in
  let hi := m_ixi_out m in
  let z := n0 A in
  let ap := upd_range z S lo hi (fun i => mmax z (mmax emax_w.[(i + 1)%nat] emax_e.[i])) (k_a_plus self) in
  let am := upd_range z S lo hi (fun i => mmin z (mmin emin_w.[(i + 1)%nat] emin_e.[i])) (k_a_minus self) in
  let b := upd_range z S lo hi (fun i => (m_d_area_east m).[i] / (ap.[i] - am.[i])) (k_b self) in
  let c := upd_range z S lo hi (fun i => ap.[i] * am.[i]) (k_c self) in
  let fnum := upd_range2 (nE p) S lo hi
                (fun j i => b.[i] * (ap.[i] * fe.[j, i] - am.[i] * fw.[j, (i + 1)%nat]
                                     + c.[i] * (cw.[j, (i + 1)%nat] - ce.[j, i])))
                (k_flux_num self) in
  let self := mkKt ap am b c fnum (k_limiter self) (k_inv_dxi self) (k_theta self)
                   (k_dist_west self) (k_dist_east self) in
  let dflux := calc_dflux_generic (nE p) S dflux fnum m in
  (self, dflux, u, if validation then kt_validate self else Ok tt).

Definition Kt : numflux_impl := mkNF kt kt_new kt_calc.

(** ** src/rhs.rs *)

Variable N : numflux_impl.

(** src/rhs.rs L23-35; the boxed boundary conditions are the mode lists of
    [init_boundary_condition]. *)
Record rhs := mkRhs {
  r_full : mat; r_nf : nf_T N; r_bw : list (nat * cbmode); r_be : list (nat * cbmode)
}.

(** src/rhs.rs L71-78, [Rhs::new] *)
Definition rhs_new (p : phys) (S : nat) (c : config A) (m : mesh A) : res rhs :=
  do nf <- nf_new N p S (nc_numflux (cf_numerics c)) m;
  Ok (mkRhs (zeros2 (nE p) S) nf (init_bc (cf_bc_west c) (nE p)) (init_bc (cf_bc_east c) (nE p))).

(** src/rhs.rs L113-120, [Rhs::update].  (A panic inside the boundary
    conditions leaves no state behind to observe.) *)
Definition rhs_update (validation : bool) (p : phys) (S : nat) (r : rhs) (u : state A) (m : mesh A)
  : (rhs * state A) * res unit :=
  match st_update_from_cons p S (r_bw r) (r_be r) m u with
  | Ok u1 =>
      let '(nf, full, u2, o) := nf_calc N validation p S (r_nf r) (r_full r) u1 m in
      (mkRhs full nf (r_bw r) (r_be r), u2, o)
  | Err e => (r, u, Err e)
  | Panic => (r, u, Panic)
  | Fuel => (r, u, Fuel)
  end.

End NumFlux.

Arguments mkNF {A}. Arguments nf_T {A}. Arguments nf_new {A}. Arguments nf_calc {A}.
Arguments upd_range2 {A}. Arguments calc_dflux_generic {A}.
Arguments mkHll {A}. Arguments h_sl {A}. Arguments h_sr {A}. Arguments h_inv {A}. Arguments h_srsl {A}. Arguments h_flux_num {A}.
Arguments hll_new {A}. Arguments hll_validate {A}. Arguments hll_calc {A}.
Arguments mkKt {A}. Arguments k_a_plus {A}. Arguments k_a_minus {A}. Arguments k_b {A}. Arguments k_c {A}.
Arguments k_flux_num {A}. Arguments k_limiter {A}. Arguments k_inv_dxi {A}. Arguments k_theta {A}.
Arguments k_dist_west {A}. Arguments k_dist_east {A}.
Arguments kt_new {A}. Arguments kt_validate {A}. Arguments kt_calc {A}. Arguments mmin {A}. Arguments mmax {A}.
Arguments sgn {A}. Arguments slope_fn {A}. Arguments kt_slope {A}. Arguments kt_reconstruct {A}. Arguments kt_face {A}.
Arguments mkRhs {A N}. Arguments r_full {A N}. Arguments r_nf {A N}. Arguments r_bw {A N}. Arguments r_be {A N}.
Arguments rhs_new {A}. Arguments rhs_update {A N}.
