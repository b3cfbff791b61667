(** src/mesh.rs: mesh construction and validation. *)

From Coq Require Import List ZArith QArith Bool.
From Verif Require Import Base Num Config.
Import ListNotations.
Local Open Scope num_scope.

Section Mesh.
Variable A : Num.
Notation F := (nF A).
Notation vec := (list F).

(** src/mesh.rs, [struct Mesh] (the fields in their order of construction,
    L331-389). *)
Record mesh := mkMesh {
  m_is_logarithmic : bool;
  m_n_comp : nat; m_n_gc : nat; m_n_all : nat;
  m_imin : nat; m_imax : nat; m_ixi_in : nat; m_ixi_out : nat;
  m_xi_in : F; m_xi_out : F;
  m_dxi : F; m_deta : F; m_dphi : F;
  m_xi_cent : vec; m_xi_west : vec; m_xi_east : vec;
  m_xi_cent_inv : vec; m_xi_west_inv : vec; m_xi_east_inv : vec;
  m_h_xi_cent : vec; m_h_xi_west : vec; m_h_xi_east : vec;
  m_h_eta_cent : vec; m_h_eta_west : vec; m_h_eta_east : vec;
  m_h_phi_cent : vec; m_h_phi_west : vec; m_h_phi_east : vec;
  m_sqrt_g : vec;
  m_line_xi : vec; m_line_xi_inv : vec;
  m_d_area_west : vec; m_d_area_east : vec;
  m_area_cell : vec; m_area_west : vec; m_area_east : vec;
  m_volume : vec; m_deta_dphi_d_volume : vec;
  m_cell_width : vec; m_cell_width_inv : vec;
  m_cexe : vec; m_cpxp : vec; m_cxex : vec; m_cpep : vec; m_cxpx : vec; m_cepe : vec;
  m_minus_cexe : vec; m_minus_cpxp : vec; m_minus_cxex : vec;
  m_minus_cpep : vec; m_minus_cxpx : vec; m_minus_cepe : vec
}.

(** Entrywise combination of two arrays, [&a op &b] in ndarray (both have
    length [S] wherever the code uses it). *)
Definition zipw (f : F -> F -> F) (a b : vec) : vec :=
  map (fun p => f (fst p) (snd p)) (combine a b).

Notation add := (nadd A). Notation sub := (nsub A). Notation mul := (nmul A).

(** src/mesh.rs L217-389: the mesh without the final validation, for
    [S >= 4] (see [mesh_new] for smaller [S]). *)
Definition mesh_build (S : nat) (c : mesh_config A) : mesh :=
  let n_all := S in
  let n_gc := 2%nat in
  let n_comp := (S - 2 * n_gc)%nat in
  let imin := 0%nat in
  let imax := (imin + n_all - 1)%nat in
  let ixi_in := (imin + n_gc)%nat in
  let ixi_out := (imax - n_gc)%nat in
  let xi_in := mc_xi_in c in
  let xi_out := mc_xi_out c in
  let dxi := (xi_out - xi_in) / nZ A (Z.of_nat n_comp) in
  let dphi := n1 A in
  let deta := n1 A in
  let xi_west := tab S (fun i => xi_in + dxi * nZ A (Z.of_nat i - Z.of_nat ixi_in)) in
  let xi_cent := map (fun xi => xi + nQ A (1 # 2) * dxi) xi_west in
  let xi_east := map (fun xi => xi + dxi) xi_west in
  let ones (v : vec) := map (fun _ => n1 A) v in
  let h_xi_cent := ones xi_cent in
  let h_xi_west := ones xi_west in
  let h_xi_east := ones xi_east in
  let h_eta_cent := ones xi_cent in
  let h_eta_west := ones xi_west in
  let h_eta_east := ones xi_east in
  let h_phi_cent := ones xi_cent in
  let h_phi_west := ones xi_west in
  let h_phi_east := ones xi_east in
  let sqrt_g := zipw mul (zipw mul h_xi_cent h_eta_cent) h_phi_cent in
  let line_xi := map (fun x => x * dxi) h_xi_cent in
  let d_area_west := zipw mul h_eta_west h_phi_west in
  let d_area_east := zipw mul h_eta_east h_phi_east in
  let cell_width := zipw sub xi_east xi_west in
  let area_cell := map (nabs A) (zipw mul (zipw sub xi_east xi_west) (zipw sub xi_east xi_west)) in
  let volume := map (fun x => x * dxi * deta * dphi) sqrt_g in
  let dddv := map (fun v => deta * dphi / (nEPS A + v)) volume in
  let half := nQ A (1 # 2) in
  let cexe := zipw mul (zipw mul (map (fun x => half * x) (zipw add h_phi_east h_phi_west))
                                 (zipw sub h_eta_east h_eta_west)) dddv in
  let cpxp := zipw mul (zipw mul (map (fun x => half * x) (zipw add h_eta_east h_eta_west))
                                 (zipw sub h_phi_east h_phi_west)) dddv in
  let cxex := ones xi_cent in
  let cpep := ones xi_cent in
  let cxpx := ones xi_cent in
  let cepe := ones xi_cent in
  let minus (v : vec) := map (fun x => nZ A (-1) * x) v in
  {| m_is_logarithmic := false;
     m_n_comp := n_comp; m_n_gc := n_gc; m_n_all := n_all;
     m_imin := imin; m_imax := imax; m_ixi_in := ixi_in; m_ixi_out := ixi_out;
     m_xi_in := xi_in; m_xi_out := xi_out;
     m_dxi := dxi; m_deta := deta; m_dphi := dphi;
     m_xi_cent := xi_cent; m_xi_west := xi_west; m_xi_east := xi_east;
     m_xi_cent_inv := map (nrecip A) xi_cent;
     m_xi_west_inv := map (nrecip A) xi_west;
     m_xi_east_inv := map (nrecip A) xi_east;
     m_h_xi_cent := h_xi_cent; m_h_xi_west := h_xi_west; m_h_xi_east := h_xi_east;
     m_h_eta_cent := h_eta_cent; m_h_eta_west := h_eta_west; m_h_eta_east := h_eta_east;
     m_h_phi_cent := h_phi_cent; m_h_phi_west := h_phi_west; m_h_phi_east := h_phi_east;
     m_sqrt_g := sqrt_g;
     m_line_xi := line_xi; m_line_xi_inv := map (nrecip A) line_xi;
     m_d_area_west := d_area_west; m_d_area_east := d_area_east;
     m_area_cell := area_cell;
     m_area_west := map (fun x => x * deta * dphi) d_area_west;
     m_area_east := map (fun x => x * deta * dphi) d_area_east;
     m_volume := volume; m_deta_dphi_d_volume := dddv;
     m_cell_width := cell_width; m_cell_width_inv := map (nrecip A) cell_width;
     m_cexe := cexe; m_cpxp := cpxp; m_cxex := cxex; m_cpep := cpep; m_cxpx := cxpx; m_cepe := cepe;
     m_minus_cexe := minus cexe; m_minus_cpxp := minus cpxp; m_minus_cxex := minus cxex;
     m_minus_cpep := minus cpep; m_minus_cxpx := minus cxpx; m_minus_cepe := minus cepe |}.

(** src/macros.rs L128-145, [check_finite_arrayd!] on one array *)
Definition all_fin (v : vec) : bool := forallb (nfin A) v.

(** All arrays [Mesh::validate] checks, src/mesh.rs L405-445. *)
Definition mesh_arrays (m : mesh) : list vec :=
  [ m_xi_cent m; m_xi_west m; m_xi_east m;
    m_xi_cent_inv m; m_xi_west_inv m; m_xi_east_inv m;
    m_h_xi_cent m; m_h_xi_west m; m_h_xi_east m;
    m_h_eta_cent m; m_h_eta_west m; m_h_eta_east m;
    m_h_phi_cent m; m_h_phi_west m; m_h_phi_east m;
    m_sqrt_g m; m_line_xi m; m_line_xi_inv m;
    m_d_area_west m; m_d_area_east m;
    m_area_cell m; m_area_west m; m_area_east m;
    m_volume m; m_deta_dphi_d_volume m; m_cell_width m; m_cell_width_inv m;
    m_cexe m; m_cpxp m; m_cxex m; m_cpep m; m_cxpx m; m_cepe m;
    m_minus_cexe m; m_minus_cpxp m; m_minus_cxex m; m_minus_cpep m; m_minus_cxpx m; m_minus_cepe m ].

(** src/mesh.rs L399-449, [Mesh::validate] *)
Definition mesh_validate (m : mesh) : res unit :=
  do _ <- ensure (nfin A (m_dxi m)) ENonFinite;
  do _ <- ensure (nfin A (m_deta m)) ENonFinite;
  do _ <- ensure (nfin A (m_dphi m)) ENonFinite;
  ensure (forallb all_fin (mesh_arrays m)) ENonFinite.

(** src/mesh.rs L210-396, [Mesh::new].  [validation] is the cargo feature of
    that name.  [S - 2 * n_gc] (L219) underflows for [S < 4], which panics
    with overflow checks (the wrap-around of builds without overflow checks is
    not modelled). *)
Definition mesh_new (validation : bool) (S : nat) (c : mesh_config A) : res mesh :=
  if (S <? 4)%nat then Panic
  else
    let m := mesh_build S c in
    do _ <- (if validation then mesh_validate m else Ok tt);
    Ok m.

End Mesh.

Arguments m_is_logarithmic {A}. Arguments m_n_comp {A}. Arguments m_n_gc {A}. Arguments m_n_all {A}.
Arguments m_imin {A}. Arguments m_imax {A}. Arguments m_ixi_in {A}. Arguments m_ixi_out {A}.
Arguments m_xi_in {A}. Arguments m_xi_out {A}. Arguments m_dxi {A}. Arguments m_deta {A}. Arguments m_dphi {A}.
Arguments m_xi_cent {A}. Arguments m_xi_west {A}. Arguments m_xi_east {A}.
Arguments m_xi_cent_inv {A}. Arguments m_xi_west_inv {A}. Arguments m_xi_east_inv {A}.
Arguments m_sqrt_g {A}. Arguments m_line_xi {A}. Arguments m_line_xi_inv {A}.
Arguments m_d_area_west {A}. Arguments m_d_area_east {A}.
Arguments m_area_cell {A}. Arguments m_area_west {A}. Arguments m_area_east {A}.
Arguments m_volume {A}. Arguments m_deta_dphi_d_volume {A}.
Arguments m_cell_width {A}. Arguments m_cell_width_inv {A}.
Arguments m_h_xi_cent {A}. Arguments m_h_xi_west {A}. Arguments m_h_xi_east {A}.
Arguments m_h_eta_cent {A}. Arguments m_h_eta_west {A}. Arguments m_h_eta_east {A}.
Arguments m_h_phi_cent {A}. Arguments m_h_phi_west {A}. Arguments m_h_phi_east {A}.
Arguments m_cexe {A}. Arguments m_cpxp {A}. Arguments m_cxex {A}. Arguments m_cpep {A}.
Arguments m_cxpx {A}. Arguments m_cepe {A}.
Arguments m_minus_cexe {A}. Arguments m_minus_cpxp {A}. Arguments m_minus_cxex {A}.
Arguments m_minus_cpep {A}. Arguments m_minus_cxpx {A}. Arguments m_minus_cepe {A}.
Arguments mesh_build {A}. Arguments mesh_validate {A}. Arguments mesh_new {A}. Arguments mesh_arrays {A}.
Arguments all_fin {A}.
