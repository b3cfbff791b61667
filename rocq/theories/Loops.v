(** The numerical part of the code a second time, closer to the source: every
    array access is checked and panics out of range, whole-array operations
    check that the sizes match, differences of [usize] values panic instead of
    going below zero, loops run in the order of the code, and parallel loop
    number [l] runs over its indices in the order [ord l n] if it has [n]
    elements.

    The other model files use tables of element formulas instead of these
    loops; Theorem C57 relates the two. *)

From Coq Require Import List ZArith NArith QArith Bool.
From Verif Require Import Base Num Config Mesh State NumFlux Time Writer Runner.
Import ListNotations.
Local Open Scope num_scope.

(** ** Arrays *)

(** [v[i]] as a value *)
Definition rd1 {X} (v : list X) (i : nat) : res X :=
  match nth_error v i with Some x => Ok x | None => Panic end.
(** [m[[j, i]]] as a value *)
Definition rd2 {X} (m : list (list X)) (j i : nat) : res X := do r <- rd1 m j; rd1 r i.
(** [v[i] = x] *)
Definition wr1 {X} (v : list X) (i : nat) (x : X) : res (list X) :=
  do _ <- rd1 v i; Ok (upd i x v).
(** [m[[j, i]] = x] *)
Definition wr2 {X} (m : list (list X)) (j i : nat) (x : X) : res (list (list X)) :=
  do r <- rd1 m j; do r <- wr1 r i x; wr1 m j r.
(** [a - b] on [usize] *)
Definition usub (a b : nat) : res nat := if (b <=? a)%nat then Ok (a - b)%nat else Panic.
(** [for i in l { y = f(i, y) }] *)
Fixpoint for_in {I Y} (l : list I) (f : I -> Y -> res Y) (y : Y) : res Y :=
  match l with [] => Ok y | i :: t => do y <- f i y; for_in t f y end.
(** the values of [lo..hi] and [lo..=hi] *)
Definition range (lo hi : nat) : list nat := seq lo (hi - lo).
Definition range_incl (lo hi : nat) : list nat := seq lo (hi + 1 - lo).
(** [v.slice(s![lo..=hi])]: ndarray panics unless [lo <= hi + 1 <= v.len()] *)
Definition slice {X} (lo hi : nat) (v : list X) : res (list X) :=
  if (lo <=? hi + 1)%nat && (hi + 1 <=? length v)%nat then Ok (firstn (hi + 1 - lo) (skipn lo v)) else Panic.
(** [&a op &b] on vectors: the lengths must match (ndarray also stretches a
    vector of length one; that this never happens is part of what is shown). *)
Definition zip2 {X Y Z} (f : X -> Y -> Z) (a : list X) (b : list Y) : res (list Z) :=
  if (length a =? length b)%nat then Ok (map (fun p => f (fst p) (snd p)) (combine a b)) else Panic.
(** [dst.assign(&src)] on vectors *)
Definition assign1 {X} (dst src : list X) : res (list X) :=
  if (length dst =? length src)%nat then Ok src else Panic.
(** [dst.slice_mut(s![lo..=hi]).assign(&src)] *)
Definition assign_slice {X} (lo hi : nat) (src dst : list X) : res (list X) :=
  do old <- slice lo hi dst; do new <- assign1 old src; Ok (firstn lo dst ++ new ++ skipn (hi + 1) dst).
(** [m.row_mut(j)] changed by [f] *)
Definition on_row {X} (j : nat) (f : list X -> res (list X)) (m : list (list X)) : res (list (list X)) :=
  do r <- rd1 m j; do r <- f r; wr1 m j r.
(** [dst.assign(&src)] on matrices *)
Definition assign2 {X} (dst src : list (list X)) : res (list (list X)) :=
  if list_eq_dec Nat.eq_dec (map (@length X) dst) (map (@length X) src) then Ok src else Panic.
(** [&a op &b] on matrices *)
Definition mzip2 {X Y Z} (f : X -> Y -> Z) (a : list (list X)) (b : list (list Y)) : res (list (list Z)) :=
  if list_eq_dec Nat.eq_dec (map (@length X) a) (map (@length Y) b)
  then Ok (map (fun r => map (fun p => f (fst p) (snd p)) (combine (fst r) (snd r))) (combine a b)) else Panic.

Section Loops.
Variable A : Num.
Notation F := (nF A).
Notation vec := (list F).
Notation mat := (list vec).

(** The order in which the threads of parallel loop number [l] of a flux
    evaluation carry out its [n] elements. *)
Variable ord : nat -> nat -> list nat.

(** [par_azip!((x in &mut dst.slice_mut(s![lo..=hi]), ...) *x = f(...))], with
    [n] the common length of the zipped arrays and [f k] the value computed
    from the elements [k] of the others. *)
Definition par_assign (l lo hi n : nat) (f : nat -> res F) (dst : vec) : res vec :=
  do old <- slice lo hi dst;
  if (length old =? n)%nat
  then for_in (ord l n) (fun k dst => do x <- f k; wr1 dst (lo + k) x) dst
  else Panic.
Definition par2 (l lo hi : nat) (f : F -> F -> F) (a b dst : vec) : res vec :=
  if (length a =? length b)%nat
  then par_assign l lo hi (length a) (fun k => do x <- rd1 a k; do y <- rd1 b k; Ok (f x y)) dst
  else Panic.
Definition par3 (l lo hi : nat) (f : F -> F -> F -> F) (a b c dst : vec) : res vec :=
  if (length a =? length b)%nat && (length a =? length c)%nat
  then par_assign l lo hi (length a) (fun k => do x <- rd1 a k; do y <- rd1 b k; do z <- rd1 c k; Ok (f x y z)) dst
  else Panic.

(** ** Physics *)

(** euler1disot.rs L93-102, euler1dadiabatic.rs L93-111 *)
Definition update_primL (p : phys) (S : nat) (v : vars A) : res (vars A) :=
  let c := cons v in
  do q <- match p with
  | Isot => for_in (range 0 S) (fun i q =>
      do a <- rd2 c JRHO i; do b <- rd2 c JXI i;
      let '(x, y) := isot_cons_to_prim a b in
      do q <- wr2 q JRHO i x; wr2 q JXI i y) (prim v)
  | Adiab => for_in (range 0 S) (fun i q =>
      do a <- rd2 c JRHO i; do b <- rd2 c JXI i; do e <- rd2 c 2 i;
      let '(x, y, z) := adiab_cons_to_prim a b e (gamma v) in
      do q <- wr2 q JRHO i x; do q <- wr2 q JXI i y; wr2 q 2 i z) (prim v)
  end;
  Ok (set_prim q v).

(** euler1disot.rs L105-114, euler1dadiabatic.rs L114-132 *)
Definition update_consL (p : phys) (S : nat) (v : vars A) : res (vars A) :=
  let q := prim v in
  do c <- match p with
  | Isot => for_in (range 0 S) (fun i c =>
      do a <- rd2 q JRHO i; do b <- rd2 q JXI i;
      let '(x, y) := isot_prim_to_cons a b in
      do c <- wr2 c JRHO i x; wr2 c JXI i y) (cons v)
  | Adiab => for_in (range 0 S) (fun i c =>
      do a <- rd2 q JRHO i; do b <- rd2 q JXI i; do e <- rd2 q 2 i;
      let '(x, y, z) := adiab_prim_to_cons a b e (gamma v) in
      do c <- wr2 c JRHO i x; do c <- wr2 c JXI i y; wr2 c 2 i z) (cons v)
  end;
  Ok (set_cons c v).

(** euler1disot.rs L117-126, euler1dadiabatic.rs L135-148 *)
Definition update_fluxL (p : phys) (S : nat) (v : vars A) : res (vars A) :=
  let q := prim v in
  let c := cons v in
  do f <- match p with
  | Isot => for_in (range 0 S) (fun i f =>
      do a <- rd2 c JRHO i; do b <- rd2 q JXI i; do d <- rd2 c JXI i; do s <- rd1 (c_sound v) i;
      let '(x, y) := isot_flux a b d s in
      do f <- wr2 f JRHO i x; wr2 f JXI i y) (flux v)
  | Adiab => for_in (range 0 S) (fun i f =>
      do a <- rd2 q JXI i; do b <- rd2 c JXI i; do d <- rd2 q 2 i; do e <- rd2 c 2 i;
      let '(x, y, z) := adiab_flux a b d e in
      do f <- wr2 f JRHO i x; do f <- wr2 f JXI i y; wr2 f 2 i z) (flux v)
  end;
  Ok (set_flux f v).

(** src/state/physics.rs L160-171; [pressure] and [rho_prim] are row views,
    L51-142 *)
Definition update_c_soundL (p : phys) (S : nat) (v : vars A) : res (vars A) :=
  if is_adiabatic p then
    do c <- for_in (range 0 S) (fun i c =>
      do pr <- match JPRESSURE p with Some j => rd1 (prim v) j | None => Ok (zero_vec v) end;
      do rho <- rd1 (prim v) JRHO;
      do a <- rd1 pr i; do b <- rd1 rho i;
      wr1 c i (nsqrt A (gamma v * a / b))) (c_sound v);
    Ok (set_c_sound c v)
  else Ok v.

(** src/state/physics.rs L184-188 *)
Definition update_eigen_vals_minL (v : vars A) : res (vars A) :=
  do r <- rd1 (prim v) JXI; do d <- zip2 (nsub A) r (c_sound v);
  do e <- on_row 0 (fun old => assign1 old d) (eigen_vals v);
  Ok (set_eigen_vals e v).

(** src/state/physics.rs L192-196 *)
Definition update_eigen_vals_maxL (p : phys) (v : vars A) : res (vars A) :=
  do r <- rd1 (prim v) JXI; do d <- zip2 (nadd A) r (c_sound v);
  do k <- usub (nE p) 1;
  do e <- on_row k (fun old => assign1 old d) (eigen_vals v);
  Ok (set_eigen_vals e v).

(** src/state/physics.rs L174-180 *)
Definition update_eigen_valsL (p : phys) (v : vars A) : res (vars A) :=
  do v <- update_eigen_vals_minL v;
  do k <- usub (nE p) 1;
  do e <- for_in (range 1 k) (fun j e =>
    do r <- rd1 (prim v) JXI; on_row j (fun old => assign1 old r) e) (eigen_vals v);
  update_eigen_vals_maxL p (set_eigen_vals e v).

(** src/state/physics.rs L152-157 *)
Definition update_derivedL (p : phys) (S : nat) (v : vars A) : res (vars A) :=
  do v <- (if is_adiabatic p then update_c_soundL p S v else Ok v);
  update_eigen_valsL p v.

(** src/state/physics.rs L231-240 *)
Definition calc_dt_cflL (ev : vec) (c_cfl : F) (m : mesh A) : res F :=
  do l <- zip2 (fun a b => nabs A (a * b)) ev (m_cell_width_inv m);
  let dt := c_cfl / fold_left (nmax A) l (n0 A) in
  if nfin A dt then Ok dt else Err EDtNonFinite.

(** ** Boundary conditions, src/boundaryconditions/custom.rs L74-218 *)

(** [x.powi(i)] for the two exponents in use *)
Definition powi (x : F) (i : nat) : F := match i with 1%nat => x | _ => x * x end.

Definition extrapolate_westL (m : mesh A) (j : nat) (q : mat) : res mat :=
  if m_is_logarithmic m then
    do a <- rd2 q j 2;
    (* [||] evaluates its right operand only if the left one is false *)
    do z <- (if negb (nfin A (n1 A / a)) then Ok true else do b <- rd2 q j 3; Ok (negb (nfin A (n1 A / b))));
    if z : bool then for_in (range_incl 0 1) (fun i q => wr2 q j i (n0 A)) q
    else for_in (range_incl 1 2) (fun i q =>
      do k <- usub 2 i;
      do a <- rd2 q j 2; do b <- rd2 q j 3;
      wr2 q j k (a * powi (nabs A (a / b)) i)) q
  else for_in (range_incl 1 2) (fun i q =>
      do k <- usub 2 i;
      do a <- rd2 q j 2; do b <- rd2 q j 3;
      wr2 q j k (nZ A (Z.of_nat (i + 1)) * a - nZ A (Z.of_nat i) * b)) q.

Definition extrapolate_eastL (S : nat) (m : mesh A) (j : nat) (q : mat) : res mat :=
  do s1 <- usub S 1; do s2 <- usub S 2; do s3 <- usub S 3; do s4 <- usub S 4;
  if m_is_logarithmic m then
    do a <- rd2 q j s3;
    do z <- (if negb (nfin A (n1 A / a)) then Ok true else do b <- rd2 q j s4; Ok (negb (nfin A (n1 A / b))));
    if z : bool then for_in (range_incl s2 s1) (fun i q => wr2 q j i (n0 A)) q
    else for_in (range_incl 1 2) (fun i q =>
      do a <- rd2 q j s3; do b <- rd2 q j s4;
      wr2 q j (s3 + i) (a * powi (nabs A (a / b)) i)) q
  else for_in (range_incl 1 2) (fun i q =>
      do a <- rd2 q j s3; do b <- rd2 q j s4;
      wr2 q j (s3 + i) (nZ A (Z.of_nat (i + 1)) * a - nZ A (Z.of_nat i) * b)) q.

Definition kepler_westL (m : mesh A) (j : nat) (q : mat) : res mat :=
  for_in (rev (range_incl 0 1)) (fun i q =>
    do a <- rd2 q j (i + 1); do x <- rd1 (m_xi_cent m) i; do y <- rd1 (m_xi_cent_inv m) (i + 1);
    wr2 q j i (a / nsqrt A (x * y))) q.

Definition kepler_eastL (S : nat) (m : mesh A) (j : nat) (q : mat) : res mat :=
  do s1 <- usub S 1; do s2 <- usub S 2;
  for_in (range_incl s2 s1) (fun i q =>
    do k <- usub i 1;
    do a <- rd2 q j k; do x <- rd1 (m_xi_cent m) i; do y <- rd1 (m_xi_cent_inv m) k;
    wr2 q j i (a / nsqrt A (x * y))) q.

Definition near_zero_westL (j : nat) (q : mat) : res mat :=
  for_in (range_incl 0 1) (fun i q => do a <- rd2 q j 2; wr2 q j i (nQ A (1 # 10000000000) * a)) q.

Definition near_zero_eastL (S : nat) (j : nat) (q : mat) : res mat :=
  do s1 <- usub S 1; do s2 <- usub S 2; do s3 <- usub S 3;
  for_in (range_incl s2 s1) (fun i q => do a <- rd2 q j s3; wr2 q j i (nQ A (1 # 10000000000) * a)) q.

Definition no_gradients_westL (j : nat) (q : mat) : res mat :=
  for_in (range_incl 0 1) (fun i q => do a <- rd2 q j 2; wr2 q j i a) q.

Definition no_gradients_eastL (S : nat) (j : nat) (q : mat) : res mat :=
  do s1 <- usub S 1; do s2 <- usub S 2; do s3 <- usub S 3;
  for_in (range_incl s2 s1) (fun i q => do a <- rd2 q j s3; wr2 q j i a) q.

Definition reflecting_westL (j : nat) (q : mat) : res mat :=
  for_in (range_incl 1 2) (fun i q => do k <- usub 2 i; do a <- rd2 q j (i + 1); wr2 q j k (nZ A (-1) * a)) q.

Definition reflecting_eastL (S : nat) (j : nat) (q : mat) : res mat :=
  do s2 <- usub S 2; do s3 <- usub S 3;
  for_in (range_incl 1 2) (fun i q => do k <- usub s2 i; do a <- rd2 q j k; wr2 q j (s3 + i) (nZ A (-1) * a)) q.

Definition outflow_no_gradients_westL (j : nat) (q : mat) : res mat :=
  do a <- rd2 q j 2;
  if npos A a then reflecting_westL j q else no_gradients_westL j q.
Definition outflow_no_gradients_eastL (S : nat) (j : nat) (q : mat) : res mat :=
  do s3 <- usub S 3; do a <- rd2 q j s3;
  if negb (npos A a) then reflecting_eastL S j q else no_gradients_eastL S j q.
Definition outflow_extrapolate_westL (m : mesh A) (j : nat) (q : mat) : res mat :=
  do a <- rd2 q j 2;
  if npos A a then reflecting_westL j q else extrapolate_westL m j q.
Definition outflow_extrapolate_eastL (S : nat) (m : mesh A) (j : nat) (q : mat) : res mat :=
  do s3 <- usub S 3; do a <- rd2 q j s3;
  if negb (npos A a) then reflecting_eastL S j q else extrapolate_eastL S m j q.

(** custom.rs L26-50 *)
Definition apply_modeL (s : side) (S : nat) (m : mesh A) (md : cbmode) (j : nat) (q : mat) : res mat :=
  match s, md with
  | West, Extrapolate => extrapolate_westL m j q
  | West, ExtrapolateDensityKepler => kepler_westL m j q
  | West, ExtrapolateEtaVelocityKepler => kepler_westL m j q
  | West, NearZero => near_zero_westL j q
  | West, NoGradients => no_gradients_westL j q
  | West, OutFlowExtrapolate => outflow_extrapolate_westL m j q
  | West, OutflowNoGradients => outflow_no_gradients_westL j q
  | West, Reflecting => reflecting_westL j q
  | East, Extrapolate => extrapolate_eastL S m j q
  | East, ExtrapolateDensityKepler => kepler_eastL S m j q
  | East, ExtrapolateEtaVelocityKepler => kepler_eastL S m j q
  | East, NearZero => near_zero_eastL S j q
  | East, NoGradients => no_gradients_eastL S j q
  | East, OutFlowExtrapolate => outflow_extrapolate_eastL S m j q
  | East, OutflowNoGradients => outflow_no_gradients_eastL S j q
  | East, Reflecting => reflecting_eastL S j q
  end.
Definition bc_applyL (s : side) (S : nat) (m : mesh A) (l : list (nat * cbmode)) (v : vars A) : res (vars A) :=
  do q <- for_in l (fun x q => apply_modeL s S m (snd x) (fst x) q) (prim v);
  Ok (set_prim q v).

(** src/state/physics.rs L199-220 *)
Definition update_vars_from_primL (p : phys) (S : nat) (bw be : list (nat * cbmode)) (m : mesh A) (v : vars A) : res (vars A) :=
  do v <- bc_applyL West S m bw v;
  do v <- bc_applyL East S m be v;
  do v <- update_consL p S v;
  update_derivedL p S v.
Definition update_vars_from_consL (p : phys) (S : nat) (bw be : list (nat * cbmode)) (m : mesh A) (v : vars A) : res (vars A) :=
  do v <- update_primL p S v;
  update_vars_from_primL p S bw be m v.

(** src/state/variables.rs L79-83 *)
Definition vars_assignL (self rhs : vars A) : res (vars A) :=
  do q <- assign2 (prim self) (prim rhs);
  do c <- assign2 (cons self) (cons rhs);
  do s <- assign1 (c_sound self) (c_sound rhs);
  Ok (set_c_sound s (set_cons c (set_prim q self))).
(** src/state.rs L559-563 *)
Definition state_assignL (self rhs : state A) : res (state A) :=
  do c <- vars_assignL (cent self) (cent rhs);
  do w <- vars_assignL (west self) (west rhs);
  do e <- vars_assignL (east self) (east rhs);
  Ok (mkState c w e).

(** ** Fluxes *)

(** src/rhs/numflux.rs L99-114 *)
Definition calc_dfluxL (E : nat) (dflux flux_num : mat) (m : mesh A) : res mat :=
  let lo := m_ixi_in m in
  let hi := m_ixi_out m in
  do lo1 <- usub lo 1; do hi1 <- usub hi 1;
  for_in (range 0 E) (fun j d => on_row j (fun r =>
    do a <- slice lo hi (m_deta_dphi_d_volume m);
    do f <- rd1 flux_num j; do x <- slice lo hi f; do y <- slice lo1 hi1 f;
    do z <- zip2 (nsub A) x y; do z <- zip2 (nmul A) a z;
    assign_slice lo hi z r) d) dflux.

(** src/rhs/numflux/hll.rs L97-145, without the validation *)
Definition hll_stepL (p : phys) (S : nat) (self : hll A) (dflux : mat) (u : state A) (m : mesh A)
  : res (hll A * mat * state A) :=
  do c <- update_fluxL p S (cent u);
  let u := set_cent c u in
  do emin <- rd1 (eigen_vals c) 0;
  do k <- usub (nE p) 1;
  do emax <- rd1 (eigen_vals c) k;
  do lo <- usub (m_ixi_in m) 1;
  let hi := m_ixi_out m in
  let lo' := m_ixi_in m in
  let hi' := (m_ixi_out m + 1)%nat in
  do e1 <- slice lo hi emin; do e2 <- slice lo' hi' emin;
  do sl <- par2 0 lo hi (fun a b => nmin A (n0 A) (nmin A a b)) e1 e2 (h_sl self);
  do e1 <- slice lo hi emax; do e2 <- slice lo' hi' emax;
  do sr <- par2 1 lo hi (fun a b => nmax A (n0 A) (nmax A a b)) e1 e2 (h_sr self);
  do r <- slice lo hi sr; do l <- slice lo hi sl;
  do inv <- par2 2 lo hi (fun sr sl => n1 A / (sr - sl)) r l (h_inv self);
  do srsl <- par2 3 lo hi (fun sr sl => sr * sl) r l (h_srsl self);
  do fnum <- for_in (range 0 (nE p)) (fun j f => on_row j (fun row =>
    do i <- slice lo hi inv; do r <- slice lo hi sr; do l <- slice lo hi sl; do rl <- slice lo hi srsl;
    do fr <- rd1 (flux c) j; do f1 <- slice lo hi fr; do f2 <- slice lo' hi' fr;
    do cr <- rd1 (cons c) j; do c1 <- slice lo hi cr; do c2 <- slice lo' hi' cr;
    do x <- zip2 (nmul A) r f1; do y <- zip2 (nmul A) l f2; do x <- zip2 (nsub A) x y;
    do d <- zip2 (nsub A) c2 c1; do d <- zip2 (nmul A) rl d;
    do x <- zip2 (nadd A) x d; do x <- zip2 (nmul A) i x;
    assign_slice lo hi x row) f) (h_flux_num self);
  do dflux <- calc_dfluxL (nE p) dflux fnum m;
  Ok (mkHll sl sr inv srsl fnum, dflux, u).

(** src/rhs/numflux/hll.rs L97-149 *)
Definition hll_calcL (validation : bool) (p : phys) (S : nat) (self : hll A) (dflux : mat)
    (u : state A) (m : mesh A) : (hll A * mat * state A) * res unit :=
  match hll_stepL p S self dflux u m with
  | Ok (self, dflux, u) => (self, dflux, u, if validation then hll_validate self else Ok tt)
  | Err e => (self, dflux, u, Err e)
  | Panic => (self, dflux, u, Panic)
  | Fuel => (self, dflux, u, Fuel)
  end.

(** src/rhs/numflux/kt.rs L129-148; [from_shape_fn] calls the function for
    every index *)
Definition kt_newL (p : phys) (S : nat) (c : numflux_config A) (m : mesh A) : res (kt A) :=
  match c with
  | CHll => Err ENumFluxMismatch
  | CKt l =>
      let dist v := for_in (range 0 S) (fun i d => do x <- rd1 v i; do y <- rd1 (m_xi_cent m) i; Ok (d ++ [x - y])) [] in
      do dw <- dist (m_xi_west m);
      do de <- dist (m_xi_east m);
      Ok (mkKt (zeros S) (zeros S) (zeros S) (zeros S) (zeros2 (nE p) S) l (n1 A / m_dxi m)
               (match l with Monocent x => x | _ => n0 A end) dw de)
  end.

(** src/rhs/numflux/kt.rs L262-275 *)
Definition kt_reconstructL (k : kt A) (E S : nat) (u : state A) : res (state A) :=
  let c := cons (cent u) in
  do hi <- usub S 1;
  do we <- for_in (range 0 E) (fun j we => for_in (range 1 hi) (fun i we =>
    do i1 <- usub i 1;
    do x <- rd2 c j i; do y <- rd2 c j i1; do z <- rd2 c j (i + 1);
    let slope := k_inv_dxi k * slope_fn (k_limiter k) (x - y) (z - x) (nQ A (1 # 2) * (z - y)) (k_theta k) in
    do dw <- rd1 (k_dist_west k) i;
    do w <- wr2 (fst we) j i (x + slope * dw);
    do de <- rd1 (k_dist_east k) i;
    do e <- wr2 (snd we) j i (x + slope * de);
    Ok (w, e)) we) (cons (west u), cons (east u));
  Ok (mkState (cent u) (set_cons (fst we) (west u)) (set_cons (snd we) (east u))).

(** src/rhs/numflux/kt.rs L150-213, without the validation *)
Definition kt_stepL (p : phys) (S : nat) (self : kt A) (dflux : mat) (u : state A) (m : mesh A)
  : res (kt A * mat * state A) :=
  do u <- kt_reconstructL self (nE p) S u;
  do w <- update_primL p S (west u); do e <- update_primL p S (east u);
  do w <- update_c_soundL p S w; do e <- update_c_soundL p S e;
  do w <- update_eigen_vals_minL w; do e <- update_eigen_vals_minL e;
  do w <- update_eigen_vals_maxL p w; do e <- update_eigen_vals_maxL p e;
  do w <- update_fluxL p S w; do e <- update_fluxL p S e;
  let u := mkState (cent u) w e in
  do k <- usub (nE p) 1;
  do emin_w <- rd1 (eigen_vals w) 0; do emin_e <- rd1 (eigen_vals e) 0;
  do emax_w <- rd1 (eigen_vals w) k; do emax_e <- rd1 (eigen_vals e) k;
  do lo <- usub (m_ixi_in m) 1;
  let hi := m_ixi_out m in
  let lo' := m_ixi_in m in
  let hi' := (m_ixi_out m + 1)%nat in
  do e1 <- slice lo' hi' emax_w; do e2 <- slice lo hi emax_e;
  do ap <- par2 0 lo hi (fun a b => mmax (n0 A) (mmax a b)) e1 e2 (k_a_plus self);
  do e1 <- slice lo' hi' emin_w; do e2 <- slice lo hi emin_e;
  do am <- par2 1 lo hi (fun a b => mmin (n0 A) (mmin a b)) e1 e2 (k_a_minus self);
  do y <- slice lo hi (m_d_area_east m); do sp <- slice lo hi ap; do sm <- slice lo hi am;
  do b <- par3 2 lo hi (fun y ap am => y / (ap - am)) y sp sm (k_b self);
  do c <- par2 3 lo hi (fun ap am => ap * am) sp sm (k_c self);
  do fnum <- for_in (range 0 (nE p)) (fun j f => on_row j (fun row =>
    do sb <- slice lo hi b; do sp <- slice lo hi ap; do sm <- slice lo hi am; do sc <- slice lo hi c;
    do fe <- rd1 (flux e) j; do f1 <- slice lo hi fe; do fw <- rd1 (flux w) j; do f2 <- slice lo' hi' fw;
    do cw <- rd1 (cons w) j; do c2 <- slice lo' hi' cw; do ce <- rd1 (cons e) j; do c1 <- slice lo hi ce;
    do x <- zip2 (nmul A) sp f1; do y <- zip2 (nmul A) sm f2; do x <- zip2 (nsub A) x y;
    do d <- zip2 (nsub A) c2 c1; do d <- zip2 (nmul A) sc d;
    do x <- zip2 (nadd A) x d; do x <- zip2 (nmul A) sb x;
    assign_slice lo hi x row) f) (k_flux_num self);
  do dflux <- calc_dfluxL (nE p) dflux fnum m;
  Ok (mkKt ap am b c fnum (k_limiter self) (k_inv_dxi self) (k_theta self) (k_dist_west self) (k_dist_east self), dflux, u).

(** src/rhs/numflux/kt.rs L150-220 *)
Definition kt_calcL (validation : bool) (p : phys) (S : nat) (self : kt A) (dflux : mat)
    (u : state A) (m : mesh A) : (kt A * mat * state A) * res unit :=
  match kt_stepL p S self dflux u m with
  | Ok (self, dflux, u) => (self, dflux, u, if validation then kt_validate self else Ok tt)
  | Err e => (self, dflux, u, Err e)
  | Panic => (self, dflux, u, Panic)
  | Fuel => (self, dflux, u, Fuel)
  end.

(** ** Time stepping with a scheme [N] whose flux computation is [calc] *)
Variable N : numflux_impl A.
Variable calc : bool -> phys -> nat -> nf_T N -> mat -> state A -> mesh A -> (nf_T N * mat * state A) * res unit.

(** src/rhs.rs L113-120 *)
Definition rhs_updateL (validation : bool) (p : phys) (S : nat) (r : rhs A N) (u : state A) (m : mesh A)
  : (rhs A N * state A) * res unit :=
  match update_vars_from_consL p S (r_bw r) (r_be r) m (cent u) with
  | Ok c =>
      let '(nf, full, u2, o) := calc validation p S (r_nf r) (r_full r) (set_cent c u) m in
      (mkRhs full nf (r_bw r) (r_be r), u2, o)
  | Err e => (r, u, Err e)
  | Panic => (r, u, Panic)
  | Fuel => (r, u, Fuel)
  end.

(** [m -= &(c * &k)], src/time/rkf.rs L166, L176, L183 *)
Definition sub_scaledL (c : F) (k m : mat) : res mat :=
  mzip2 (nsub A) m (map (map (fun x => c * x)) k).

(** src/time/rkf.rs L162-167: the state a stage starts from *)
Definition stage_startL (dt : F) (u : state A) (q : nat) (rk : rkf A) : res (state A) :=
  do ut <- state_assignL (rk_utilde rk) u;
  do c <- for_in (range 0 q) (fun pp c =>
    do a <- rd2 (bt_a (rk_bt rk)) pp q;
    do k <- rd1 (rk_k rk) pp;
    sub_scaledL (dt * a) k c) (cons (cent ut));
  Ok (set_cent (set_cons c (cent ut)) ut).

(** src/time/rkf.rs L161-171 *)
Fixpoint rkf_stagesL (validation : bool) (p : phys) (S : nat) (m : mesh A) (dt : F) (u : state A)
    (qs : list nat) (rk : rkf A) (rh : rhs A N) : (rkf A * rhs A N) * res unit :=
  match qs with
  | [] => (rk, rh, Ok tt)
  | q :: t =>
      match stage_startL dt u q rk with
      | Ok ut =>
          let '(rh, ut, o) := rhs_updateL validation p S rh ut m in
          let rk := rk_set_utilde ut rk in
          match o with
          | Ok _ =>
              match (do old <- rd1 (rk_k rk) q; do new <- assign2 old (r_full rh); wr1 (rk_k rk) q new) with
              | Ok k => rkf_stagesL validation p S m dt u t (rk_set_k k rk) rh
              | Err e => (rk, rh, Err e)
              | Panic => (rk, rh, Panic)
              | Fuel => (rk, rh, Fuel)
              end
          | Err e => (rk, rh, Err e)
          | Panic => (rk, rh, Panic)
          | Fuel => (rk, rh, Fuel)
          end
      | Err e => (rk, rh, Err e)
      | Panic => (rk, rh, Panic)
      | Fuel => (rk, rh, Fuel)
      end
  end.

(** src/time/rkf.rs L174-177 and L181-184: [dst.assign(&u.cent.cons)], then the
    weighted slopes *)
Definition rkf_combineL (dt : F) (b : vec) (k : list mat) (order : nat) (dst c : mat) : res mat :=
  do c <- assign2 dst c;
  for_in (range 0 order) (fun q c => do x <- rd1 b q; do kq <- rd1 k q; sub_scaledL (dt * x) kq c) c.

(** src/time/rkf.rs L187-194, [Zip::fold] over the slices [s![.., 2..S-2]]
    (the slice is the inclusive range up to [S - 3]) *)
Definition asc_errorL (S : nat) (rtol atol : F) (high low : mat) : res F :=
  do _ <- usub S 2; do hi <- usub S 3;
  do a <- for_in high (fun r l => do x <- slice 2 hi r; Ok (l ++ [x])) [];
  do b <- for_in low (fun r l => do x <- slice 2 hi r; Ok (l ++ [x])) [];
  do z <- mzip2 (fun h l => nabs A ((h - l) / (rtol * (h + atol)))) a b;
  Ok (fold_left (nmax A) (concat z) (n0 A)).

(** src/time/rkf.rs L151-238 after the stages, without the validation *)
Definition rkf_finishL (S : nat) (dt : F) (u : state A) (rk : rkf A) : res (rkf A * F) :=
  let bt := rk_bt rk in
  let ut := rk_utilde rk in
  do high <- rkf_combineL dt (bt_high bt) (rk_k rk) (bt_order bt) (cons (cent ut)) (cons (cent u));
  let rk := rk_set_utilde (set_cent (set_cons high (cent ut)) ut) rk in
  if rk_accepted rk then Ok (rk, dt)
  else
    do low <- rkf_combineL dt (bt_low bt) (rk_k rk) (bt_order bt) (rk_low rk) (cons (cent u));
    do err_new <- asc_errorL S (rk_rtol rk) (rk_atol rk) high low;
    Ok (rk_set_err err_new low rk, asc_propose (bt_order bt) (rk_friction rk) err_new (rk_err_old rk) dt).

(** src/time/rkf.rs L151-246 *)
Definition calc_rkf_solutionL (validation : bool) (p : phys) (S : nat) (dt : F) (u : state A)
    (rk : rkf A) (rh : rhs A N) (m : mesh A) : (rkf A * rhs A N) * res F :=
  (* [k_bundle.fill(0.0)] *)
  let rk := rk_set_k (map (map (map (fun _ => n0 A))) (rk_k rk)) rk in
  let '(rk, rh, o) := rkf_stagesL validation p S m dt u (range 0 (bt_order (rk_bt rk))) rk rh in
  match o with
  | Ok _ =>
      match rkf_finishL S dt u rk with
      | Ok (rk, dt_out) =>
          match (if validation then rkf_validate rk else Ok tt) with
          | Ok _ => (rk, rh, Ok dt_out)
          | Err e => (rk, rh, Err e)
          | Panic => (rk, rh, Panic)
          | Fuel => (rk, rh, Fuel)
          end
      | Err e => (rk, rh, Err e)
      | Panic => (rk, rh, Panic)
      | Fuel => (rk, rh, Fuel)
      end
  | Err e => (rk, rh, Err e)
  | Panic => (rk, rh, Panic)
  | Fuel => (rk, rh, Fuel)
  end.

(** src/time/rkf.rs L112-121 *)
Fixpoint asc_loopL (validation : bool) (fuel : nat) (p : phys) (S : nat) (ts : timestep A) (u : state A)
    (rk : rkf A) (rh : rhs A N) (m : mesh A) : (timestep A * rkf A * rhs A N) * res unit :=
  if rk_accepted rk then (ts, rk, rh, Ok tt)
  else
    match fuel with
    | O => (ts, rk, rh, Fuel)
    | Datatypes.S fuel =>
        let '(rk, rh, o) := calc_rkf_solutionL validation p S (ts_dt ts) u rk rh m in
        match o with
        | Ok dt =>
            let ts := ts_set_dt dt ts in
            let '(ts, rk) :=
              if rk_err_new rk <? n1 A then (cap_dt ts, rk_set_accepted true rk) else (ts, rk) in
            let rk := rk_set_n_asc (Datatypes.S (rk_n_asc rk)) rk in
            asc_loopL validation fuel p S ts u rk rh m
        | Err e => (ts, rk, rh, Err e)
        | Panic => (ts, rk, rh, Panic)
        | Fuel => (ts, rk, rh, Fuel)
        end
    end.

(** src/time/timestep.rs L130-147 with src/state.rs L642 *)
Definition calc_dt_explL (p : phys) (ts : timestep A) (u : state A) (m : mesh A) : timestep A * res unit :=
  match (do k <- usub (nE p) 1; do ev <- rd1 (eigen_vals (cent u)) k; calc_dt_cflL ev (ts_cfl ts) m) with
  | Ok dt =>
      let ts := ts_set_dt dt ts in
      if dt <? ts_dt_min ts then (ts, Err EDtMin) else (ts_set_kind KCfl ts, Ok tt)
  | Err e => (ts, Err e)
  | Panic => (ts, Panic)
  | Fuel => (ts, Fuel)
  end.

(** src/time/rkf.rs L97-139 *)
Definition rkf_nextL (validation : bool) (fuel : nat) (p : phys) (S : nat) (m : mesh A) (s : sim A N) : sim A N * res unit :=
  let ts := ts_set_iter (ts_iter (s_ts s) + 1)%N (s_ts s) in
  let u := s_u s in
  let '(ts, o) := calc_dt_explL p ts u m in
  match o with
  | Err e => (mkSim ts u (s_rk s) (s_rhs s), Err e)
  | Panic => (mkSim ts u (s_rk s) (s_rhs s), Panic)
  | Fuel => (mkSim ts u (s_rk s) (s_rhs s), Fuel)
  | Ok _ =>
      let ts := cap_dt ts in
      let '(ts, rk, rh, o) :=
        if bt_asc (rk_bt (s_rk s))
        then asc_loopL validation fuel p S ts u (rk_set_n_asc 0 (rk_set_accepted false (s_rk s))) (s_rhs s) m
        else (ts, s_rk s, s_rhs s, Ok tt) in
      match o with
      | Err e => (mkSim ts u rk rh, Err e)
      | Panic => (mkSim ts u rk rh, Panic)
      | Fuel => (mkSim ts u rk rh, Fuel)
      | Ok _ =>
          let '(rk, rh, o) := calc_rkf_solutionL validation p S (ts_dt ts) u rk rh m in
          match o with
          | Err e => (mkSim ts u rk rh, Err e)
          | Panic => (mkSim ts u rk rh, Panic)
          | Fuel => (mkSim ts u rk rh, Fuel)
          | Ok _ =>
              match assign2 (cons (cent u)) (cons (cent (rk_utilde rk))) with
              | Ok c =>
                  let u1 := set_cent (set_cons c (cent u)) u in
                  match update_vars_from_consL p S (r_bw rh) (r_be rh) m (cent u1) with
                  | Ok v =>
                      let u2 := set_cent v u1 in
                      match (if validation then state_validate u2 else Ok tt) with
                      | Ok _ => (mkSim (ts_set_t (ts_t ts + ts_dt ts) ts) u2 rk rh, Ok tt)
                      | Err e => (mkSim ts u2 rk rh, Err e)
                      | Panic => (mkSim ts u2 rk rh, Panic)
                      | Fuel => (mkSim ts u2 rk rh, Fuel)
                      end
                  | Err e => (mkSim ts u1 rk rh, Err e)
                  | Panic => (mkSim ts u1 rk rh, Panic)
                  | Fuel => (mkSim ts u1 rk rh, Fuel)
                  end
              | Err e => (mkSim ts u rk rh, Err e)
              | Panic => (mkSim ts u rk rh, Panic)
              | Fuel => (mkSim ts u rk rh, Fuel)
              end
          end
      end
  end.

(** src/solver.rs L115-127 *)
Definition solver_nextL (validation : bool) (fuel : nat) (p : phys) (S : nat) (m : mesh A) (s : sim A N) : sim A N * res unit :=
  let '(s, o) := rkf_nextL validation fuel p S m s in
  match o with
  | Ok _ => if (ts_iter_max (s_ts s) <=? ts_iter (s_ts s))%N then (s, Err EIterMax) else (s, Ok tt)
  | Err e => (s, Err e)
  | Panic => (s, Panic)
  | Fuel => (s, Fuel)
  end.

End Loops.

Arguments par_assign {A}. Arguments par2 {A}. Arguments par3 {A}.
Arguments update_primL {A}. Arguments update_consL {A}. Arguments update_fluxL {A}. Arguments update_c_soundL {A}.
Arguments update_eigen_vals_minL {A}. Arguments update_eigen_vals_maxL {A}. Arguments update_eigen_valsL {A}.
Arguments update_derivedL {A}. Arguments calc_dt_cflL {A}. Arguments powi {A}.
Arguments extrapolate_westL {A}. Arguments extrapolate_eastL {A}. Arguments kepler_westL {A}. Arguments kepler_eastL {A}.
Arguments near_zero_westL {A}. Arguments near_zero_eastL {A}. Arguments no_gradients_westL {A}. Arguments no_gradients_eastL {A}.
Arguments reflecting_westL {A}. Arguments reflecting_eastL {A}.
Arguments outflow_no_gradients_westL {A}. Arguments outflow_no_gradients_eastL {A}.
Arguments outflow_extrapolate_westL {A}. Arguments outflow_extrapolate_eastL {A}.
Arguments apply_modeL {A}. Arguments bc_applyL {A}. Arguments update_vars_from_primL {A}. Arguments update_vars_from_consL {A}.
Arguments vars_assignL {A}. Arguments state_assignL {A}. Arguments calc_dfluxL {A}.
Arguments hll_stepL {A}. Arguments hll_calcL {A}. Arguments kt_newL {A}. Arguments kt_reconstructL {A}. Arguments kt_stepL {A}. Arguments kt_calcL {A}.
Arguments rhs_updateL {A N}. Arguments sub_scaledL {A}. Arguments stage_startL {A}. Arguments rkf_stagesL {A N}.
Arguments rkf_combineL {A}. Arguments asc_errorL {A}. Arguments rkf_finishL {A}. Arguments calc_rkf_solutionL {A N}.
Arguments asc_loopL {A N}. Arguments calc_dt_explL {A}. Arguments rkf_nextL {A N}. Arguments solver_nextL {A N}.

(** ** Mesh, initial conditions, initialisation and the run loop *)

Section Whole.
Variable A : Num.
Notation F := (nF A).
Notation vec := (list F).
Notation mat := (list vec).

(** src/mesh.rs L210-396.  The grid of western borders is filled by a loop,
    the other arrays are maps and entrywise combinations of earlier ones. *)
Definition mesh_buildL (S : nat) (c : mesh_config A) : res (mesh A) :=
  let add := nadd A in let sub := nsub A in let mul := nmul A in
  let n_all := S in
  let n_gc := 2%nat in
  do n_comp <- usub S (2 * n_gc)%nat;
  let imin := 0%nat in
  do imax <- usub (imin + n_all)%nat 1%nat;
  let ixi_in := (imin + n_gc)%nat in
  do ixi_out <- usub imax n_gc;
  let xi_in := mc_xi_in c in
  let xi_out := mc_xi_out c in
  let dxi := (xi_out - xi_in) / nZ A (Z.of_nat n_comp) in
  let dphi := n1 A in
  let deta := n1 A in
  do xi_west <- for_in (range_incl imin imax)
    (fun i v => wr1 v i (xi_in + dxi * nZ A (Z.of_nat i - Z.of_nat ixi_in))) (repeat (n0 A) S);
  let xi_cent := map (fun xi => xi + nQ A (1 # 2) * dxi) xi_west in
  let xi_east := map (fun xi => xi + dxi) xi_west in
  let ones (v : vec) := map (fun _ => n1 A) v in
  let h_xi_cent := ones xi_cent in
  let h_xi_west := ones xi_west in
  let h_xi_east := ones xi_east in
  let h_eta_cent := ones xi_cent in
  let h_eta_west := ones xi_west in
  let h_eta_east := ones xi_east in
  let h_phi_cent := ones xi_cent in
  let h_phi_west := ones xi_west in
  let h_phi_east := ones xi_east in
  do he <- zip2 mul h_xi_cent h_eta_cent;
  do sqrt_g <- zip2 mul he h_phi_cent;
  let line_xi := map (fun x => x * dxi) h_xi_cent in
  do d_area_west <- zip2 mul h_eta_west h_phi_west;
  do d_area_east <- zip2 mul h_eta_east h_phi_east;
  do w1 <- zip2 sub xi_east xi_west;
  do w2 <- zip2 sub xi_east xi_west;
  do ww <- zip2 mul w1 w2;
  let area_cell := map (nabs A) ww in
  let volume := map (fun x => x * dxi * deta * dphi) sqrt_g in
  let dddv := map (fun v => deta * dphi / (nEPS A + v)) volume in
  do cell_width <- zip2 sub xi_east xi_west;
  let half := nQ A (1 # 2) in
  do s1 <- zip2 add h_phi_east h_phi_west;
  do s2 <- zip2 sub h_eta_east h_eta_west;
  do s3 <- zip2 mul (map (fun x => half * x) s1) s2;
  do cexe <- zip2 mul s3 dddv;
  do t1 <- zip2 add h_eta_east h_eta_west;
  do t2 <- zip2 sub h_phi_east h_phi_west;
  do t3 <- zip2 mul (map (fun x => half * x) t1) t2;
  do cpxp <- zip2 mul t3 dddv;
  let cxex := ones xi_cent in
  let cpep := ones xi_cent in
  let cxpx := ones xi_cent in
  let cepe := ones xi_cent in
  let minus (v : vec) := map (fun x => nZ A (-1) * x) v in
  Ok {| m_is_logarithmic := false;
     m_n_comp := n_comp; m_n_gc := n_gc; m_n_all := n_all;
     m_imin := imin; m_imax := imax; m_ixi_in := ixi_in; m_ixi_out := ixi_out;
     m_xi_in := xi_in; m_xi_out := xi_out;
     m_dxi := dxi; m_deta := deta; m_dphi := dphi;
     m_xi_cent := xi_cent; m_xi_west := xi_west; m_xi_east := xi_east;
     m_xi_cent_inv := map (nrecip A) xi_cent;
     m_xi_west_inv := map (nrecip A) xi_west;
     m_xi_east_inv := map (nrecip A) xi_east;
     m_h_xi_cent := h_xi_cent; m_h_xi_west := h_xi_west; m_h_xi_east := h_xi_east;
     m_h_eta_cent := h_eta_cent; m_h_eta_west := h_eta_west; m_h_eta_east := h_eta_east;
     m_h_phi_cent := h_phi_cent; m_h_phi_west := h_phi_west; m_h_phi_east := h_phi_east;
     m_sqrt_g := sqrt_g;
     m_line_xi := line_xi; m_line_xi_inv := map (nrecip A) line_xi;
     m_d_area_west := d_area_west; m_d_area_east := d_area_east;
     m_area_cell := area_cell;
     m_area_west := map (fun x => x * deta * dphi) d_area_west;
     m_area_east := map (fun x => x * deta * dphi) d_area_east;
     m_volume := volume; m_deta_dphi_d_volume := dddv;
     m_cell_width := cell_width; m_cell_width_inv := map (nrecip A) cell_width;
     m_cexe := cexe; m_cpxp := cpxp; m_cxex := cxex; m_cpep := cpep; m_cxpx := cxpx; m_cepe := cepe;
     m_minus_cexe := minus cexe; m_minus_cpxp := minus cpxp; m_minus_cxex := minus cxex;
     m_minus_cpep := minus cpep; m_minus_cxpx := minus cxpx; m_minus_cepe := minus cepe |}.

(** src/mesh.rs L391-396 *)
Definition mesh_newL (validation : bool) (S : nat) (c : mesh_config A) : res (mesh A) :=
  do m <- mesh_buildL S c;
  do _ <- (if validation then mesh_validate m else Ok tt);
  Ok m.

(** src/initfuncs.rs L62-95 *)
Definition init_nohL (p : phys) (S : nat) (u : state A) : res (state A) :=
  let c := cent u in
  let bp := breakpoint A S in
  do q <- on_row JRHO (fun r => Ok (map (fun _ => n1 A) r)) (prim c);
  do q <- for_in (range 0 bp) (fun i q => wr2 q JXI i (n1 A)) q;
  do q <- for_in (range bp S) (fun i q => wr2 q JXI i (nZ A (-1))) q;
  match p with
  | Adiab =>
      do q <- on_row 2 (fun r => Ok (map (fun _ => nQ A (1 # 100000)) r)) q;
      Ok (set_cent (set_prim q c) u)
  | Isot => Ok (set_cent (set_c_sound (map (fun _ => n1 A) (c_sound c)) (set_prim q c)) u)
  end.

(** src/initfuncs.rs L138-166 *)
Definition init_sodL (p : phys) (S : nat) (u : state A) : res (state A) :=
  match p with
  | Isot => Err EInitFn
  | Adiab =>
      let c := cent u in
      let bp := breakpoint A S in
      let q := map (map (fun _ => n0 A)) (prim c) in
      do q <- for_in (range 0 bp) (fun i q => do q <- wr2 q JRHO i (n1 A); wr2 q 2 i (n1 A)) q;
      do q <- for_in (range bp S) (fun i q => do q <- wr2 q JRHO i (nQ A (125 # 1000)); wr2 q 2 i (nQ A (1 # 10))) q;
      Ok (set_cent (set_prim q c) u)
  end.

(** src/state.rs L68-71 *)
Definition init_west_eastL (u : state A) : res (state A) :=
  do w <- vars_assignL (west u) (cent u);
  do e <- vars_assignL (east u) (cent u);
  Ok (mkState (cent u) w e).

Variable N : numflux_impl A.
(** the constructor and the flux evaluation of the scheme *)
Variable new : phys -> nat -> numflux_config A -> mesh A -> res (nf_T N).
Variable calc : bool -> phys -> nat -> nf_T N -> mat -> state A -> mesh A -> (nf_T N * mat * state A) * res unit.

(** src/rhs.rs L71-78 and src/solver.rs L76-83 *)
Definition solver_newL (p : phys) (S : nat) (c : config A) (m : mesh A) (u : state A) : res (sim A N) :=
  do nf <- new p S (nc_numflux (cf_numerics c)) m;
  Ok (mkSim (ts_new (cf_numerics c) (cf_output_max c)) u (rkf_new p S c)
       (mkRhs (zeros2 (nE p) S) nf (init_bc (cf_bc_west c) (nE p)) (init_bc (cf_bc_east c) (nE p)))).

(** src/config.rs L203-237 *)
Definition init_corriesL (validation : bool) (meta : config A -> String.string) (banner : String.string) (sched : list nat)
    (init : sim A N -> mesh A -> sim A N * res unit)
    (p : phys) (S : nat) (c : config A) (w : world) : world * res (components A N) :=
  match (do _ <- cf_validate c;
         do m <- mesh_newL validation S (cf_mesh c);
         do s <- solver_newL p S c m (state_new p S (cf_physics c));
         Ok (m, s)) with
  | Ok (m, s) =>
      let '(w, r) := writer_new meta S c m w in
      match r with
      | Ok wr =>
          let w := if wr_banner wr then w_print banner w else w in
          let '(w, r) := writer_metadata (wr_meta wr) sched (wr_outputs wr) w in
          match r with
          | Ok _ =>
              let '(s, r) := init s m in
              (w, do _ <- r;
                  do v <- update_vars_from_primL p S (r_bw (s_rhs s)) (r_be (s_rhs s)) m (cent (s_u s));
                  do u <- init_west_eastL (set_cent v (s_u s));
                  Ok (mkComp (mkSim (s_ts s) u (s_rk s) (s_rhs s)) m wr))
          | Err e => (w, Err e) | Panic => (w, Panic) | Fuel => (w, Fuel)
          end
      | Err e => (w, Err e) | Panic => (w, Panic) | Fuel => (w, Fuel)
      end
  | Err e => (w, Err e) | Panic => (w, Panic) | Fuel => (w, Fuel)
  end.

(** src/components.rs L69-100 *)
Fixpoint run_loopL (fmt : nat -> F -> String.string) (validation : bool) (sched : BinNums.N -> list nat) (afuel fuel : nat) (p : phys) (S : nat)
    (m : mesh A) (s : sim A N) (wr : writer A) (w : world) : run_end A N * res unit :=
  match fuel with
  | O => (mkEnd s wr w [], Fuel)
  | Datatypes.S fuel =>
      let '(s, wr, w, tr, r) := run_output fmt sched m s wr w in
      match r with
      | Ok _ =>
          let ts := s_ts s in
          if ts_t_end ts <=? ts_t ts + ts_dt_min ts * nQ A (1 # 100)
          then (mkEnd s wr w tr, Ok tt)
          else
            let '(s, r) := solver_nextL calc validation afuel p S m s in
            match r with
            | Ok _ =>
                let '(e, r) := run_loopL fmt validation sched afuel fuel p S m s wr w in
                (mkEnd (e_sim e) (e_writer e) (e_world e) (tr ++ e_trace e), r)
            | Err er =>
                let s := sim_set_ts (ts_set_kind KErrorDump (s_ts s)) s in
                let '(wr, w, r2) := do_output fmt sched m s wr w in
                (mkEnd s wr w (tr ++ [(s_ts s, cent (s_u s))]),
                 match r2 with Ok _ => Err er | r2 => r2 end)
            | r => (mkEnd s wr w tr, r)
            end
      | r => (mkEnd s wr w tr, r)
      end
  end.

End Whole.

Arguments mesh_buildL {A}. Arguments mesh_newL {A}. Arguments init_nohL {A}. Arguments init_sodL {A}. Arguments init_west_eastL {A}.
Arguments solver_newL {A N}. Arguments init_corriesL {A N}. Arguments run_loopL {A N}.
