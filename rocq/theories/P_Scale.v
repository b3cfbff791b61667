(** C62: the units of mass and time do not matter; that of length does. *)

From Coq Require Import Reals ZArith NArith QArith Qreals List Bool Lia Lra String.
From Verif Require Import Base Num XReal B64 Config Mesh State NumFlux Time Writer Runner Spec SpecWall
  ScaleBase ScaleState ScaleFlux ScaleRun SpecScale Demo WallDemo P_Wall.
Import ListNotations.
Local Open Scope string_scope.
Local Open Scope R_scope.

Lemma rescale_prim_rm : forall lam sig q, rm (fp lam sig) q (rescale_prim lam sig q).
Proof.
  intros lam sig q. unfold rescale_prim, rm.
  assert (H : forall b j, rv (fp lam sig (b + j)) (nth j q []) (nth j (map (fun jr => map (xs (prim_factor lam sig (fst jr))) (snd jr)) (combine (seq b (List.length q)) q)) [])).
  { induction q as [|r t IH]; intros b j; cbn [List.length seq combine map]; [destruct j; reflexivity|].
    destruct j as [|j]; cbn [nth fst snd]; [rewrite Nat.add_0_r; reflexivity|]. rewrite <- Nat.add_succ_comm. apply IH. }
  split; [rewrite map_length, combine_length, seq_length; apply Nat.min_id|]. intros j. apply (H 0%nat j).
Qed.

Lemma program_scaled : forall lam sig (N : numflux_impl XRn) Rn fmt val meta banner ms sched afuel fuel p S c w q cs r,
  0 < lam -> 0 < sig -> scales lam sig N Rn -> new_scales N Rn c -> bt_asc (bt_new (nc_time (cf_numerics c))) = false ->
  same_program lam sig
    (program (N:=N) fmt val meta banner ms sched afuel fuel (start N q cs r) p S c w)
    (program (N:=N) fmt val meta banner ms sched afuel fuel (start N (fun m => rescale_prim lam sig (q m)) (fun m => map (xs sig) (cs m)) r) p S (rescale_cfg sig c) w).
Proof.
  intros lam sig N Rn fmt val meta banner ms sched afuel fuel p S c w q cs r Hl Hs HN Hn Ha. unfold program.
  pose proof (init_same lam sig Hl Hs N Rn val meta banner ms q (fun m => rescale_prim lam sig (q m)) cs (fun m => map (xs sig) (cs m)) r p S c w Hn Ha
    (fun m => rescale_prim_rm lam sig (q m)) (fun m => eq_refl)) as X.
  destruct (init_corries val meta banner ms (start N q cs r) p S c w) as [w1 o].
  destruct (init_corries val meta banner ms _ p S (rescale_cfg sig c) w) as [w1' o']. destruct X as (W & X).
  destruct o as [k|e| |], o' as [k'|e'| |]; cbn [rres same_program] in *; try contradiction; try congruence.
  destruct X as (X1 & X2 & X3). rewrite X2.
  pose proof (run_same lam sig Hl Hs N Rn HN fmt val sched afuel fuel p S (c_mesh k) _ _ _ _ _ _ X1 X3 W) as Y.
  destruct (run_loop fmt val sched afuel fuel p S (c_mesh k) (c_sim k) (c_writer k) w1) as [e o].
  destruct (run_loop fmt val sched afuel fuel p S (c_mesh k) (c_sim k') (c_writer k') w1') as [e' o']. destruct Y as ([_ Y] & ->).
  split; [reflexivity|]. clear - Y. induction Y as [|x x' t t' (T & V) Y IH]; constructor; [|exact IH]. destruct T, V. constructor; auto.
  - intros j i. apply (rm_at _ _ _ j i vs_prim).
  - intros j i. apply (rm_at _ _ _ j i vs_cons).
  - intros i. apply (rv_at _ _ _ i vs_cs).
Qed.

(** C62: for all positive factors of mass (at a fixed unit of length: of
    density) and of velocity, a program whose initial densities, velocities,
    pressures, sound speeds and whose times are given in the other units has
    the same outcome, and each of its outputs is the corresponding output of
    the original program in the other units.  For every physics, mode without
    step control, boundary condition, list of outputs, file system, with or
    without validation; for HLL, and for KT with every limiter but VanLeer. *)
Theorem C62_units_hll : forall lam sig fmt val meta banner ms sched afuel fuel p S c w q cs r,
  0 < lam -> 0 < sig -> bt_asc (bt_new (nc_time (cf_numerics c))) = false ->
  same_program lam sig
    (program (N:=Hll XRn) fmt val meta banner ms sched afuel fuel (start _ q cs r) p S c w)
    (program (N:=Hll XRn) fmt val meta banner ms sched afuel fuel
       (start _ (fun m => rescale_prim lam sig (q m)) (fun m => map (xs sig) (cs m)) r) p S (rescale_cfg sig c) w).
Proof.
  intros. apply (program_scaled lam sig (Hll XRn) (hs lam sig)); try assumption; [apply hll_scales; assumption|apply hll_new_scales].
Qed.
Print Assumptions C62_units_hll.

Theorem C62_units_kt : forall lam sig fmt val meta banner ms sched afuel fuel p S c w q cs r,
  0 < lam -> 0 < sig -> bt_asc (bt_new (nc_time (cf_numerics c))) = false -> nc_numflux (cf_numerics c) <> CKt VanLeer ->
  same_program lam sig
    (program (N:=Kt XRn) fmt val meta banner ms sched afuel fuel (start _ q cs r) p S c w)
    (program (N:=Kt XRn) fmt val meta banner ms sched afuel fuel
       (start _ (fun m => rescale_prim lam sig (q m)) (fun m => map (xs sig) (cs m)) r) p S (rescale_cfg sig c) w).
Proof.
  intros. apply (program_scaled lam sig (Kt XRn) (ks lam sig)); try assumption; [apply kt_scales; assumption|apply kt_new_scales; assumption].
Qed.
Print Assumptions C62_units_kt.

(** Non-vacuity: the closed box of P_Wall.v, run to its end in exact
    arithmetic, and its run with densities multiplied by 1000 and times by
    60. *)
Example C62_example : forall fmt w, exists x x',
  let prog l s c := program (N:=Hll XRn) fmt true (fun _ => "") "" [] (fun _ => []) 0 2
    (start _ (fun _ => rescale_prim l s (mtab 2 6 (fun j i => Fin (box_q j i) : nF XRn))) (fun _ => map (xs s) (repeat (Fin 1 : nF XRn) 6)) (fun _ => Ok tt)) Isot 6 c w in
  program (N:=Hll XRn) fmt true (fun _ => "") "" [] (fun _ => []) 0 2 box_init Isot 6 box_cfg w = Ok (Ok tt, x) /\
  prog 1000 (/ 60) (rescale_cfg (/ 60) box_cfg) = Ok (Ok tt, x') /\ List.length x' = 2%nat.
Proof.
  intros fmt w. destruct (C60_example fmt w) as (k & e & e1 & H1 & _ & _ & _ & _ & H2 & H3 & _).
  assert (P : program (N:=Hll XRn) fmt true (fun _ => "") "" [] (fun _ => []) 0 2 box_init Isot 6 box_cfg w = Ok (Ok tt, e_trace e)).
  { unfold program. rewrite H1, H2. reflexivity. }
  pose proof (C62_units_hll 1000 (/ 60) fmt true (fun _ => "") "" [] (fun _ => []) 0 2 Isot 6 box_cfg w (fun _ => mtab 2 6 (fun j i => Fin (box_q j i) : nF XRn))
    (fun _ => repeat (Fin 1 : nF XRn) 6) (fun _ => Ok tt) ltac:(lra) ltac:(lra) eq_refl) as X.
  change (start (Hll XRn) (fun _ => mtab 2 6 (fun j i => Fin (box_q j i) : nF XRn)) (fun _ => repeat (Fin 1 : nF XRn) 6) (fun _ => Ok tt)) with box_init in X.
  rewrite P in X. cbn [same_program] in X.
  match type of X with match ?a with _ => _ end => destruct a as [[r' l']|?| |] eqn:E; try contradiction end. destruct X as (-> & F).
  exists (e_trace e), l'. split; [exact P|]. split; [exact E|]. rewrite <- H3. symmetry. clear - F. induction F; cbn [List.length]; congruence.
Qed.

(** With another unit of length, however, the results differ: the code divides
    fluxes by the volume of a cell plus f64::EPSILON.  The same shock tube in
    binary64, with lengths and velocities multiplied by 2^-60, pressures by
    2^-120 (all exact operations), the same times and densities, gives another
    density: in this unit the gas is at rest. *)
Section Length.
Variables bln bexp : b64 -> b64.
Notation B := (B64n bln bexp).

(** a shock tube on a domain from [l] to [2 l], velocities times [l] *)
Definition len_cfg (l : Q) : config B :=
  mkCfg false (mkMC (A:=B) Cartesian (nQ B l) (nQ B (2 * l))) (mkPC (A:=B) (nQ B (14 # 10)) SI) BNoGradients BNoGradients
    (mkNC (A:=B) CHll (mkRC (A:=B) RK1 false (nQ B (1 # 100)) (nQ B (1 # 1000)) (nQ B (8 # 100))) 100 (n0 B) (nQ B (1 # 16)) (nQ B (1 # 1000000)) (nZ B 1000) (nQ B (4 # 10))) 1 [].
Definition len_init (l : Q) (s : sim B (Hll B)) (m : mesh B) : sim B (Hll B) * res unit :=
  (mkSim (s_ts s) (set_cent (set_prim (mtab 3 8 (fun j i => nQ B (match j with 0%nat => if (i <? 4)%nat then 1 else 1 # 8 | 1%nat => 0 | _ => (if (i <? 4)%nat then 1 else 1 # 10) * l * l end)%Q)) (cent (s_u s))) (s_u s)) (s_rk s) (s_rhs s), Ok tt).

(** density of cell 4 at the end of a successful program *)
Definition len_run fmt w (l : Q) : option (nF B) :=
  match program (N:=Hll B) fmt true (fun _ => "") "" [] (fun _ => []) 0 3 (len_init l) Adiab 8 (len_cfg l) w with
  | Ok (Ok _, tr) => match rev tr with (_, v) :: _ => Some (at2 (n0 B) (prim v) 0 4) | [] => None end
  | _ => None
  end.
End Length.

Theorem C62_length_refuted : forall bln bexp fmt w, let B := B64n bln bexp in
  exists a b, len_run bln bexp fmt w 1 = Some a /\ len_run bln bexp fmt w (1 # 2 ^ 60) = Some b /\
  nltb B (nQ B (13 # 100)) a = true /\ nleb B b (nQ B (126 # 1000)) = true.
Proof.
  intros bln bexp fmt w B.
  assert (X : match len_run bln bexp fmt w 1, len_run bln bexp fmt w (1 # 2 ^ 60) with
    | Some a, Some b => nltb B (nQ B (13 # 100)) a && nleb B b (nQ B (126 # 1000)) | _, _ => false end = true) by (vm_compute; reflexivity).
  destruct (len_run bln bexp fmt w 1) as [a|]; [|discriminate]. destruct (len_run bln bexp fmt w (1 # 2 ^ 60)) as [b|]; [|discriminate].
  apply andb_prop in X. exists a, b. tauto.
Qed.
Print Assumptions C62_length_refuted.
