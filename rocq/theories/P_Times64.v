(** C74: the output times of a run in binary64. *)

From Coq Require Import Reals ZArith NArith QArith List Bool Lia String.
From Flocq Require Import Core BinarySingleNaN.
From Verif Require Import Base Num XReal B64 Config Mesh State NumFlux Time Writer Runner Spec ConfigProofs MeshProofs SpecRun SpecTimes64 RunProofs RunTimes64 TimeProofs P_Run.
Import ListNotations.

(** A step that starts before the next output time does not run backwards, and
    ends at most one binary64 number after it; a shortened step (its size is
    the rounded difference) ends at the output time or at a neighbour of it. *)
Theorem C74_landing : forall bln bexp, let A := B64n bln bexp in
  forall (N : numflux_impl A) validation fuel p S m (s s' : sim A N) o,
  bt_asc (rk_bt (s_rk s)) = false ->
  is_finite (ts_t (s_ts s)) = true -> is_finite (ts_t_next (s_ts s)) = true ->
  (0 <= B2R (ts_t (s_ts s)) <= B2R (ts_t_next (s_ts s)))%R -> (0 < B2R (ts_t_next (s_ts s)))%R ->
  xlt (Fin 0) (b2x (ts_dt_min (s_ts s))) -> xlt (Fin 0) (b2x (ts_dt_max (s_ts s))) ->
  solver_next validation fuel p S m s = (s', o) ->
  xle (b2x (ts_t (s_ts s))) (b2x (ts_t (s_ts s'))) /\ at_most_next (ts_t_next (s_ts s)) (ts_t (s_ts s')) /\
  (ts_t (s_ts s') = b_add (ts_t (s_ts s)) (b_sub (ts_t_next (s_ts s)) (ts_t (s_ts s))) -> at_least_prev (ts_t_next (s_ts s)) (ts_t (s_ts s'))).
Proof.
  intros bln bexp A N validation fuel p S m s s' o Ha Ft Fn Hr Hp H1 H2 E.
  destruct (step64 bln bexp N validation fuel p S m s s' o Ha Ft Fn Hr Hp H1 H2 E) as (K1 & K2 & _).
  split; [exact K1|]. split; [exact K2|]. intros ->. apply land_near; assumption.
Qed.
Print Assumptions C74_landing.

(** The outputs of any run, successful or not, without step control: output
    number i is at most one binary64 number after the i-th planned time and,
    unless it is an error dump, at most dt_min before it; times do not
    decrease.  Needs that the next planned time is a number after the last: the
    output interval is not lost in rounding. *)
Theorem C74_output_times_b64 : forall bln bexp, let A := B64n bln bexp in
  forall (N : numflux_impl A) fmt validation sched afuel fuel p S m (c : config A) (s : sim A N) wr w e r,
  cf_validate c = Ok tt -> rc_asc (nc_time (cf_numerics c)) = false -> at_start p S c s ->
  run_loop fmt validation sched afuel fuel p S m s wr w = (e, r) ->
  let t0 : b64 := nc_t0 (cf_numerics c) in
  let D := interval t0 (nc_t_end (cf_numerics c)) (cf_output_max c) in
  let P := planned t0 D in let n := List.length (e_trace e) in
  is_finite (P (Datatypes.S n)) = true -> xlt (b2x (P n)) (b2x (P (Datatypes.S n))) ->
  (forall i (x : snapshot A), nth_error (e_trace e) i = Some x ->
     is_finite (ts_t (fst x)) = true /\ at_most_next (P i) (ts_t (fst x)) /\
     (ts_kind (fst x) <> KErrorDump -> xle (b2x (b_sub (P i) (nc_dt_min (cf_numerics c)))) (b2x (ts_t (fst x))))) /\
  (forall i j (x y : snapshot A), (i <= j)%nat -> nth_error (e_trace e) i = Some x -> nth_error (e_trace e) j = Some y ->
     xle (b2x (ts_t (fst x))) (b2x (ts_t (fst y)))).
Proof.
  intros bln bexp A N fmt validation sched afuel fuel p S m c s wr w e r V Hasc Hs E t0 D P n HF HL. pose proof (spread_last t0 D n HF HL) as Sp.
  apply cf_validate_b64 in V.
  pose proof (run_trace_loop bln bexp N c V (List.length (e_trace e)) Sp fmt validation sched afuel p S m s wr w Hasc Hs fuel e r E (le_n _)) as G.
  split.
  - intros i x Ex. exact (run_trace_nth bln bexp c (e_trace e) G i x Ex).
  - intros i j x y Hij Ex Ey. exact (run_trace_sorted bln bexp c (e_trace e) G i j x y Hij Ex Ey).
Qed.
Print Assumptions C74_output_times_b64.

(** ** Runs *)
Section Demo.
Variables bln bexp : b64 -> b64.
Notation A := (B64n bln bexp).

(** outputs at 0 and at [j] / 2^53 *)
Definition meet_cfg (j : Z) : config A :=
  mkCfg false (mkMC (A:=A) Cartesian (nZ A 2) (nZ A 3)) (mkPC (A:=A) (nQ A (14 # 10)) SI) BNoGradients BNoGradients
    (mkNC (A:=A) CHll (mkRC (A:=A) RK1 false (nQ A (1 # 1000)) (nQ A (1 # 1000)) (nQ A (8 # 100))) 100 (n0 A) (nQ A (Qmake j (2 ^ 53)))
       (nQ A (1 # 1000000)) (nZ A 1000) (nQ A (943 # 1000)))
    1 [].

(** isothermal gas of density 1 and sound speed 1/2, two streams of speed 1/2
    that meet in the middle *)
Definition meet_init (s : sim A (Hll A)) (m : mesh A) : sim A (Hll A) * res unit :=
  let v := set_c_sound (repeat (nQ A (1 # 2)) 6) (set_prim [repeat (n1 A) 6; tab 6 (fun i => nQ A (if (i <? 3)%nat then 1 # 2 else -1 # 2))] (cent (s_u s))) in
  (mkSim (s_ts s) (set_cent v (s_u s)) (s_rk s) (s_rhs s), Ok tt).
End Demo.

Definition judged {A : Num} {N : numflux_impl A} (init : sim A N -> mesh A -> sim A N * res unit) (c : config A) (fuel : nat) (chk : run_end A N -> res unit -> bool) : bool :=
  match init_corries (N:=N) true (fun _ => EmptyString) EmptyString [] init Isot 6 c no_world with
  | (w, Ok k) => let '(e, o) := run_loop (fun _ _ => EmptyString) true (fun _ => []) 0 fuel Isot 6 (c_mesh k) (c_sim k) (c_writer k) w in chk e o
  | _ => false
  end.

Lemma judged_run : forall (A : Num) (N : numflux_impl A) init (c : config A) fuel chk, judged (N:=N) init c fuel chk = true ->
  (forall s m s' r, init s m = (s', r) -> s_ts s' = s_ts s /\ s_rk s' = s_rk s) ->
  exists w k e o, cf_validate c = Ok tt /\ init_corries (N:=N) true (fun _ => EmptyString) EmptyString [] init Isot 6 c no_world = (w, Ok k) /\
    at_start Isot 6 c (c_sim k) /\ run_loop (fun _ _ => EmptyString) true (fun _ => []) 0 fuel Isot 6 (c_mesh k) (c_sim k) (c_writer k) w = (e, o) /\ chk e o = true.
Proof.
  intros A N init c fuel chk H Hi. unfold judged in H. destruct (init_corries true _ _ _ _ _ _ _ _) as [w k] eqn:I. destruct k as [k|e| |]; try discriminate.
  destruct (run_loop _ true _ 0 fuel Isot 6 (c_mesh k) (c_sim k) (c_writer k) w) as [e o] eqn:E. exists w, k, e, o.
  split; [unfold init_corries in I; destruct (cf_validate c) as [[]|x| |]; try discriminate; reflexivity|].
  split; [reflexivity|]. split; [eapply init_at_start; [exact I|exact Hi]|]. auto.
Qed.

Lemma meet_init_keeps : forall bln bexp s m s' r, meet_init bln bexp s m = (s', r) -> s_ts s' = s_ts s /\ s_rk s' = s_rk s.
Proof. intros bln bexp s m s' r Q. apply (f_equal fst) in Q. cbn [fst meet_init] in Q. subst s'. split; reflexivity. Qed.

(** The bound is met: in this run, within the scope of C74_output_times_b64,
    output 1 is one binary64 number after its planned time, which is the end
    time.  So "no output is after its planned time" is false in binary64. *)
Theorem C74_not_after_refuted : forall bln bexp, let A := B64n bln bexp in exists w k e,
  let c := meet_cfg bln bexp (2 ^ 53 - 3) in
  cf_validate c = Ok tt /\ rc_asc (nc_time (cf_numerics c)) = false /\
  init_corries (A:=A) (N:=Hll A) true (fun _ => EmptyString) EmptyString [] (meet_init bln bexp) Isot 6 c no_world = (w, Ok k) /\
  at_start Isot 6 c (c_sim k) /\
  run_loop (fun _ _ => EmptyString) true (fun _ => []) 0 5 Isot 6 (c_mesh k) (c_sim k) (c_writer k) w = (e, Ok tt) /\
  let P := planned (nc_t0 (cf_numerics c)) (interval (nc_t0 (cf_numerics c)) (nc_t_end (cf_numerics c)) (cf_output_max c)) in
  List.length (e_trace e) = 2%nat /\ is_finite (P 3%nat) = true /\ xlt (b2x (P 2%nat)) (b2x (P 3%nat)) /\
  exists x, nth_error (e_trace e) 1 = Some x /\ xlt (b2x (P 1%nat)) (b2x (ts_t (fst x))) /\ b2x (P 1%nat) = b2x (nc_t_end (cf_numerics c)).
Proof.
  intros bln bexp A. set (c := meet_cfg bln bexp (2 ^ 53 - 3)).
  set (P := planned (nc_t0 (cf_numerics c)) (interval (nc_t0 (cf_numerics c)) (nc_t_end (cf_numerics c)) (cf_output_max c))).
  destruct (judged_run A (Hll A) (meet_init bln bexp) c 5
    (fun e o => b_ok o && (List.length (e_trace e) =? 2)%nat && match nth_error (e_trace e) 1 with Some x => Bltb (P 1%nat) (ts_t (fst x)) | None => false end))
    as (w & k & e & o & V & I & S & E & C).
  { vm_compute. reflexivity. } { apply meet_init_keeps. }
  apply andb_true_iff in C. destruct C as [C C3]. apply andb_true_iff in C. destruct C as [C1 C2]. apply Nat.eqb_eq in C2. destruct o as [[]|x| |]; try discriminate C1.
  exists w, k, e. cbv zeta. split; [exact V|]. split; [reflexivity|]. split; [exact I|]. split; [exact S|]. split; [exact E|]. split; [exact C2|].
  fold P. split; [vm_compute; reflexivity|]. split; [refine (proj1 (Bltb_xlt (P 2%nat) (P 3%nat)) _); vm_compute; reflexivity|].
  destruct (nth_error (e_trace e) 1) as [x|]; [|discriminate C3]. exists x. split; [reflexivity|]. split; [exact (proj1 (Bltb_xlt (P 1%nat) (ts_t (fst x))) C3)|].
  assert (Q : P 1%nat = nc_t_end (cf_numerics c)) by (refine (b_eq_by (P 1%nat) (nc_t_end (cf_numerics c)) _); vm_compute; reflexivity). exact (f_equal b2x Q).
Qed.
Print Assumptions C74_not_after_refuted.

Definition stepped {A : Num} {N : numflux_impl A} (init : sim A N -> mesh A -> sim A N * res unit) (c : config A) (chk : sim A N -> sim A N -> bool) : bool :=
  match init_corries (N:=N) true (fun _ => EmptyString) EmptyString [] init Isot 6 c no_world with
  | (w, Ok k) => match solver_next true 5 Isot 6 (c_mesh k) (moved_on (c_sim k)) with (s', Ok _) => chk (moved_on (c_sim k)) s' | _ => false end
  | _ => false
  end.

Lemma stepped_run : forall (A : Num) (N : numflux_impl A) init (c : config A) chk, stepped (N:=N) init c chk = true ->
  exists m s s', solver_next true 5 Isot 6 m s = (s', Ok tt) /\ chk s s' = true.
Proof.
  intros A N init c chk H. unfold stepped in H. destruct (init_corries true _ _ _ _ _ _ _ _) as [w k]. destruct k as [k|e| |]; try discriminate.
  exists (c_mesh k), (moved_on (c_sim k)). destruct (solver_next true 5 Isot 6 (c_mesh k) (moved_on (c_sim k))) as [s' o].
  destruct o as [[]|e| |]; try discriminate. exists s'. auto.
Qed.

(** A step in the scope of C74_landing: the first of that run. *)
Example C74_nonvacuous : forall bln bexp, let A := B64n bln bexp in exists m (s s' : sim A (Hll A)),
  solver_next true 5 Isot 6 m s = (s', Ok tt) /\ bt_asc (rk_bt (s_rk s)) = false /\
  is_finite (ts_t (s_ts s)) = true /\ is_finite (ts_t_next (s_ts s)) = true /\
  xle (Fin 0) (b2x (ts_t (s_ts s))) /\ xle (b2x (ts_t (s_ts s))) (b2x (ts_t_next (s_ts s))) /\ xlt (Fin 0) (b2x (ts_t_next (s_ts s))) /\
  xlt (Fin 0) (b2x (ts_dt_min (s_ts s))) /\ xlt (Fin 0) (b2x (ts_dt_max (s_ts s))) /\ xlt (b2x (ts_t (s_ts s))) (b2x (ts_t (s_ts s'))).
Proof.
  intros bln bexp A.
  destruct (stepped_run A (Hll A) (meet_init bln bexp) (meet_cfg bln bexp (2 ^ 53 - 3))
    (fun s s' => negb (bt_asc (rk_bt (s_rk s))) && is_finite (ts_t (s_ts s)) && is_finite (ts_t_next (s_ts s)) &&
       Bleb (B754_zero false) (ts_t (s_ts s)) && Bleb (ts_t (s_ts s)) (ts_t_next (s_ts s)) && Bltb (B754_zero false) (ts_t_next (s_ts s)) &&
       Bltb (B754_zero false) (ts_dt_min (s_ts s)) && Bltb (B754_zero false) (ts_dt_max (s_ts s)) && Bltb (ts_t (s_ts s)) (ts_t (s_ts s')))) as (m & s & s' & E & C).
  { vm_compute. reflexivity. }
  exists m, s, s'. split; [exact E|]. clear E. repeat (apply andb_true_iff in C; destruct C as [C ?]). apply negb_true_iff in C.
  change (Fin 0) with (b2x (B754_zero false)).
  repeat match goal with |- _ /\ _ => split end; auto; try (apply Bleb_xle; assumption); apply Bltb_xlt; assumption.
Qed.
