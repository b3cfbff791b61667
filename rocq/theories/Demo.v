(** Concrete simulations used by the examples beside the theorems.  Nothing
    here is a model of code. *)

From Coq Require Import ZArith NArith QArith List Bool String.
From Verif Require Import Base Num XReal B64 Config Mesh State NumFlux Time Writer Runner.
Import ListNotations.

Section Demo.
Variable A : Num.
Variable N : numflux_impl A.

(** Mesh [1, 2], gamma = 1.4, no boundary gradients, t from 0 to 1. *)
Definition demo_cfg (nf : numflux_config A) (rk : rkf_mode) (asc : bool) (itmax : BinNums.N) (cfl : nF A) : config A :=
  mkCfg false (mkMC Cartesian (n1 A) (nZ A 2)) (mkPC (nQ A (14 # 10)) SI) BNoGradients BNoGradients
    (mkNC nf (mkRC rk asc (nQ A (1 # 100)) (nQ A (1 # 1000)) (nQ A (8 # 100))) itmax (n0 A) (n1 A)
       (nQ A (1 # 1000000)) (nZ A 1000) cfl)
    2%N [].

Definition demo_mesh (S : nat) : mesh A := mesh_build S (mkMC Cartesian (n1 A) (nZ A 2)).

(** The state with primitive variables [q j i] and (isothermal) sound speed 1. *)
Definition demo_vars (p : phys) (S : nat) (q : nat -> nat -> nF A) : vars A :=
  mkVars (mtab (nE p) S q) (zeros2 (nE p) S) (repeat (n1 A) S) (zeros2 (nE p) S) (zeros2 (nE p) S)
         (nQ A (14 # 10)) (zeros S).

(** As after init_corries, with the next output moved to t = 1. *)
Definition demo (p : phys) (S : nat) (c : config A) (q : nat -> nat -> nF A) : res (sim A N) :=
  let m := demo_mesh S in
  do s <- solver_new N p S c m (state_new p S (cf_physics c));
  do u <- st_update_from_prim p S (r_bw (s_rhs s)) (r_be (s_rhs s)) m (set_cent (demo_vars p S q) (s_u s));
  Ok (mkSim (ts_set_next (n1 A) (s_ts s)) (init_west_east u) (s_rk s) (s_rhs s)).

Definition is_ok {X} (r : res X) : bool := match r with Ok _ => true | _ => false end.

(** [n] calls of next_solution; whether all of them returned Ok. *)
Fixpoint demo_steps (val : bool) (fuel : nat) (p : phys) (S : nat) (n : nat) (s : sim A N) : sim A N * bool :=
  match n with
  | O => (s, true)
  | Datatypes.S n =>
      let '(s, o) := solver_next val fuel p S (demo_mesh S) s in
      if is_ok o then demo_steps val fuel p S n s else (s, false)
  end.

(** [n] steps from the initial state [q] all succeed and the final simulation
    satisfies [chk]. *)
Definition demo_check (val : bool) (p : phys) (S : nat) (c : config A) (q : nat -> nat -> nF A) (n : nat) (chk : sim A N -> bool) : bool :=
  match demo p S c q with
  | Ok s => let '(s, b) := demo_steps val 50 p S n s in b && chk s
  | _ => false
  end.

Lemma demo_steps_S : forall val fuel p S n s s' b, demo_steps val fuel p S (Datatypes.S n) s = (s', b) -> b = true ->
  exists s1, solver_next val fuel p S (demo_mesh S) s = (s1, Ok tt) /\ demo_steps val fuel p S n s1 = (s', true).
Proof.
  intros val fuel p S n s s' b H ->. cbn [demo_steps] in H. destruct (solver_next val fuel p S (demo_mesh S) s) as [s1 o].
  destruct o as [[]|e| |]; cbn [is_ok] in H; try discriminate. eauto.
Qed.

(** One successful step of a demo simulation. *)
Lemma demo_one : forall val p S c q chk, demo_check val p S c q 1 chk = true ->
  exists s s', demo p S c q = Ok s /\ solver_next val 50 p S (demo_mesh S) s = (s', Ok tt) /\ chk s' = true.
Proof.
  intros val p S c q chk H. unfold demo_check in H. destruct (demo p S c q) as [s|e| |]; try discriminate.
  destruct (demo_steps val 50 p S 1 s) as [s' b] eqn:E. apply andb_true_iff in H. destruct H as [Hb Hc].
  destruct (demo_steps_S _ _ _ _ _ _ _ _ E Hb) as (s1 & E1 & E2). cbn [demo_steps] in E2. injection E2 as ->. eauto.
Qed.
End Demo.
Arguments demo_cfg {A}. Arguments demo_vars {A}. Arguments demo_check {A}. Arguments demo {A}. Arguments demo_steps {A}.

(** Two shock tube states in binary64: a jump at cell [k]. *)
Definition tube (k : nat) (l r : nat -> Q) (bln bexp : b64 -> b64) (j i : nat) : nF (B64n bln bexp) :=
  nQ (B64n bln bexp) (if (i <? k)%nat then l j else r j).

Definition vals (a b c : Q) (j : nat) : Q := match j with 0%nat => a | 1%nat => b | _ => c end.
Arguments demo_one {A}.
