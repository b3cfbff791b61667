(** What a uniform state is, in any arithmetic. *)

From Coq Require Import List Arith.
From Verif Require Import Base Num State.

(** Every variable has the same value in all cells. *)
Definition uniform_vars {A : Num} (p : phys) (S : nat) (v : vars A) : Prop :=
  (forall j i k, j < nE p -> i < S -> k < S -> at2 (n0 A) (prim v) j i = at2 (n0 A) (prim v) j k) /\
  (forall j i k, j < nE p -> i < S -> k < S -> at2 (n0 A) (cons v) j i = at2 (n0 A) (cons v) j k) /\
  (forall i k, i < S -> k < S -> at1 (n0 A) (c_sound v) i = at1 (n0 A) (c_sound v) k).
