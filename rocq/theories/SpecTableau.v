(** Runge-Kutta methods: Butcher's order conditions, independent of the code. *)

From Coq Require Import QArith Qabs List Arith.
Import ListNotations.
Local Open Scope Q_scope.

(** Rooted trees. *)
Inductive rtree := Node (children : list rtree).

Fixpoint rsize (t : rtree) : nat :=
  match t with Node l => S ((fix sizes l := match l with [] => 0 | t :: l => rsize t + sizes l end) l)%nat end.

(** the density of a tree: the product of the sizes of all its subtrees *)
Fixpoint rdensity (t : rtree) : nat :=
  match t with Node l => (rsize t * (fix prods l := match l with [] => 1 | t :: l => rdensity t * prods l end) l)%nat end.

Definition qat (v : list Q) (i : nat) : Q := nth i v 0.
Definition qat2 (a : list (list Q)) (i j : nat) : Q := nth j (nth i a []) 0.
Fixpoint qsum (n : nat) (f : nat -> Q) : Q := match n with O => 0 | S n => qsum n f + f n end.

(** the elementary weight of stage [i] of the method with [n] stages and
    coefficients [a]: for every child sum over the stages *)
Fixpoint stage_weight (n : nat) (a : list (list Q)) (t : rtree) (i : nat) : Q :=
  match t with Node l =>
    (fix prods l := match l with [] => 1 | t :: l => qsum n (fun j => qat2 a i j * stage_weight n a t j) * prods l end) l
  end.

(** the elementary weight for the weights [b] *)
Definition weight (n : nat) (a : list (list Q)) (b : list Q) (t : rtree) : Q :=
  qsum n (fun i => qat b i * stage_weight n a t i).

(** The method has order [k] for every smooth right-hand side: Butcher's
    conditions for all rooted trees with at most [k] nodes. *)
Definition has_order (k n : nat) (a : list (list Q)) (b : list Q) : Prop :=
  forall t, (rsize t <= k)%nat -> weight n a b t == 1 / inject_Z (Z.of_nat (rdensity t)).

(** explicit method: strictly lower triangular *)
Definition explicit (n : nat) (a : list (list Q)) : Prop :=
  length a = n /\ (forall r, In r a -> length r = n) /\ forall i j, (i <= j)%nat -> qat2 a i j == 0.

(** the nodes are the row sums *)
Definition row_sum (n : nat) (a : list (list Q)) (c : list Q) (i : nat) : Prop := qsum n (qat2 a i) == qat c i.

(** The same up to [eps] in every condition: coefficients rounded to a few
    decimals. *)
Definition near_order (eps : Q) (k n : nat) (a : list (list Q)) (b : list Q) : Prop :=
  forall t, (rsize t <= k)%nat -> Qabs (weight n a b t - 1 / inject_Z (Z.of_nat (rdensity t))) <= eps.
