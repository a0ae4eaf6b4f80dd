(** SpecMetric.v -- definitions of the metrics over real vectors (t: target, y: prediction) *)
From Coq Require Import Reals Arith.
From Verif Require Import SpecReal.
Local Open Scope R_scope.

Definition mse (n : nat) (t y : nat -> R) : R := sumf n (fun j => (y j - t j) ^ 2) / INR n.
Definition mae (n : nat) (t y : nat -> R) : R := sumf n (fun j => Rabs (y j - t j)) / INR n.
(** percentage of the target, targets below 1e-7 are replaced *)
Definition mape (n : nat) (t y : nat -> R) : R :=
  100 * sumf n (fun j => Rabs ((t j - y j) / Rmax (t j) (1 / 10000000))) / INR n.
(** the number of [lo,hi] next to x *)
Definition clamp (lo hi x : R) : R := Rmin hi (Rmax lo x).
Definition prob (x : R) : R := clamp (1 / 10000000) (1 - 1 / 10000000) x.
Definition bce (n : nat) (t y : nat -> R) : R :=
  - sumf n (fun j => t j * ln (prob (y j)) + (1 - t j) * ln (1 - prob (y j))) / INR n.
Definition cce (n : nat) (t y : nat -> R) : R := - sumf n (fun j => t j * ln (prob (y j))) / INR n.

(** i is the position of the first maximum of v 0 .. v (n-1) *)
Definition is_first_max (n : nat) (v : nat -> R) (i : nat) : Prop :=
  (i < n)%nat /\ (forall j, (j < n)%nat -> v j <= v i) /\ (forall j, (j < i)%nat -> v j < v i).

(** r is the integer next to x, halves go away from zero *)
Definition rounds_to (x r : R) : Prop :=
  (exists z : Z, r = IZR z) /\ Rabs (r - x) <= 1 / 2 /\ (Rabs (r - x) = 1 / 2 -> Rabs x < Rabs r).

(** number of j < n with P j *)
Fixpoint count_lt (n : nat) (p : nat -> bool) : nat :=
  match n with O => 0%nat | S k => ((if p k then 1 else 0) + count_lt k p)%nat end.
