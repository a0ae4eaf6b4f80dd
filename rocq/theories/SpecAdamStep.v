(** SpecAdamStep.v -- how far one step of Adam may move a parameter in float32.  Nothing here refers to the code. *)
From Flocq Require Import BinarySingleNaN.
From Coq Require Import ZArith Reals List.
From Verif Require Import OpsB32 SpecRound.
Local Open Scope R_scope.

(** the first moment m is at most A times the root of the second moment v, unless v has overflowed or is a NaN *)
Definition balanced (A : R) (m v : b32) : Prop :=
  is_nan v = true \/ v = B754_infinity false \/
  (is_finite v = true /\ 0 <= B2R v /\ is_finite m = true /\ Rabs (B2R m) <= A * sqrt (B2R v) + / 2 ^ 58).
(** a ratio that the two means keep, whatever the gradients are.  Without the rounding the smallest one is
    (1 - beta1) / sqrt ((1 - beta2) (1 - beta1^2 / beta2)), 7.27 for the default settings *)
Definition keeps_ratio (beta1 beta2 A : R) : Prop :=
  0 <= A <= 64 /\ (1 + 8 * u32) ^ 2 * (beta1 ^ 2 / beta2 * A ^ 2 + (1 - beta1) ^ 2 / (1 - beta2)) <= A ^ 2.
(** the largest step, where p1 and p2 are the powers of beta1 and beta2 of the bias correction *)
Definition adam_cap (lr A p1 p2 : R) : R := Rabs lr * (A * sqrt (1 - p2) / (1 - p1) * (1 + 20 * u32) + / 2 ^ 20) + / 2 ^ 60.
(** q is the product of p and beta, rounded *)
Definition next_power (p beta q : b32) : Prop :=
  is_finite q = true /\ 0 <= B2R q <= B2R beta /\ Rabs (B2R q - B2R p * B2R beta) <= u32 * (B2R p * B2R beta) + eta32.

(** how far N steps of at most S each can lead away from x, if every step also multiplies by up to f (weight decay and rounding) *)
Definition drift (f S x : R) (N : nat) : R := f ^ N * (Rabs x + INR N * S) - Rabs x.
(** the number of batches of epochs with n samples each *)
Definition batches (bsz : nat) (ns : list nat) : nat := fold_right (fun n k => ((n + bsz - 1) / bsz + k)%nat) 0%nat ns.
