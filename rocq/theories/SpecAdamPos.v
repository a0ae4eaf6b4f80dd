(** SpecAdamPos.v -- when two components of a vector are treated alike.  Nothing here refers to the code. *)
From Coq Require Import ZArith Reals.
From Verif Require Import SpecRound.
Local Open Scope R_scope.

(** components i and j of a vector of n both belong to the complete groups of 8 at the beginning, or both do not *)
Definition same_part (n i j : nat) : Prop := ((i < 8 * (n / 8)) <-> (j < 8 * (n / 8)))%nat.
(** the running mean of the squares of g: share beta of the old mean v, the rest of the new square *)
Definition mean_square (beta v g : R) : R := beta * v + (1 - beta) * (g * g).
(** a and b differ by a few roundings of numbers of size e *)
Definition few_roundings (e a b : R) : Prop := Rabs (a - b) <= 20 * u32 * e + 20 * eta32.
