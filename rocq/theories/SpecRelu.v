(** SpecRelu.v -- which floats of an array are processed in vector registers *)
From Coq Require Import Arith ZArith.

(** k is the index of the first of n floats at address a whose address is a multiple of w; n if there is none *)
Definition first_multiple (w a : Z) (n k : nat) : Prop :=
  k <= n /\ (forall i, i < k -> ((a + 4 * Z.of_nat i) mod w)%Z <> 0%Z) /\ (k < n -> ((a + 4 * Z.of_nat k) mod w = 0)%Z).

(** index i is in one of the groups of 16 floats that fit between k and n *)
Definition in_group (k n i : nat) : Prop := exists g, k + 16 * g <= i < k + 16 * g + 16 /\ k + 16 * g + 16 <= n.
