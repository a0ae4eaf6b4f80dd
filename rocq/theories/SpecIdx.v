(** SpecIdx.v -- idx files as their documentation describes them (no reference to the model). *)
From Coq Require Import ZArith Bool Ascii List.
Import ListNotations.
Local Open Scope nat_scope.

(** the number that four bytes stand for, most significant byte first *)
Definition big_endian (b : list ascii) (z : Z) : Prop :=
  length b = 4 /\ z = fold_left (fun acc c => (256 * acc + Z.of_nat (nat_of_ascii c))%Z) b 0%Z.

(** the file begins with a header for unsigned bytes and these dimensions, followed by content *)
Definition idx_file (file : list ascii) (dims : list Z) (content : list ascii) : Prop :=
  exists bs, Forall2 big_endian bs dims
    /\ file = map ascii_of_nat [0; 0; 8; length dims] ++ concat bs ++ content.

(** row i of an array of rows with k elements *)
Definition row {A} (l : list A) (i k : nat) : list A := firstn k (skipn (i * k) l).
