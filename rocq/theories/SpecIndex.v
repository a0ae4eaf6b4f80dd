(** SpecIndex.v -- which rows of the data a pass has to address.  Nothing here refers to the code. *)
From Coq Require Import ZArith List.
Import ListNotations.
Local Open Scope Z_scope.

(** row k of a matrix of samples begins k * width floats behind its start *)
Definition row_at (n_input n_output k : Z) : Z * Z := (k * n_input, k * n_output).

(** the batches of a pass over [rows] in this order: all rows, [batchsize] at a time, the last batch may be smaller but
    not empty; each batch comes with its number of rows *)
Definition are_batches {A} (batchsize : Z) (rows : list A) (bs : list (Z * list A)) : Prop :=
  concat (map snd bs) = rows /\
  Forall (fun b => fst b = Z.of_nat (length (snd b)) /\ 0 < fst b <= batchsize) bs /\
  Forall (fun b => fst b = batchsize) (removelast bs).

(** the blocks (offset in inputs, offset in output, number of rows) lie one behind the other, from row [k] to row [n],
    none needs more than [limit] floats at [per_row] floats per row *)
Fixpoint blocks (n_input n_output per_row limit n k : Z) (l : list (Z * Z * Z)) : Prop :=
  match l with
  | [] => k = n
  | (x, y, m) :: r => x = k * n_input /\ y = k * n_output /\ 0 <= m /\ per_row * m <= limit /\ blocks n_input n_output per_row limit n (k + m) r
  end.

Definition sumZ (l : list Z) : Z := fold_right Z.add 0 l.
