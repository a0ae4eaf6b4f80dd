(** Index32.v -- the integer arithmetic of training, evaluation and prediction with the types of the C code: which rows
    of the data are addressed, how much work memory is requested.  The models of the numeric code (Neuralnet.v, Batch.v,
    Optimizer.v, Evaluate.v) use natural numbers for the same quantities.

    Sizes are numbers of floats; an offset is the number that is added to a float pointer.  int is [Logger.to_int];
    the conversion of an unsigned int above INT_MAX to int is implementation-defined and wraps around (gcc). *)
From Coq Require Import ZArith Bool List.
From Verif Require Import Base Logger.
Import ListNotations.
Local Open Scope Z_scope.

(** arithmetic of unsigned int *)
Definition wrap32 (z : Z) : Z := z mod 4294967296.
(** (int) u for an unsigned int u *)
Definition int_of_unsigned (u : Z) : Z := if u <? 2147483648 then u else u - 4294967296.

(** all results or the first fault *)
Fixpoint collect {A B} (f : A -> res B) (l : list A) : res (list B) :=
  match l with
  | [] => Ok []
  | a :: r => rbind (f a) (fun b => rbind (collect f r) (fun bs => Ok (b :: bs)))
  end.
(** the values of [for (int b = 0; b < n; b++)] *)
Definition counter (n : Z) : list Z := map Z.of_nat (seq 0 (Z.to_nat n)).

(** ** training *)
Section Train.
  Variable n_input n_output batchsize : Z.   (* int, positive *)
  Variable n : Z.                            (* unsigned n_train_samples *)
  Variable pivot : list Z.                   (* unsigned *)

  (** src/optimizer.c:86-87 *)
  Definition batch_len (i : Z) : res Z :=
    rbind (to_int (int_of_unsigned n - int_of_unsigned i)) (fun remaining =>
    Ok (if remaining <? batchsize then remaining else batchsize)).

  (** src/optimizer.c:90-92: the offsets in train_X and train_Y in iteration b of the batch at i.  *i + b and
      pivot[idx] * n_input are unsigned. *)
  Definition train_row (i b : Z) : res (Z * Z) :=
    let idx := int_of_unsigned (wrap32 (i + b)) in
    if idx <? 0 then Fault OutOfBounds
    else match nth_error pivot (Z.to_nat idx) with
         | None => Fault OutOfBounds
         | Some k => Ok (wrap32 (k * n_input), wrap32 (k * n_output))
         end.

  (** the loop over the batches, src/SGD.c:61, src/optimizer.c:88-97 (likewise RMSprop.c, adagrad.c, adam.c): the rows
      of each batch and what its gradient is divided by.  The iterations of a batch are taken in order here. *)
  Fixpoint train_rows (fuel : nat) (i : Z) : res (list (Z * list (Z * Z))) :=
    match fuel with
    | O => Fault OutOfFuel
    | S fuel =>
        if i <? n then
          rbind (batch_len i) (fun len =>
          rbind (collect (train_row i) (counter len)) (fun rows =>
          rbind (train_rows fuel (wrap32 (i + len))) (fun rest => Ok ((len, rows) :: rest))))
        else Ok []
    end.
End Train.

(** ** evaluation and batch prediction *)
(** src/evaluate.c:33-46 without USE_CBLAS, src/neuralnet_predict_batch.c:25-26: the offsets in the two arrays *)
Definition sample_row (n_input n_output i : Z) : res (Z * Z) :=
  rbind (to_int (i * n_input)) (fun x => rbind (to_int (i * n_output)) (fun y => Ok (x, y))).
(** [n]: int *)
Definition sample_rows (n_input n_output n : Z) : res (list (Z * Z)) := collect (sample_row n_input n_output) (counter n).
(** src/optimizer.c:117, 122: evaluate is called with an unsigned number of samples *)
Definition evaluated_rows (n_input n_output n : Z) : res (list (Z * Z)) := sample_rows n_input n_output (int_of_unsigned n).

(** src/neuralnet_predict_batch.c:46-66 with USE_CBLAS: the calls that do the work, as (offset in inputs, offset in
    output, number of samples).  [outs]: the sizes of the layers.  An offset of a nested call is relative to that
    of its caller; pointers have 64 bits. *)
Fixpoint sum_int (outs : list Z) (s : Z) : res Z :=
  match outs with [] => Ok s | o :: r => rbind (to_int (s + o)) (fun s => sum_int r s) end.
Section Split.
  Variable nstack : Z.
  Variable outs : list Z.
  Variable n_input n_output : Z.
  Fixpoint split_rows (fuel : nat) (n x y : Z) : res (list (Z * Z * Z)) :=
    match fuel with
    | O => Fault OutOfFuel
    | S fuel =>
        rbind (sum_int outs 0) (fun s =>
        rbind (to_int (s * n)) (fun workmem_sz =>
        if nstack <? workmem_sz then
          let half := n / 2 in
          rbind (split_rows fuel half x y) (fun first =>
          rbind (to_int (half * n_input)) (fun dx =>
          rbind (to_int (half * n_output)) (fun dy =>
          rbind (split_rows fuel (n - half) (x + dx) (y + dy)) (fun second => Ok (first ++ second)))))
        else Ok [(x, y, n)]))
    end.
End Split.

(** ** work memory of one prediction, src/neuralnet.c:251-255: the number of floats of workmem.  [fps]:
    floats_per_simd_register *)
Definition predict_work (fps : Z) (outs : list Z) : res Z :=
  rbind (sum_int outs 0) (fun s =>
  rbind (to_int (fps * Z.of_nat (length outs))) (fun p => to_int (s + p))).
(** of backpropagation, src/neuralnet.c:485-489 *)
Definition backprop_work (fps n_input : Z) (outs : list Z) : res Z :=
  rbind (sum_int outs 0) (fun s =>
  rbind (to_int (s + n_input)) (fun t =>
  rbind (to_int (fps * Z.of_nat (length outs))) (fun p => to_int (t + p)))).
