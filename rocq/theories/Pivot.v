(** Pivot.v -- the order in which the samples are visited: prepare_shuffle_pivot, fisher_yates_shuffle
    (src/optimizer.c:16-41) and the way optimizer_run_epoch uses them (src/optimizer.c:105-108). *)
From Coq Require Import List Arith.
From Verif Require Import Base.
Import ListNotations.

(** src/optimizer.c:16-31.  [st]: the function-static variable _n_sample, shared by all optimizers; returns its
    new value and the new pivot (NULL is [None]).  [alloc]: realloc succeeds.  (srand only sets the state of
    rand, which is arbitrary here.) *)
Definition prepare_shuffle_pivot (alloc : bool) (st : nat) (pivot : option (list nat)) (n : nat) : nat * option (list nat) :=
  if Nat.eqb n st then (st, pivot)
  else (n, if alloc then Some (seq 0 n) else None).

(** src/optimizer.c:35-40, the iterations i, i-1, ..., 1.  [draws i]: what rand() returns in iteration i *)
Fixpoint fisher_yates_loop (draws : nat -> nat) (i : nat) (arr : list nat) : res (list nat) :=
  match i with
  | 0 => Ok arr
  | S k =>
      let j := draws i mod (i + 1) in
      match nth_error arr j, nth_error arr i with
      | Some tmp, Some x => fisher_yates_loop draws k (set_nth (set_nth arr j x) i tmp)
      | _, _ => Fault OutOfBounds
      end
  end.
(** src/optimizer.c:33-41.  n = 0: i = UINT_MAX and i + 1 = 0, rand() % 0.  n = 1: the array is not accessed. *)
Definition fisher_yates_shuffle (draws : nat -> nat) (arr : option (list nat)) (n : nat) : res (option (list nat)) :=
  match n with
  | 0 => Fault DivByZero
  | 1 => Ok arr
  | _ => match arr with
         | None => Fault BadPointer
         | Some l => match fisher_yates_loop draws (n - 1) l with Ok l' => Ok (Some l') | Fault f => Fault f end
         end
  end.

(** The state of a process with many optimizers: _n_sample and the pivots *)
Record world := { w_static : nat; w_pivot : nat -> option (list nat) }.
(** before the first call; src/optimizer.h:70, src/optimizer.c:18 *)
Definition world0 : world := {| w_static := 0; w_pivot := fun _ => None |}.
(** one call of optimizer_run_epoch: which optimizer, n_train_samples, self->shuffle, the results of rand and
    realloc *)
Record call := { c_opt : nat; c_n : nat; c_shuffle : bool; c_draws : nat -> nat; c_alloc : bool }.
(** src/optimizer.c:105-108; the pivot of optimizer [c_opt k] in the result is the one self->run_epoch works with *)
Definition start_epoch (k : call) (w : world) : res world :=
  let (st, pv) := prepare_shuffle_pivot (c_alloc k) (w_static w) (w_pivot w (c_opt k)) (c_n k) in
  let set pv := {| w_static := st; w_pivot := fun o => if Nat.eqb o (c_opt k) then pv else w_pivot w o |} in
  if c_shuffle k then
    match fisher_yates_shuffle (c_draws k) pv (c_n k) with Ok pv' => Ok (set pv') | Fault f => Fault f end
  else Ok (set pv).
(** a history of calls *)
Fixpoint run_calls (ks : list call) (w : world) : res world :=
  match ks with
  | [] => Ok w
  | k :: r => match start_epoch k w with Ok w' => run_calls r w' | Fault f => Fault f end
  end.
