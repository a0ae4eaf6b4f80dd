(** SpecCallback.v -- what early stopping and model checkpointing should do, in terms of the sequence
    of monitored scores alone (no reference to the model of the callbacks). *)
From Coq Require Import ZArith Bool List.
From Flocq Require Import Core BinarySingleNaN.
From Verif Require Import OpsB32.
Import ListNotations.

(** x is strictly better than y (IEEE comparison) *)
Definition better (greater_is_better : bool) (x y : b32) : bool :=
  if greater_is_better then Bltb y x else Bltb x y.

(** epoch i improves on all epochs before it (so the first epoch always does) *)
Definition improves (g : bool) (s : list b32) (i : nat) : bool :=
  match nth_error s i with Some x => forallb (better g x) (firstn i s) | None => false end.

(** at some point more than p consecutive epochs brought no improvement *)
Definition must_stop (imp : nat -> bool) (k : nat) (p : Z) : Prop :=
  exists a b, (a < b <= k)%nat /\ (p < Z.of_nat (b - a))%Z /\ forall i, (a <= i < b)%nat -> imp i = false.

(** epoch b has the best score, and no earlier epoch is as good *)
Definition first_best (g : bool) (s : list b32) (b : nat) : Prop :=
  exists x, nth_error s b = Some x
    /\ (forall j y, nth_error s j = Some y -> better g y x = false)
    /\ (forall j y, (j < b)%nat -> nth_error s j = Some y -> better g x y = true).

(** the score monitored in an epoch: the result with the configured index; with a negative index the
    first validation result, or the first training result if there is no validation set *)
Definition monitored_score (monitor_idx : Z) (n_metrics : nat) (epoch : list b32 * bool) (x : b32) : Prop :=
  ((0 <= monitor_idx)%Z /\ nth_error (fst epoch) (Z.to_nat monitor_idx) = Some x)
  \/ ((monitor_idx < 0)%Z /\ snd epoch = true /\ nth_error (fst epoch) n_metrics = Some x)
  \/ ((monitor_idx < 0)%Z /\ snd epoch = false /\ nth_error (fst epoch) 0 = Some x).

(** scores below FLT_MAX and no NaN; when greater is better, FLT_MAX itself is excluded only *)
Definition flt_max_val : b32 := b32_of 16777215 104.
Definition usable (g : bool) (x : b32) : Prop :=
  is_nan x = false /\ Beqb x flt_max_val = false /\ (g = false -> Bltb x flt_max_val = true).

(** when less is better and scores are arbitrary floats: epoch i improves iff its score is below FLT_MAX
    and below every earlier score that is a number *)
Definition improves_any (s : list b32) (i : nat) : bool :=
  match nth_error s i with
  | Some x => Bltb x flt_max_val && forallb (fun y => is_nan y || Bltb x y) (firstn i s)
  | None => false
  end.

(** the callback that is run in the calls [mine] sees at one of its calls that more than p consecutive calls, up to and
    including this one, brought no improvement *)
Definition stop_seen (imp : nat -> bool) (mine : nat -> Prop) (n : nat) (p : Z) : Prop :=
  exists a b, (a <= b < n)%nat /\ mine b /\ (p < Z.of_nat (S b - a))%Z /\ forall i, (a <= i <= b)%nat -> imp i = false.
