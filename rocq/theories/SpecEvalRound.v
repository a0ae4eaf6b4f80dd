(** SpecEvalRound.v -- how far the result of an evaluation in float32 may be from the exact one: bounds computed from the
    magnitudes of parameters and samples.  Nothing here refers to the code. *)
From Coq Require Import ZArith Reals List Arith.
From Flocq Require Import BinarySingleNaN.
From Verif Require Import Activation Loss OpsB32 SpecReal SpecOpt SpecMetric SpecRound SpecGradRound SpecStepRound.
Import ListNotations.
Local Open Scope R_scope.

(** ** the metrics in exact arithmetic *)
(** target and prediction are on the same side: a target of at least 1/2 stands for 1, otherwise for 0; the prediction is rounded *)
Definition hit (t y : R) : bool :=
  if Rle_dec (1 / 2) t then if Rle_dec (1 / 2) y then if Rlt_dec y (3 / 2) then true else false else false
  else if Rlt_dec (Rabs y) (1 / 2) then true else false.
(** position of the first maximum of v 0 .. v (n-1) *)
Fixpoint first_max (n : nat) (v : nat -> R) : nat :=
  match n with O => O | S k => let i := first_max k v in if Rlt_dec (v i) (v k) then k else i end.
Definition metric_math (m : metric) (n : nat) (t y : nat -> R) : R :=
  match m with
  | M_MSE => mse n t y
  | M_MAE => mae n t y
  | M_MAPE => mape n t y
  | M_BCE => bce n t y
  | M_CCE => cce n t y
  | M_BinAcc => INR (count_lt n (fun j => hit (t j) (y j))) / INR n
  | M_CatAcc => if Nat.eqb (first_max n y) (first_max n t) then 1 else 0
  end.

(** f is the natural logarithm up to a relative error of 4e-7 between 1e-7 and 1 *)
Definition accurate_log_unit (f : b32 -> b32) : Prop := forall x : b32, is_finite x = true -> 1 / 10 ^ 7 <= B2R x <= 1 ->
  is_finite (f x) = true /\ Rabs (B2R (f x) - ln (B2R x)) <= 4 / 10 ^ 7 * Rabs (ln (B2R x)).
Definition metric_covered (lm : libm) (m : metric) : Prop := match m with M_BCE | M_CCE => accurate_log_unit (lm_log lm) | _ => True end.

(** ** the bounds *)
(** numbers added in any order; a number divided by n *)
Definition sum_near (l : list near) : near :=
  let a := rsum (map mag l) in
  let e := rsum (map err l) in
  mk_near a (e + ((1 + u32) ^ length l - 1) * (a + e)).
Definition over (n : nat) (b : near) : near := mk_near (mag b / INR n) (err b / INR n).

(** output o minus target t *)
Definition diff (o : near) (t : R) : near := rounded 1 (mk_near (mag o + Rabs t) (err o)).
(** the logarithm of a probability p, given within e *)
Definition log_near (p e : R) : near :=
  let d := e / Rmax (1 / 10 ^ 7) (p - e) in mk_near (Rabs (ln p)) (d + 4 / 10 ^ 7 * (Rabs (ln p) + d)).
(** output j as a probability: y exact *)
Definition prob_err (o : near) (y : R) : R := err o + 2 / 10 ^ 8 * prob y.
(** the summand of one output: y exact, t target *)
Definition term_near (m : metric) (o : near) (y t : R) : near :=
  match m with
  | M_MSE => rounded 1 (times (diff o t) (diff o t))
  | M_MAE => diff o t
  | M_MAPE => rounded 3 (mk_near ((mag o + Rabs t) / Rmax t (1 / 10 ^ 7)) (err o / Rmax t (1 / 10 ^ 7)))
  | M_CCE => rounded 1 (times (exact t) (log_near (prob y) (prob_err o y)))
  | M_BCE =>
      let e := prob_err o y in
      rounded 1 (plus (rounded 1 (times (exact t) (log_near (prob y) e)))
                      (rounded 1 (times (rounded 1 (exact (1 - t))) (log_near (1 - prob y) (e + u32 * (1 - prob y + e))))))
  | M_BinAcc | M_CatAcc => mk_near 1 0
  end.
Definition terms (m : metric) (n : nat) (o : nat -> near) (y t : nat -> R) : list near :=
  map (fun j => term_near m (o j) (y j) (t j)) (seq 0 n).
(** the metric of one sample *)
Definition metric_near (m : metric) (n : nat) (o : nat -> near) (y t : nat -> R) : near :=
  match m with
  | M_MAPE => rounded 1 (over n (rounded 1 (times (exact 100) (sum_near (terms m n o y t)))))
  | M_CatAcc => mk_near 1 0
  | _ => mean_near (terms m n o y t)
  end.
(** what the metric needs: the values are in range; for the accuracies no output is closer to a border than its error *)
Definition metric_safe (m : metric) (n : nat) (o : nat -> near) (y t : nat -> R) : Prop :=
  match m with
  | M_CatAcc => forall j, (j < n)%nat -> let k := first_max n y in j <> k -> err (o k) + err (o j) < y k - y j
  | _ =>
      mean_fits (terms m n o y t) /\
      forall j, (j < n)%nat ->
        match m with
        | M_BinAcc => forall h, In h [-1 / 2; 1 / 2; 3 / 2] -> err (o j) < Rabs (y j - h)
        | M_BCE | M_CCE => Rabs (t j) <= 2 ^ 100
        | _ => cap (o j) + Rabs (t j) <= 2 ^ 126
        end
  end /\
  match m with M_MAPE => cap (rounded 1 (times (exact 100) (sum_near (terms m n o y t)))) <= 2 ^ 126 | _ => True end.

(** the outputs of a network (C61): err (outputs sh n th x j) is error_bound sh n th x j *)
Definition outputs (sh : shape) (n : nat) (th x : nat -> R) (j : nat) : near :=
  value (roundings sh n) (abs_eval sh n th (fun i => Rabs (x i)) j) (low_eval sh n th (fun i => Rabs (x i)) (fun _ => 0) j).
(** the mean over the samples *)
Definition sample_metric (m : metric) (sh : shape) (n : nat) (th : nat -> R) (xs ts : list (list R)) (i : nat) : near :=
  let x := vec (nth i xs []) in
  metric_near m (n_outputs sh n) (outputs sh n th x) (eval sh n th x) (vec (nth i ts [])).
Definition eval_nears (m : metric) (sh : shape) (n : nat) (th : nat -> R) (xs ts : list (list R)) : list near :=
  map (sample_metric m sh n th xs ts) (seq 0 (length xs)).
Definition mean_metric (m : metric) (sh : shape) (n : nat) (th : nat -> R) (xs ts : list (list R)) : R :=
  rsum (map (fun i => metric_math m (n_outputs sh n) (vec (nth i ts [])) (eval sh n th (vec (nth i xs [])))) (seq 0 (length xs))) / INR (length xs).
(** everything is in range *)
Definition evaluation_safe (m : metric) (sh : shape) (n : nat) (th : nat -> R) (xs ts : list (list R)) : Prop :=
  (forall i, (i < length xs)%nat ->
     let x := vec (nth i xs []) in
     in_range sh n 0 th (fun i => Rabs (x i)) (fun _ => 0) /\
     metric_safe m (n_outputs sh n) (outputs sh n th x) (eval sh n th x) (vec (nth i ts []))) /\
  mean_fits (eval_nears m sh n th xs ts).
