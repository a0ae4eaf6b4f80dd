(** SpecStepRound.v -- how far a training step in float32 may be from the exact one: bounds computed from the magnitudes
    of the parameters and of the samples.  Nothing here refers to the code. *)
From Coquelicot Require Import Coquelicot.
From Flocq Require Import BinarySingleNaN.
From Coq Require Import ZArith Reals List Arith.
From Verif Require Import Base Activation Loss OpsB32 SpecReal SpecOpt SpecRound SpecGradRound.
Import ListNotations.
Local Open Scope R_scope.

(** the real numbers of a list of floats *)
Definition reals (l : list b32) : list R := map (@B2R 24 128) l.

(** a float that is the number itself; a sum *)
Definition exact (x : R) : near := mk_near (Rabs x) 0.
Definition plus (b c : near) : near := mk_near (mag b + mag c) (err b + err c).

(** the mean: the numbers are added in any order and the sum is divided by their count *)
Definition mean_near (l : list near) : near :=
  let n := length l in
  let a := rsum (map mag l) in
  let e := rsum (map err l) in
  rounded 1 (mk_near (a / INR n) ((e + ((1 + u32) ^ n - 1) * (a + e)) / INR n)).
Definition mean_fits (l : list near) : Prop :=
  INR (length l) < 2 ^ 24 /\ (1 + u32) ^ length l * rsum (map cap l) <= 2 ^ 126.

(** component q of the gradient of sample k, and of the batch b *)
Definition sample_near (lf : loss) (sh : shape) (n : nat) (th x t : nat -> R) (q : nat) : near :=
  grad_near lf t sh n 0 th (fun i => Rabs (x i)) (fun _ => 0) q.
Definition sample_nears (lf : loss) (sh : shape) (n : nat) (th : nat -> R) (xs ts : list (list R)) (b : list nat) (q : nat) : list near :=
  map (fun k => sample_near lf sh n th (vec (nth k xs [])) (vec (nth k ts [])) q) b.
Definition batch_near (lf : loss) (sh : shape) (n : nat) (th : nat -> R) (xs ts : list (list R)) (b : list nat) (q : nat) : near :=
  mean_near (sample_nears lf sh n th xs ts b q).

(** at th the samples of the batch are in range and away from kinks (C78), and so is their sum *)
Definition batch_safe (lf : loss) (sh : shape) (n : nat) (th : nat -> R) (xs ts : list (list R)) (b : list nat) : Prop :=
  (forall k, In k b ->
     let x := vec (nth k xs []) in let t := vec (nth k ts []) in
     (lf = CCE -> sumf (n_outputs sh n) t = 1) /\
     in_range sh n 0 th (fun i => Rabs (x i)) (fun _ => 0) /\
     safe lf t sh n 0 th (fun i => Rabs (x i)) (fun _ => 0) x) /\
  forall q, (q < n_params sh n)%nat -> mean_fits (sample_nears lf sh n th xs ts b q).

(** the learning rate after the decay: exact value, and what the float is near to; t batches so far *)
Definition rate (lr d : R) (t : nat) : R := if Rlt_dec 0 d then lr / (1 + d * count32 t) else lr.
Definition rate_near (lr d : R) (t : nat) : near :=
  let q := Rabs (rate lr d t) in
  mk_near q (if Rlt_dec 0 d then 10 * u32 * q + (2 * Rabs lr + 1) * eta32 else 0).

(** where the gradient is taken: with Nesterov momentum at the rounded sum of parameters and velocity *)
Definition interim (mu : b32) (nesterov : bool) (th v : list b32) : list b32 :=
  if Rlt_dec 0 (B2R mu) then if nesterov then map2 (Bplus mode_NE) th (map (fun y => Bmult mode_NE y mu) v) else th else th.

(** one component of a step of gradient descent: parameter th, velocity v, gradient g, learning rate r.
    The new velocity and the new parameter *)
Definition sgd_velocity (mu v : R) (g r : near) : near :=
  if Rlt_dec 0 mu then rounded 1 (plus (rounded 1 (exact (mu * v))) (rounded 1 (times g r))) else exact v.
Definition sgd_param (mu : R) (nesterov : bool) (th v : R) (g r : near) : near :=
  let push := rounded 1 (times g r) in
  rounded 1 (if Rlt_dec 0 mu then
               if nesterov then plus (rounded 1 (plus (exact th) (rounded 1 (exact (mu * v))))) push
               else plus (exact th) (sgd_velocity mu v g r)
             else plus (exact th) push).
(** learning rate and decay are in range *)
Definition rate_fits (lr d : R) : Prop := Rabs lr <= 2 ^ 126 /\ d <= 2 ^ 90.
