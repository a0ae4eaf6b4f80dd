(** SpecRound.v -- how far a float32 prediction may be from the exact one: an error bound computed from the
    magnitudes of the parameters and of the input.  Nothing here refers to the code. *)
From Coq Require Import ZArith Reals List.
From Flocq Require Import BinarySingleNaN.
From Verif Require Import OpsB32 Activation SpecReal SpecLibm.
Import ListNotations.
Local Open Scope R_scope.

(** unit roundoff and half of the smallest positive number of binary32 *)
Definition u32 : R := / 2 ^ 24.
Definition eta32 : R := / 2 ^ 150.

(** a network is a list of (activation, weights, biases): its shape and its parameters as real numbers *)
Definition shape_b32 (net : list (act * list b32 * list b32)) : shape := map (fun t => (length (snd t), fst (fst t))) net.
Definition params_b32 (net : list (act * list b32 * list b32)) : list R :=
  flat_map (fun t => map (@B2R 24 128) (snd t) ++ map (@B2R 24 128) (snd (fst t))) net.

(** what the activations need of libm *)
Definition covered (lm : libm) (g : act) : Prop :=
  match g with
  | Linear | Relu | Softsign | Hard_sigmoid => True
  | Sigmoid | Softmax => accurate_exp (lm_exp lm)
  | Tanh => accurate_tanh (lm_tanh lm)
  | Softplus => accurate_exp (lm_exp lm) /\ accurate_log (lm_log lm)
  | Exponential => accurate_exp (lm_exp lm)
  end.
(** the largest of f 0, ..., f (n-1) and 0 *)
Fixpoint maxf (n : nat) (f : nat -> R) : R := match n with O => 0 | S k => Rmax (maxf k f) (f k) end.
(** number of roundings in the activation *)
Definition act_roundings (g : act) : nat := match g with Softsign | Hard_sigmoid => 3 | Softplus => 7 | _ => 0 end.
(** the activation of magnitudes *)
Definition abs_act (g : act) (m : nat) (a : nat -> R) (j : nat) : R :=
  match g with
  | Hard_sigmoid => a j / 5 + 1 / 2
  | Sigmoid => a j / 4 + 1 / 2
  | Softplus => a j + 1
  | Softmax => maxf m a / 2 + 1
  | Exponential => exp (a j) * (1 + 2 * a j)
  | _ => a j
  end.

(** number of roundings on the way from an input to an output *)
Fixpoint roundings (sh : shape) (n : nat) : nat :=
  match sh with [] => 0 | (m, g) :: r => n + 1 + act_roundings g + roundings r m end.

(** the magnitude of output j of a layer: |bias| + sum of |input| |weight| *)
Definition abs_lin (n m : nat) (th a : nat -> R) (j : nat) : R :=
  Rabs (th j) + sumf n (fun i => a i * Rabs (th (m + (i * m + j))%nat)).
(** the network of the magnitudes *)
Fixpoint abs_eval (sh : shape) (n : nat) (th a : nat -> R) : nat -> R :=
  match sh with
  | [] => a
  | (m, g) :: r => abs_eval r m (fun k => th (m + n * m + k)%nat) (abs_act g m (abs_lin n m th a))
  end.

(** what underflow and libm add: d is the absolute error of the inputs; the exponential magnifies it by up to twice
    the exponential of the magnitude a *)
Definition low_lin (n m : nat) (th d : nat -> R) (j : nat) : R :=
  (1 + u32) ^ (n + 1) * sumf n (fun i => d i * Rabs (th (m + (i * m + j))%nat) + eta32).
Definition low_act (g : act) (m : nat) (a d : nat -> R) (j : nat) : R :=
  match g with
  | Sigmoid => d j / 4 + 23 / 10 ^ 8
  | Tanh => d j + 6 / 10 ^ 7
  | Softplus => (1 + u32) ^ 7 * d j + 5 / 10 ^ 7
  | Softmax => maxf m d / 2 + (3 * INR m + 20) * u32
  | Exponential => exp (a j) * (2 * d j + 1 / 10 ^ 6)
  | _ => (1 + u32) ^ act_roundings g * (d j + eta32)
  end.
Fixpoint low_eval (sh : shape) (n : nat) (th a d : nat -> R) : nat -> R :=
  match sh with
  | [] => d
  | (m, g) :: r => low_eval r m (fun k => th (m + n * m + k)%nat) (abs_act g m (abs_lin n m th a)) (low_act g m (abs_lin n m th a) (low_lin n m th d))
  end.

(** the bound for output j *)
Definition error_bound (sh : shape) (n : nat) (th x : nat -> R) (j : nat) : R :=
  ((1 + u32) ^ roundings sh n - 1) * abs_eval sh n th (fun i => Rabs (x i)) j + low_eval sh n th (fun i => Rabs (x i)) (fun _ => 0) j.

(** the magnitudes, with all errors, stay in the range of binary32: differences of softmax, the exponential of
    softplus and the exponential itself need some room; softmax has at most 2^20 outputs, and what goes into an
    exponential has an error (the values of E) of at most 1/2 *)
Definition top (g : act) : R := match g with Softmax => 2 ^ 126 | Softplus => 80 | Exponential => 88 | _ => 2 ^ 127 end.
Definition width_ok (g : act) (m : nat) (E : nat -> R) : Prop :=
  match g with Softmax => INR m <= 2 ^ 20 | Exponential => forall j, (j < m)%nat -> E j <= 1 / 2 | _ => True end.
Fixpoint in_range (sh : shape) (n k : nat) (th a d : nat -> R) : Prop :=
  match sh with
  | [] => True
  | (m, g) :: r =>
      width_ok g m (fun j => ((1 + u32) ^ (k + n + 1) - 1) * abs_lin n m th a j + low_lin n m th d j) /\
      (forall j, (j < m)%nat -> (1 + u32) ^ (k + n + 1) * abs_lin n m th a j + low_lin n m th d j <= top g) /\
      in_range r m (k + n + 1 + act_roundings g) (fun q => th (m + n * m + q)%nat)
        (abs_act g m (abs_lin n m th a)) (low_act g m (abs_lin n m th a) (low_lin n m th d))
  end.

(** all parameters are finite, libm is accurate where the activations use it *)
Definition covered_net (lm : libm) (net : list (act * list b32 * list b32)) : Prop :=
  Forall (fun t => covered lm (fst (fst t)) /\ Forall (fun x => is_finite x = true) (snd (fst t)) /\ Forall (fun x => is_finite x = true) (snd t)) net.
