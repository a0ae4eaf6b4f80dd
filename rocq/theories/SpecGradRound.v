(** SpecGradRound.v -- how far a float32 gradient may be from the exact one: a bound computed from the magnitudes of
    the parameters, of the input and of the target.  Nothing here refers to the code. *)
From Coq Require Import ZArith Reals List.
From Verif Require Import Activation Loss SpecReal SpecRound.
Import ListNotations.
Local Open Scope R_scope.

(** an exact number of magnitude at most [mag], and a float within [err] of it *)
Record near := mk_near { mag : R; err : R }.
Definition cap (b : near) : R := mag b + err b.
(** k roundings: relative, and absolute near 0 *)
Definition rounded (k : nat) (b : near) : near := mk_near (mag b) (err b + ((1 + u32) ^ k - 1) * cap b + INR k * eta32).
(** the product *)
Definition times (b c : near) : near := mk_near (mag b * mag c) (mag b * err c + err b * mag c + err b * err c).
(** the sum of w i * b i with exact weights; at most n + 8 roundings one after the other *)
Definition dot (n : nat) (w : nat -> R) (b : nat -> near) : near :=
  let a := sumf n (fun i => Rabs (w i) * mag (b i)) in
  let e := sumf n (fun i => Rabs (w i) * err (b i)) in
  mk_near a (e + ((1 + u32) ^ (n + 8) - 1) * (a + e) + (1 + u32) ^ (n + 8) * (INR n * eta32)).

(** the value of a layer: k roundings so far, magnitude a, and d from underflow and libm *)
Definition value (k : nat) (a d : R) : near := mk_near a (((1 + u32) ^ k - 1) * a + d).

(** the slope of the activation function computed from its value o *)
Definition slope (g : act) (o : near) : near :=
  let e := err o in
  match g with
  | Hard_sigmoid => mk_near (1 / 5) u32
  | Sigmoid => rounded 3 (mk_near (1 / 4) (e * (1 + e)))
  | Tanh => rounded 3 (mk_near 1 (e * (2 + e)))
  | Softplus => mk_near 1 (2 * e + 3 / 10 ^ 6)
  | Softsign => mk_near 1 (e * (2 + e) + 20 * u32)
  | Exponential => o
  | _ => mk_near 1 0
  end.
(** an error signal e times the slope *)
Definition through (g : act) (o e : near) : near :=
  match g with Linear | Softmax | Relu => e | _ => rounded 1 (times e (slope g o)) end.

(** the derivative of the loss with respect to an output o (of n) with target t; for the two crossentropies with
    respect to what goes into the sigmoid resp. softmax *)
Definition loss_slope (l : loss) (n : nat) (o : near) (t : R) : near :=
  rounded 3 match l with
  | MSE => mk_near (2 * (mag o + Rabs t) / INR n) (2 * err o / INR n)
  | BCE => mk_near ((mag o + Rabs t) / INR n) (err o / INR n)
  | CCE => mk_near (mag o + Rabs t) (err o)
  | MAE => mk_near (1 / INR n) 0
  | MAPE => mk_near (100 / (Rmax t (1 / 10 ^ 7) * INR n)) 0
  end.
(** the activation that the error signal of the last layer passes *)
Definition last_through (l : loss) (g : act) : act := match l with BCE | CCE => Linear | _ => g end.

(** the values of a layer with n inputs and m outputs *)
Definition out_near (n m : nat) (g : act) (k : nat) (th a d : nat -> R) (j : nat) : near :=
  value (k + n + 1 + act_roundings g) (abs_act g m (abs_lin n m th a) j) (low_act g m (abs_lin n m th a) (low_lin n m th d) j).

(** the derivative of the loss with respect to the pre-activations of the first layer *)
Fixpoint delta (l : loss) (t : nat -> R) (sh : shape) (n k : nat) (th a d : nat -> R) (j : nat) : near :=
  match sh with
  | [] => mk_near 0 0
  | (m, g) :: r =>
      let o := out_near n m g k th a d in
      match r with
      | [] => through (last_through l g) (o j) (loss_slope l m (o j) (t j))
      | (m2, _) :: _ =>
          let th2 := fun q => th (m + n * m + q)%nat in
          through g (o j) (dot m2 (fun i => th2 (m2 + (j * m2 + i))%nat)
            (delta l t r m (k + n + 1 + act_roundings g) th2 (abs_act g m (abs_lin n m th a)) (low_act g m (abs_lin n m th a) (low_lin n m th d))))
      end
  end.
(** the gradient: parameter q *)
Fixpoint grad_near (l : loss) (t : nat -> R) (sh : shape) (n k : nat) (th a d : nat -> R) (q : nat) : near :=
  match sh with
  | [] => mk_near 0 0
  | (m, g) :: r =>
      if Nat.ltb q m then delta l t sh n k th a d q
      else if Nat.ltb q (m + n * m) then
        rounded 1 (times (value k (a ((q - m) / m)%nat) (d ((q - m) / m)%nat)) (delta l t sh n k th a d ((q - m) mod m)))
      else grad_near l t r m (k + n + 1 + act_roundings g) (fun q => th (m + n * m + q)%nat)
             (abs_act g m (abs_lin n m th a)) (low_act g m (abs_lin n m th a) (low_lin n m th d)) (q - (m + n * m))
  end.
(** the bound for parameter q *)
Definition grad_bound (l : loss) (sh : shape) (n : nat) (th x t : nat -> R) (q : nat) : R :=
  err (grad_near l t sh n 0 th (fun i => Rabs (x i)) (fun _ => 0) q).

(** the pre-activation z (float within ez) and the value s (float within es) are so far from kinks and poles that
    rounding does not carry them over *)
Definition clear (g : act) (z ez s es : R) : Prop :=
  match g with
  | Relu => ez < Rabs z
  | Hard_sigmoid => ez < Rabs z - 5 / 2 \/ es < s < 1 - es
  | Softsign => Rabs s + es < 1
  | Sigmoid | Tanh => es <= 1
  | Softplus => es <= 1 / 2
  | _ => True
  end.
(** the same for the loss, and what it needs of the range *)
Definition clear_loss (l : loss) (n : nat) (o : near) (y t : R) : Prop :=
  INR n < 2 ^ 24 /\ 2 * (cap o + Rabs t) <= 2 ^ 125 /\
  match l with MAE | MAPE => err o < Rabs (y - t) | _ => True end.

(** everything stays in range and away from kinks *)
Fixpoint safe (l : loss) (t : nat -> R) (sh : shape) (n k : nat) (th a d x : nat -> R) : Prop :=
  match sh with
  | [] => True
  | (m, g) :: r =>
      let o := out_near n m g k th a d in
      let z := zf n m th x in
      let k2 := (k + n + 1 + act_roundings g)%nat in
      let th2 := fun q => th (m + n * m + q)%nat in
      let a2 := abs_act g m (abs_lin n m th a) in
      let d2 := low_act g m (abs_lin n m th a) (low_lin n m th d) in
      let dl := delta l t sh n k th a d in
      (forall j, (j < m)%nat -> cap (dl j) <= 2 ^ 127 /\
        clear g (z j) (err (value (k + n + 1) (abs_lin n m th a j) (low_lin n m th d j))) (act_math g m z j) (err (o j))) /\
      (forall i j, (i < n)%nat -> (j < m)%nat -> cap (rounded 1 (times (value k (a i) (d i)) (dl j))) <= 2 ^ 127) /\
      match r with
      | [] => forall j, (j < m)%nat -> clear_loss l m (o j) (act_math g m z j) (t j)
      | (m2, _) :: _ =>
          (forall j, (j < m)%nat -> cap (dot m2 (fun i => th2 (m2 + (j * m2 + i))%nat) (delta l t r m k2 th2 a2 d2)) <= 2 ^ 127) /\
          safe l t r m k2 th2 a2 d2 (act_math g m z)
      end
  end.
