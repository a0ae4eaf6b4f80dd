(** SpecReal.v -- the mathematics of a feed-forward network, over real numbers.

    Nothing in this file refers to memory, SIMD or the C code. Vectors are functions from
    indices to reals. *)
From Coq Require Import Reals List.
From Verif Require Import Activation Loss.
Import ListNotations.
Local Open Scope R_scope.

(** f 0 + ... + f (n-1) *)
Fixpoint sumf (n : nat) (f : nat -> R) : R :=
  match n with O => 0 | S k => sumf k f + f k end.

(** the list of numbers as a vector *)
Definition vec (xs : list R) : nat -> R := fun i => nth i xs 0.

(** ** activation functions; n is the length of the vector *)
Definition act_math1 (g : act) (x : R) : R :=
  match g with
  | Softplus => ln (1 + exp x)
  | Softsign => x / (1 + Rabs x)
  | Hard_sigmoid => Rmax 0 (Rmin 1 (x / 5 + 1 / 2))
  | Exponential => exp x
  | Linear => x
  | Relu => Rmax 0 x
  | Sigmoid => 1 / (1 + exp (- x))
  | Tanh => (exp x - exp (- x)) / (exp x + exp (- x))
  | Softmax => x
  end.
Definition act_math (g : act) (n : nat) (z : nat -> R) (j : nat) : R :=
  match g with
  | Softmax => exp (z j) / sumf n (fun k => exp (z k))
  | _ => act_math1 g (z j)
  end.

(** ** networks.  A shape is the list of (number of outputs, activation) of the layers.
    th is the vector of all parameters: for each layer first the m biases, then the n * m weights
    in row-major order (weight from input i to output j at i * m + j). *)
Definition shape := list (nat * act).

Fixpoint eval (sh : shape) (n : nat) (th : nat -> R) (x : nat -> R) : nat -> R :=
  match sh with
  | [] => x
  | (m, g) :: r =>
      eval r m (fun k => th (m + n * m + k)%nat)
        (act_math g m (fun j => th j + sumf n (fun i => x i * th (m + (i * m + j))%nat)))
  end.

Fixpoint n_params (sh : shape) (n : nat) : nat :=
  match sh with [] => 0 | (m, _) :: r => m + n * m + n_params r m end.
Fixpoint n_outputs (sh : shape) (n : nat) : nat :=
  match sh with [] => n | (m, _) :: r => n_outputs r m end.

(** ** losses of a prediction y with target t, n outputs *)
Definition loss_math (l : loss) (n : nat) (t y : nat -> R) : R :=
  match l with
  | MSE => sumf n (fun j => (y j - t j) ^ 2) / INR n
  | MAE => sumf n (fun j => Rabs (y j - t j)) / INR n
  | MAPE => 100 * sumf n (fun j => Rabs ((t j - y j) / Rmax (t j) (1 / 10000000))) / INR n
  | BCE => - sumf n (fun j => t j * ln (y j) + (1 - t j) * ln (1 - y j)) / INR n
  | CCE => - sumf n (fun j => t j * ln (y j))
  end.

(** replace component k *)
Definition upd (th : nat -> R) (k : nat) (v : R) : nat -> R :=
  fun i => if Nat.eqb i k then v else th i.


(** ** where the loss is differentiable *)
(** x is not a kink of the activation function *)
Definition away (g : act) (x : R) : Prop :=
  match g with
  | Relu => x <> 0
  | Hard_sigmoid => x <> 5 / 2 /\ x <> - 5 / 2
  | _ => True
  end.

(** the pre-activations of a layer *)
Definition zf (n m : nat) (th : nat -> R) (x : nat -> R) (j : nat) : R :=
  th j + sumf n (fun i => x i * th (m + (i * m + j))%nat).
(** the pre-activations of all layers are away from kinks *)
Fixpoint smooth (sh : shape) (n : nat) (th x : nat -> R) : Prop :=
  match sh with
  | [] => True
  | (m, g) :: r =>
      (forall j, (j < m)%nat -> away g (zf n m th x j)) /\
      smooth r m (fun k => th (m + n * m + k)%nat) (act_math g m (zf n m th x))
  end.


(** combinations of loss and activations for which neuralnet_set_loss prints no warning and
    that have a gradient: no softmax in hidden layers, crossentropies with their own output activation *)
Definition matching (l : loss) (g : act) : Prop :=
  match l with BCE => g = Sigmoid | CCE => g = Softmax | _ => g <> Softmax end.
Fixpoint trainable (l : loss) (sh : shape) : Prop :=
  match sh with
  | [] => False
  | (m, g) :: r => match r with [] => matching l g | _ => g <> Softmax /\ trainable l r end
  end.
(** the target t is legal for the loss, and the prediction y is not at a kink *)
Definition target_ok (l : loss) (n : nat) (t y : nat -> R) : Prop :=
  match l with
  | MAE | MAPE => forall j, (j < n)%nat -> y j <> t j
  | CCE => sumf n t = 1
  | _ => True
  end.
