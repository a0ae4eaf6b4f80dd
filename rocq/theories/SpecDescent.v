(** SpecDescent.v -- the loss of a batch as a function of the parameters.  Nothing here refers to the C code. *)
From Coquelicot Require Import Coquelicot.
From Coq Require Import Reals List Arith.
From Verif Require Import Base Activation Loss SpecReal SpecOpt.
Import ListNotations.
Local Open Scope R_scope.

(** the mean loss of the samples b (numbers of rows of xs and ts) of a network with n inputs and no outputs *)
Definition mean_loss (lf : loss) (sh : shape) (n no : nat) (xs ts : list (list R)) (b : list nat) (th : nat -> R) : R :=
  rsum (map (fun k => loss_math lf no (vec (nth k ts [])) (eval sh n th (vec (nth k xs [])))) b) / INR (length b).

(** all np partial derivatives of f at th are 0 *)
Definition stationary (f : (nat -> R) -> R) (np : nat) (th : nat -> R) : Prop :=
  forall k, (k < np)%nat -> is_derive (fun v => f (upd th k v)) (th k) 0.

(** the loss of each sample of b is differentiable at th *)
Definition differentiable (lf : loss) (sh : shape) (n no : nat) (xs ts : list (list R)) (b : list nat) (th : nat -> R) : Prop :=
  forall k, In k b -> smooth sh n th (vec (nth k xs [])) /\ target_ok lf no (vec (nth k ts [])) (eval sh n th (vec (nth k xs []))).
