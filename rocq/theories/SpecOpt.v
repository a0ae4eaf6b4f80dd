(** SpecOpt.v -- the optimizers as in the textbooks, over real numbers.

    Nothing in this file refers to memory or to the C code.  th is the vector of all parameters; a batch is a
    list of sample numbers; grad b th is the gradient used for batch b at th. *)
From Coq Require Import Reals List Arith ZArith.
From Verif Require Import Base.
Import ListNotations.
Local Open Scope R_scope.

Definition vadd (a b : list R) : list R := map2 Rplus a b.
Definition vsub (a b : list R) : list R := map2 Rminus a b.
Definition vscale (k : R) (a : list R) : list R := map (Rmult k) a.
Definition vsqr (a : list R) : list R := map (fun x => x ^ 2) a.
Fixpoint rsum (l : list R) : R := match l with [] => 0 | x :: r => x + rsum r end.
(** component-wise arithmetic mean of vectors with n components *)
Definition vmean (n : nat) (gs : list (list R)) : list R :=
  map (fun j => rsum (map (fun g => nth j g 0) gs) / INR (length gs)) (seq 0 n).

(** the batches of an epoch: the sample order is cut into pieces of length bs, the last one may be shorter *)
Definition batches {A} (bs : nat) (order : list A) : list (list A) :=
  map (fun k => firstn bs (skipn (k * bs) order)) (seq 0 ((length order + bs - 1) / bs)).

Section Rules.
Variable grad : list nat -> list R -> list R.

(** ** learning rate: before and in batch t = 0, 1, 2, ... (what the code does); the batches are counted in 32 bits *)
Definition count32 (t : nat) : R := IZR (Z.of_nat t mod 2 ^ 32).
Fixpoint prod_decay (d : R) (t : nat) : R :=
  match t with O => 1 | S k => prod_decay d k * (1 / (1 + d * count32 k)) end.
Definition lr_after (lr0 d : R) (t : nat) : R := if Rlt_dec 0 d then lr0 * prod_decay d t else lr0.

(** ** gradient descent.  State: parameters, velocity, number of batches so far *)
Definition sgd_rule (mu : R) (nesterov : bool) (lr : nat -> R) (s : list R * list R * nat) (b : list nat) : list R * list R * nat :=
  let '(th, v, t) := s in
  if Rlt_dec 0 mu then
    let g := grad b (if nesterov then vadd th (vscale mu v) else th) in
    let v' := vsub (vscale mu v) (vscale (lr t) g) in
    (vadd th v', v', S t)
  else (vsub th (vscale (lr t) (grad b th)), v, S t).

(** ** RMSprop.  State: parameters, velocity, mean of the squared gradients, number of batches *)
Definition rms_delta (eps lr : R) (g r : list R) : list R := map2 (fun g r => - (lr * g / (eps + sqrt r))) g r.
Definition rms_rule (rho mu : R) (nesterov : bool) (lr : nat -> R) (s : list R * list R * list R * nat) (b : list nat)
    : list R * list R * list R * nat :=
  let '(th, v, r, t) := s in
  let eps := 1 / 10000000 in
  let r' g := vadd (vscale rho r) (vscale (1 - rho) (vsqr g)) in
  if Rlt_dec 0 mu then
    let g := grad b (if nesterov then vadd th (vscale mu v) else th) in
    let v' := vadd (vscale mu v) (rms_delta eps (lr t) g (r' g)) in
    (vadd th v', v', r' g, S t)
  else
    let g := grad b th in
    (vadd th (rms_delta eps (lr t) g (r' g)), v, r' g, S t).

(** ** Adagrad.  State: parameters, sum of the squared gradients, number of batches *)
Definition adagrad_rule (lr : nat -> R) (s : list R * list R * nat) (b : list nat) : list R * list R * nat :=
  let '(th, r, t) := s in
  let g := grad b th in
  let r' := vadd r (vsqr g) in
  (vadd th (rms_delta (1 / 10000000) (lr t) g r'), r', S t).

(** ** Adam with decoupled weight decay.  State: parameters, first and second moment, number of batches *)
Definition adam_rule (beta1 beta2 lr wd : R) (s : list R * list R * list R * nat) (b : list nat) : list R * list R * list R * nat :=
  let '(th, m, v, t) := s in
  let g := grad b th in
  let m' := vadd (vscale beta1 m) (vscale (1 - beta1) g) in
  let v' := vadd (vscale beta2 v) (vscale (1 - beta2) (vsqr g)) in
  let mhat := vscale (/ (1 - beta1 ^ S t)) m' in
  let vhat := vscale (/ (1 - beta2 ^ S t)) v' in
  let delta := map2 (fun m v => - (lr * m / (sqrt v + 1 / 100000000))) mhat vhat in
  (vadd th (if Rlt_dec 0 wd then vsub delta (vscale wd th) else delta), m', v', S t).
End Rules.
