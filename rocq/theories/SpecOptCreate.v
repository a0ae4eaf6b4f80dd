(** SpecOptCreate.v -- what an optimizer in memory is, and the metric that belongs to a loss. *)
From Coq Require Import ZArith Bool Ascii List.
From Verif Require Import Base Loss NpyList SpecList OptCreate.
Import ListNotations.
Local Open Scope nat_scope.

(** the metric of the same name *)
Definition metric_for (l : loss) : metric :=
  match l with MSE => M_MSE | MAE => M_MAE | MAPE => M_MAPE | CCE => M_CCE | BCE => M_BCE end.

(** SGD: velocity; RMSprop: velocity, r; Adagrad: r; Adam: r, s *)
Definition n_arrays (k : okind) : nat := match k with K_SGD => 1 | K_RMSprop => 2 | K_Adagrad => 1 | K_Adam => 2 end.

Definition opt_blocks (o : ropt) : list nat :=
  ro_self o :: ro_arrays o ++ match ro_pivot o with Some p => [p] | None => [] end.

(** block a is alive and is n floats 0.0f, all bytes 0 *)
Definition zero_floats (h : heap) (n : Z) (a : nat) : Prop :=
  exists l, holds h a (BMem l) /\ Z.of_nat (length l) = (4 * n)%Z /\ Forall (fun b => b = Some (ascii_of_nat 0)) l.

(** an optimizer for n parameters before the first epoch *)
Definition is_new_opt (h : heap) (n : Z) (o : ropt) : Prop :=
  length (ro_arrays o) = n_arrays (ro_kind o) /\ Forall (zero_floats h n) (ro_arrays o)
  /\ live h (ro_self o) /\ ro_pivot o = None /\ NoDup (opt_blocks o).

(** the optimizer reports these metrics: its field points to them, be they in the static array with the content st or in an
    array of the user; NULL reports nothing *)
Definition reports (st : list (option metric)) (o : ropt) (ms : list (option metric)) : Prop :=
  match ro_metrics o with MNull => False | MStatic => st = ms | MUser l => l = ms end.
