(** SpecNames.v -- the documented names of losses and metrics, first the long one *)
From Coq Require Import String List.
From Verif Require Import Activation Loss.
Import ListNotations.
Local Open Scope string_scope.

Definition loss_names (l : loss) : list string :=
  match l with
  | MSE => ["mean_squared_error"; "mse"]
  | MAE => ["mean_absolute_error"; "mae"]
  | MAPE => ["mean_absolute_percentage_error"; "mape"]
  | CCE => ["categorical_crossentropy"]
  | BCE => ["binary_crossentropy"]
  end.
Definition metric_names (t : metric) : list string :=
  match t with
  | M_MSE => ["mean_squared_error"; "mse"]
  | M_MAE => ["mean_absolute_error"; "mae"]
  | M_MAPE => ["mean_absolute_percentage_error"; "mape"]
  | M_CCE => ["categorical_crossentropy"]
  | M_BCE => ["binary_crossentropy"]
  | M_CatAcc => ["categorical_accuracy"]
  | M_BinAcc => ["binary_accuracy"]
  end.
