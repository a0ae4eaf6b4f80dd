(** Names.v -- lookup of loss and metric functions by name, src/loss.c:17-43, src/metrics.c:23-54 *)
From Coq Require Import String Bool.
From Verif Require Import Activation Loss Neuralnet.
Local Open Scope string_scope.

(** src/loss.c:17-32 get_loss_func *)
Definition get_loss_func (name : string) : option loss :=
  if name =? "mean_squared_error" then Some MSE
  else if name =? "mse" then Some MSE
  else if name =? "mean_absolute_error" then Some MAE
  else if name =? "mae" then Some MAE
  else if name =? "mean_absolute_percentage_error" then Some MAPE
  else if name =? "mape" then Some MAPE
  else if name =? "categorical_crossentropy" then Some CCE
  else if name =? "binary_crossentropy" then Some BCE
  else None.

(** src/loss.c:35-43 get_loss_name *)
Definition get_loss_name (l : loss) : string :=
  match l with
  | MSE => "mean_squared_error" | MAE => "mean_absolute_error"
  | MAPE => "mean_absolute_percentage_error" | BCE => "binary_crossentropy"
  | CCE => "categorical_crossentropy"
  end.

(** src/metrics.c:23-42 get_metric_func *)
Definition get_metric_func (name : string) : option metric :=
  if name =? "mean_squared_error" then Some M_MSE
  else if name =? "mse" then Some M_MSE
  else if name =? "mean_absolute_error" then Some M_MAE
  else if name =? "mae" then Some M_MAE
  else if name =? "mean_absolute_percentage_error" then Some M_MAPE
  else if name =? "mape" then Some M_MAPE
  else if name =? "categorical_crossentropy" then Some M_CCE
  else if name =? "binary_crossentropy" then Some M_BCE
  else if name =? "categorical_accuracy" then Some M_CatAcc
  else if name =? "binary_accuracy" then Some M_BinAcc
  else None.

(** src/metrics.c:44-54 get_metric_name *)
Definition get_metric_name (t : metric) : string :=
  match t with
  | M_MSE => "mean_squared_error" | M_MAE => "mean_absolute_error"
  | M_MAPE => "mean_absolute_percentage_error" | M_BCE => "binary_crossentropy"
  | M_CCE => "categorical_crossentropy" | M_CatAcc => "categorical_accuracy" | M_BinAcc => "binary_accuracy"
  end.

(** src/neuralnet.c:427-466 neuralnet_set_loss( nn, loss_name ) *)
Definition set_loss_by_name (nn : neuralnet) (name : string) : neuralnet := neuralnet_set_loss nn (get_loss_func name).
