(** Prop_Names.v -- C70: losses and metrics by name *)
From Coq Require Import String Bool List.
From Verif Require Import Activation Loss Names SpecNames NamesProofs SpecOptCreate.
Import ListNotations.
Local Open Scope string_scope.

(** get_loss_func finds a loss by its names and nothing else; get_loss_name returns the long name *)
Theorem loss_lookup (name : string) (l : loss) :
  (get_loss_func name = Some l <-> In name (loss_names l))
  /\ (get_loss_func name = None <-> forall l', ~ In name (loss_names l'))
  /\ hd_error (loss_names l) = Some (get_loss_name l).
Proof.
  split; [apply get_loss_iff|]. split; [|destruct l; reflexivity]. split.
  - intros E l' H. apply get_loss_iff in H. congruence.
  - intros H. destruct (get_loss_func name) as [l'|] eqn:E; [|reflexivity]. apply get_loss_iff in E. destruct (H l' E).
Qed.
Print Assumptions loss_lookup.

Theorem metric_lookup (name : string) (t : metric) :
  (get_metric_func name = Some t <-> In name (metric_names t))
  /\ (get_metric_func name = None <-> forall t', ~ In name (metric_names t'))
  /\ hd_error (metric_names t) = Some (get_metric_name t).
Proof.
  split; [apply get_metric_iff|]. split; [|destruct t; reflexivity]. split.
  - intros E l' H. apply get_metric_iff in H. congruence.
  - intros H. destruct (get_metric_func name) as [l'|] eqn:E; [|reflexivity]. apply get_metric_iff in E. destruct (H l' E).
Qed.
Print Assumptions metric_lookup.

(** every name of a loss is a name of the metric that belongs to it: METRIC_FROM_NEURALNET of metrics.h:12 *)
Theorem loss_metric_same_name (name : string) (l : loss) :
  get_loss_func name = Some l ->
  get_metric_func name = Some (metric_for l) /\ get_metric_func (get_loss_name l) = Some (metric_for l).
Proof.
  intros E. apply get_loss_iff in E. split; apply get_metric_iff.
  - destruct l; exact E.
  - destruct l; cbn; auto.
Qed.
Print Assumptions loss_metric_same_name.

Example names_case : get_loss_func "mae" = Some MAE /\ get_metric_func "mae" = Some M_MAE /\ get_loss_func "binary_accuracy" = None
  /\ get_metric_func "binary_accuracy" = Some M_BinAcc /\ get_loss_func "Mae" = None.
Proof. repeat split. Qed.
