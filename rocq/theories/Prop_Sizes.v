(** Prop_Sizes.v -- C12, C07, C23: what the functions of the model that compute sizes mean; they occur in statements of other theorems. *)
From Coq Require Import List Arith Lia.
From Verif Require Import Base Ops OpsR Mem Activation Loss Neuralnet Batch Optimizer.
Import ListNotations.

Lemma fold_sum {A} (f : A -> nat) l : forall a, fold_left (fun s x => s + f x) l a = a + list_sum (map f l).
Proof. induction l as [|x l IH]; intros a; cbn [fold_left map]; [cbn; lia|]. rewrite IH. change (list_sum (f x :: map f l)) with (f x + list_sum (map f l)). lia. Qed.

(** the number of parameters: the biases and weights of all layers *)
Theorem parameter_count nn :
  total_n_parameters nn = list_sum (map (fun l => n_output l + n_input l * n_output l) (nn_layers nn)).
Proof.
  unfold total_n_parameters. rewrite fold_sum. cbn [Nat.add]. f_equal. apply map_ext. intros l. lia.
Qed.
Print Assumptions parameter_count.

(** the length of an input row, of an output row and of all outputs of the layers *)
Theorem network_sizes nn :
  (forall l r, nn_layers nn = l :: r -> in_size nn = n_input l)
  /\ (forall l r, nn_layers nn = r ++ [l] -> out_size nn = n_output l)
  /\ sum_outputs (nn_layers nn) = list_sum (map n_output (nn_layers nn)).
Proof.
  split; [|split].
  - intros l r E. unfold in_size. rewrite E. reflexivity.
  - intros l r E. unfold out_size. rewrite E, rev_app_distr. reflexivity.
  - unfold sum_outputs. rewrite fold_sum. reflexivity.
Qed.
Print Assumptions network_sizes.

(** a batch has the length that was asked for, the last one what is left *)
Theorem batch_length {FO : fops} (o : opt) n i : batch_size o n i = Nat.min (o_batchsize o) (n - i).
Proof. unfold batch_size. destruct (Nat.ltb_spec (n - i) (o_batchsize o)); lia. Qed.
Print Assumptions batch_length.

Example sizes_ex : exists nn l1 l2, nn_layers nn = [l1; l2] /\ total_n_parameters nn = 13 /\ in_size nn = 2 /\ out_size nn = 1 /\ sum_outputs (nn_layers nn) = 4.
Proof.
  set (l1 := Build_layer 2 3 (mkptr 0 0) (mkptr 1 0) Relu None). set (l2 := Build_layer 3 1 (mkptr 2 0) (mkptr 3 0) Linear None).
  exists (Build_neuralnet [l1; l2] None), l1, l2. repeat split.
Qed.
