(** Ex_Train.v -- a concrete training situation for the examples and counterexamples about optimizers: a network
    with one input and one linear output, parameters 0, and one sample array *)
From Coq Require Import List Arith ZArith Lia Bool Permutation.
From Verif Require Import Base BaseProofs Ops Mem MemProofs Kernels KernelProofs Activation ActivationProofs
  Loss Neuralnet ForwardProofs BackpropProofs PredictProofs SpecMem ParamProofs Batch BatchProofs Optimizer OptKernels OptProofs OptEpochs OptTrain.
Import ListNotations.
Local Open Scope mem_scope.

Section Case.
Context {FO : fops}.
Definition tc_nn : neuralnet := {| nn_layers := [Build_layer 1 1 (mkptr 0 0) (mkptr 1 0) Linear None]; nn_loss := None |}.
Definition tc_net : list flayer := [@Build_flayer FO [f0] [f0] Linear].
(** blocks: weight, bias, X, Y, two arrays of the optimizer, a gradient buffer *)
Definition tc_mem (xs ts : list F) : mem :=
  [mkblock 1024 [Some f0]; mkblock 2048 [Some f0]; mkblock 3072 (map Some xs); mkblock 4096 (map Some ts);
   mkblock 5120 [Some f0; Some f0]; mkblock 6144 [Some f0; Some f0]; mkblock 7168 [None; None]].
Definition rows (l : list F) : list (list F) := map (fun x => [x]) l.
Lemma concat_rows l : concat (rows l) = l.
Proof. induction l; simpl; auto. f_equal. auto. Qed.
Lemma nth_rows l i x : nth_error (rows l) i = Some x -> length x = 1.
Proof. unfold rows. rewrite nth_error_map. destruct (nth_error l i); simpl; intros H; inversion H; auto. Qed.
Lemma holds_block (m : mem) b a l : nth_error m b = Some (mkblock a (map Some l)) -> holds m (mkptr b 0) l.
Proof.
  intros H. eexists. split; [exact H|]. simpl. rewrite map_length. split; auto. unfold slice. simpl. rewrite firstn_all2; auto. rewrite map_length. auto.
Qed.

Lemma tc_train c xs ts : length ts = length xs ->
  train_mem c tc_nn MSE tc_net (tc_mem xs ts) (mkptr 2 0) (mkptr 3 0) (rows xs) (rows ts).
Proof.
  intros HL. split; [discriminate|].
  split. { simpl. unfold layer_holds, kal. simpl. repeat split; auto; try discriminate; try lia;
    [exact (holds_block (tc_mem xs ts) 0 1024 [f0] eq_refl)|exact (holds_block (tc_mem xs ts) 1 2048 [f0] eq_refl)]. }
  rewrite !concat_rows. split; [exact (holds_block (tc_mem xs ts) 2 3072 xs eq_refl)|].
  split; [exact (holds_block (tc_mem xs ts) 3 4096 ts eq_refl)|].
  split; [intros; eapply nth_rows; eauto|]. split; [intros; eapply nth_rows; eauto|].
  split. { unfold rows. rewrite !map_length. auto. }
  split.
  - intros [|[|i]] l d Hl Hd; inversion Hl; subst; inversion Hd; subst. exact I.
  - intros i l r H1 H2. cbn in H1. rewrite Nat.add_1_r in H1. destruct i; discriminate H1.
Qed.
Lemma tc_apart xs ts : params_apart tc_nn (mkptr 2 0) (mkptr 3 0) (rows xs) (rows ts).
Proof.
  split.
  - constructor; [constructor; [left; simpl; lia|constructor]|]. constructor; [constructor|constructor].
  - intros r [<-|[<-|[]]]; split; left; simpl; lia.
Qed.
Lemma tc_ready c xs ts : length ts = length xs ->
  train_ready c tc_nn MSE (mkptr 2 0) (mkptr 3 0) (rows xs) (rows ts) (tc_mem xs ts) [f0; f0].
Proof. intros H. split; [apply tc_apart|]. exists tc_net. split; [reflexivity|apply tc_train; auto]. Qed.
Lemma tc_clear xs ts b n : 4 <= b -> clear tc_nn (mkptr 2 0) (mkptr 3 0) (rows xs) (rows ts) (mkptr b 0) n.
Proof. intros H. split; [|split; left; simpl; lia]. constructor; [|constructor]. split; left; simpl; lia. Qed.
Lemma tc_array c xs ts b : b = 4 \/ b = 5 -> state_array c tc_nn (mkptr 2 0) (mkptr 3 0) (rows xs) (rows ts) (tc_mem xs ts) (mkptr b 0) [f0; f0].
Proof.
  intros H. split. { destruct H as [-> | ->]; [exact (holds_block (tc_mem xs ts) 4 5120 [f0; f0] eq_refl)|exact (holds_block (tc_mem xs ts) 5 6144 [f0; f0] eq_refl)]. }
  split; [reflexivity|]. split; [apply tc_clear; lia|]. split; simpl; lia.
Qed.

(** an epoch without OpenMP, and one in which two threads share each batch *)
Definition tc_opt (bsz : nat) (pv : list nat) : opt := {| o_nn := neuralnet_set_loss tc_nn (Some MSE); o_batchsize := bsz; o_pivot := Some pv |}.
Definition seq_sched : sched := {| s_omp := None; s_grad := fun _ => 0%Z; s_work := fun _ => 0%Z |}.
Definition tc_env : env := {| e_sched := fun _ => seq_sched; e_over := fun _ => []; e_bg := fun _ => 0%Z; e_tmp := fun _ => 0%Z; e_swap := fun _ => false |}.
Definition two_threads (bs : nat) : sched :=
  {| s_omp := Some [Thread 0 (seq 1 (bs - 1)); Thread 0 (seq 0 (Nat.min 1 bs))]; s_grad := fun _ => 0%Z; s_work := fun _ => 0%Z |}.
Definition tc_env_omp (c : cfg) (bsz n : nat) : env :=
  {| e_sched := fun i => two_threads (batch_size (tc_opt bsz []) n i); e_over := fun _ => repeat f0 (n_param_padding c 2 - 2);
     e_bg := fun _ => 0%Z; e_tmp := fun _ => 0%Z; e_swap := fun _ => true |}.
Lemma aligned_base_0 c : aligned_base c 0.
Proof. unfold aligned_base. apply Z.mod_0_l. unfold align_size. destruct (cfg_isa c); discriminate. Qed.
Lemma tc_epoch c bsz N pv : (forall k, In k pv -> k < N) -> epoch_ready c tc_nn MSE bsz N (tc_env, tc_opt bsz pv, length pv).
Proof.
  intros H. split; [reflexivity|]. split; [reflexivity|]. split; [discriminate|]. split; [reflexivity|]. split; [exact H|].
  intros i. split; [intros; apply aligned_base_0|]. split; [intros; apply aligned_base_0|]. split; [apply aligned_base_0|]. split; [apply aligned_base_0|].
  split; [exact I|reflexivity].
Qed.
Lemma tc_epoch_omp c bsz N pv : (forall k, In k pv -> k < N) -> epoch_ready c tc_nn MSE bsz N (tc_env_omp c bsz (length pv), tc_opt bsz pv, length pv).
Proof.
  intros H. split; [reflexivity|]. split; [reflexivity|]. split; [discriminate|]. split; [reflexivity|]. split; [exact H|].
  intros i. split; [intros; apply aligned_base_0|]. split; [intros; apply aligned_base_0|]. split; [apply aligned_base_0|]. split; [apply aligned_base_0|].
  split.
  - unfold sched_ok. simpl. rewrite app_nil_r. change (batch_size (tc_opt bsz pv) (length pv) i) with (batch_size (tc_opt bsz []) (length pv) i).
    destruct (batch_size (tc_opt bsz []) (length pv) i) as [|k]; [apply Permutation_refl|].
    replace (S k - 1) with k by lia. replace (Nat.min 1 (S k)) with 1 by lia. apply Permutation_sym. apply Permutation_cons_append.
  - simpl. apply repeat_length.
Qed.
End Case.
