(** Prop_OptInit.v -- C74: a new optimizer has the settings that were given, the default values otherwise, and training
    with it follows the update rule with these settings from zero state *)
From Coquelicot Require Import Coquelicot.
From Coq Require Import List Arith ZArith Lia Bool Reals Lra Permutation.
From Verif Require Import Base BaseProofs Ops OpsR Mem MemProofs Kernels KernelProofs Activation ActivationProofs
  Loss Neuralnet ForwardProofs BackpropProofs SpecReal RealForward RealGrad LossGrad GradProofs GradPropProofs PredictProofs BitsProofs SpecMem ParamProofs Batch BatchProofs
  BlasProofs Optimizer OptKernels OptProofs OptEpochs SpecOpt OptReal OptTrain Evaluate Ex_Mem Ex_Train Prop_Rules Prop_Rules2 OptInit SpecSettings.
Import ListNotations.
Local Open Scope nat_scope.
Local Open Scope mem_scope.

(** ** Specification *)
Definition batchsize_of (args : list oarg) : Z := given (fun a => match a with O_batchsize x => Some x | _ => None end) args 32%Z.
Definition shuffle_of (args : list oarg) : bool := given (fun a => match a with O_shuffle x => Some x | _ => None end) args true.

Section Settings.
Local Open Scope R_scope.
(** the default values as real numbers *)
Definition sgd_lr (args : list (@sgd_arg opsR)) : R := given (fun a => match a with SA_lr x => Some x | _ => None end) args (1 / 100).
Definition sgd_decay (args : list (@sgd_arg opsR)) : R := given (fun a => match a with SA_decay x => Some x | _ => None end) args 0.
Definition sgd_momentum (args : list (@sgd_arg opsR)) : R := given (fun a => match a with SA_momentum x => Some x | _ => None end) args 0.
Definition sgd_nesterov (args : list (@sgd_arg opsR)) : bool := given (fun a => match a with SA_nesterov x => Some x | _ => None end) args false.
Definition rms_lr (args : list (@rms_arg opsR)) : R := given (fun a => match a with RA_lr x => Some x | _ => None end) args (1 / 1000).
Definition rms_rho (args : list (@rms_arg opsR)) : R := given (fun a => match a with RA_rho x => Some x | _ => None end) args (9 / 10).
Definition rms_decay (args : list (@rms_arg opsR)) : R := given (fun a => match a with RA_decay x => Some x | _ => None end) args 0.
Definition rms_momentum (args : list (@rms_arg opsR)) : R := given (fun a => match a with RA_momentum x => Some x | _ => None end) args 0.
Definition rms_nesterov (args : list (@rms_arg opsR)) : bool := given (fun a => match a with RA_nesterov x => Some x | _ => None end) args false.
Definition adagrad_lr (args : list (@ag_arg opsR)) : R := given (fun a => match a with GA_lr x => Some x | _ => None end) args (1 / 100).
Definition adagrad_decay (args : list (@ag_arg opsR)) : R := given (fun a => match a with GA_decay x => Some x | _ => None end) args 0.
Definition adam_lr (args : list (@ad_arg opsR)) : R := given (fun a => match a with DA_lr x => Some x | _ => None end) args (1 / 1000).
Definition adam_beta1 (args : list (@ad_arg opsR)) : R := given (fun a => match a with DA_beta1 x => Some x | _ => None end) args (9 / 10).
Definition adam_beta2 (args : list (@ad_arg opsR)) : R := given (fun a => match a with DA_beta2 x => Some x | _ => None end) args (999 / 1000).
Definition adam_wd (args : list (@ad_arg opsR)) : R := given (fun a => match a with DA_wd x => Some x | _ => None end) args (1 / 10000).
End Settings.

(** the epochs of a new optimizer o: choices of the runtime and the sample orders *)
Definition epochs {FO : fops} (o : opt) (h : list (env * list nat)) : list (env * opt * nat) :=
  map (fun '(e, pv) => (e, {| o_nn := o_nn o; o_batchsize := o_batchsize o; o_pivot := Some pv |}, length pv)) h.
(** sample numbers below N, and sane choices of the runtime for batches of bsz samples *)
Definition runs_ready {FO : fops} (c : cfg) (nn : neuralnet) (lf : loss) (bsz N : nat) (h : list (env * list nat)) : Prop :=
  Forall (fun '(e, pv) => (forall k, In k pv -> k < N) /\
    env_ok c nn {| o_nn := neuralnet_set_loss nn (Some lf); o_batchsize := bsz; o_pivot := Some pv |} (length pv) e) h.
Definition run_batches {FO : fops} (bsz : nat) (h : list (env * list nat)) : list (list nat) := flat_map (fun '(e, pv) => batches bsz pv) h.
Definition zeros (n : nat) : list R := repeat 0%R n.

(** ** Proofs *)
(** C74: the settings *)
Theorem optimizer_settings (args : list oarg) :
  let p := optimizer_properties args in
  op_batchsize p = batchsize_of args /\ op_shuffle p = shuffle_of args /\
  op_metrics p = given (fun a => match a with O_metrics x => Some x | _ => None end) args None /\
  op_progress p = given (fun a => match a with O_progress x => Some x | _ => None end) args None.
Proof.
  intros p. unfold p, optimizer_properties.
  split; [|split; [|split]]; (erewrite member; [reflexivity|intros q []; reflexivity]).
Qed.
Print Assumptions optimizer_settings.
(** the later initializer counts, and the defaults of the others remain *)
Example settings_case : let p := optimizer_properties [O_batchsize 16; O_shuffle false; O_batchsize 8] in
  op_batchsize p = 8%Z /\ op_shuffle p = false /\ op_metrics p = None.
Proof. repeat split. Qed.

Lemma sgd_props_ok args : sgd_properties args =
  {| sp_lr := sgd_lr args; sp_decay := sgd_decay args; sp_mu := sgd_momentum args; sp_nesterov := sgd_nesterov args |} :> @sgd_props opsR.
Proof.
  transitivity (let p := sgd_properties args in {| sp_lr := sp_lr p; sp_decay := sp_decay p; sp_mu := sp_mu p; sp_nesterov := sp_nesterov p |} : @sgd_props opsR).
  { destruct (sgd_properties args). reflexivity. }
  unfold sgd_properties. cbv zeta. f_equal; (erewrite member; [reflexivity|intros q []; reflexivity]).
Qed.
Lemma rms_props_ok args : rms_properties args =
  {| rp_lr := rms_lr args; rp_rho := rms_rho args; rp_decay := rms_decay args; rp_mu := rms_momentum args; rp_nesterov := rms_nesterov args |} :> @rms_props opsR.
Proof.
  transitivity (let p := rms_properties args in {| rp_lr := rp_lr p; rp_rho := rp_rho p; rp_decay := rp_decay p; rp_mu := rp_mu p; rp_nesterov := rp_nesterov p |} : @rms_props opsR).
  { destruct (rms_properties args). reflexivity. }
  unfold rms_properties. cbv zeta. f_equal; (erewrite member; [reflexivity|intros q []; reflexivity]).
Qed.
Lemma ag_props_ok args : ag_properties args = {| gp_lr := adagrad_lr args; gp_decay := adagrad_decay args |} :> @ag_props opsR.
Proof.
  transitivity (let p := ag_properties args in {| gp_lr := gp_lr p; gp_decay := gp_decay p |} : @ag_props opsR).
  { destruct (ag_properties args). reflexivity. }
  unfold ag_properties. cbv zeta. f_equal; (erewrite member; [reflexivity|intros q []; reflexivity]).
Qed.
Lemma ad_props_ok args : ad_properties args =
  {| dp_lr := adam_lr args; dp_beta1 := adam_beta1 args; dp_beta2 := adam_beta2 args; dp_wd := adam_wd args |} :> @ad_props opsR.
Proof.
  transitivity (let p := ad_properties args in {| dp_lr := dp_lr p; dp_beta1 := dp_beta1 p; dp_beta2 := dp_beta2 p; dp_wd := dp_wd p |} : @ad_props opsR).
  { destruct (ad_properties args). reflexivity. }
  unfold ad_properties. cbv zeta. f_equal; (erewrite member; [reflexivity|intros q []; reflexivity]).
Qed.

Section Trains.
Variables (c : cfg) (nn : neuralnet) (lf : loss) (X Y : ptr) (xs ts : list (list R)) (m : @mem opsR) (th : list R).
Let np := total_n_parameters nn.
Hypothesis TR : @train_ready opsR c nn lf X Y xs ts m th.
Let PA : params_apart nn X Y xs ts := proj1 TR.
Definition zblock (b : Z) (n : nat) : @block opsR := @mkblock opsR b (map Some (zeros n)).

Lemma array_init_ok b (m0 : @mem opsR) : @array_init opsR b np m0 = Ok (mkptr (length m0) 0, m0 ++ [zblock b np]).
Proof.
  unfold array_init, bind, alloca, ret.
  rewrite (@storev_valid0 opsR); [|apply (@valid_last opsR); rewrite !repeat_length; lia].
  f_equal. f_equal. pose proof (@writem_last_none opsR m0 b np (zeros np) []) as H. simpl in H. rewrite !app_nil_r in H.
  apply H. apply repeat_length.
Qed.
Lemma ad_init_ok (p : @ad_props opsR) b b' : ad_init nn p b b' m =
  Ok ({| ad_lr := dp_lr p; ad_beta1 := dp_beta1 p; ad_beta2 := dp_beta2 p; ad_wd := dp_wd p;
         ad_r := mkptr (length m) 0; ad_s := mkptr (S (length m)) 0 |}, m ++ [zblock b np; zblock b' np]).
Proof.
  unfold ad_init, bind, alloca, ret. fold np. change (@F opsR) with R in *.
  set (m1 := m ++ [@mkblock opsR b (repeat None np)]). set (m2 := m1 ++ [@mkblock opsR b' (repeat None np)]).
  assert (L1 : length m1 = S (length m)) by (unfold m1; rewrite app_length; simpl; lia).
  assert (V1 : @valid opsR m1 (mkptr (length m) 0) np) by (apply (@valid_last opsR); rewrite repeat_length; lia).
  assert (W1 : @writem opsR m2 (mkptr (length m) 0) (zeros np) = (m ++ [zblock b np]) ++ [@mkblock opsR b' (repeat None np)]).
  { unfold m2. rewrite (@writem_app_st opsR) by (simpl; lia). f_equal.
    pose proof (@writem_last_none opsR m b np (zeros np) []) as H. simpl in H. rewrite !app_nil_r in H. apply H. apply repeat_length. }
  rewrite (@storev_valid0 opsR m2).
  2:{ simpl. rewrite repeat_length. unfold m2. apply (@valid_app_st opsR); [simpl; lia|exact V1]. }
  change (repeat (@f0 opsR) np) with (zeros np). rewrite W1.
  assert (L2 : length (m ++ [zblock b np]) = S (length m)) by (rewrite app_length; simpl; lia).
  match goal with |- context [ {| blk := ?k; off := 0 |} ] => lazymatch k with length m => fail | S _ => fail | _ => replace k with (S (length m)) by (symmetry; exact L1) end end.
  rewrite <- L2. rewrite (@storev_valid0 opsR); [|apply (@valid_last opsR); unfold zeros; rewrite !repeat_length; lia].
  pose proof (@writem_last_none opsR (m ++ [zblock b np]) b' np (zeros np) []) as H. simpl in H. rewrite !app_nil_r in H.
  apply f_equal. apply f_equal2; [|etransitivity; [exact (H (repeat_length _ _))|rewrite <- app_assoc; reflexivity]].
  repeat f_equal.
Qed.
Lemma ready_app st : @train_ready opsR c nn lf X Y xs ts (m ++ st) th.
Proof.
  destruct (@ready_facts c nn lf X Y xs ts m th TR) as (_ & Hne & Hch & HX & HY & HL).
  apply th_ready; auto. apply (@th_app opsR). apply ready_th. auto.
Qed.
Lemma zeros_array b pre post : aligned_base c b ->
  @state_array opsR c nn X Y xs ts ((m ++ pre) ++ zblock b np :: post) (mkptr (length (m ++ pre)) 0) (zeros np).
Proof.
  intros A. apply array_svec. replace (zblock b np :: post) with ([zblock b np] ++ post) by reflexivity. rewrite app_assoc.
  apply (@svec_app opsR). destruct (ready_app pre) as (_ & net & _ & T).
  split; [apply (@holds_last_all opsR)|]. split; [apply repeat_length|]. split; [|apply (@stack_kal opsR); auto].
  eapply (@clear_last opsR); [exact T|]. auto.
Qed.

Lemma epochs_ready oargs h : runs_ready c nn lf (Z.to_nat (batchsize_of oargs)) (length xs) h ->
  Forall (@epoch_ready opsR c nn lf (Z.to_nat (batchsize_of oargs)) (length xs))
    (epochs (opt_init (neuralnet_set_loss nn (Some lf)) (optimizer_properties oargs)) h).
Proof.
  intros H. unfold epochs, opt_init. simpl. rewrite (proj1 (optimizer_settings oargs)). apply Forall_map. eapply Forall_impl; [|exact H].
  intros [e pv] [A B]. split; [reflexivity|]. split; [reflexivity|]. split; [discriminate|]. split; [reflexivity|]. split; auto.
Qed.
Lemma epochs_batches bsz o h : @all_batches opsR bsz (epochs o h) = run_batches bsz h.
Proof. unfold all_batches, epochs, run_batches. rewrite flat_map_concat_map, map_map, flat_map_concat_map. f_equal. apply map_ext. intros [e pv]. reflexivity. Qed.

(** C74.  oargs and args: the arguments of OPTIMIZER_PROPERTIES and SGD_PROPERTIES; b: the address that simd_malloc
    returns.  Any number of epochs after the creation. *)
Theorem sgd_from_creation (oargs : list oarg) (args : list (@sgd_arg opsR)) (b : Z) (h : list (@env opsR * list nat)) :
  aligned_base c b -> let bsz := Z.to_nat (batchsize_of oargs) in 0 < bsz -> runs_ready c nn lf bsz (length xs) h ->
  exists G, is_gradient nn lf G /\ is_backprop c nn lf G /\
  let rule := sgd_rule (batch_mean nn xs ts G) (sgd_momentum args) (sgd_nesterov args) (fun t => lr_after (sgd_lr args) (sgd_decay args) (S t)) in
  exists m' th' v' t' s', fold_left rule (run_batches bsz h) (th, zeros np, 0) = (th', v', t') /\
    (s <- sgd_init nn (sgd_properties args) b ;;
     training (fun e o n => @sgd_epoch opsR c exp e o n X Y)
       (epochs (opt_init (neuralnet_set_loss nn (Some lf)) (optimizer_properties oargs)) h) s) m = Ok (s', m') /\
    @train_ready opsR c nn lf X Y xs ts m' th' /\
    only_changes_in (m ++ [zblock b np]) m' ((mkptr (length m) 0, np) :: regions (nn_layers nn)).
Proof.
  intros A bsz Hb H.
  pose proof (zeros_array b [] [] A) as SA. rewrite app_nil_r in SA. change (@F opsR) with R in *.
  destruct (sgd_recurrence c nn lf X Y xs ts (m ++ [zblock b np]) bsz (sgd_lr args) (sgd_decay args) (sgd_momentum args) (sgd_nesterov args)
    (mkptr (length m) 0) th (zeros np) _ Hb (ready_app _) SA (epochs_ready oargs h H)) as (G & G1 & G2 & m' & th' & v' & t' & E1 & E2 & E3 & E4 & E5).
  exists G. split; [exact G1|]. split; [exact G2|]. intros rule. rewrite epochs_batches in E1.
  exists m', th', v', t'. eexists. split; [exact E1|]. split; [|split; [exact E3|exact E5]].
  rewrite sgd_props_ok. unfold sgd_init, bind at 1. unfold bind at 1. fold np. rewrite array_init_ok. unfold ret at 1. exact E2.
Qed.

(** r behind velocity *)
Theorem rmsprop_from_creation (oargs : list oarg) (args : list (@rms_arg opsR)) (b b' : Z) (h : list (@env opsR * list nat)) :
  aligned_base c b -> aligned_base c b' -> let bsz := Z.to_nat (batchsize_of oargs) in 0 < bsz -> runs_ready c nn lf bsz (length xs) h ->
  exists G, is_gradient nn lf G /\ is_backprop c nn lf G /\
  let rule := rms_rule (batch_mean nn xs ts G) (rms_rho args) (rms_momentum args) (rms_nesterov args) (fun t => lr_after (rms_lr args) (rms_decay args) (S t)) in
  exists m' th' v' r' t' s', fold_left rule (run_batches bsz h) (th, zeros np, zeros np, 0) = (th', v', r', t') /\
    (s <- rms_init nn (rms_properties args) b b' ;;
     training (fun e o n => @rmsprop_epoch opsR c exp e o n X Y)
       (epochs (opt_init (neuralnet_set_loss nn (Some lf)) (optimizer_properties oargs)) h) s) m = Ok (s', m') /\
    @train_ready opsR c nn lf X Y xs ts m' th' /\
    only_changes_in (m ++ [zblock b np; zblock b' np]) m'
      ((mkptr (length m) 0, np) :: (mkptr (S (length m)) 0, np) :: regions (nn_layers nn)).
Proof.
  intros A A' bsz Hb H.
  pose proof (zeros_array b [] [zblock b' np] A) as SA. rewrite app_nil_r in SA.
  pose proof (zeros_array b' [zblock b np] [] A') as SB.
  assert (EB : (m ++ [zblock b np]) ++ [zblock b' np] = m ++ [zblock b np; zblock b' np]) by (rewrite <- app_assoc; reflexivity).
  assert (LB : length (m ++ [zblock b np]) = S (length m)) by (rewrite app_length; simpl; lia).
  rewrite EB, LB in SB. change (@F opsR) with R in *.
  assert (D : disjoint (mkptr (length m) 0) np (mkptr (S (length m)) 0) np) by (left; simpl; lia).
  destruct (rmsprop_recurrence c nn lf X Y xs ts (m ++ [zblock b np; zblock b' np]) bsz (rms_lr args) (rms_decay args) (rms_rho args) (rms_momentum args) (rms_nesterov args)
    (mkptr (length m) 0) (mkptr (S (length m)) 0) th (zeros np) (zeros np) _ Hb (ready_app _) SA SB D (epochs_ready oargs h H))
    as (G & G1 & G2 & m' & th' & v' & r' & t' & E1 & E2 & E3 & E4 & E4' & E5).
  exists G. split; [exact G1|]. split; [exact G2|]. intros rule. rewrite epochs_batches in E1.
  exists m', th', v', r', t'. eexists. split; [exact E1|]. split; [|split; [exact E3|exact E5]].
  rewrite rms_props_ok. unfold rms_init, bind at 1. unfold bind at 1. fold np. rewrite array_init_ok.
  unfold bind at 1. rewrite array_init_ok. rewrite EB, LB. unfold ret at 1. exact E2.
Qed.

Theorem adagrad_from_creation (oargs : list oarg) (args : list (@ag_arg opsR)) (b : Z) (h : list (@env opsR * list nat)) :
  aligned_base c b -> let bsz := Z.to_nat (batchsize_of oargs) in 0 < bsz -> runs_ready c nn lf bsz (length xs) h ->
  exists G, is_gradient nn lf G /\ is_backprop c nn lf G /\
  let rule := adagrad_rule (batch_mean nn xs ts G) (fun t => lr_after (adagrad_lr args) (adagrad_decay args) (S t)) in
  exists m' th' r' t' s', fold_left rule (run_batches bsz h) (th, zeros np, 0) = (th', r', t') /\
    (s <- ag_init nn (ag_properties args) b ;;
     training (fun e o n => @adagrad_epoch opsR c exp e o n X Y)
       (epochs (opt_init (neuralnet_set_loss nn (Some lf)) (optimizer_properties oargs)) h) s) m = Ok (s', m') /\
    @train_ready opsR c nn lf X Y xs ts m' th' /\
    only_changes_in (m ++ [zblock b np]) m' ((mkptr (length m) 0, np) :: regions (nn_layers nn)).
Proof.
  intros A bsz Hb H.
  pose proof (zeros_array b [] [] A) as SA. rewrite app_nil_r in SA. change (@F opsR) with R in *.
  destruct (adagrad_recurrence c nn lf X Y xs ts (m ++ [zblock b np]) bsz (adagrad_lr args) (adagrad_decay args)
    (mkptr (length m) 0) th (zeros np) _ Hb (ready_app _) SA (epochs_ready oargs h H)) as (G & G1 & G2 & m' & th' & v' & t' & E1 & E2 & E3 & E4 & E5).
  exists G. split; [exact G1|]. split; [exact G2|]. intros rule. rewrite epochs_batches in E1.
  exists m', th', v', t'. eexists. split; [exact E1|]. split; [|split; [exact E3|exact E5]].
  rewrite ag_props_ok. unfold ag_init, bind at 1. unfold bind at 1. fold np. rewrite array_init_ok. unfold ret at 1. exact E2.
Qed.

(** the first Adam optimizer of the process (C30: the bias correction is shared by all of them) *)
Theorem adam_from_creation (oargs : list oarg) (args : list (@ad_arg opsR)) (b b' : Z) (h : list (@env opsR * list nat)) :
  aligned_base c b -> aligned_base c b' -> let bsz := Z.to_nat (batchsize_of oargs) in 0 < bsz -> runs_ready c nn lf bsz (length xs) h ->
  exists G, is_gradient nn lf G /\ is_backprop c nn lf G /\
  let rule := adam_rule (batch_mean nn xs ts G) (adam_beta1 args) (adam_beta2 args) (adam_lr args) (adam_wd args) in
  exists m' th' v' r' t' s', fold_left rule (run_batches bsz h) (th, zeros np, zeros np, 0) = (th', v', r', t') /\
    (s <- ad_init nn (ad_properties args) b b' ;;
     training (fun e o n => @adam_epoch opsR c exp e o n X Y s)
       (epochs (opt_init (neuralnet_set_loss nn (Some lf)) (optimizer_properties oargs)) h) adam_static_init) m = Ok (s', m') /\
    @train_ready opsR c nn lf X Y xs ts m' th' /\
    only_changes_in (m ++ [zblock b np; zblock b' np]) m'
      ((mkptr (length m) 0, np) :: (mkptr (S (length m)) 0, np) :: regions (nn_layers nn)).
Proof.
  intros A A' bsz Hb H.
  pose proof (zeros_array b [] [zblock b' np] A) as SA. rewrite app_nil_r in SA.
  pose proof (zeros_array b' [zblock b np] [] A') as SB.
  assert (EB : (m ++ [zblock b np]) ++ [zblock b' np] = m ++ [zblock b np; zblock b' np]) by (rewrite <- app_assoc; reflexivity).
  assert (LB : length (m ++ [zblock b np]) = S (length m)) by (rewrite app_length; simpl; lia).
  rewrite EB, LB in SB. change (@F opsR) with R in *.
  assert (D : disjoint (mkptr (length m) 0) np (mkptr (S (length m)) 0) np) by (left; simpl; lia).
  destruct (adam_recurrence_partial c nn lf X Y xs ts (m ++ [zblock b np; zblock b' np]) bsz (adam_lr args) (adam_beta1 args) (adam_beta2 args) (adam_wd args)
    (mkptr (length m) 0) (mkptr (S (length m)) 0) th (zeros np) (zeros np) 0 _ Hb (ready_app _) SA SB D (epochs_ready oargs h H))
    as (G & G1 & G2 & m' & th' & v' & r' & t' & E1 & E2 & E3 & E4 & E4' & E5).
  exists G. split; [exact G1|]. split; [exact G2|]. intros rule. rewrite epochs_batches in E1.
  exists m', th', v', r', t'. eexists. split; [exact E1|]. split; [|split; [exact E3|exact E5]].
  rewrite ad_props_ok. unfold bind at 1. rewrite ad_init_ok. simpl. exact E2.
Qed.
End Trains.
Print Assumptions sgd_from_creation.
Print Assumptions rmsprop_from_creation.
Print Assumptions adagrad_from_creation.
Print Assumptions adam_from_creation.

(** the hypotheses of the four theorems hold for a small network, one sample, the default batch size and two epochs *)
Definition oi_runs : list (@env opsR * list nat) := [(tc_env, [0]); (tc_env, [0])].
Example creation_case : forall c : cfg,
  @train_ready opsR c tc_nn MSE (mkptr 2 0) (mkptr 3 0) [[1]]%R [[1]]%R (@tc_mem opsR [1]%R [1]%R) [0; 0]%R /\
  aligned_base c 0 /\ 0 < Z.to_nat (batchsize_of []) /\ runs_ready c tc_nn MSE (Z.to_nat (batchsize_of [])) 1 oi_runs.
Proof.
  intros c. split; [exact (@tc_ready opsR c [1]%R [1]%R eq_refl)|]. split; [apply aligned_base_0|]. split; [simpl; lia|].
  assert (H : forall k, In k [0] -> k < 1) by (intros k [<-|[]]; lia).
  destruct (@tc_epoch opsR c 32 1 [0] H) as (_ & _ & _ & _ & _ & E).
  constructor; [|constructor; [|constructor]]; (split; [exact H|exact E]).
Qed.
(** ... and the first batch of SGD with default settings moves the parameters from 0 to 0.02: the gradient is -2 *)
Example sgd_default_case : forall c : cfg, exists m' s',
  (s <- sgd_init tc_nn (sgd_properties []) 0 ;;
   training (fun e o n => @sgd_epoch opsR c exp e o n (mkptr 2 0) (mkptr 3 0))
     (epochs (opt_init (neuralnet_set_loss tc_nn (Some MSE)) (optimizer_properties [])) [(tc_env, [0])]) s) (@tc_mem opsR [1]%R [1]%R) = Ok (s', m') /\
  @train_ready opsR c tc_nn MSE (mkptr 2 0) (mkptr 3 0) [[1]]%R [[1]]%R m' [2 / 100; 2 / 100]%R.
Proof.
  intros c. destruct (creation_case c) as (T & A & B & H).
  assert (H1 : runs_ready c tc_nn MSE (Z.to_nat (batchsize_of [])) 1 [(tc_env, [0])]) by (inversion H; subst; constructor; [assumption|constructor]).
  destruct (sgd_from_creation c tc_nn MSE (mkptr 2 0) (mkptr 3 0) [[1]]%R [[1]]%R (@tc_mem opsR [1]%R [1]%R) [0; 0]%R T [] [] 0 [(tc_env, [0])] A B H1)
    as (G & G1 & _ & m' & th' & v' & t' & s' & E1 & E2 & E3 & _).
  exists m', s'. split; [exact E2|].
  replace [2 / 100; 2 / 100]%R with th'; [exact E3|].
  change (run_batches (Z.to_nat (batchsize_of [])) [(tc_env, [0])]) with [[0]] in E1. cbn [fold_left] in E1. unfold sgd_rule in E1.
  rewrite (tc_gradient G G1) in E1.
  change (sgd_momentum []) with 0%R in E1. change (sgd_lr []) with (1 / 100)%R in E1. change (sgd_decay []) with 0%R in E1.
  unfold lr_after in E1. destruct (Rlt_dec 0 0) as [HZ|_]; [lra|]. cbn in E1. inversion E1. f_equal; [|f_equal]; lra.
Qed.
