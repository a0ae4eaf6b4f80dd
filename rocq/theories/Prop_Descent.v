(** Prop_Descent.v -- C72: a small step lowers the loss (exact arithmetic) *)
From Coquelicot Require Import Coquelicot.
From Coq Require Import List Arith ZArith Lia Bool Reals Lra Permutation.
From Verif Require Import Base BaseProofs Ops OpsR Mem MemProofs Kernels KernelProofs Activation ActivationProofs
  Loss Neuralnet ForwardProofs BackpropProofs SpecReal RealForward RealGrad LossGrad GradProofs GradPropProofs PredictProofs BitsProofs SpecMem ParamProofs Batch BatchProofs
  BlasProofs Optimizer OptKernels OptProofs OptEpochs SpecOpt OptReal OptTrain SpecDescent DescentProofs Ex_Mem Ex_Train Prop_Rules.
Import ListNotations.
Local Open Scope R_scope.
Local Open Scope mem_scope.

(** ** vectors *)
Lemma nth_vsub a b i : length b = length a -> nth i (vsub a b) 0 = nth i a 0 - nth i b 0.
Proof.
  unfold vsub. revert b i. induction a as [|x a IH]; intros [|y b] i H; simpl in *; try lia. { destruct i; lra. }
  destruct i; simpl; auto.
Qed.
Lemma nth_vscale k a i : nth i (vscale k a) 0 = k * nth i a 0.
Proof. unfold vscale. revert i. induction a as [|x a IH]; intros [|i]; cbn [map nth]; auto; lra. Qed.
Lemma nth_delta eps lr g r i : length r = length g -> nth i (rms_delta eps lr g r) 0 = - (lr * nth i g 0 / (eps + sqrt (nth i r 0))).
Proof.
  unfold rms_delta. revert r i. induction g as [|x g IH]; intros [|y r] i H; simpl in *; try lia.
  { destruct i; unfold Rdiv; rewrite Rmult_0_r, Rmult_0_l; lra. }
  destruct i; simpl; auto.
Qed.
Lemma length_vscale k a : length (vscale k a) = length a.
Proof. apply map_length. Qed.
Lemma length_vsqr a : length (vsqr a) = length a.
Proof. apply map_length. Qed.
Lemma length_batch_mean nn xs ts G b th : length (batch_mean nn xs ts G b th) = total_n_parameters nn.
Proof. unfold batch_mean, vmean. rewrite map_length. apply seq_length. Qed.
Lemma nth_zeros n i : nth i (repeat 0 n) 0 = 0.
Proof. revert i. induction n; intros [|i]; simpl; auto. Qed.

Lemma one_batch bsz (l : list nat) : (0 < length l <= bsz)%nat -> batches bsz l = [l].
Proof.
  intros H. unfold batches. replace ((length l + bsz - 1) / bsz)%nat with 1%nat.
  - cbn [seq map]. f_equal. cbn [Nat.mul skipn]. apply firstn_all2. lia.
  - apply Nat.div_unique with (r := (length l - 1)%nat); lia.
Qed.
Lemma lr_first lr0 d : lr_after lr0 d 1 = lr0.
Proof. unfold lr_after. destruct (Rlt_dec 0 d); [|reflexivity]. cbn [prod_decay]. change (count32 0) with 0. rewrite Rmult_0_r. unfold Rdiv. replace (1 + 0) with 1 by ring. rewrite Rinv_1. ring. Qed.

(** what the theorems need of the samples *)
Lemma sample_lengths c nn lf X Y xs ts (m : @mem opsR) th b : @train_ready opsR c nn lf X Y xs ts m th -> (forall k, In k b -> (k < length xs)%nat) ->
  forall k, In k b -> length (nth k xs []) = in_size nn /\ length (nth k ts []) = out_size nn.
Proof.
  intros TR Hb k Hk. destruct (@ready_facts c nn lf X Y xs ts m th TR) as (_ & _ & _ & HX & HY & HL). specialize (Hb k Hk). change (@F opsR) with R in *.
  destruct (@nth_error_ex _ xs k Hb) as [x Hx]. destruct (@nth_error_ex _ ts k) as [t Ht]; [eapply Nat.lt_le_trans; [exact Hb|apply Nat.eq_le_incl; symmetry; exact HL]|].
  rewrite (nth_error_nth xs k [] Hx), (nth_error_nth ts k [] Ht). split; [eapply HX; eauto|eapply HY; eauto].
Qed.
Lemma ready_length c nn lf X Y xs ts (m : @mem opsR) th : @train_ready opsR c nn lf X Y xs ts m th -> length th = total_n_parameters nn.
Proof. intros TR. destruct (ready_th c nn lf X Y xs ts m th TR) as (_ & L & _). exact L. Qed.
Lemma array_length c nn X Y xs ts (m : @mem opsR) p v : @state_array opsR c nn X Y xs ts m p v -> length v = total_n_parameters nn.
Proof. intros (_ & L & _). exact L. Qed.
Lemma training_one {T : Type} (epoch : @env opsR -> opt -> nat -> T -> @M opsR T) e o n s (m m' : @mem opsR) s' :
  training epoch [(e, o, n)] s m = Ok (s', m') -> epoch e o n s m = Ok (s', m').
Proof. cbn [training]. unfold bind. destruct (epoch e o n s m) as [[s1 m1]|]; [intros H; exact H|discriminate]. Qed.

(** ** C72 *)
(** The network nn (parameters th) and the samples are in memory, the epoch consists of one batch, and the loss of each of its
    samples is differentiable at th *)
Definition one_step_ready (c : cfg) (nn : neuralnet) (lf : loss) (X Y : ptr) (xs ts : list (list R)) (m : @mem opsR) (th : list R)
    (e : @env opsR) (o : opt) (n : nat) : Prop :=
  @train_ready opsR c nn lf X Y xs ts m th /\ @epoch_ready opsR c nn lf (o_batchsize o) (length xs) (e, o, n) /\
  (0 < n <= o_batchsize o)%nat /\ trainable lf (nn_shape nn) /\
  differentiable lf (nn_shape nn) (in_size nn) (out_size nn) xs ts (order o) (vec th).
(** the mean loss of the samples of the epoch *)
Definition batch_loss (nn : neuralnet) (lf : loss) (xs ts : list (list R)) (o : opt) : (nat -> R) -> R :=
  mean_loss lf (nn_shape nn) (in_size nn) (out_size nn) xs ts (order o).

(** the common part *)
Lemma descends (c : cfg) (nn : neuralnet) (lf : loss) (X Y : ptr) (xs ts : list (list R)) (m : @mem opsR) th e o n (a : nat -> R -> R)
    (P : R -> list R -> Prop) :
  one_step_ready c nn lf X Y xs ts m th e o n -> ~ stationary (batch_loss nn lf xs ts o) (total_n_parameters nn) (vec th) ->
  (forall k x, 0 < a k x) ->
  (forall lr, exists G th', is_gradient nn lf G /\ P lr th' /\
    forall k, let g := vec (batch_mean nn xs ts G (order o) th) k in vec th' k = vec th k - lr * (g * a k g)) ->
  exists lmax, 0 < lmax /\ forall lr, 0 < lr < lmax -> exists th', P lr th' /\ batch_loss nn lf xs ts o (vec th') < batch_loss nn lf xs ts o (vec th).
Proof.
  intros (TR & (_ & _ & _ & _ & HO & _) & Hn & HT & HD) NS HA HS.
  destruct (@ready_facts c nn lf X Y xs ts m th TR) as (PA & Hne & Hch & _).
  destruct (step_down nn lf xs ts (order o) th a Hne Hch (ready_length _ _ _ _ _ _ _ _ _ TR) (sample_lengths _ _ _ _ _ _ _ _ _ _ TR HO) HT HD HA NS) as (lmax & Hl & HH).
  exists lmax. split; [exact Hl|]. intros lr Hlr. destruct (HS lr) as (G & th' & HG & HP & E). exists th'. split; [exact HP|].
  exact (HH lr th' G Hlr HG E).
Qed.

(** SGD without momentum, or the first step with momentum: unless all partial derivatives of the mean loss are 0, each sufficiently
    small learning rate lowers the mean loss *)
Theorem sgd_descends (c : cfg) (nn : neuralnet) (lf : loss) (X Y : ptr) (xs ts : list (list R)) (m : @mem opsR) th e o n
    (decay mu : R) (nest : bool) (V : ptr) (v : list R) :
  one_step_ready c nn lf X Y xs ts m th e o n -> @state_array opsR c nn X Y xs ts m V v -> mu <= 0 \/ Forall (fun x => x = 0) v ->
  ~ stationary (batch_loss nn lf xs ts o) (total_n_parameters nn) (vec th) ->
  exists lmax, 0 < lmax /\ forall lr, 0 < lr < lmax -> exists th',
    (exists s' m', @sgd_epoch opsR c exp e o n X Y
       {| sg_lr := lr; sg_decay := decay; sg_mu := mu; sg_nesterov := nest; sg_t := 0; sg_v := V |} m = Ok (s', m')
       /\ @train_ready opsR c nn lf X Y xs ts m' th') /\
    batch_loss nn lf xs ts o (vec th') < batch_loss nn lf xs ts o (vec th).
Proof.
  intros RD SA HM NS. pose proof RD as (TR & ER & Hn & _).
  apply (descends c nn lf X Y xs ts m th e o n (fun _ _ => 1)); auto; [intros; lra|]. intros lr.
  destruct (sgd_recurrence c nn lf X Y xs ts m (o_batchsize o) lr decay mu nest V th v [(e, o, n)] ltac:(lia) TR SA ltac:(constructor; [exact ER|constructor]))
    as (G & HG & _ & m' & th' & v' & t' & EF & ET & TR' & _).
  exists G, th'. split; [exact HG|]. split.
  { eexists _, m'. split; [|exact TR']. exact (training_one _ e o n _ m m' _ ET). }
  destruct ER as (_ & _ & _ & Lo & _). pose proof (ready_length _ _ _ _ _ _ _ _ _ TR) as Lth. change (@F opsR) with R in *. pose proof (array_length _ _ _ _ _ _ _ _ _ SA) as Lv.
  cbn [all_batches flat_map] in EF. rewrite one_batch in EF by lia. cbn [app fold_left sgd_rule] in EF. rewrite lr_first in EF.
  intros k. cbv zeta. unfold vec. pose proof (length_batch_mean nn xs ts G (order o) th) as LB.
  destruct (Rlt_dec 0 mu) as [Hmu|Hmu].
  - destruct HM as [HM|HM]; [lra|].
    assert (EV : vscale mu v = repeat 0 (total_n_parameters nn)).
    { rewrite <- Lv. clear - HM. induction HM as [|x l -> HM IH]; simpl; [reflexivity|]. rewrite Rmult_0_r. f_equal. exact IH. }
    assert (E0 : vadd th (repeat 0 (total_n_parameters nn)) = th).
    { rewrite <- Lth. clear. unfold vadd. induction th as [|x l IH]; simpl; [reflexivity|]. f_equal; [apply Rplus_0_r|exact IH]. }
    rewrite EV, E0 in EF. replace (if nest then th else th) with th in EF by (destruct nest; reflexivity).
    injection EF as <- _ _. rewrite nth_vadd, nth_vsub, nth_vscale, nth_zeros; try lra.
    + rewrite length_vscale, LB, repeat_length. reflexivity.
    + unfold vsub. rewrite length_map2, length_vscale, LB, repeat_length. lia.
  - injection EF as <- _ _. rewrite nth_vsub, nth_vscale; [lra|]. rewrite length_vscale, LB, Lth. reflexivity.
Qed.
Print Assumptions sgd_descends.

(** RMSprop without momentum, or the first step with momentum *)
Theorem rmsprop_descends (c : cfg) (nn : neuralnet) (lf : loss) (X Y : ptr) (xs ts : list (list R)) (m : @mem opsR) th e o n
    (decay rho mu : R) (nest : bool) (V Q : ptr) (v r : list R) :
  one_step_ready c nn lf X Y xs ts m th e o n ->
  @state_array opsR c nn X Y xs ts m V v -> @state_array opsR c nn X Y xs ts m Q r ->
  disjoint V (total_n_parameters nn) Q (total_n_parameters nn) ->
  mu <= 0 \/ Forall (fun x => x = 0) v -> 0 <= rho <= 1 -> Forall (fun x => 0 <= x) r ->
  ~ stationary (batch_loss nn lf xs ts o) (total_n_parameters nn) (vec th) ->
  exists lmax, 0 < lmax /\ forall lr, 0 < lr < lmax -> exists th',
    (exists s' m', @rmsprop_epoch opsR c exp e o n X Y
       {| rm_lr := lr; rm_decay := decay; rm_rho := rho; rm_mu := mu; rm_nesterov := nest; rm_t := 0; rm_v := V; rm_r := Q |} m = Ok (s', m')
       /\ @train_ready opsR c nn lf X Y xs ts m' th') /\
    batch_loss nn lf xs ts o (vec th') < batch_loss nn lf xs ts o (vec th).
Proof.
  intros RD SA SQ DJ HM _ _ NS. pose proof RD as (TR & ER & Hn & _).
  apply (descends c nn lf X Y xs ts m th e o n (fun k g => / (1 / 10000000 + sqrt (rho * nth k r 0 + (1 - rho) * g ^ 2)))); auto.
  { intros k x. apply Rinv_0_lt_compat. pose proof (sqrt_pos (rho * nth k r 0 + (1 - rho) * x ^ 2)). lra. }
  intros lr.
  destruct (rmsprop_recurrence c nn lf X Y xs ts m (o_batchsize o) lr decay rho mu nest V Q th v r [(e, o, n)] ltac:(lia) TR SA SQ DJ ltac:(constructor; [exact ER|constructor]))
    as (G & HG & _ & m' & th' & v' & r' & t' & EF & ET & TR' & _).
  exists G, th'. split; [exact HG|]. split.
  { eexists _, m'. split; [|exact TR']. exact (training_one _ e o n _ m m' _ ET). }
  destruct ER as (_ & _ & _ & Lo & _). pose proof (ready_length _ _ _ _ _ _ _ _ _ TR) as Lth. change (@F opsR) with R in *. pose proof (array_length _ _ _ _ _ _ _ _ _ SA) as Lv.
  pose proof (array_length _ _ _ _ _ _ _ _ _ SQ) as Lr. change (@F opsR) with R in *.
  cbn [all_batches flat_map] in EF. rewrite one_batch in EF by lia. cbn [app fold_left rms_rule] in EF. rewrite lr_first in EF.
  intros k. cbv zeta. unfold vec. pose proof (length_batch_mean nn xs ts G (order o) th) as LB.
  set (g := batch_mean nn xs ts G (order o) th) in *.
  assert (Lr' : length (vadd (vscale rho r) (vscale (1 - rho) (vsqr g))) = total_n_parameters nn).
  { apply length_vadd; rewrite ?length_vscale, ?length_vsqr; auto. }
  assert (Ed : nth k (rms_delta (1 / 10000000) lr g (vadd (vscale rho r) (vscale (1 - rho) (vsqr g)))) 0
     = - (lr * (nth k g 0 * / (1 / 10000000 + sqrt (rho * nth k r 0 + (1 - rho) * nth k g 0 ^ 2))))).
  { rewrite nth_delta by lia. rewrite nth_vadd by (rewrite !length_vscale, length_vsqr; lia). rewrite !nth_vscale, nth_vsqr. unfold Rdiv. ring. }
  assert (Ld : length (rms_delta (1 / 10000000) lr g (vadd (vscale rho r) (vscale (1 - rho) (vsqr g)))) = total_n_parameters nn).
  { unfold rms_delta. rewrite length_map2. lia. }
  destruct (Rlt_dec 0 mu) as [Hmu|Hmu].
  - destruct HM as [HM|HM]; [lra|].
    assert (EV : vscale mu v = repeat 0 (total_n_parameters nn)).
    { rewrite <- Lv. clear - HM. induction HM as [|x l -> HM IH]; simpl; [reflexivity|]. rewrite Rmult_0_r. f_equal. exact IH. }
    assert (E0 : vadd th (repeat 0 (total_n_parameters nn)) = th).
    { rewrite <- Lth. clear. unfold vadd. induction th as [|x l IH]; simpl; [reflexivity|]. f_equal; [apply Rplus_0_r|exact IH]. }
    rewrite EV, E0 in EF. replace (if nest then th else th) with th in EF by (destruct nest; reflexivity). fold g in EF.
    injection EF as <- _ _ _. rewrite nth_vadd, nth_vadd, nth_zeros, Ed; [lra| |].
    + rewrite Ld, repeat_length. reflexivity.
    + etransitivity; [apply length_vadd; [apply repeat_length|exact Ld]|auto].
  - fold g in EF. injection EF as <- _ _ _. rewrite nth_vadd by lia. rewrite Ed. lra.
Qed.
Print Assumptions rmsprop_descends.

(** Adagrad, whatever has been accumulated *)
Theorem adagrad_descends (c : cfg) (nn : neuralnet) (lf : loss) (X Y : ptr) (xs ts : list (list R)) (m : @mem opsR) th e o n
    (decay : R) (Q : ptr) (r : list R) :
  one_step_ready c nn lf X Y xs ts m th e o n -> @state_array opsR c nn X Y xs ts m Q r -> Forall (fun x => 0 <= x) r ->
  ~ stationary (batch_loss nn lf xs ts o) (total_n_parameters nn) (vec th) ->
  exists lmax, 0 < lmax /\ forall lr, 0 < lr < lmax -> exists th',
    (exists s' m', @adagrad_epoch opsR c exp e o n X Y {| ag_lr := lr; ag_decay := decay; ag_t := 0; ag_r := Q |} m = Ok (s', m')
       /\ @train_ready opsR c nn lf X Y xs ts m' th') /\
    batch_loss nn lf xs ts o (vec th') < batch_loss nn lf xs ts o (vec th).
Proof.
  intros RD SQ _ NS. pose proof RD as (TR & ER & Hn & _).
  apply (descends c nn lf X Y xs ts m th e o n (fun k g => / (1 / 10000000 + sqrt (nth k r 0 + g ^ 2)))); auto.
  { intros k x. apply Rinv_0_lt_compat. pose proof (sqrt_pos (nth k r 0 + x ^ 2)). lra. }
  intros lr.
  destruct (adagrad_recurrence c nn lf X Y xs ts m (o_batchsize o) lr decay Q th r [(e, o, n)] ltac:(lia) TR SQ ltac:(constructor; [exact ER|constructor]))
    as (G & HG & _ & m' & th' & r' & t' & EF & ET & TR' & _).
  exists G, th'. split; [exact HG|]. split.
  { eexists _, m'. split; [|exact TR']. exact (training_one _ e o n _ m m' _ ET). }
  destruct ER as (_ & _ & _ & Lo & _). pose proof (ready_length _ _ _ _ _ _ _ _ _ TR) as Lth. change (@F opsR) with R in *. pose proof (array_length _ _ _ _ _ _ _ _ _ SQ) as Lr. change (@F opsR) with R in *.
  cbn [all_batches flat_map] in EF. rewrite one_batch in EF by lia. cbn [app fold_left adagrad_rule] in EF. rewrite lr_first in EF.
  intros k. cbv zeta. unfold vec. pose proof (length_batch_mean nn xs ts G (order o) th) as LB.
  set (g := batch_mean nn xs ts G (order o) th) in *.
  assert (Lr' : length (vadd r (vsqr g)) = total_n_parameters nn) by (apply length_vadd; rewrite ?length_vsqr; auto).
  injection EF as <- _ _. rewrite nth_vadd by (unfold rms_delta; rewrite length_map2; lia). rewrite nth_delta by lia.
  rewrite nth_vadd by (rewrite length_vsqr; lia). rewrite nth_vsqr. unfold Rdiv. ring.
Qed.
Print Assumptions adagrad_descends.

(** the first step of Adam in a process, without weight decay *)
Theorem adam_descends (c : cfg) (nn : neuralnet) (lf : loss) (X Y : ptr) (xs ts : list (list R)) (m : @mem opsR) th e o n
    (beta1 beta2 wd : R) (Q W : ptr) :
  one_step_ready c nn lf X Y xs ts m th e o n ->
  @state_array opsR c nn X Y xs ts m Q (repeat 0 (total_n_parameters nn)) -> @state_array opsR c nn X Y xs ts m W (repeat 0 (total_n_parameters nn)) ->
  disjoint Q (total_n_parameters nn) W (total_n_parameters nn) ->
  0 <= beta1 < 1 -> 0 <= beta2 < 1 -> wd <= 0 ->
  ~ stationary (batch_loss nn lf xs ts o) (total_n_parameters nn) (vec th) ->
  exists lmax, 0 < lmax /\ forall lr, 0 < lr < lmax -> exists th',
    (exists s' m', @adam_epoch opsR c exp e o n X Y {| ad_lr := lr; ad_beta1 := beta1; ad_beta2 := beta2; ad_wd := wd; ad_r := Q; ad_s := W |} (1, 1) m = Ok (s', m')
       /\ @train_ready opsR c nn lf X Y xs ts m' th') /\
    batch_loss nn lf xs ts o (vec th') < batch_loss nn lf xs ts o (vec th).
Proof.
  intros RD SQ SW DJ B1 B2 HW NS. pose proof RD as (TR & ER & Hn & _).
  apply (descends c nn lf X Y xs ts m th e o n (fun k g => / (sqrt (g ^ 2) + 1 / 100000000))); auto.
  { intros k x. apply Rinv_0_lt_compat. pose proof (sqrt_pos (x ^ 2)). lra. }
  intros lr.
  destruct (adam_recurrence_partial c nn lf X Y xs ts m (o_batchsize o) lr beta1 beta2 wd Q W th _ _ 0 [(e, o, n)] ltac:(lia) TR SQ SW DJ ltac:(constructor; [exact ER|constructor]))
    as (G & HG & _ & m' & th' & m1' & m2' & t' & EF & ET & TR' & _).
  exists G, th'. split; [exact HG|]. split.
  { eexists _, m'. split; [|exact TR']. cbn [pow] in ET. exact (training_one _ e o n _ m m' _ ET). }
  destruct ER as (_ & _ & _ & Lo & _). pose proof (ready_length _ _ _ _ _ _ _ _ _ TR) as Lth. change (@F opsR) with R in *.
  cbn [all_batches flat_map] in EF. rewrite one_batch in EF by lia. cbn [app fold_left adam_rule] in EF.
  destruct (Rlt_dec 0 wd) as [H|_]; [lra|].
  intros k. cbv zeta. unfold vec. pose proof (length_batch_mean nn xs ts G (order o) th) as LB.
  set (g := batch_mean nn xs ts G (order o) th) in *. injection EF as <- _ _ _. change (@F opsR) with R in *.
  assert (EM : forall be (w : list R), 0 <= be < 1 -> length w = total_n_parameters nn ->
     vscale (/ (1 - be * 1)) (vadd (vscale be (repeat 0 (total_n_parameters nn))) (vscale (1 - be) w)) = w).
  { intros be w Hbe Lw. rewrite <- Lw. clear - Hbe. unfold vscale, vadd. induction w as [|x w IH]; cbn [length repeat map map2]; [reflexivity|]. rewrite IH. f_equal. field. lra. }
  rewrite !EM by (rewrite ?length_vsqr; auto).
  rewrite nth_vadd by (rewrite length_map2, length_vsqr; lia).
  assert (E2 : forall (w : list R) k, nth k (map2 (fun m v => - (lr * m / (sqrt v + 1 / 100000000))) w (vsqr w)) 0 = - (lr * (nth k w 0 * / (sqrt (nth k w 0 ^ 2) + 1 / 100000000)))).
  { clear. induction w as [|x w IH]; intros [|k]; cbn [vsqr map map2 nth]; [lra|lra|unfold Rdiv; ring|apply IH]. }
  rewrite E2. cbn [pow]. lra.
Qed.
Print Assumptions adam_descends.

(** the hypotheses hold for the case network with two samples in one batch, shared by two threads *)
Example descends_case :
  let c := {| cfg_isa := AVX; cfg_fma := false |} in
  let xs := @rows opsR [1; 2] in let ts := @rows opsR [1; 0] in let m := @tc_mem opsR [1; 2] [1; 0] in
  let o := tc_opt 2 [1; 0]%nat in
  one_step_ready c tc_nn MSE (mkptr 2 0) (mkptr 3 0) xs ts m [0; 0] (tc_env_omp c 2 2) o 2 /\
  @state_array opsR c tc_nn (mkptr 2 0) (mkptr 3 0) xs ts m (mkptr 4 0) (repeat 0 (total_n_parameters tc_nn)) /\
  @state_array opsR c tc_nn (mkptr 2 0) (mkptr 3 0) xs ts m (mkptr 5 0) (repeat 0 (total_n_parameters tc_nn)) /\
  disjoint (mkptr 4 0) (total_n_parameters tc_nn) (mkptr 5 0) (total_n_parameters tc_nn) /\
  ~ stationary (batch_loss tc_nn MSE xs ts o) (total_n_parameters tc_nn) (vec [0; 0]).
Proof.
  cbv zeta. split; [|split; [apply (@tc_array opsR); auto|split; [apply (@tc_array opsR); auto|split; [left; simpl; lia|]]]].
  - split; [apply (@tc_ready opsR); reflexivity|]. split.
    { apply (@tc_epoch_omp opsR _ 2 2 [1; 0]%nat). intros k [<-|[<-|[]]]; lia. }
    split; [simpl; lia|]. split; [simpl; discriminate|]. intros k _. split; [simpl; auto|exact I].
  - intros ST. specialize (ST 0%nat ltac:(cbv; lia)). apply is_derive_unique in ST.
    assert (D : is_derive (fun v => batch_loss tc_nn MSE (@rows opsR [1; 2]) (@rows opsR [1; 0]) (tc_opt 2 [1; 0]%nat) (upd (vec [0; 0]) 0 v)) (vec [0; 0] 0%nat) (-1)).
    { unfold batch_loss, mean_loss, upd, vec. simpl. auto_derive; [auto|]. field. }
    apply is_derive_unique in D. rewrite D in ST. lra.
Qed.
