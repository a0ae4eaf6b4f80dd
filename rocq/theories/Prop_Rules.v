(** Prop_Rules.v -- C27-C31: the update rules of the optimizers (exact arithmetic) *)
From Coquelicot Require Import Coquelicot.
From Coq Require Import List Arith ZArith Lia Bool Reals Lra Permutation.
From Verif Require Import Base BaseProofs Ops OpsR Mem MemProofs Kernels KernelProofs Activation ActivationProofs
  Loss Neuralnet ForwardProofs BackpropProofs SpecReal RealForward RealGrad LossGrad GradProofs GradPropProofs PredictProofs BitsProofs SpecMem ParamProofs Batch BatchProofs
  BlasProofs Optimizer OptKernels OptProofs OptEpochs SpecOpt OptReal OptTrain Ex_Mem.
Import ListNotations.
Local Open Scope nat_scope.
Local Open Scope mem_scope.

(** the batches of a training run, one after the other *)
Definition all_batches {FO : fops} (bsz : nat) (h : list (env * opt * nat)) : list (list nat) :=
  flat_map (fun '(e, o, n) => batches bsz (order o)) h.
(** the gradient used for a batch: the mean over its samples *)
Definition batch_mean (nn : neuralnet) (xs ts : list (list R)) (G : list R -> list R -> list R -> list R) (b : list nat) (th : list R) : list R :=
  vmean (total_n_parameters nn) (map (fun k => G th (nth k xs []) (nth k ts [])) b).

(** C27.  G is the gradient function, the one which neuralnet_backpropagation computes.  Any number of epochs, each
    with its own sample order, schedule, ...; the parameters and the velocity afterwards are those of the
    recurrence [sgd_rule] applied to all batches; nothing else in memory has changed. *)
Theorem sgd_recurrence (c : cfg) (nn : neuralnet) (lf : loss) (X Y : ptr) (xs ts : list (list R)) (m : @mem opsR)
    (bsz : nat) (lr0 decay mu : R) (nest : bool) (V : ptr) (th v : list R) (h : list (@env opsR * opt * nat)) :
  0 < bsz -> @train_ready opsR c nn lf X Y xs ts m th -> @state_array opsR c nn X Y xs ts m V v ->
  Forall (@epoch_ready opsR c nn lf bsz (length xs)) h ->
  let optimizer t lr := {| sg_lr := lr; sg_decay := decay; sg_mu := mu; sg_nesterov := nest; sg_t := t; sg_v := V |} : @sgd opsR in
  exists G, is_gradient nn lf G /\ is_backprop c nn lf G /\
  let rule := sgd_rule (batch_mean nn xs ts G) mu nest (fun t => lr_after lr0 decay (S t)) in
  exists m' th' v' t', fold_left rule (all_batches bsz h) (th, v, 0) = (th', v', t') /\
    training (fun e o n => @sgd_epoch opsR c exp e o n X Y) h (optimizer 0 lr0) m = Ok (optimizer t' (lr_after lr0 decay t'), m') /\
    @train_ready opsR c nn lf X Y xs ts m' th' /\ @state_array opsR c nn X Y xs ts m' V v' /\
    only_changes_in m m' ((V, total_n_parameters nn) :: regions (nn_layers nn)).
Proof.
  intros Hb TR SA HE optimizer. destruct (@ready_facts c nn lf X Y xs ts m th TR) as (PA & Hne & Hch & HX & HY & HL).
  exists (Gr c nn lf). split; [apply Gr_gradient; auto|]. split; [apply Gr_backprop|]. intros rule.
  assert (L0 : lr_after lr0 decay 0 = lr0) by (unfold lr_after; simpl; destruct (Rlt_dec 0 decay); lra).
  destruct (@sgd_run_ok c nn lf X Y xs ts bsz Hb PA Hne Hch HX HY HL lr0 decay mu nest V m h HE (th, v, 0) m (optimizer 0 lr0)) as (m' & s' & E & II).
  { split; [rewrite L0; reflexivity|]. split; [apply ready_th; auto|]. split; [apply array_svec; auto|apply oci_refl]. }
  destruct (fold_left rule (all_batches bsz h) (th, v, 0)) as [[th' v'] t'] eqn:EF.
  assert (EF' : fold_left (sgd_rule (mgrad c nn lf xs ts) mu nest (fun t => lr_after lr0 decay (S t)))
     (flat_map (fun '(e, o, n) => batches bsz (order o)) h) (th, v, 0) = (th', v', t')) by exact EF.
  rewrite EF' in II. destruct II as (-> & A & B & C).
  exists m', th', v', t'. split; [reflexivity|]. split; [exact E|]. split; [apply th_ready; auto|]. split; [apply array_svec; auto|exact C].
Qed.
Print Assumptions sgd_recurrence.

(** C28 *)
Theorem rmsprop_recurrence (c : cfg) (nn : neuralnet) (lf : loss) (X Y : ptr) (xs ts : list (list R)) (m : @mem opsR)
    (bsz : nat) (lr0 decay rho mu : R) (nest : bool) (V Q : ptr) (th v r : list R) (h : list (@env opsR * opt * nat)) :
  0 < bsz -> @train_ready opsR c nn lf X Y xs ts m th ->
  @state_array opsR c nn X Y xs ts m V v -> @state_array opsR c nn X Y xs ts m Q r ->
  disjoint V (total_n_parameters nn) Q (total_n_parameters nn) ->
  Forall (@epoch_ready opsR c nn lf bsz (length xs)) h ->
  let optimizer t lr := {| rm_lr := lr; rm_decay := decay; rm_rho := rho; rm_mu := mu; rm_nesterov := nest; rm_t := t; rm_v := V; rm_r := Q |} : @rmsprop opsR in
  exists G, is_gradient nn lf G /\ is_backprop c nn lf G /\
  let rule := rms_rule (batch_mean nn xs ts G) rho mu nest (fun t => lr_after lr0 decay (S t)) in
  exists m' th' v' r' t', fold_left rule (all_batches bsz h) (th, v, r, 0) = (th', v', r', t') /\
    training (fun e o n => @rmsprop_epoch opsR c exp e o n X Y) h (optimizer 0 lr0) m = Ok (optimizer t' (lr_after lr0 decay t'), m') /\
    @train_ready opsR c nn lf X Y xs ts m' th' /\ @state_array opsR c nn X Y xs ts m' V v' /\ @state_array opsR c nn X Y xs ts m' Q r' /\
    only_changes_in m m' ((V, total_n_parameters nn) :: (Q, total_n_parameters nn) :: regions (nn_layers nn)).
Proof.
  intros Hb TR SA SQ HD HE optimizer. destruct (@ready_facts c nn lf X Y xs ts m th TR) as (PA & Hne & Hch & HX & HY & HL).
  exists (Gr c nn lf). split; [apply Gr_gradient; auto|]. split; [apply Gr_backprop|]. intros rule.
  assert (L0 : lr_after lr0 decay 0 = lr0) by (unfold lr_after; simpl; destruct (Rlt_dec 0 decay); lra).
  destruct (@rms_run_ok c nn lf X Y xs ts bsz Hb PA Hne Hch HX HY HL lr0 decay rho mu nest V Q HD m h HE (th, v, r, 0) m (optimizer 0 lr0)) as (m' & s' & E & II).
  { split; [rewrite L0; reflexivity|]. split; [apply ready_th; auto|]. split; [apply array_svec; auto|]. split; [apply array_svec; auto|apply oci_refl]. }
  destruct (fold_left rule (all_batches bsz h) (th, v, r, 0)) as [[[th' v'] r'] t'] eqn:EF.
  assert (EF' : fold_left (rms_rule (mgrad c nn lf xs ts) rho mu nest (fun t => lr_after lr0 decay (S t)))
     (flat_map (fun '(e, o, n) => batches bsz (order o)) h) (th, v, r, 0) = (th', v', r', t')) by exact EF.
  rewrite EF' in II. destruct II as (-> & A & B & B2 & C).
  exists m', th', v', r', t'. split; [reflexivity|]. split; [exact E|]. split; [apply th_ready; auto|]. split; [apply array_svec; auto|]. split; [apply array_svec; auto|exact C].
Qed.
Print Assumptions rmsprop_recurrence.

(** C29 *)
Theorem adagrad_recurrence (c : cfg) (nn : neuralnet) (lf : loss) (X Y : ptr) (xs ts : list (list R)) (m : @mem opsR)
    (bsz : nat) (lr0 decay : R) (Q : ptr) (th r : list R) (h : list (@env opsR * opt * nat)) :
  0 < bsz -> @train_ready opsR c nn lf X Y xs ts m th -> @state_array opsR c nn X Y xs ts m Q r ->
  Forall (@epoch_ready opsR c nn lf bsz (length xs)) h ->
  let optimizer t lr := {| ag_lr := lr; ag_decay := decay; ag_t := t; ag_r := Q |} : @adagrad opsR in
  exists G, is_gradient nn lf G /\ is_backprop c nn lf G /\
  let rule := adagrad_rule (batch_mean nn xs ts G) (fun t => lr_after lr0 decay (S t)) in
  exists m' th' r' t', fold_left rule (all_batches bsz h) (th, r, 0) = (th', r', t') /\
    training (fun e o n => @adagrad_epoch opsR c exp e o n X Y) h (optimizer 0 lr0) m = Ok (optimizer t' (lr_after lr0 decay t'), m') /\
    @train_ready opsR c nn lf X Y xs ts m' th' /\ @state_array opsR c nn X Y xs ts m' Q r' /\
    only_changes_in m m' ((Q, total_n_parameters nn) :: regions (nn_layers nn)).
Proof.
  intros Hb TR SA HE optimizer. destruct (@ready_facts c nn lf X Y xs ts m th TR) as (PA & Hne & Hch & HX & HY & HL).
  exists (Gr c nn lf). split; [apply Gr_gradient; auto|]. split; [apply Gr_backprop|]. intros rule.
  assert (L0 : lr_after lr0 decay 0 = lr0) by (unfold lr_after; simpl; destruct (Rlt_dec 0 decay); lra).
  destruct (@ag_run_ok c nn lf X Y xs ts bsz Hb PA Hne Hch HX HY HL lr0 decay Q m h HE (th, r, 0) m (optimizer 0 lr0)) as (m' & s' & E & II).
  { split; [rewrite L0; reflexivity|]. split; [apply ready_th; auto|]. split; [apply array_svec; auto|apply oci_refl]. }
  destruct (fold_left rule (all_batches bsz h) (th, r, 0)) as [[th' r'] t'] eqn:EF.
  assert (EF' : fold_left (adagrad_rule (mgrad c nn lf xs ts) (fun t => lr_after lr0 decay (S t)))
     (flat_map (fun '(e, o, n) => batches bsz (order o)) h) (th, r, 0) = (th', r', t')) by exact EF.
  rewrite EF' in II. destruct II as (-> & A & B & C).
  exists m', th', r', t'. split; [reflexivity|]. split; [exact E|]. split; [apply th_ready; auto|]. split; [apply array_svec; auto|exact C].
Qed.
Print Assumptions adagrad_recurrence.

(** C29, second part.  [adagrad_grads]: the gradients along the run *)
Fixpoint adagrad_grads (grad : list nat -> list R -> list R) (lr : nat -> R) (s : list R * list R * nat) (bl : list (list nat)) : list (list R) :=
  match bl with
  | [] => []
  | b :: r => grad b (fst (fst s)) :: adagrad_grads grad lr (adagrad_rule grad lr s b) r
  end.
Lemma fold_rule_len {S} (rule : S -> list nat -> S) (P : S -> Prop) : (forall s b, P s -> P (rule s b)) -> forall bl s, P s -> P (fold_left rule bl s).
Proof. intros H. induction bl; simpl; auto. Qed.
Lemma nth_vadd a b i : length b = length a -> nth i (vadd a b) 0%R = (nth i a 0 + nth i b 0)%R.
Proof.
  unfold vadd. revert b i. induction a as [|x a IH]; intros [|y b] i H; simpl in *; try lia. { destruct i; lra. }
  destruct i; simpl; auto.
Qed.
Lemma nth_vsqr a i : nth i (vsqr a) 0%R = (nth i a 0 ^ 2)%R.
Proof. unfold vsqr. revert i. induction a as [|x a IH]; intros [|i]; cbn [map nth]; auto; ring. Qed.
Lemma count32_pos t : (0 <= count32 t)%R.
Proof. apply (IZR_le 0). apply Z.mod_pos_bound. reflexivity. Qed.
Lemma prod_decay_pos d t : (0 < d)%R -> (0 < prod_decay d t)%R.
Proof.
  intros H. induction t; simpl; [lra|]. apply Rmult_lt_0_compat; auto. apply Rdiv_lt_0_compat; [lra|]. pose proof (count32_pos t). nra.
Qed.
Lemma lr_mono lr0 d t : (0 <= lr0)%R -> (lr_after lr0 d (S t) <= lr_after lr0 d t)%R.
Proof.
  intros H. unfold lr_after. destruct (Rlt_dec 0 d) as [Hd|]; [|lra]. apply Rmult_le_compat_l; auto.
  cbn [prod_decay]. pose proof (prod_decay_pos d t Hd). pose proof (count32_pos t).
  assert (1 / (1 + d * count32 t) <= 1)%R. { apply Rmult_le_reg_r with (1 + d * count32 t)%R; [nra|]. unfold Rdiv. rewrite Rmult_assoc, Rinv_l by nra. nra. }
  nra.
Qed.
Lemma lr_nonneg lr0 d t : (0 <= lr0)%R -> (0 <= lr_after lr0 d t)%R.
Proof. intros H. unfold lr_after. destruct (Rlt_dec 0 d) as [Hd|]; [|lra]. pose proof (prod_decay_pos d t Hd). nra. Qed.

(** r after any number of batches is the sum of the squared gradients, and in every further batch the factor by
    which component i of the gradient is multiplied, lr/(eps + sqrt r_i), does not grow *)
Theorem adagrad_steps_never_grow (np : nat) (grad : list nat -> list R -> list R) (lr0 decay : R) (th0 : list R) (bl : list (list nat)) :
  (forall b th, length (grad b th) = np) -> (0 <= lr0)%R ->
  let rule := adagrad_rule grad (fun t => lr_after lr0 decay (S t)) in
  let gs := adagrad_grads grad (fun t => lr_after lr0 decay (S t)) (th0, repeat 0%R np, 0) bl in
  forall th r t, fold_left rule bl (th0, repeat 0%R np, 0) = (th, r, t) ->
  length gs = length bl /\ t = length bl /\
  (forall i, nth i r 0%R = rsum (map (fun g => nth i g 0 ^ 2)%R gs)) /\
  forall b th' r' t', rule (th, r, t) b = (th', r', t') ->
    forall i, (lr_after lr0 decay (S t') / (1 / 10000000 + sqrt (nth i r' 0)) <= lr_after lr0 decay (S t) / (1 / 10000000 + sqrt (nth i r 0)))%R.
Proof.
  intros HG Hlr rule gs th r t E.
  assert (GEN : forall bl th0 r0 t0 th r t, length r0 = np -> fold_left rule bl (th0, r0, t0) = (th, r, t) ->
     let gs := adagrad_grads grad (fun t => lr_after lr0 decay (S t)) (th0, r0, t0) bl in
     length gs = length bl /\ t = t0 + length bl /\ length r = np /\
     forall i, nth i r 0%R = (nth i r0 0 + rsum (map (fun g => nth i g 0 ^ 2)%R gs))%R).
  { clear - HG. induction bl as [|b bl IH]; intros th0 r0 t0 th r t L0 E; cbn [fold_left] in E.
    { inversion E; subst. simpl. repeat split; auto; try lia. intros. lra. }
    unfold rule in E at 2. unfold adagrad_rule in E. set (g := grad b th0) in *.
    assert (Lg : length (vsqr g) = np) by (unfold vsqr; rewrite map_length; apply HG).
    destruct (IH _ _ _ _ _ _ (length_vadd _ _ _ L0 Lg) E) as (A & B & C & D).
    intros gs. unfold gs. cbn [adagrad_grads fst length]. unfold adagrad_rule at 1. cbv zeta in A. fold g.
    split; [f_equal; exact A|]. split; [lia|]. split; auto. intros i. rewrite D, nth_vadd, nth_vsqr by lia.
    cbn [map rsum]. rewrite Rplus_assoc. reflexivity. }
  destruct (GEN bl th0 _ 0 th r t (repeat_length _ _) E) as (A & B & C & D).
  split; [exact A|]. split; [lia|]. split.
  { intros i. rewrite D. rewrite nth_repeat. rewrite Rplus_0_l. reflexivity. }
  intros b th' r' t' ER i. unfold rule, adagrad_rule in ER. inversion ER; subst th' r' t'. clear ER.
  assert (Lg : length (vsqr (grad b th)) = np) by (unfold vsqr; rewrite map_length; apply HG).
  rewrite nth_vadd, nth_vsqr by lia.
  assert (H1 : (sqrt (nth i r 0) <= sqrt (nth i r 0 + nth i (grad b th) 0 ^ 2))%R).
  { apply sqrt_le_1_alt. pose proof (pow2_ge_0 (nth i (grad b th) 0%R)). lra. }
  pose proof (sqrt_pos (nth i r 0%R)). pose proof (lr_nonneg lr0 decay (S (S t)) Hlr). pose proof (lr_mono lr0 decay (S t) Hlr).
  apply Rle_trans with (lr_after lr0 decay (S t) / (1 / 10000000 + sqrt (nth i r 0 + nth i (grad b th) 0 ^ 2)))%R.
  - unfold Rdiv. apply Rmult_le_compat_r; auto. apply Rlt_le, Rinv_0_lt_compat. lra.
  - unfold Rdiv. apply Rmult_le_compat_l; [lra|]. apply Rinv_le_contravar; lra.
Qed.
Print Assumptions adagrad_steps_never_grow.

(** C30, for an Adam optimizer in a process in which k Adam batches (with the same betas) have been run before *)
Theorem adam_recurrence_partial (c : cfg) (nn : neuralnet) (lf : loss) (X Y : ptr) (xs ts : list (list R)) (m : @mem opsR)
    (bsz : nat) (lr beta1 beta2 wd : R) (Q W : ptr) (th m1 m2 : list R) (k : nat) (h : list (@env opsR * opt * nat)) :
  0 < bsz -> @train_ready opsR c nn lf X Y xs ts m th ->
  @state_array opsR c nn X Y xs ts m Q m2 -> @state_array opsR c nn X Y xs ts m W m1 ->
  disjoint Q (total_n_parameters nn) W (total_n_parameters nn) ->
  Forall (@epoch_ready opsR c nn lf bsz (length xs)) h ->
  let optimizer := {| ad_lr := lr; ad_beta1 := beta1; ad_beta2 := beta2; ad_wd := wd; ad_r := Q; ad_s := W |} : @adam opsR in
  exists G, is_gradient nn lf G /\ is_backprop c nn lf G /\
  exists m' th' m1' m2' t', fold_left (adam_rule (batch_mean nn xs ts G) beta1 beta2 lr wd) (all_batches bsz h) (th, m1, m2, k) = (th', m1', m2', t') /\
    training (fun e o n => @adam_epoch opsR c exp e o n X Y optimizer) h ((beta1 ^ k)%R, (beta2 ^ k)%R) m = Ok (((beta1 ^ t')%R, (beta2 ^ t')%R), m') /\
    @train_ready opsR c nn lf X Y xs ts m' th' /\ @state_array opsR c nn X Y xs ts m' Q m2' /\ @state_array opsR c nn X Y xs ts m' W m1' /\
    only_changes_in m m' ((Q, total_n_parameters nn) :: (W, total_n_parameters nn) :: regions (nn_layers nn)).
Proof.
  intros Hb TR SQ SW HD HE optimizer. destruct (@ready_facts c nn lf X Y xs ts m th TR) as (PA & Hne & Hch & HX & HY & HL).
  exists (Gr c nn lf). split; [apply Gr_gradient; auto|]. split; [apply Gr_backprop|].
  destruct (@ad_run_ok c nn lf X Y xs ts bsz Hb PA Hne Hch HX HY HL lr beta1 beta2 wd Q W HD m h HE (th, m1, m2, k) m ((beta1 ^ k)%R, (beta2 ^ k)%R)) as (m' & s' & E & II).
  { split; [reflexivity|]. split; [apply ready_th; auto|]. split; [apply array_svec; auto|]. split; [apply array_svec; auto|apply oci_refl]. }
  destruct (fold_left (adam_rule (batch_mean nn xs ts (Gr c nn lf)) beta1 beta2 lr wd) (all_batches bsz h) (th, m1, m2, k)) as [[[th' m1'] m2'] t'] eqn:EF.
  assert (EF' : fold_left (adam_rule (mgrad c nn lf xs ts) beta1 beta2 lr wd)
     (flat_map (fun '(e, o, n) => batches bsz (order o)) h) (th, m1, m2, k) = (th', m1', m2', t')) by exact EF.
  rewrite EF' in II. destruct II as (-> & A & B & B2 & C).
  exists m', th', m1', m2', t'. split; [reflexivity|]. split; [exact E|]. split; [apply th_ready; auto|]. split; [apply array_svec; auto|]. split; [apply array_svec; auto|exact C].
Qed.
Print Assumptions adam_recurrence_partial.
