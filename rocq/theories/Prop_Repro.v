(** Prop_Repro.v -- C25: how far apart the results of two schedules can be, and when whole training runs are
    reproducible bit for bit *)
From Coquelicot Require Import Coquelicot.
From Flocq Require Import Core IEEE754.BinarySingleNaN.
From Coq Require Import List Arith ZArith Lia Bool Reals Lra Permutation.
From Verif Require Import Base BaseProofs Ops OpsR OpsB32 Mem MemProofs Kernels KernelProofs Activation ActivationProofs
  Loss Neuralnet ForwardProofs BackpropProofs SpecReal RealForward RealGrad LossGrad GradProofs GradPropProofs PredictProofs BitsProofs SpecMem ParamProofs Batch BatchProofs
  BlasProofs B32Facts MetricB32 Optimizer OptKernels OptProofs OptEpochs SpecOpt OptReal OptTrain Ex_Mem Ex_Train Prop_Optimizer Prop_Rules Prop_Rules2 SpecRound ReproProofs.
Import ListNotations.
Local Open Scope nat_scope.
Local Open Scope mem_scope.
Local Notation NZ := b32_zero.

Section Two.
  Variables (lm : libm) (c : cfg) (nn : neuralnet) (lf : loss) (xs ts : list (list b32)).
  Notation OP := (opsB32 lm).
  Notation VE := (@exp256_lane OP).
  Let np := total_n_parameters nn.
  Let ls := nn_layers nn.
  Hypothesis Hne : ls <> [].
  Hypothesis Hch : chain (in_size nn) ls.
  Hypothesis HX : forall i x, nth_error xs i = Some x -> length x = in_size nn.
  Hypothesis HY : forall i t, nth_error ts i = Some t -> length t = out_size nn.
  Hypothesis HL : length ts = length xs.

  Lemma length_sample th k : length th = np -> k < length xs ->
    length (@sample_grad OP c VE lf (@net_of OP ls th) (nth k xs []) (nth k ts [])) = np.
  Proof.
    intros Lt Hk. destruct (@nth_error_ex _ xs k Hk) as [x Hx]. destruct (@nth_error_ex _ ts k) as [t Ht]; [lia|].
    destruct (@net_of_fits OP ls (in_size nn) th Hch) as (F1 & P1 & L1 & S1).
    { unfold ls; rewrite <- total_psize. exact Lt. }
    transitivity (length (@params_list OP (@net_of OP ls th))); [|rewrite P1; exact Lt]. apply (@length_sample_grad OP).
    - intros E. rewrite E in L1. destruct ls; [congruence|discriminate].
    - rewrite (nth_error_nth xs k [] Hx). change (@F OP) with b32 in *. rewrite (HX _ _ Hx). exact F1.
    - intros l Hl. rewrite (nth_error_nth ts k [] Ht). change (@F OP) with b32 in *. rewrite (HY _ _ Ht). symmetry. exact (@last_out OP nn _ l S1 Hl).
  Qed.
  Lemma shape_same pv i net s s' bs : sched_shape s = sched_shape s' ->
    @batch_grad_f OP c VE nn lf xs ts pv s i net bs = @batch_grad_f OP c VE nn lf xs ts pv s' i net bs.
  Proof.
    intros SH.
    assert (TG : forall t t', tree_shape t = tree_shape t' -> @tree_g OP c VE nn lf xs ts pv i net t = @tree_g OP c VE nn lf xs ts pv i net t').
    { induction t as [b its|t1 I1 t2 I2]; intros [b' its'|t1' t2'] E; simpl in E; inversion E; subst; [reflexivity|].
      simpl. rewrite (I1 t1'), (I2 t2'); auto. }
    unfold batch_grad_f, sched_sum. unfold sched_shape in SH. destruct (s_omp s) as [l|], (s_omp s') as [l'|]; simpl in SH; try discriminate; auto.
    f_equal. f_equal. inversion SH as [H]. clear - H TG. revert l' H. induction l as [|a l IH]; intros [|a' l'] H; simpl in *; inversion H; auto.
    f_equal; auto.
  Qed.

  (** the batch gradient as a function of the parameters, in two runs *)
  Lemma bgrad_two bsz (e e' : @env OP) o o' n n' i th :
    @epoch_ready OP c nn lf bsz (length xs) (e, o, n) -> @epoch_ready OP c nn lf bsz (length xs) (e', o', n') -> order o = order o' ->
    bsz <= 2 \/ sched_shape (e_sched e i) = sched_shape (e_sched e' i) -> length th = np -> i < n ->
    @bgrad OP c VE nn lf xs ts o' (order o') n' e' i th = @bgrad OP c VE nn lf xs ts o (order o) n e i th.
  Proof.
    intros (E1 & E2 & E3 & E4 & E5 & E6) (D1 & D2 & D3 & D4 & D5 & D6) EO C Lt Hi.
    assert (EN : n' = n) by congruence. rewrite EN in *. clear n' EN. rewrite <- EO. unfold bgrad.
    assert (EB : batch_size o' n i = batch_size o n i) by (unfold batch_size; rewrite E2, D2; reflexivity). rewrite EB.
    destruct C as [B|SH]; [|apply shape_same; symmetry; exact SH].
    assert (B2 : batch_size o n i <= 2) by (unfold batch_size; rewrite E2; destruct (Nat.ltb_spec (n - i) bsz); lia).
    destruct (E6 i) as (_ & _ & _ & _ & S1 & _). destruct (D6 i) as (_ & _ & _ & _ & S2 & _). rewrite EB in S2.
    apply few_same; try assumption. intros b Hb. unfold iter_grad. apply length_sample; [exact Lt|]. apply E5. apply nth_In.
    rewrite E4. unfold batch_size in Hb. rewrite E2 in Hb. destruct (Nat.ltb_spec (n - i) bsz); lia.
  Qed.
End Two.

(** two epochs with the same samples in the same order, in which the sums of the gradients are associated in the same
    way, or the batches have at most two samples *)
Definition same_epoch {FO : fops} (c : cfg) (nn : neuralnet) (lf : loss) (bsz n_samples : nat) (a b : env * opt * nat) : Prop :=
  epoch_ready c nn lf bsz n_samples a /\ epoch_ready c nn lf bsz n_samples b /\
  let '(e, o, n) := a in let '(e', o', n') := b in
  order o = order o' /\ (bsz <= 2 \/ forall i, sched_shape (e_sched e i) = sched_shape (e_sched e' i)).

Lemma training_two {FO : fops} {S S' T : Type} (ep : env -> opt -> nat -> S -> M S) (ep' : env -> opt -> nat -> S' -> M S')
    (I : T -> mem -> S -> Prop) (I' : T -> mem -> S' -> Prop) (R : env * opt * nat -> env * opt * nat -> Prop) :
  (forall e o n e' o' n', R (e, o, n) (e', o', n') -> forall t m s m' s', I t m s -> I' t m' s' ->
     exists t2 m1 s1 m2 s2, ep e o n s m = Ok (s1, m1) /\ I t2 m1 s1 /\ ep' e' o' n' s' m' = Ok (s2, m2) /\ I' t2 m2 s2) ->
  forall h h', Forall2 R h h' -> forall t m s m' s', I t m s -> I' t m' s' ->
  exists t2 m1 s1 m2 s2, training ep h s m = Ok (s1, m1) /\ I t2 m1 s1 /\ training ep' h' s' m' = Ok (s2, m2) /\ I' t2 m2 s2.
Proof.
  intros HS. induction 1 as [|[[e o] n] [[e' o'] n'] h h' HR HF IH]; intros t m s m' s' H H'.
  - exists t, m, s, m', s'. repeat split; auto.
  - destruct (HS _ _ _ _ _ _ HR _ _ _ _ _ H H') as (t1 & m1 & s1 & m2 & s2 & E1 & I1 & E2 & I2).
    destruct (IH t1 m1 s1 m2 s2 I1 I2) as (t2 & m3 & s3 & m4 & s4 & E3 & I3 & E4 & I4).
    exists t2, m3, s3, m4, s4. simpl. split; [erewrite bind_ok by exact E1; exact E3|]. split; [exact I3|]. split; [erewrite bind_ok by exact E2; exact E4|exact I4].
Qed.

Section Ready.
  Context {FO : fops}.
  Variables (c : cfg) (nn : neuralnet) (lf : loss) (X Y : ptr) (xs ts : list (list F)).
  Lemma ready_th2 m th : train_ready c nn lf X Y xs ts m th -> holds_th c nn lf X Y xs ts m th.
  Proof. intros (_ & net & <- & T). apply holds_th_intro; auto. Qed.
  Lemma th_ready2 m th : params_apart nn X Y xs ts -> holds_th c nn lf X Y xs ts m th -> train_ready c nn lf X Y xs ts m th.
  Proof. intros P (T & _ & E). split; auto. exists (net_of (nn_layers nn) th). split; auto. Qed.
  Lemma array_svec2 m p v : state_array c nn X Y xs ts m p v <-> svec c nn X Y xs ts m p v.
  Proof.
    unfold OptTrain.state_array, OptEpochs.svec. split; intros (A & B & C & D); (split; [exact A|split; [exact B|]]).
    - rewrite B in C, D. auto. - rewrite B. auto.
  Qed.
  Lemma ready_facts2 m th : train_ready c nn lf X Y xs ts m th -> params_apart nn X Y xs ts /\ nn_layers nn <> [] /\ chain (in_size nn) (nn_layers nn) /\
    (forall i x, nth_error xs i = Some x -> length x = in_size nn) /\
    (forall i t, nth_error ts i = Some t -> length t = out_size nn) /\ length ts = length xs.
  Proof.
    intros (P & net & _ & (H1 & H2 & H3 & H4 & H5 & H6 & H7 & H8)). split; auto. split; auto.
    split; [eapply net_holds_chain; eauto|]. auto.
  Qed.
End Ready.

Section Runs.
  Variables (lm : libm) (c : cfg) (nn : neuralnet) (lf : loss) (X Y X' Y' : ptr) (xs ts : list (list b32)) (bsz : nat).
  Notation OP := (opsB32 lm).
  Notation VE := (@exp256_lane OP).
  Let np := total_n_parameters nn.
  Let ls := nn_layers nn.
  Hypothesis Hbsz : 0 < bsz.
  Hypothesis PA : @params_apart OP nn X Y xs ts.
  Hypothesis PA' : @params_apart OP nn X' Y' xs ts.
  Hypothesis Hne : ls <> [].
  Hypothesis Hch : chain (in_size nn) ls.
  Hypothesis HX : forall i x, nth_error xs i = Some x -> length x = in_size nn.
  Hypothesis HY : forall i t, nth_error ts i = Some t -> length t = out_size nn.
  Hypothesis HL : length ts = length xs.

  (** one epoch in the two runs, for any optimizer whose step applies stepf to the batch gradient at parameters of the
      right length *)
  Lemma epoch_two {S S' T : Type} e o n e' o' n' (step : (nat -> S -> @M OP (nat * S))) (step' : nat -> S' -> @M OP (nat * S')) (I : T -> @mem OP -> S -> Prop) (I' : T -> @mem OP -> S' -> Prop)
      (stepf : (list b32 -> list b32) -> T -> T) :
    @same_epoch OP c nn lf bsz (length xs) (e, o, n) (e', o', n') ->
    (forall i t m s, i < n -> I t m s -> exists m1 s1, step i s m = Ok ((i + batch_size o n i, s1), m1) /\ I (stepf (@bgrad OP c VE nn lf xs ts o (order o) n e i) t) m1 s1) ->
    (forall i t m s, i < n' -> I' t m s -> exists m1 s1, step' i s m = Ok ((i + batch_size o' n' i, s1), m1) /\ I' (stepf (@bgrad OP c VE nn lf xs ts o' (order o') n' e' i) t) m1 s1) ->
    (forall t m s, I' t m s -> forall G G', (forall th, length th = np -> G th = G' th) -> stepf G t = stepf G' t) ->
    forall t m s m' s', I t m s -> I' t m' s' ->
    exists t2 m1 s1 m2 s2, epoch_loop (Datatypes.S n) step n 0 s m = Ok (s1, m1) /\ I t2 m1 s1 /\ epoch_loop (Datatypes.S n') step' n' 0 s' m' = Ok (s2, m2) /\ I' t2 m2 s2.
  Proof.
    intros (R1 & R2 & EO & C) H1 H2 EX t m s m' s' HI HI'.
    pose proof R1 as (E1 & E2 & E3 & E4 & E5 & E6). pose proof R2 as (D1 & D2 & D3 & D4 & D5 & D6).
    assert (EN : n' = n) by congruence. rewrite EN in *. clear n' EN.
    assert (B1 : 0 < o_batchsize o) by lia. assert (B2 : 0 < o_batchsize o') by lia.
    destruct (@epoch_ok OP nn o (order o) n B1 E4 S T step I (fun i t => stepf (@bgrad OP c VE nn lf xs ts o (order o) n e i) t) H1 t m s HI) as (m1 & s1 & F1 & I1).
    destruct (@epoch_ok OP nn o' (order o') n B2 D4 S' T step' I' (fun i t => stepf (@bgrad OP c VE nn lf xs ts o (order o) n e i) t)) with (t := t) (m := m') (s := s')
      as (m2 & s2 & F2 & I2); auto.
    { intros i t0 m0 s0 Hi H0. destruct (H2 i t0 m0 s0 Hi H0) as (m2 & s2 & F2 & I2). exists m2, s2. split; [exact F2|].
      erewrite EX; [exact I2|exact H0|]. intros th Lt. symmetry. apply (bgrad_two lm c nn lf xs ts Hne Hch HX HY HL bsz); try assumption.
      destruct C as [C|C]; [left; exact C|right; apply C]. }
    assert (NB : n_batches o' n = n_batches o n) by (unfold n_batches; rewrite E2, D2; reflexivity). rewrite NB in I2.
    assert (BB : o_batchsize o' = o_batchsize o) by congruence. rewrite BB in I2.
    exists (fold_left (fun t k => stepf (@bgrad OP c VE nn lf xs ts o (order o) n e (k * o_batchsize o)) t) (seq 0 (n_batches o n)) t), m1, s1, m2, s2. auto.
  Qed.
  Lemma some_order (o : opt) : o_pivot o <> None -> o_pivot o = Some (order o).
  Proof. unfold order. destruct (o_pivot o); congruence. Qed.

  Lemma sgd_two decay mu nest V V' m0 m0' e o n e' o' n' : @same_epoch OP c nn lf bsz (length xs) (e, o, n) (e', o', n') ->
    forall t m s m' s', @sgd_inv OP c nn lf X Y xs ts decay mu nest V m0 t m s -> @sgd_inv OP c nn lf X' Y' xs ts decay mu nest V' m0' t m' s' ->
    exists t2 m1 s1 m2 s2, @sgd_epoch OP c VE e o n X Y s m = Ok (s1, m1) /\ @sgd_inv OP c nn lf X Y xs ts decay mu nest V m0 t2 m1 s1 /\
      @sgd_epoch OP c VE e' o' n' X' Y' s' m' = Ok (s2, m2) /\ @sgd_inv OP c nn lf X' Y' xs ts decay mu nest V' m0' t2 m2 s2.
  Proof.
    intros SE. pose proof SE as ((E1 & E2 & E3 & E4 & E5 & E6) & (D1 & D2 & D3 & D4 & D5 & D6) & _).
    assert (B1 : 0 < o_batchsize o) by lia. assert (B2 : 0 < o_batchsize o') by lia.
    apply (epoch_two e o n e' o' n' (@sgd_step OP c VE e o n X Y) (@sgd_step OP c VE e' o' n' X' Y') _ _ (@sgd_step_f OP decay mu nest) SE).
    - intros. apply (@sgd_step_ok OP c VE (mulC_B32 lm) nn lf X Y xs ts PA o (order o) n e E1 B1 (some_order o E3) E4 E5 E6); assumption.
    - intros. apply (@sgd_step_ok OP c VE (mulC_B32 lm) nn lf X' Y' xs ts PA' o' (order o') n' e' D1 B2 (some_order o' D3) D4 D5 D6); assumption.
    - intros [[[th v] lr] k] m s (_ & (_ & Lth & _) & (_ & Lv & _) & _) G G' EG. cbn [fst snd] in Lth, Lv. unfold sgd_step_f.
      destruct (fgt mu f0); [|rewrite (EG th Lth); reflexivity]. destruct nest; [|rewrite (EG th Lth); reflexivity].
      rewrite EG; [reflexivity|]. rewrite length_map2, map_length. change (@F OP) with b32 in *. unfold np. rewrite Lth, Lv. apply Nat.min_id.
  Qed.
  Lemma rms_two decay rho mu nest V V' Q Q' m0 m0' e o n e' o' n' : disjoint V np Q np -> disjoint V' np Q' np -> @same_epoch OP c nn lf bsz (length xs) (e, o, n) (e', o', n') ->
    forall t m s m' s', @rms_inv OP c nn lf X Y xs ts decay rho mu nest V Q m0 t m s -> @rms_inv OP c nn lf X' Y' xs ts decay rho mu nest V' Q' m0' t m' s' ->
    exists t2 m1 s1 m2 s2, @rmsprop_epoch OP c VE e o n X Y s m = Ok (s1, m1) /\ @rms_inv OP c nn lf X Y xs ts decay rho mu nest V Q m0 t2 m1 s1 /\
      @rmsprop_epoch OP c VE e' o' n' X' Y' s' m' = Ok (s2, m2) /\ @rms_inv OP c nn lf X' Y' xs ts decay rho mu nest V' Q' m0' t2 m2 s2.
  Proof.
    intros DV DV' SE. pose proof SE as ((E1 & E2 & E3 & E4 & E5 & E6) & (D1 & D2 & D3 & D4 & D5 & D6) & _).
    assert (B1 : 0 < o_batchsize o) by lia. assert (B2 : 0 < o_batchsize o') by lia.
    apply (epoch_two e o n e' o' n' (@rmsprop_step OP c VE e o n X Y) (@rmsprop_step OP c VE e' o' n' X' Y') _ _ (@rms_step_f OP decay rho mu nest) SE).
    - intros. apply (@rms_step_ok OP c VE (mulC_B32 lm) nn lf X Y xs ts PA o (order o) n e E1 B1 (some_order o E3) E4 E5 E6); assumption.
    - intros. apply (@rms_step_ok OP c VE (mulC_B32 lm) nn lf X' Y' xs ts PA' o' (order o') n' e' D1 B2 (some_order o' D3) D4 D5 D6); assumption.
    - intros [[[[th v] r] lr] k] m s (_ & (_ & Lth & _) & (_ & Lv & _) & _) G G' EG. cbn [fst snd] in Lth, Lv. unfold rms_step_f.
      destruct (fgt mu f0); [|rewrite (EG th Lth); reflexivity]. destruct nest; [|rewrite (EG th Lth); reflexivity].
      rewrite EG; [reflexivity|]. rewrite length_map2, map_length. change (@F OP) with b32 in *. unfold np. rewrite Lth, Lv. apply Nat.min_id.
  Qed.
  Lemma ag_two decay Q Q' m0 m0' e o n e' o' n' : @same_epoch OP c nn lf bsz (length xs) (e, o, n) (e', o', n') ->
    forall t m s m' s', @ag_inv OP c nn lf X Y xs ts decay Q m0 t m s -> @ag_inv OP c nn lf X' Y' xs ts decay Q' m0' t m' s' ->
    exists t2 m1 s1 m2 s2, @adagrad_epoch OP c VE e o n X Y s m = Ok (s1, m1) /\ @ag_inv OP c nn lf X Y xs ts decay Q m0 t2 m1 s1 /\
      @adagrad_epoch OP c VE e' o' n' X' Y' s' m' = Ok (s2, m2) /\ @ag_inv OP c nn lf X' Y' xs ts decay Q' m0' t2 m2 s2.
  Proof.
    intros SE. pose proof SE as ((E1 & E2 & E3 & E4 & E5 & E6) & (D1 & D2 & D3 & D4 & D5 & D6) & _).
    assert (B1 : 0 < o_batchsize o) by lia. assert (B2 : 0 < o_batchsize o') by lia.
    apply (epoch_two e o n e' o' n' (@adagrad_step OP c VE e o n X Y) (@adagrad_step OP c VE e' o' n' X' Y') _ _ (@ag_step_f OP decay) SE).
    - intros. apply (@ag_step_ok OP c VE (mulC_B32 lm) nn lf X Y xs ts PA o (order o) n e E1 B1 (some_order o E3) E4 E5 E6); assumption.
    - intros. apply (@ag_step_ok OP c VE (mulC_B32 lm) nn lf X' Y' xs ts PA' o' (order o') n' e' D1 B2 (some_order o' D3) D4 D5 D6); assumption.
    - intros [[[th r] lr] k] m s (_ & (_ & Lth & _) & _) G G' EG. cbn [fst snd] in Lth. unfold ag_step_f. rewrite (EG th Lth). reflexivity.
  Qed.
  Lemma ad_two lr beta1 beta2 wd Q Q' W W' m0 m0' e o n e' o' n' : disjoint Q np W np -> disjoint Q' np W' np -> @same_epoch OP c nn lf bsz (length xs) (e, o, n) (e', o', n') ->
    forall t m s m' s', @ad_inv OP c nn lf X Y xs ts Q W m0 t m s -> @ad_inv OP c nn lf X' Y' xs ts Q' W' m0' t m' s' ->
    exists t2 m1 s1 m2 s2, @adam_epoch OP c VE e o n X Y (@ad_rec OP lr beta1 beta2 wd Q W) s m = Ok (s1, m1) /\ @ad_inv OP c nn lf X Y xs ts Q W m0 t2 m1 s1 /\
      @adam_epoch OP c VE e' o' n' X' Y' (@ad_rec OP lr beta1 beta2 wd Q' W') s' m' = Ok (s2, m2) /\ @ad_inv OP c nn lf X' Y' xs ts Q' W' m0' t2 m2 s2.
  Proof.
    intros DV DV' SE. pose proof SE as ((E1 & E2 & E3 & E4 & E5 & E6) & (D1 & D2 & D3 & D4 & D5 & D6) & _).
    assert (B1 : 0 < o_batchsize o) by lia. assert (B2 : 0 < o_batchsize o') by lia.
    apply (epoch_two e o n e' o' n' (@adam_step OP c VE e o n X Y (@ad_rec OP lr beta1 beta2 wd Q W)) (@adam_step OP c VE e' o' n' X' Y' (@ad_rec OP lr beta1 beta2 wd Q' W')) _ _ (@ad_step_f OP c lr beta1 beta2 wd) SE).
    - intros. apply (@ad_step_ok OP c VE (mulC_B32 lm) nn lf X Y xs ts PA o (order o) n e E1 B1 (some_order o E3) E4 E5 E6); assumption.
    - intros. apply (@ad_step_ok OP c VE (mulC_B32 lm) nn lf X' Y' xs ts PA' o' (order o') n' e' D1 B2 (some_order o' D3) D4 D5 D6); assumption.
    - intros [[[th r] s0] st] m s (_ & (_ & Lth & _) & _) G G' EG. cbn [fst snd] in Lth. unfold ad_step_f. rewrite (EG th Lth). reflexivity.
  Qed.
End Runs.

(** ** the batch gradient *)
(** a call of calc_batch_gradient for batch i with the schedule s and the gradient buffer bg *)
Definition call_ready {FO : fops} (c : cfg) (nn : neuralnet) (lf : loss) (X Y : ptr) (xs ts : list (list F)) (m : mem) (th : list F)
    (o : opt) (pv : list nat) (s : sched) (n i : nat) (bg : ptr) (over : list F) : Prop :=
  train_ready c nn lf X Y xs ts m th /\
  o_nn o = neuralnet_set_loss nn (Some lf) /\ o_pivot o = Some pv /\ length pv = n /\ (forall k, In k pv -> k < length xs) /\ i < n /\
  (forall b, aligned_base c (s_grad s b)) /\ (forall b, aligned_base c (s_work s b)) /\ sched_ok s (batch_size o n i) /\
  valid m bg (total_n_parameters nn) /\ holds m (padd bg (total_n_parameters nn)) over /\ length over = over_len c nn s /\
  clear nn X Y xs ts bg (total_n_parameters nn + length over) /\ kal c (total_n_parameters nn) m bg.

Lemma call_runs (lm : libm) (c : cfg) nn lf X Y xs ts m th o pv s n i bg over :
  let OP := opsB32 lm in
  @call_ready OP c nn lf X Y xs ts m th o pv s n i bg over ->
  exists m1, @calc_batch_gradient OP c (@exp256_lane OP) s o n X Y i bg m = Ok (i + batch_size o n i, m1) /\
    @holds OP m1 bg (@batch_grad_f OP c (@exp256_lane OP) nn lf xs ts pv s i (@net_of OP (nn_layers nn) th) (batch_size o n i)) /\
    (forall b, b < batch_size o n i -> length (@iter_grad OP c (@exp256_lane OP) lf xs ts pv i (@net_of OP (nn_layers nn) th) b) = total_n_parameters nn) /\
    length (@batch_grad_f OP c (@exp256_lane OP) nn lf xs ts pv s i (@net_of OP (nn_layers nn) th) (batch_size o n i)) = total_n_parameters nn.
Proof.
  intros OP (TR & Ho & Hpv & Hl & Hin & Hi & A1 & A2 & S1 & V1 & O1 & L1 & C1 & K1).
  pose proof (@ready_facts2 OP c nn lf X Y xs ts m th TR) as (_ & Hne & Hch & HX & HY & HL).
  destruct (@ready_th2 OP c nn lf X Y xs ts m th TR) as (_ & LT & _).
  destruct TR as (PA & net & EN & T). assert (EN' : net = @net_of OP (nn_layers nn) th).
  { pose proof T as (_ & N1 & _). rewrite <- EN. symmetry. eapply (@net_of_params OP); exact N1. }
  rewrite L1 in C1.
  destruct (@calc_ok OP c (@exp256_lane OP) (mulC_B32 lm) nn lf X Y xs ts o pv s i Ho Hpv Hin A1 A2 net m bg over n T Hl (Nat.lt_le_incl _ _ Hi) V1 O1 L1 C1 K1 S1) as (R1 & G1 & Q1).
  rewrite EN' in R1, G1.
  eexists. split; [exact R1|]. split; [|split; [|exact G1]].
  - eapply holds_app_inv. apply holds_writem_same. clear - G1 V1 O1 Q1 L1.
    destruct V1 as (b & Hb & HL). destruct O1 as (b' & Hb' & HL' & _). exists b. split; auto.
    cbn [padd blk off] in *. rewrite Hb in Hb'. inversion Hb'; subst b'. rewrite app_length. change (@F OP) with b32 in *. lia.
  - intros b Hb. unfold iter_grad. apply (length_sample lm c nn lf xs ts Hne Hch HX HY HL).
    + exact LT.
    + apply Hin. apply nth_In. unfold batch_size in Hb. destruct (Nat.ltb_spec (n - i) (o_batchsize o)); lia.
Qed.

(** Batches of one or two samples: the gradient is the same bit for bit whatever the threads do, with and without
    OpenMP, wherever the arrays are. *)
Theorem reproducible_small_batch_partial (lm : libm) (c : cfg) (nn : neuralnet) (lf : loss) (X Y X' Y' : ptr) (xs ts : list (list b32))
    (m m' : @mem (opsB32 lm)) (th : list b32) (o : opt) (pv : list nat) (s s' : sched) (n i : nat) (bg bg' : ptr) (over over' : list b32) :
  let OP := opsB32 lm in
  @call_ready OP c nn lf X Y xs ts m th o pv s n i bg over -> @call_ready OP c nn lf X' Y' xs ts m' th o pv s' n i bg' over' ->
  batch_size o n i <= 2 ->
  exists g m1 m2, length g = total_n_parameters nn /\
    @calc_batch_gradient OP c (@exp256_lane OP) s o n X Y i bg m = Ok (i + batch_size o n i, m1) /\ @holds OP m1 bg g /\
    @calc_batch_gradient OP c (@exp256_lane OP) s' o n X' Y' i bg' m' = Ok (i + batch_size o n i, m2) /\ @holds OP m2 bg' g.
Proof.
  intros OP H H' B. pose proof H as (_ & _ & _ & _ & _ & _ & _ & _ & S1 & _). pose proof H' as (_ & _ & _ & _ & _ & _ & _ & _ & S2 & _).
  destruct (call_runs _ _ _ _ _ _ _ _ _ _ _ _ _ _ _ _ _ H) as (m1 & R1 & G1 & LI & LG).
  destruct (call_runs _ _ _ _ _ _ _ _ _ _ _ _ _ _ _ _ _ H') as (m2 & R2 & G2 & _ & _).
  rewrite (few_same lm c nn lf xs ts pv i _ s' s _ B LI S2 S1) in G2.
  eexists. exists m1, m2. split; [exact LG|]. split; [exact R1|]. split; [exact G1|]. split; [exact R2|exact G2].
Qed.
Print Assumptions reproducible_small_batch_partial.

(** Batches of any size: with two schedules the components of the gradient differ by at most twice the rounding error of
    adding up and dividing, measured by the mean of the absolute values of the sample gradients. *)
Theorem reproducible_close_partial (lm : libm) (c : cfg) (nn : neuralnet) (lf : loss) (X Y X' Y' : ptr) (xs ts : list (list b32))
    (m m' : @mem (opsB32 lm)) (th : list b32) (o : opt) (pv : list nat) (s s' : sched) (n i : nat) (bg bg' : ptr) (over over' : list b32) :
  let OP := opsB32 lm in let bs := batch_size o n i in
  0 < o_batchsize o ->
  @call_ready OP c nn lf X Y xs ts m th o pv s n i bg over -> @call_ready OP c nn lf X' Y' xs ts m' th o pv s' n i bg' over' ->
  exists (D : nat -> list b32) net g g' m1 m2,
    @params_list OP net = th /\
    (forall d wb mm pin pt pg, d < bs -> let k := nth (i + d) pv 0 in
       @bp_ready OP c wb nn net lf mm pin pt pg (nth k xs []) (nth k ts []) ->
       @writes_only OP (@neuralnet_backpropagation OP c (@exp256_lane OP) wb (neuralnet_set_loss nn (Some lf)) pin pt pg) mm pg (D d)) /\
    @calc_batch_gradient OP c (@exp256_lane OP) s o n X Y i bg m = Ok (i + bs, m1) /\ @holds OP m1 bg g /\ length g = total_n_parameters nn /\
    @calc_batch_gradient OP c (@exp256_lane OP) s' o n X' Y' i bg' m' = Ok (i + bs, m2) /\ @holds OP m2 bg' g' /\ length g' = total_n_parameters nn /\
    forall q, q < total_n_parameters nn ->
      let S := rsum (map (fun d => Rabs (bv (nth q (D d) NZ))) (seq 0 bs)) in
      (forall d, d < bs -> fin (nth q (D d) NZ) = true) -> (INR bs < 2 ^ 24)%R -> ((1 + u32) ^ bs * S <= 2 ^ 126)%R ->
      fin (nth q g NZ) = true /\ fin (nth q g' NZ) = true /\
      (Rabs (bv (nth q g NZ) - bv (nth q g' NZ)) <= 2 * (((1 + u32) ^ (bs + 1) - 1) * (S / INR bs) + eta32))%R.
Proof.
  intros OP bs BS H H'. pose proof H as ((_ & net0 & EP & T0) & _ & _ & _ & _ & Hi & _ & _ & S1 & _). pose proof H' as (_ & _ & _ & _ & _ & _ & _ & _ & S2 & _).
  destruct (call_runs _ _ _ _ _ _ _ _ _ _ _ _ _ _ _ _ _ H) as (m1 & R1 & G1 & LI & LG).
  destruct (call_runs _ _ _ _ _ _ _ _ _ _ _ _ _ _ _ _ _ H') as (m2 & R2 & G2 & _ & LG2).
  assert (B0 : 0 < bs) by (unfold bs, batch_size; destruct (Nat.ltb_spec (n - i) (o_batchsize o)); lia).
  assert (EN : net0 = @net_of OP (nn_layers nn) th).
  { pose proof T0 as (_ & N1 & _). rewrite <- EP. symmetry. eapply (@net_of_params OP); exact N1. }
  set (net := @net_of OP (nn_layers nn) th) in *.
  exists (@iter_grad OP c (@exp256_lane OP) lf xs ts pv i net), net. do 2 eexists. exists m1, m2.
  split; [rewrite <- EN; exact EP|]. split.
  { intros d wb mm pin pt pg Hd k HB. exact (@backprop_writes OP c (@exp256_lane OP) (mulC_B32 lm) wb nn net lf mm pin pt pg _ _ HB). }
  split; [exact R1|]. split; [exact G1|]. split; [exact LG|]. split; [exact R2|]. split; [exact G2|]. split; [exact LG2|].
  intros q Hq S FG NB CAP.
  destruct (mean_plain lm c nn lf xs ts pv i net s bs q B0 LI Hq S1 FG NB CAP) as (F1 & E1).
  destruct (mean_plain lm c nn lf xs ts pv i net s' bs q B0 LI Hq S2 FG NB CAP) as (F2 & E2).
  split; [exact F1|]. split; [exact F2|].
  assert (TI : forall a b z K : R, (Rabs (a - z) <= K -> Rabs (b - z) <= K -> Rabs (a - b) <= 2 * K)%R).
  { intros a b z K A1 A2. apply Rabs_le_between in A1. apply Rabs_le_between in A2. apply Rabs_le_between. lra. }
  exact (TI _ _ _ _ E1 E2).
Qed.
Print Assumptions reproducible_close_partial.

(** ** whole training runs *)
Section Whole.
  Variables (lm : libm) (c : cfg) (nn : neuralnet) (lf : loss) (X Y X' Y' : ptr) (xs ts : list (list b32)) (m m' : @mem (opsB32 lm)) (bsz : nat) (th : list b32)
    (h h' : list (@env (opsB32 lm) * opt * nat)).
  Notation OP := (opsB32 lm).
  Notation VE := (@exp256_lane OP).
  Notation ready := (@train_ready OP c nn lf X Y xs ts).
  Notation ready' := (@train_ready OP c nn lf X' Y' xs ts).
  Notation array := (@state_array OP c nn X Y xs ts).
  Notation array' := (@state_array OP c nn X' Y' xs ts).
  Let np := total_n_parameters nn.

  Theorem sgd_reproducible_partial (decay mu lr : b32) (nest : bool) (k : nat) (V V' : ptr) (v : list b32) :
    0 < bsz -> ready m th -> ready' m' th -> array m V v -> array' m' V' v ->
    Forall2 (@same_epoch OP c nn lf bsz (length xs)) h h' ->
    let opt p lr k := @Build_sgd OP lr decay mu nest k p in
    exists m1 m2 th1 v1 lr1 k1,
      training (fun e o n => @sgd_epoch OP c VE e o n X Y) h (opt V lr k) m = Ok (opt V lr1 k1, m1) /\ ready m1 th1 /\ array m1 V v1 /\
      training (fun e o n => @sgd_epoch OP c VE e o n X' Y') h' (opt V' lr k) m' = Ok (opt V' lr1 k1, m2) /\ ready' m2 th1 /\ array' m2 V' v1.
  Proof.
    intros Hb TR TR' A A' HF opt0. pose proof (@ready_facts2 OP c nn lf X Y xs ts m th TR) as (PA & Hne & Hch & HX & HY & HL).
    pose proof (@ready_facts2 OP c nn lf X' Y' xs ts m' th TR') as (PA' & _).
    destruct (@training_two OP _ _ _ _ _ (@sgd_inv OP c nn lf X Y xs ts decay mu nest V m) (@sgd_inv OP c nn lf X' Y' xs ts decay mu nest V' m') _
      (sgd_two lm c nn lf X Y X' Y' xs ts bsz Hb PA PA' Hne Hch HX HY HL decay mu nest V V' m m') h h' HF (th, v, lr, k) m (opt0 V lr k) m' (opt0 V' lr k))
      as ([[[th1 v1] lr1] k1] & m1 & s1 & m2 & s2 & E1 & (I1 & I2 & I3 & _) & E2 & (J1 & J2 & J3 & _)).
    - split; [reflexivity|]. split; [apply ready_th2; exact TR|]. split; [apply array_svec2; exact A|apply oci_refl].
    - split; [reflexivity|]. split; [apply ready_th2; exact TR'|]. split; [apply array_svec2; exact A'|apply oci_refl].
    - subst s1 s2. exists m1, m2, th1, v1, lr1, k1. split; [exact E1|]. split; [apply th_ready2; assumption|]. split; [apply array_svec2; exact I3|].
      split; [exact E2|]. split; [apply th_ready2; assumption|apply array_svec2; exact J3].
  Qed.

  Theorem rmsprop_reproducible_partial (decay rho mu lr : b32) (nest : bool) (k : nat) (V V' Q Q' : ptr) (v r : list b32) :
    0 < bsz -> ready m th -> ready' m' th -> array m V v -> array' m' V' v -> array m Q r -> array' m' Q' r ->
    disjoint V np Q np -> disjoint V' np Q' np ->
    Forall2 (@same_epoch OP c nn lf bsz (length xs)) h h' ->
    let opt p q lr k := @Build_rmsprop OP lr decay rho mu nest k p q in
    exists m1 m2 th1 v1 r1 lr1 k1,
      training (fun e o n => @rmsprop_epoch OP c VE e o n X Y) h (opt V Q lr k) m = Ok (opt V Q lr1 k1, m1) /\ ready m1 th1 /\ array m1 V v1 /\ array m1 Q r1 /\
      training (fun e o n => @rmsprop_epoch OP c VE e o n X' Y') h' (opt V' Q' lr k) m' = Ok (opt V' Q' lr1 k1, m2) /\ ready' m2 th1 /\ array' m2 V' v1 /\ array' m2 Q' r1.
  Proof.
    intros Hb TR TR' A A' B B' DV DV' HF opt0. pose proof (@ready_facts2 OP c nn lf X Y xs ts m th TR) as (PA & Hne & Hch & HX & HY & HL).
    pose proof (@ready_facts2 OP c nn lf X' Y' xs ts m' th TR') as (PA' & _).
    destruct (@training_two OP _ _ _ _ _ (@rms_inv OP c nn lf X Y xs ts decay rho mu nest V Q m) (@rms_inv OP c nn lf X' Y' xs ts decay rho mu nest V' Q' m') _
      (fun e o n e' o' n' => rms_two lm c nn lf X Y X' Y' xs ts bsz Hb PA PA' Hne Hch HX HY HL decay rho mu nest V V' Q Q' m m' e o n e' o' n' DV DV') h h' HF (th, v, r, lr, k) m (opt0 V Q lr k) m' (opt0 V' Q' lr k))
      as ([[[[th1 v1] r1] lr1] k1] & m1 & s1 & m2 & s2 & E1 & (I1 & I2 & I3 & I4 & _) & E2 & (J1 & J2 & J3 & J4 & _)).
    - split; [reflexivity|]. split; [apply ready_th2; exact TR|]. split; [apply array_svec2; exact A|]. split; [apply array_svec2; exact B|apply oci_refl].
    - split; [reflexivity|]. split; [apply ready_th2; exact TR'|]. split; [apply array_svec2; exact A'|]. split; [apply array_svec2; exact B'|apply oci_refl].
    - subst s1 s2. exists m1, m2, th1, v1, r1, lr1, k1. split; [exact E1|]. split; [apply th_ready2; assumption|]. split; [apply array_svec2; exact I3|].
      split; [apply array_svec2; exact I4|]. split; [exact E2|]. split; [apply th_ready2; assumption|]. split; [apply array_svec2; exact J3|apply array_svec2; exact J4].
  Qed.

  Theorem adagrad_reproducible_partial (decay lr : b32) (k : nat) (Q Q' : ptr) (r : list b32) :
    0 < bsz -> ready m th -> ready' m' th -> array m Q r -> array' m' Q' r ->
    Forall2 (@same_epoch OP c nn lf bsz (length xs)) h h' ->
    let opt q lr k := @Build_adagrad OP lr decay k q in
    exists m1 m2 th1 r1 lr1 k1,
      training (fun e o n => @adagrad_epoch OP c VE e o n X Y) h (opt Q lr k) m = Ok (opt Q lr1 k1, m1) /\ ready m1 th1 /\ array m1 Q r1 /\
      training (fun e o n => @adagrad_epoch OP c VE e o n X' Y') h' (opt Q' lr k) m' = Ok (opt Q' lr1 k1, m2) /\ ready' m2 th1 /\ array' m2 Q' r1.
  Proof.
    intros Hb TR TR' A A' HF opt0. pose proof (@ready_facts2 OP c nn lf X Y xs ts m th TR) as (PA & Hne & Hch & HX & HY & HL).
    pose proof (@ready_facts2 OP c nn lf X' Y' xs ts m' th TR') as (PA' & _).
    destruct (@training_two OP _ _ _ _ _ (@ag_inv OP c nn lf X Y xs ts decay Q m) (@ag_inv OP c nn lf X' Y' xs ts decay Q' m') _
      (ag_two lm c nn lf X Y X' Y' xs ts bsz Hb PA PA' Hne Hch HX HY HL decay Q Q' m m') h h' HF (th, r, lr, k) m (opt0 Q lr k) m' (opt0 Q' lr k))
      as ([[[th1 r1] lr1] k1] & m1 & s1 & m2 & s2 & E1 & (I1 & I2 & I3 & _) & E2 & (J1 & J2 & J3 & _)).
    - split; [reflexivity|]. split; [apply ready_th2; exact TR|]. split; [apply array_svec2; exact A|apply oci_refl].
    - split; [reflexivity|]. split; [apply ready_th2; exact TR'|]. split; [apply array_svec2; exact A'|apply oci_refl].
    - subst s1 s2. exists m1, m2, th1, r1, lr1, k1. split; [exact E1|]. split; [apply th_ready2; assumption|]. split; [apply array_svec2; exact I3|].
      split; [exact E2|]. split; [apply th_ready2; assumption|apply array_svec2; exact J3].
  Qed.

  (** both runs start with the same static variables *)
  Theorem adam_reproducible_partial (lr beta1 beta2 wd : b32) (st : b32 * b32) (R R' S S' : ptr) (r s : list b32) :
    0 < bsz -> ready m th -> ready' m' th -> array m R r -> array' m' R' r -> array m S s -> array' m' S' s ->
    disjoint R np S np -> disjoint R' np S' np ->
    Forall2 (@same_epoch OP c nn lf bsz (length xs)) h h' ->
    exists m1 m2 th1 r1 s1 st1,
      training (fun e o n => @adam_epoch OP c VE e o n X Y (@Build_adam OP lr beta1 beta2 wd R S)) h st m = Ok (st1, m1) /\ ready m1 th1 /\ array m1 R r1 /\ array m1 S s1 /\
      training (fun e o n => @adam_epoch OP c VE e o n X' Y' (@Build_adam OP lr beta1 beta2 wd R' S')) h' st m' = Ok (st1, m2) /\ ready' m2 th1 /\ array' m2 R' r1 /\ array' m2 S' s1.
  Proof.
    intros Hb TR TR' A A' B B' DV DV' HF. pose proof (@ready_facts2 OP c nn lf X Y xs ts m th TR) as (PA & Hne & Hch & HX & HY & HL).
    pose proof (@ready_facts2 OP c nn lf X' Y' xs ts m' th TR') as (PA' & _).
    destruct (@training_two OP _ _ _ _ _ (@ad_inv OP c nn lf X Y xs ts R S m) (@ad_inv OP c nn lf X' Y' xs ts R' S' m') _
      (fun e o n e' o' n' => ad_two lm c nn lf X Y X' Y' xs ts bsz Hb PA PA' Hne Hch HX HY HL lr beta1 beta2 wd R R' S S' m m' e o n e' o' n' DV DV') h h' HF (th, r, s, st) m st m' st)
      as ([[[th1 r1] s1] st1] & m1 & q1 & m2 & q2 & E1 & (I1 & I2 & I3 & I4 & _) & E2 & (J1 & J2 & J3 & J4 & _)).
    - split; [reflexivity|]. split; [apply ready_th2; exact TR|]. split; [apply array_svec2; exact A|]. split; [apply array_svec2; exact B|apply oci_refl].
    - split; [reflexivity|]. split; [apply ready_th2; exact TR'|]. split; [apply array_svec2; exact A'|]. split; [apply array_svec2; exact B'|apply oci_refl].
    - subst q1 q2. exists m1, m2, th1, r1, s1, st1. split; [exact E1|]. split; [apply th_ready2; assumption|]. split; [apply array_svec2; exact I3|].
      split; [apply array_svec2; exact I4|]. split; [exact E2|]. split; [apply th_ready2; assumption|]. split; [apply array_svec2; exact J3|apply array_svec2; exact J4].
  Qed.
End Whole.
Print Assumptions sgd_reproducible_partial.
Print Assumptions rmsprop_reproducible_partial.
Print Assumptions adagrad_reproducible_partial.
Print Assumptions adam_reproducible_partial.

(** ** concrete cases *)
(** two samples, one batch: without OpenMP, and with two threads *)
Definition pair : opt := tc_opt 2 [1; 0].
Definition rx : list b32 := [b32_ofZ 3; b32_ofZ 1; b32_ofZ 2].
Definition rt : list b32 := [b32_ofZ 1; b32_ofZ (-16777216); b32_ofZ 5].
Example small_batch_case (lm : libm) : let OP := opsB32 lm in
  @call_ready OP sse_c tc_nn MSE (mkptr 2 0) (mkptr 3 0) (@rows OP rx) (@rows OP rt) (@tc_mem OP rx rt) [b32_zero; b32_zero] pair [1; 0] seq_sched 2 0 (mkptr 6 0) [] /\
  @call_ready OP sse_c tc_nn MSE (mkptr 2 0) (mkptr 3 0) (@rows OP rx) (@rows OP rt) (@tc_mem OP rx rt) [b32_zero; b32_zero] pair [1; 0] (two_threads 2) 2 0 (mkptr 6 0) [] /\
  batch_size pair 2 0 = 2 /\
  block_after 6 (@calc_batch_gradient OP sse_c (@exp256_lane OP) seq_sched pair 2 (mkptr 2 0) (mkptr 3 0) 0 (mkptr 6 0) (@tc_mem OP rx rt)) =
    Some [Some (SpecFloat.S754_finite false 16777215 0); Some (SpecFloat.S754_finite false 16777213 0)].
Proof.
  intros OP.
  assert (G : forall s, (s = seq_sched \/ s = two_threads 2) -> @call_ready OP sse_c tc_nn MSE (mkptr 2 0) (mkptr 3 0) (@rows OP rx) (@rows OP rt) (@tc_mem OP rx rt) [b32_zero; b32_zero] pair [1; 0] s 2 0 (mkptr 6 0) []).
  { intros s Hs. split; [apply (@tc_ready OP); reflexivity|]. split; [reflexivity|]. split; [reflexivity|]. split; [reflexivity|].
    split; [simpl; intros k [<-|[<-|[]]]; lia|]. split; [lia|].
    split; [destruct Hs; subst s; intros; apply aligned_base_0|]. split; [destruct Hs; subst s; intros; apply aligned_base_0|].
    split; [destruct Hs; subst s; [exact I|unfold sched_ok; simpl; apply perm_swap]|].
    split; [eexists; split; [reflexivity|apply Nat.leb_le; reflexivity]|]. split; [eexists; split; [reflexivity|split; [apply Nat.leb_le; reflexivity|reflexivity]]|].
    split; [destruct Hs; subst s; reflexivity|]. split; [apply (@tc_clear OP); lia|]. split; cbn; lia. }
  split; [apply G; auto|]. split; [apply G; auto|]. split; [reflexivity|].
  vm_compute. reflexivity.
Qed.

(** Three samples in batches of two, two epochs with a different order each: run sequentially, and by two threads.  The
    parameters have moved after the run. *)
Definition runs_seq (FO : fops) : list (env * opt * nat) := [(tc_env, tc_opt 2 [1; 0; 2], 3); (tc_env, tc_opt 2 [2; 0; 1], 3)].
Definition runs_omp (FO : fops) (c : cfg) : list (env * opt * nat) :=
  [(tc_env_omp c 2 3, tc_opt 2 [1; 0; 2], 3); (tc_env_omp c 2 3, tc_opt 2 [2; 0; 1], 3)].
Lemma runs_same (FO : fops) (c : cfg) : Forall2 (same_epoch c tc_nn MSE 2 3) (runs_seq FO) (runs_omp FO c).
Proof.
  constructor; [|constructor; [|constructor]]; (split; [|split; [|split; [reflexivity|left; auto]]]).
  - apply (@tc_epoch FO c 2 3 [1; 0; 2]). simpl; intros k [<-|[<-|[<-|[]]]]; lia.
  - apply (@tc_epoch_omp FO c 2 3 [1; 0; 2]). simpl; intros k [<-|[<-|[<-|[]]]]; lia.
  - apply (@tc_epoch FO c 2 3 [2; 0; 1]). simpl; intros k [<-|[<-|[<-|[]]]]; lia.
  - apply (@tc_epoch_omp FO c 2 3 [2; 0; 1]). simpl; intros k [<-|[<-|[<-|[]]]]; lia.
Qed.
Definition mmap0 {A M : Type} (r : res (A * M)) : res (nat * M) := match r with Ok (_, m) => Ok (0, m) | Fault f => Fault f end.
Example reproducible_case (lm : libm) (c : cfg) : let OP := opsB32 lm in
  @train_ready OP c tc_nn MSE (mkptr 2 0) (mkptr 3 0) (@rows OP rx) (@rows OP rt) (@tc_mem OP rx rt) [b32_zero; b32_zero] /\
  @state_array OP c tc_nn (mkptr 2 0) (mkptr 3 0) (@rows OP rx) (@rows OP rt) (@tc_mem OP rx rt) (mkptr 4 0) [b32_zero; b32_zero] /\
  @state_array OP c tc_nn (mkptr 2 0) (mkptr 3 0) (@rows OP rx) (@rows OP rt) (@tc_mem OP rx rt) (mkptr 5 0) [b32_zero; b32_zero] /\
  disjoint (mkptr 4 0) (total_n_parameters tc_nn) (mkptr 5 0) (total_n_parameters tc_nn) /\
  Forall2 (@same_epoch OP c tc_nn MSE 2 (length (@rows OP rx))) (runs_seq OP) (runs_omp OP c) /\ runs_seq OP <> runs_omp OP c /\
  block_after 0 (mmap0 (training (fun e o n => @sgd_epoch OP sse_c (@exp256_lane OP) e o n (mkptr 2 0) (mkptr 3 0)) (runs_seq OP)
    (@Build_sgd OP (b32_ofZ 1) b32_zero b32_zero false 0 (mkptr 4 0)) (@tc_mem OP rx rt))) <> Some [Some (SpecFloat.S754_zero false)].
Proof.
  intros OP. split; [apply (@tc_ready OP); reflexivity|]. split; [apply (@tc_array OP); auto|]. split; [apply (@tc_array OP); auto|].
  split; [left; simpl; lia|]. split; [apply runs_same|].
  split; [|vm_compute; discriminate]. intros E. injection E as E1 E2. apply (f_equal (fun f => s_omp (f 0))) in E1. discriminate E1.
Qed.
