(** Prop_Example01.v -- C100 and C101: the program examples/example_01.c *)
From Coquelicot Require Import Coquelicot.
From Flocq Require Import Core IEEE754.BinarySingleNaN.
From Coq Require Import List Arith ZArith Lia Bool Reals Lra Permutation.
From Verif Require Import Base BaseProofs Ops OpsR OpsB32 Mem MemProofs Kernels KernelProofs Activation ActivationProofs
  Loss Neuralnet ForwardProofs BackpropProofs SpecReal RealForward RealGrad LossGrad GradProofs GradPropProofs PredictProofs SpecBits BitsProofs SpecMem ParamProofs Batch BatchProofs
  BlasProofs B32Facts MetricB32 Optimizer OptKernels OptProofs OptEpochs SpecOpt OptReal OptTrain Ex_Train Prop_Optimizer Prop_Rules Prop_Rules2 SpecRound ReproProofs Prop_Repro Example01 Example01Proofs.
Import ListNotations.
Local Open Scope nat_scope.
Local Open Scope mem_scope.

(** ** what the program is run on *)
(** the test arrays: rows of features and one target per row, apart from the parameters *)
Definition test_arrays {FO : fops} (nn : neuralnet) (m : mem) (TX TY : ptr) (xs : list (list F)) (ts : list F) : Prop :=
  holds m TX (concat xs) /\ holds m TY ts /\ (forall i x, nth_error xs i = Some x -> length x = in_size nn) /\ length ts = length xs /\
  forall p n, In (p, n) (regions (nn_layers nn)) -> disjoint p n TX (length (concat xs)) /\ disjoint p n TY (length ts).
(** the stack arrays are aligned *)
Definition stack_aligned (c : cfg) (gb : Z) (wb wb' ob : nat -> Z) : Prop :=
  aligned_base c gb /\ (forall i, aligned_base c (wb i)) /\ (forall i, aligned_base c (wb' i)) /\ (forall i, aligned_base c (ob i)).
(** k is the number of the indices below n with property P *)
Definition counts (P : nat -> Prop) (n : nat) (k : Z) : Prop :=
  exists l, NoDup l /\ (forall i, In i l <-> i < n /\ P i) /\ k = Z.of_nat (length l).

Lemma counts_filter (f : nat -> bool) (P : nat -> Prop) n : (forall i, i < n -> (f i = true <-> P i)) -> counts P n (Z.of_nat (length (filter f (seq 0 n)))).
Proof.
  intros H. exists (filter f (seq 0 n)). split; [apply NoDup_filter, seq_NoDup|]. split; [|reflexivity].
  intros i. rewrite filter_In, in_seq. split; intros [A B]; (split; [lia|apply (H i); [lia|exact B]]).
Qed.
Lemma eqb_iff' a b (P Q : Prop) : (a = true <-> P) -> (b = true <-> Q) -> (Bool.eqb a b = true <-> (P <-> Q)).
Proof. intros A B. rewrite eqb_true_iff. split; [intros ->; tauto|]. intros PQ. destruct a, b; try reflexivity; intuition congruence. Qed.

Lemma map2_step (lr : R) : forall th g : list R, map2 (@fadd opsR) th (map (fun y => @fmul opsR y (@fneg opsR lr)) g) = map2 (fun p g => (p - lr * g)%R) th g.
Proof. induction th as [|p th IH]; intros [|q g]; cbn; try reflexivity. apply f_equal2; [ring|apply IH]. Qed.

(** ** C100, exact arithmetic: the parameters after the training, and the number of correct classifications *)
Theorem example_exact (c : cfg) (nn : neuralnet) (lf : loss) (X Y TX TY : ptr) (xs ts xs' : list (list R)) (ts' : list R) (m : @mem opsR) (th : list R)
    (gb : Z) (wb wb' ob : nat -> Z) (lr : R) :
  @train_ready opsR c nn lf X Y xs ts m th -> out_size nn = 1 -> @test_arrays opsR nn m TX TY xs' ts' -> stack_aligned c gb wb wb' ob ->
  exists G, is_gradient nn lf G /\ is_backprop c nn lf G /\
  let step th i := map2 (fun p g => (p - lr * g)%R) th (G th (nth i xs []) (nth i ts [])) in
  let th' := fold_left step (seq 0 (length xs)) th in
  exists k m', @example_01 opsR c exp gb wb wb' ob (neuralnet_set_loss nn (Some lf)) (in_size nn) (length xs) (length xs') X Y TX TY lr m = Ok (k, m') /\
    @train_ready opsR c nn lf X Y xs ts m' th' /\ only_changes_in m m' (regions (nn_layers nn)) /\
    counts (fun i => (1 / 2 < eval (nn_shape nn) (in_size nn) (vec th') (vec (nth i xs' [])) 0)%R <-> (1 / 2 < nth i ts' 0)%R) (length xs') k.
Proof.
  intros TR O1 (HX & HY & LX & LT & HD) (A1 & A2 & A3 & A4).
  pose proof (@ready_facts2 opsR c nn lf X Y xs ts m th TR) as (PA & Hne & Hch & _).
  exists (Gr c nn lf). split; [apply Gr_gradient; assumption|]. split; [apply Gr_backprop|]. intros step th'.
  assert (ES : forall l th, fold_left (@sgd_sample opsR c exp nn lf xs ts lr) l th = fold_left step l th).
  { induction l as [|i l IH]; intros th0; [reflexivity|]. cbn [fold_left]. rewrite IH. f_equal. unfold sgd_sample, step, Gr.
    apply map2_step. }
  destruct (@example_ok opsR c exp mulC_R nn lf X Y TX TY xs ts xs' ts' PA O1 gb wb wb' ob lr m th (@ready_th2 opsR c nn lf X Y xs ts m th TR) A1 A2 A3 A4 HX HY LX LT HD)
    as (m' & E & T' & HN & OC). change (@F opsR) with R in *. rewrite (ES (seq 0 (length xs)) th) in *. fold th' in E, T', HN.
  eexists _, m'. split; [exact E|]. split; [apply (@th_ready2 opsR); assumption|]. split; [exact OC|].
  apply counts_filter. intros i Hi. unfold right_at. apply eqb_iff'.
  - unfold class. cbn [flt flit opsR]. destruct T' as (_ & Lth & Pth).
    destruct (@net_of_fits opsR (nn_layers nn) (in_size nn) th' Hch) as (F1 & P1 & L1 & S1). { rewrite <- total_psize. exact Lth. }
    set (net := @net_of opsR (nn_layers nn) th') in *. change (@F opsR) with R in *.
    pose proof (shape_net_of nn net S1) as SH. pose proof (fits_of_f _ _ F1) as F2.
    destruct (@nth_error_ex _ xs' i Hi) as [x Hx]. pose proof (LX _ _ Hx) as Lx. change (@F opsR) with R in *.
    assert (F2' : fits (length x) net) by (rewrite Lx; exact F2).
    destruct (forward_R c net (ob i) x F2') as (LO & EV). rewrite SH, Lx in *.
    pose proof (@fwd_one opsR c exp nn net xs' ts' m' ob Hne HN LX LT O1 i Hi) as F1'. set (y := @pred_at opsR c exp net xs' ob i) in *.
    change (@F opsR) with R in *. rewrite (nth_error_nth xs' i [] Hx) in *. rewrite F1' in *.
    assert (PO : params_of net = th') by exact P1. rewrite PO in EV. rewrite <- EV by (rewrite <- LO; cbn; lia).
    unfold Rltb, vec. cbn [nth]. destruct (Rlt_dec _ _) as [r|r]; split; intros H; [exact r|reflexivity|discriminate H|exfalso; exact (r H)].
  - unfold class. cbn [flt flit opsR]. unfold Rltb. change (@f0 opsR) with 0%R. destruct (Rlt_dec _ _) as [r|r]; split; intros H; [exact r|reflexivity|discriminate H|exfalso; exact (r H)].
Qed.
Print Assumptions example_exact.

(** ** C100, binary32: the classifications are those of the numbers that neuralnet_predict computes *)
(** x > 0.5f *)
Definition above_half (x : b32) : Prop := x = B754_infinity false \/ (is_finite x = true /\ (1 / 2 < B2R x)%R).
Lemma half_lit : is_finite (b32_lit 1 2) = true /\ B2R (b32_lit 1 2) = (1 / 2)%R.
Proof.
  split; [vm_compute; reflexivity|]. rewrite <- SF2R_B2SF. replace (B2SF (b32_lit 1 2)) with (SpecFloat.S754_finite false 8388608 (-24)) by (vm_compute; reflexivity).
  cbn. unfold F2R. cbn. lra.
Qed.
Lemma class_half lm (x : b32) : @class (opsB32 lm) x = true <-> above_half x.
Proof.
  destruct half_lit as [FH RH]. unfold class. change (@flt (opsB32 lm) (@flit (opsB32 lm) 1 2) x) with (Bltb (b32_lit 1 2) x).
  destruct (is_finite x) eqn:FX.
  - rewrite (Bltb_correct 24 128 _ _ FH FX), RH. unfold above_half. destruct (Rlt_bool_spec (1 / 2) (B2R x)) as [H|H]; split; intros C; try discriminate; try reflexivity.
    + right. split; assumption.
    + destruct C as [C|[_ C]]; [rewrite C in FX; discriminate|lra].
  - destruct x as [s|s| |s mx ex Hx]; try discriminate FX.
    + destruct s.
      * replace (Bltb (b32_lit 1 2) (B754_infinity true)) with false by (vm_compute; reflexivity). split; [discriminate|]. intros [C|[C _]]; discriminate C.
      * replace (Bltb (b32_lit 1 2) (B754_infinity false)) with true by (vm_compute; reflexivity). split; [left; reflexivity|reflexivity].
    + replace (Bltb (b32_lit 1 2) B754_nan) with false by (vm_compute; reflexivity). split; [discriminate|]. intros [C|[C _]]; discriminate C.
Qed.

Section Float.
  Variables (lm : libm) (c : cfg) (nn : neuralnet) (lf : loss) (X Y TX TY : ptr) (xs ts xs' : list (list b32)) (ts' : list b32) (m : @mem (opsB32 lm)) (th : list b32)
    (gb : Z) (wb wb' ob : nat -> Z) (lr : b32).
  Notation OP := (opsB32 lm).
  Notation VE := (@exp256_lane OP).
  Notation run := (@example_01 OP c VE gb wb wb' ob (neuralnet_set_loss nn (Some lf)) (in_size nn) (length xs) (length xs') X Y TX TY lr m).
  Hypothesis TR : @train_ready OP c nn lf X Y xs ts m th.
  Hypothesis O1 : out_size nn = 1.
  Hypothesis TA : @test_arrays OP nn m TX TY xs' ts'.
  Hypothesis SA : stack_aligned c gb wb wb' ob.

  Let th' := fold_left (@sgd_sample OP c VE nn lf xs ts lr) (seq 0 (length xs)) th.
  Lemma run_ok : exists k m', run = Ok (k, m') /\ @train_ready OP c nn lf X Y xs ts m' th' /\ only_changes_in m m' (regions (nn_layers nn)) /\
    exists net ys, @params_list OP net = th' /\ @net_holds OP c m' (in_size nn) (nn_layers nn) net /\ length ys = length xs' /\
      (forall i, i < length xs' -> @net_rel OP VE (cfg_fma c) (triples net) (nth i xs' []) [nth i ys b32_zero]) /\
      counts (fun i => above_half (nth i ys b32_zero) <-> above_half (nth i ts' b32_zero)) (length xs') k.
  Proof.
    destruct TA as (HX & HY & LX & LT & HD). destruct SA as (A1 & A2 & A3 & A4).
    pose proof (@ready_facts2 OP c nn lf X Y xs ts m th TR) as (PA & Hne & Hch & _).
    destruct (@example_ok OP c VE (mulC_B32 lm) nn lf X Y TX TY xs ts xs' ts' PA O1 gb wb wb' ob lr m th (@ready_th2 OP c nn lf X Y xs ts m th TR) A1 A2 A3 A4 HX HY LX LT HD)
      as (m' & E & T' & HN & OC). fold th' in E, T', HN. set (net := @net_of OP (nn_layers nn) th') in *.
    eexists _, m'. split; [exact E|]. split; [apply (@th_ready2 OP); assumption|]. split; [exact OC|].
    exists net, (map (@pred_at OP c VE net xs' ob) (seq 0 (length xs'))). split; [apply T'|]. split; [exact HN|]. split; [rewrite map_length, seq_length; reflexivity|].
    assert (NY : forall i, i < length xs' -> nth i (map (@pred_at OP c VE net xs' ob) (seq 0 (length xs'))) b32_zero = @pred_at OP c VE net xs' ob i).
    { intros i Hi. rewrite (nth_indep _ b32_zero (@pred_at OP c VE net xs' ob 0)) by (rewrite map_length, seq_length; exact Hi). rewrite map_nth, seq_nth by exact Hi. reflexivity. }
    split.
    - intros i Hi. rewrite NY by exact Hi. pose proof (@fwd_one OP c VE nn net xs' ts' m' ob Hne HN LX LT O1 i Hi) as FW.
      refine (eq_ind _ (fun l => @net_rel OP VE (cfg_fma c) (triples net) (nth i xs' []) l) _ _ FW).
      apply (@forward_f_rel OP c VE (mul1_B32 lm)). destruct (@nth_error_ex _ xs' i Hi) as [x Hx]. change (@F OP) with b32 in *. rewrite (nth_error_nth xs' i [] Hx).
      replace (length x) with (in_size nn) by (symmetry; apply (LX i x Hx)). eapply (@net_holds_fits_f OP). exact HN.
    - apply counts_filter. intros i Hi. rewrite NY by exact Hi. unfold right_at. apply eqb_iff'; apply class_half.
  Qed.

  (** C100 in binary32 arithmetic: the run ends without faults; the count is that of the classifications by the trained
      network; nothing but the parameters has changed *)
  Theorem example_float : exists k m' thn, run = Ok (k, m') /\ @train_ready OP c nn lf X Y xs ts m' thn /\ only_changes_in m m' (regions (nn_layers nn)) /\
    exists net ys, @params_list OP net = thn /\ @net_holds OP c m' (in_size nn) (nn_layers nn) net /\ length ys = length xs' /\
      (forall i, i < length xs' -> @net_rel OP VE (cfg_fma c) (triples net) (nth i xs' []) [nth i ys b32_zero]) /\
      counts (fun i => above_half (nth i ys b32_zero) <-> above_half (nth i ts' b32_zero)) (length xs') k.
  Proof. destruct run_ok as (k & m' & H). exists k, m', th'. exact H. Qed.

  (** C101: the parameters after the training loop are, bit for bit, those after one epoch of the optimizer SGD with
      batches of one sample in the order of the file, without momentum and decay.  The optimizer works on a copy of the
      data and the network elsewhere in memory (m2, X2, Y2), with any schedule of threads *)
  Theorem example_sgd_bits (X2 Y2 V : ptr) (m2 : @mem OP) (v : list b32) (e : @env OP) (o : opt) (n k0 : nat) (decay mu : b32) (nest : bool) :
    Forall (fun x => x <> B754_zero true) th ->
    @train_ready OP c nn lf X2 Y2 xs ts m2 th -> @state_array OP c nn X2 Y2 xs ts m2 V v ->
    @epoch_ready OP c nn lf 1 (length xs) (e, o, n) -> order o = seq 0 (length xs) ->
    @fgt OP mu f0 = false -> @fgt OP decay f0 = false ->
    exists k m' m2' thn, run = Ok (k, m') /\ @train_ready OP c nn lf X Y xs ts m' thn /\
      @sgd_epoch OP c VE e o n X2 Y2 (@Build_sgd OP lr decay mu nest k0 V) m2 = Ok (@Build_sgd OP lr decay mu nest (k0 + length xs) V, m2') /\
      @train_ready OP c nn lf X2 Y2 xs ts m2' thn.
  Proof.
    intros P TR2 AR ER HO HM HDc. destruct run_ok as (k & m' & E & T' & _).
    pose proof (@ready_facts2 OP c nn lf X2 Y2 xs ts m2 th TR2) as (PA & Hne & Hch & HX & HY & HL).
    pose proof ER as (E1 & E2 & E3 & E4 & E5 & E6).
    pose proof (@ready_th2 OP c nn lf X2 Y2 xs ts m2 th TR2) as T2. pose proof T2 as (_ & Lth & _).
    assert (HB : 0 < o_batchsize o) by lia.
    assert (HP : o_pivot o = Some (order o)) by (unfold order; destruct (o_pivot o); [reflexivity|congruence]).
    destruct (@sgd_epoch_ok OP c VE (mulC_B32 lm) nn lf X2 Y2 xs ts PA o (order o) n e E1 HB HP E4 E5 E6 decay mu nest V m2 th v lr k0 T2) as (m2' & F1 & F2 & _).
    - apply array_svec2. exact AR.
    - pose proof (fold_one lm c nn lf xs ts Hne Hch HX HY HL e o n decay mu nest ER HO HM HDc v lr th k0 Lth P) as FO1.
      change (@F OP) with b32 in *. rewrite FO1 in F1, F2. cbn [fst snd] in F2.
      exists k, m', m2', th'. split; [exact E|]. split; [exact T'|]. split; [exact F1|apply (@th_ready2 OP); assumption].
  Qed.
End Float.
Print Assumptions example_float.
Print Assumptions example_sgd_bits.

(** ** a concrete case: one input, one linear output, the samples 2 -> 1 and 3 -> 0 for training and for the test *)
Section Case.
  Context {FO : fops}.
  Definition ec_xs : list F := [fofZ 2; fofZ 3].
  Definition ec_ts : list F := [fofZ 1; fofZ 0].
  Lemma ec_arrays : test_arrays tc_nn (tc_mem ec_xs ec_ts) (mkptr 2 0) (mkptr 3 0) (rows ec_xs) ec_ts.
  Proof.
    split; [rewrite concat_rows; exact (holds_block (tc_mem ec_xs ec_ts) 2 3072 ec_xs eq_refl)|]. split; [exact (holds_block (tc_mem ec_xs ec_ts) 3 4096 ec_ts eq_refl)|].
    split; [intros; eapply nth_rows; eauto|]. split; [reflexivity|]. intros p n [H|[H|[]]]; inversion H; subst; split; left; simpl; lia.
  Qed.
  Lemma ec_aligned c : stack_aligned c 0 (fun _ => 0%Z) (fun _ => 0%Z) (fun _ => 0%Z).
  Proof. split; [apply aligned_base_0|]. split; [intros; apply aligned_base_0|]. split; intros; apply aligned_base_0. Qed.
End Case.
Example example_exact_case (c : cfg) : exists k m', @example_01 opsR c exp 0 (fun _ => 0%Z) (fun _ => 0%Z) (fun _ => 0%Z) (neuralnet_set_loss tc_nn (Some MSE)) 1 2 2
    (mkptr 2 0) (mkptr 3 0) (mkptr 2 0) (mkptr 3 0) (1 / 10)%R (@tc_mem opsR ec_xs ec_ts) = Ok (k, m') /\ (k <= 2)%Z.
Proof.
  destruct (example_exact c tc_nn MSE (mkptr 2 0) (mkptr 3 0) (mkptr 2 0) (mkptr 3 0) (rows ec_xs) (rows ec_ts) (rows ec_xs) ec_ts (tc_mem ec_xs ec_ts) [0%R; 0%R] 0
    (fun _ => 0%Z) (fun _ => 0%Z) (fun _ => 0%Z) (1 / 10)%R) as (G & _ & _ & k & m' & E & _ & _ & (l & N & H & K)).
  - apply (@tc_ready opsR). reflexivity. - reflexivity. - apply (@ec_arrays opsR). - apply ec_aligned.
  - exists k, m'. split; [exact E|]. subst k. assert (L : length l <= length (seq 0 2)); [|cbn in L; lia].
    apply NoDup_incl_length; [exact N|]. intros i Hi. apply H in Hi. apply in_seq. cbn in Hi. lia.
Qed.
Example example_float_case (lm : libm) (c : cfg) (lr : b32) : exists k m' m2' thn,
  @example_01 (opsB32 lm) c (@exp256_lane (opsB32 lm)) 0 (fun _ => 0%Z) (fun _ => 0%Z) (fun _ => 0%Z) (neuralnet_set_loss tc_nn (Some MSE)) 1 2 2
    (mkptr 2 0) (mkptr 3 0) (mkptr 2 0) (mkptr 3 0) lr (@tc_mem (opsB32 lm) ec_xs ec_ts) = Ok (k, m') /\
  @sgd_epoch (opsB32 lm) c (@exp256_lane (opsB32 lm)) (@tc_env_omp (opsB32 lm) c 1 2) (tc_opt 1 [0; 1]) 2 (mkptr 2 0) (mkptr 3 0)
    (@Build_sgd (opsB32 lm) lr b32_zero b32_zero false 0 (mkptr 4 0)) (@tc_mem (opsB32 lm) ec_xs ec_ts) = Ok (@Build_sgd (opsB32 lm) lr b32_zero b32_zero false 2 (mkptr 4 0), m2') /\
  @train_ready (opsB32 lm) c tc_nn MSE (mkptr 2 0) (mkptr 3 0) (rows ec_xs) (rows ec_ts) m' thn /\ @train_ready (opsB32 lm) c tc_nn MSE (mkptr 2 0) (mkptr 3 0) (rows ec_xs) (rows ec_ts) m2' thn.
Proof.
  destruct (example_sgd_bits lm c tc_nn MSE (mkptr 2 0) (mkptr 3 0) (mkptr 2 0) (mkptr 3 0) (@rows (opsB32 lm) ec_xs) (@rows (opsB32 lm) ec_ts) (@rows (opsB32 lm) ec_xs) (@ec_ts (opsB32 lm)) (@tc_mem (opsB32 lm) ec_xs ec_ts)
    [b32_zero; b32_zero] 0 (fun _ => 0%Z) (fun _ => 0%Z) (fun _ => 0%Z) lr) with (X2 := mkptr 2 0) (Y2 := mkptr 3 0) (V := mkptr 4 0) (m2 := @tc_mem (opsB32 lm) ec_xs ec_ts)
    (v := [b32_zero; b32_zero]) (e := @tc_env_omp (opsB32 lm) c 1 2) (o := tc_opt 1 [0; 1]) (n := 2) (k0 := 0) (decay := b32_zero) (mu := b32_zero) (nest := false)
    as (k & m' & m2' & thn & E & T & E2 & T2).
  - apply (@tc_ready (opsB32 lm)). reflexivity. - reflexivity. - apply (@ec_arrays (opsB32 lm)). - apply ec_aligned.
  - repeat constructor; discriminate.
  - apply (@tc_ready (opsB32 lm)). reflexivity.
  - apply (@tc_array (opsB32 lm)). left. reflexivity.
  - apply (@tc_epoch_omp (opsB32 lm) c 1 2 [0; 1]). intros k [<-|[<-|[]]]; lia.
  - reflexivity. - vm_compute; reflexivity. - vm_compute; reflexivity.
  - exists k, m', m2', thn. split; [exact E|]. split; [exact E2|]. split; [exact T|exact T2].
Qed.
