(** Prop_AdamStep.v -- C86: no step of Adam is longer than the learning rate and the two betas allow *)
From Coquelicot Require Import Coquelicot.
From Flocq Require Import Core BinarySingleNaN.
From Coq Require Import ZArith Bool List Arith Reals Lia Lra Permutation FunctionalExtensionality.
From Verif Require Import Base BaseProofs Ops OpsR Mem MemProofs Kernels KernelProofs Activation ActivationProofs Loss Neuralnet
  ForwardProofs BackpropProofs OpsB32 B32Facts MetricB32 SpecReal RealForward RealGrad LossGrad GradProofs SpecBits BitsProofs SpecMem PredictProofs GradPropProofs
  ParamProofs Batch BatchProofs BlasProofs Optimizer OptKernels OptProofs OptEpochs SpecOpt OptReal OptTrain SpecDescent DescentProofs
  Exp256B32 SpecLibm SpecRound RoundProofs RoundNet SpecGradRound SlopeRound LossRound GradRound GradSample SpecStepRound SumRound BatchRound StepRound
  SpecAdapt AdaptRound AdaptStep SpecAdamStep AdamRound Prop_Rules Prop_Descent Ex_Mem Ex_Train LibmCase Prop_Round Prop_GradRound Prop_StepRound Prop_Adapt SpecGradRound SpecStepRound.
Import ListNotations.
Local Open Scope R_scope.
Local Notation NZ := b32_zero.

(** ** the components of the step function *)
Lemma ad_step_nth (lm : libm) (c : cfg) (lr beta1 beta2 wd : b32) (G : list b32 -> list b32) (th r s : list b32) (p1 p2 : b32) (th' r' s' : list b32) (p1' p2' : b32) :
  length r = length th -> length s = length th -> length (G th) = length th ->
  @ad_step_f (opsB32 lm) c lr beta1 beta2 wd G (th, r, s, (p1, p2)) = (th', r', s', (p1', p2')) ->
  p1' = Bmult mode_NE p1 beta1 /\ p2' = Bmult mode_NE p2 beta2 /\
  forall q, (q < length th)%nat -> exists lane : bool,
    let g := nth q (G th) NZ in let x := nth q th NZ in
    let m1 := mean1 beta1 (nth q s NZ) g in
    let v1 := if lane then lane2 beta2 (nth q r NZ) g else tail2 beta2 (nth q r NZ) g in
    let d := adam32 p1' p2' lr (nth q s' NZ) (nth q r' NZ) in
    nth q s' NZ = m1 /\ nth q r' NZ = v1 /\
    nth q th' NZ = Bplus mode_NE x (if Bltb b32_zero wd then Bplus mode_NE d (Bmult mode_NE (Bopp wd) x) else d).
Proof.
  intros LR LS LG ES. set (gl := G th) in *.
  set (fm := fun x y : b32 => mean1 beta1 x y). set (b1 := Bmult mode_NE p1 beta1). set (b2 := Bmult mode_NE p2 beta2).
  set (fw := fun x y : b32 => Bplus mode_NE x (Bmult mode_NE (Bopp wd) y)).
  assert (ES2 : let s1 := map2 fm s gl in let r1 := @second_moment_f (opsB32 lm) c beta2 r gl in let d := map2 (adam32 b1 b2 lr) s1 r1 in
    (map2 (Bplus mode_NE) th (if Bltb b32_zero wd then map2 fw d th else d), r1, s1, (b1, b2)) = (th', r', s', (p1', p2'))) by exact ES.
  cbv zeta in ES2. clear ES. change (@F (opsB32 lm)) with b32 in *.
  set (s1 := map2 fm s gl) in *. set (r1 := @second_moment_f (opsB32 lm) c beta2 r gl) in *. change (list b32) in (type of r1).
  set (d := map2 (adam32 b1 b2 lr) s1 r1) in *. injection ES2 as <- <- <- <- <-. split; [reflexivity|]. split; [reflexivity|].
  assert (L1 : length s1 = length th) by (apply len_map2_b; assumption).
  assert (L2 : length r1 = length th). { etransitivity; [apply (@length_lanes2 (opsB32 lm)); exact (eq_trans LG (eq_sym LR))|exact LR]. }
  assert (L3 : length d = length th) by (apply len_map2_b; assumption).
  assert (L4 : length (map2 fw d th) = length th) by (apply len_map2_b; [assumption|reflexivity]).
  intros q Hq. exists (q <? vend c (length r))%nat. cbv zeta.
  assert (N1 : nth q s1 NZ = mean1 beta1 (nth q s NZ) (nth q gl NZ)) by (apply (nth_map2 fm); [exact (eq_trans LS (eq_sym LG))|rewrite LS; exact Hq]).
  assert (N2 : nth q r1 NZ = if (q <? vend c (length r))%nat then lane2 beta2 (nth q r NZ) (nth q gl NZ) else tail2 beta2 (nth q r NZ) (nth q gl NZ)).
  { apply nth_error_nth. unfold r1, second_moment_f, lanes2. rewrite nth_error_mapi2. change (@F (opsB32 lm)) with b32 in *.
    rewrite (nth_error_nth' r NZ), (nth_error_nth' gl NZ); [reflexivity|exact (eq_ind_r (fun k => (q < k)%nat) Hq LG)|exact (eq_ind_r (fun k => (q < k)%nat) Hq LR)]. }
  split; [exact N1|]. split; [exact N2|]. clear N1 N2.
  assert (N3 : nth q d NZ = adam32 b1 b2 lr (nth q s1 NZ) (nth q r1 NZ)) by (apply (nth_map2 (adam32 b1 b2 lr)); [exact (eq_trans L1 (eq_sym L2))|exact (eq_ind_r (fun k => (q < k)%nat) Hq L1)]).
  destruct (Bltb b32_zero wd).
  - etransitivity; [apply (nth_map2 (Bplus mode_NE)); [exact (eq_sym L4)|exact Hq]|]. f_equal.
    etransitivity; [apply (nth_map2 fw); [exact L3|exact (eq_ind_r (fun k => (q < k)%nat) Hq L3)]|]. exact (f_equal (fun z => fw z (nth q th NZ)) N3).
  - etransitivity; [apply (nth_map2 (Bplus mode_NE)); [exact (eq_sym L3)|exact Hq]|]. exact (f_equal (Bplus mode_NE (nth q th NZ)) N3).
Qed.

(** One step of Adam.  If the first moment is at most A times the root of the second one, which it is at the start and which the
    step keeps, then no parameter moves further than the cap, which depends on the learning rate, A and the bias correction
    only, whatever the gradients are.  A step can be a NaN only where the second moment has overflowed. *)
Theorem adam_step_bounded (lm : libm) (c : cfg) (nn : neuralnet) (lf : loss) (X Y : ptr) (xs ts : list (list b32)) (m : @mem (opsB32 lm))
    (e : @env (opsB32 lm)) (o : opt) (n i : nat) (lr beta1 beta2 wd p1 p2 : b32) (Q W : ptr) (th r s : list b32) (A : R) :
  let OP := opsB32 lm in
  let np := total_n_parameters nn in
  let optimizer := {| ad_lr := lr; ad_beta1 := beta1; ad_beta2 := beta2; ad_wd := wd; ad_r := Q; ad_s := W |} : @adam OP in
  @train_ready OP c nn lf X Y xs ts m th -> @state_array OP c nn X Y xs ts m Q r -> @state_array OP c nn X Y xs ts m W s ->
  disjoint Q np W np ->
  @epoch_ready OP c nn lf (o_batchsize o) (length xs) (e, o, n) -> (0 < o_batchsize o)%nat -> (i < n)%nat ->
  fin lr = true -> Rabs (B2R lr) <= 2 ^ 30 -> fin beta1 = true -> 0 <= B2R beta1 <= 1 - / 2 ^ 7 -> fin beta2 = true -> / 2 <= B2R beta2 < 1 ->
  fin wd = true -> B2R wd <= 1 -> fin p1 = true -> 0 <= B2R p1 <= 1 -> fin p2 = true -> 0 <= B2R p2 <= 1 ->
  keeps_ratio (B2R beta1) (B2R beta2) A ->
  (forall q, (q < np)%nat -> balanced A (nth q s NZ) (nth q r NZ)) ->
  exists m' th' r' s' p1' p2',
    @adam_step OP c (@exp256_lane OP) e o n X Y optimizer i (p1, p2) m = Ok (((i + Nat.min (o_batchsize o) (n - i))%nat, (p1', p2')), m') /\
    @train_ready OP c nn lf X Y xs ts m' th' /\ @state_array OP c nn X Y xs ts m' Q r' /\ @state_array OP c nn X Y xs ts m' W s' /\
    only_changes_in m m' ((Q, np) :: (W, np) :: regions (nn_layers nn)) /\
    next_power p1 beta1 p1' /\ next_power p2 beta2 p2' /\
    (forall q, (q < np)%nat -> balanced A (nth q s' NZ) (nth q r' NZ)) /\
    (forall q, (q < np)%nat -> fin (nth q th NZ) = true -> Rabs (vec (reals th) q) <= 2 ^ 125 ->
       nan_or (nth q th' NZ) (moves (vec (reals th) q) (adam_cap (B2R lr) A (B2R p1') (B2R p2') + Rmax 0 (B2R wd) * Rabs (vec (reals th) q))) /\
       (fin (nth q r' NZ) = true -> fin (nth q th' NZ) = true)).
Proof.
  intros OP np optimizer TR SQ SW QW (E1 & E2 & E3 & E4 & E5 & E6) Hb Hi FL HL F1 H1 F2 H2 FW HW FP1 HP1 FP2 HP2 HR BL.
  destruct (ready_b32 lm c nn lf X Y xs ts m th TR) as ((PA & Hne & Hch & HX & HY & HLf) & TH). pose proof TH as (TM & Lth & PL).
  pose proof SQ as (_ & Lr & _). pose proof SW as (_ & Ls & _). fold np in Lth, Lr, Ls. subst n.
  set (G := @bgrad OP c (@exp256_lane OP) nn lf xs ts o (order o) (length (order o)) e i).
  assert (LG : length (G th) = np).
  { destruct (@calc_st OP c (@exp256_lane OP) (mulC_B32 lm) nn lf X Y xs ts o (order o) (length (order o)) e E1 Hb (order_some o E3) eq_refl E5 E6 m _ i TH Hi) as (_ & _ & LG). exact LG. }
  assert (AV : forall p l, @state_array OP c nn X Y xs ts m p l -> @svec OP c nn X Y xs ts m p l).
  { intros p l (A1 & A2 & A3 & A4). rewrite A2 in A3, A4. split; [exact A1|]. split; [exact A2|]. auto. }
  assert (VA : forall m1 p l, @svec OP c nn X Y xs ts m1 p l -> @state_array OP c nn X Y xs ts m1 p l).
  { intros m1 p l (A1 & A2 & A3 & A4). split; [exact A1|]. split; [exact A2|]. rewrite A2. auto. }
  destruct (@ad_step_ok OP c (@exp256_lane OP) (mulC_B32 lm) nn lf X Y xs ts PA o (order o) (length (order o)) e E1 Hb (order_some o E3) eq_refl E5 E6 lr beta1 beta2 wd Q W QW m i
     (th, r, s, (p1, p2)) m (p1, p2) Hi) as (m' & st' & E & II).
  { split; [reflexivity|]. cbn [fst snd]. split; [exact TH|]. split; [apply AV; exact SQ|]. split; [apply AV; exact SW|apply oci_refl]. }
  destruct (@ad_step_f OP c lr beta1 beta2 wd _ (th, r, s, (p1, p2))) as [[[th' r'] s'] [p1' p2']] eqn:ES.
  destruct II as (-> & TH' & SQ' & SW' & OC). cbn [fst snd] in TH', SQ', SW'.
  destruct (ad_step_nth lm c lr beta1 beta2 wd G th r s p1 p2 th' r' s' p1' p2' (eq_trans Lr (eq_sym Lth)) (eq_trans Ls (eq_sym Lth)) (eq_trans LG (eq_sym Lth)) ES) as (EP1 & EP2 & ST).
  assert (I7 : 0 < / 2 ^ 7) by (apply Rinv_0_lt_compat, pow_lt; lra).
  assert (NP1 : next_power p1 beta1 p1'). { rewrite EP1. apply power_step; auto. change (bv beta1) with (B2R beta1). lra. }
  assert (NP2 : next_power p2 beta2 p2'). { rewrite EP2. apply power_step; auto. change (bv beta2) with (B2R beta2). lra. }
  exists m', th', r', s', p1', p2'. split.
  { etransitivity; [exact E|]. f_equal. f_equal. f_equal. unfold batch_size. destruct (Nat.ltb_spec (length (order o) - i) (o_batchsize o)); lia. }
  split. { split; [exact PA|]. exists (@net_of OP (nn_layers nn) th'). destruct TH' as (A1 & A2 & A3). split; [exact A3|exact A1]. }
  split; [apply VA; exact SQ'|]. split; [apply VA; exact SW'|]. split; [exact OC|]. split; [exact NP1|]. split; [exact NP2|].
  assert (BL' : forall q, (q < np)%nat -> balanced A (nth q s' NZ) (nth q r' NZ)).
  { intros q Hq. destruct (ST q (eq_ind_r (fun k => (q < k)%nat) Hq Lth)) as (lane & S1 & S2 & _). cbv zeta in S1, S2.
    apply (eq_ind_r (fun z => balanced A z (nth q r' NZ))) with (2 := S1). apply (eq_ind_r (fun z => balanced A _ z)) with (2 := S2).
    apply balanced_step; auto. }
  split; [exact BL'|]. intros q Hq Ft Ht. assert (RNG : vec (reals th) q = bv (nth q th b32_zero)) by exact (vec_bv th q). rewrite RNG in Ht |- *.
  destruct (ST q (eq_ind_r (fun k => (q < k)%nat) Hq Lth)) as (lane & S1 & S2 & S3). cbv zeta in S3. clear S1 S2.
  destruct NP1 as (FB1 & RB1 & _). destruct NP2 as (FB2 & RB2 & _). pose proof HR as (HA & _).
  assert (R1 : 0 <= bv p1' <= 1 - / 2 ^ 7) by (change (0 <= B2R p1' <= 1 - / 2 ^ 7); lra).
  assert (R2 : 0 <= bv p2' < 1) by (change (0 <= B2R p2' < 1); lra).
  destruct (adam_upd lr p1' p2' A FL HL FB1 R1 FB2 R2 HA _ _ (BL' q Hq)) as (U1 & U2).
  pose proof (cap_range lr p1' p2' A HL R1 R2 HA) as CR.
  destruct (adam_move (nth q th NZ) _ wd _ Ft Ht FW HW CR U1) as (M1 & M2). cbv zeta in M1, M2.
  split; [exact (eq_ind_r (fun z => nan_or z _) M1 S3)|]. intros Fr. exact (eq_ind_r (fun z => fin z = true) (M2 (U2 Fr)) S3).
Qed.
Print Assumptions adam_step_bounded.

(** The default settings: beta1 = 0.9, beta2 = 0.999, lr = 0.001, moments 0 and no batch before.  The ratio 7.3 is kept; the first step
    is at most 2.31 lr and no step exceeds 7.31 lr / (1 - beta1^t). *)
Example adam_step_bounded_case :
  let lm := lm_rounded in let OP := opsB32 lm in
  let c := {| cfg_isa := AVX512; cfg_fma := true |} in
  let nn := @tc_nn in let xl := [b32_ofZ 1; b32_ofZ 1] in let tl := [b32_ofZ 1; b32_zero] in
  let xs := @rows OP xl in let ts := @rows OP tl in
  let th := [b32_zero; b32_zero] in let s := [b32_zero; b32_zero] in let r := [b32_zero; b32_zero] in
  let lr := b32_lit 1 1000 in let beta1 := b32_lit 9 10 in let beta2 := b32_lit 999 1000 in let wd := b32_lit 1 100 in let one := b32_ofZ 1 in let A := 73 / 10 in
  let o := tc_opt 2 [0%nat; 1%nat] in let e := @tc_env_omp OP c 2 2 in
  @train_ready OP c nn MSE (mkptr 2 0) (mkptr 3 0) xs ts (@tc_mem OP xl tl) th /\
  @state_array OP c nn (mkptr 2 0) (mkptr 3 0) xs ts (@tc_mem OP xl tl) (mkptr 4 0) r /\
  @state_array OP c nn (mkptr 2 0) (mkptr 3 0) xs ts (@tc_mem OP xl tl) (mkptr 5 0) s /\
  disjoint (mkptr 4 0) (total_n_parameters nn) (mkptr 5 0) (total_n_parameters nn) /\
  @epoch_ready OP c nn MSE (o_batchsize o) (length xs) (e, o, 2%nat) /\ (0 < o_batchsize o)%nat /\ (0 < 2)%nat /\
  (fin lr = true /\ Rabs (B2R lr) <= 2 ^ 30) /\ (fin beta1 = true /\ 0 <= B2R beta1 <= 1 - / 2 ^ 7) /\ (fin beta2 = true /\ / 2 <= B2R beta2 < 1) /\
  (fin wd = true /\ 0 < B2R wd <= 1) /\ (fin one = true /\ 0 <= B2R one <= 1) /\ keeps_ratio (B2R beta1) (B2R beta2) A /\
  (forall q, (q < total_n_parameters nn)%nat -> balanced A (nth q s NZ) (nth q r NZ) /\ fin (nth q th NZ) = true /\ Rabs (vec (reals th) q) <= 2 ^ 125) /\
  adam_cap (B2R lr) A (B2R beta1) (B2R beta2) <= 231 / 100 * B2R lr.
Proof.
  cbv zeta. assert (O1 : B2R (b32_ofZ 1) = 1) by exact one_R.
  assert (X1 : fin (b32_lit 9 10) = true /\ bv (b32_lit 9 10) = 15099494 / 16777216) by lit32. destruct X1 as (X1 & X2).
  assert (Y1 : fin (b32_lit 999 1000) = true /\ bv (b32_lit 999 1000) = 16760439 / 16777216) by lit32. destruct Y1 as (Y1 & Y2).
  assert (L1 : fin (b32_lit 1 1000) = true /\ bv (b32_lit 1 1000) = 8589935 / 8589934592) by lit32. destruct L1 as (L1 & L2).
  assert (W1 : fin (b32_lit 1 100) = true /\ bv (b32_lit 1 100) = 10737418 / 1073741824) by lit32. destruct W1 as (W1 & W2).
  split; [apply (@tc_ready (opsB32 lm_rounded)); reflexivity|]. split; [apply (@tc_array (opsB32 lm_rounded)); left; reflexivity|].
  split; [apply (@tc_array (opsB32 lm_rounded)); right; reflexivity|]. split; [left; discriminate|].
  split; [apply (@tc_epoch_omp (opsB32 lm_rounded)); intros k [<-|[<-|[]]]; cbn; lia|]. split; [cbn; lia|]. split; [lia|].
  rewrite X2, Y2, L2, W2, O1.
  split; [split; [exact L1|rewrite Rabs_pos_eq by lra; lra]|]. split; [split; [exact X1|lra]|]. split; [split; [exact Y1|lra]|]. split; [split; [exact W1|lra]|]. split; [split; [reflexivity|lra]|].
  split. { split; [lra|]. rewrite u32_val. lra. }
  split. { intros q Hq. change (total_n_parameters tc_nn) with 2%nat in Hq.
    assert (Z : nth q [b32_zero; b32_zero] NZ = b32_zero) by (destruct q as [|[|q]]; [reflexivity|reflexivity|lia]). rewrite Z.
    split. { right; right. split; [reflexivity|]. cbn. rewrite sqrt_0, Rabs_R0. split; [lra|]. split; [reflexivity|lra]. }
    split; [reflexivity|]. rewrite zero_reals, Rabs_R0. apply pow_le. lra. }
  unfold adam_cap. rewrite Rabs_pos_eq by lra. rewrite u32_val.
  assert (S : sqrt (1 - 16760439 / 16777216) <= 31623 / 1000000).
  { apply sq_le; [lra|]. rewrite <- Rsqr_pow2, Rsqr_sqrt by lra. lra. }
  assert (S2 : 73 / 10 * sqrt (1 - 16760439 / 16777216) / (1 - 15099494 / 16777216) <= 73 / 10 * (31623 / 1000000) / (1 - 15099494 / 16777216)) by (unfold Rdiv; apply Rmult_le_compat_r; lra).
  lra.
Qed.
