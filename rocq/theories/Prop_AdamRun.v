(** Prop_AdamRun.v -- C88: how far a whole training run with Adam can move a parameter in float32 *)
From Coquelicot Require Import Coquelicot.
From Flocq Require Import Core BinarySingleNaN.
From Coq Require Import ZArith Bool List Arith Reals Lia Lra Permutation FunctionalExtensionality.
From Verif Require Import Base BaseProofs Ops OpsR Mem MemProofs Kernels KernelProofs Activation ActivationProofs Loss Neuralnet
  ForwardProofs BackpropProofs OpsB32 B32Facts MetricB32 SpecReal RealForward RealGrad LossGrad GradProofs SpecBits BitsProofs SpecMem PredictProofs GradPropProofs
  ParamProofs Batch BatchProofs BlasProofs Optimizer OptKernels OptProofs OptEpochs SpecOpt OptReal OptTrain SpecDescent DescentProofs
  Exp256B32 SpecLibm SpecRound RoundProofs RoundNet SpecGradRound SlopeRound LossRound GradRound GradSample SpecStepRound SumRound BatchRound StepRound
  SpecAdapt AdaptRound AdaptStep SpecAdamStep AdamRound Prop_Rules Prop_Descent Ex_Mem Ex_Train LibmCase Prop_Round Prop_GradRound Prop_StepRound Prop_Adapt Prop_AdamStep SpecGradRound SpecStepRound.
Import ListNotations.
Local Open Scope R_scope.
Local Notation NZ := b32_zero.

Lemma cap_mono (lr A b1 p1 p2 : R) : 0 <= A -> 0 <= p1 <= b1 -> b1 < 1 -> p1 <= p2 < 1 -> adam_cap lr A p1 p2 <= adam_cap lr A b1 b1.
Proof.
  intros HA H1 B1 H2. unfold adam_cap. pose proof (Rabs_pos lr) as L. pose proof u32_pos as U.
  apply Rplus_le_compat_r. apply Rmult_le_compat_l; [exact L|]. apply Rplus_le_compat_r. apply Rmult_le_compat_r; [lra|].
  assert (HALF : forall z, 0 < z -> sqrt z / z = / sqrt z).
  { intros z Hz. pose proof (sqrt_lt_R0 z Hz) as Q. rewrite <- (sqrt_sqrt z) at 2 by lra. field. lra. }
  unfold Rdiv. rewrite !Rmult_assoc. apply Rmult_le_compat_l; [exact HA|].
  change (sqrt (1 - p2) / (1 - p1) <= sqrt (1 - b1) / (1 - b1)). rewrite (HALF (1 - b1)) by lra.
  apply Rle_trans with (sqrt (1 - p1) / (1 - p1)).
  - apply Rmult_le_compat_r; [left; apply Rinv_0_lt_compat; lra|]. apply sqrt_le_1_alt. lra.
  - rewrite (HALF (1 - p1)) by lra. apply Rinv_le; [apply sqrt_lt_R0; lra|]. apply sqrt_le_1_alt. lra.
Qed.
(** the powers stay in order: the product is rounded, and rounding is monotone *)
Lemma power_mono (p1 p2 b1 b2 : b32) : fin p1 = true -> 0 <= bv p1 <= 1 -> fin p2 = true -> bv p1 <= bv p2 <= 1 -> fin b1 = true -> 0 <= bv b1 <= 1 ->
  fin b2 = true -> bv b1 <= bv b2 <= 1 -> bv (Bmult mode_NE p1 b1) <= bv (Bmult mode_NE p2 b2).
Proof.
  intros P1 HP1 P2 HP2 B1 HB1 B2 HB2.
  assert (L : 0 <= bv p1 * bv b1 <= bv p2 * bv b2). { split; [apply Rmult_le_pos; lra|apply Rmult_le_compat; lra]. }
  destruct (power_step p1 b1 P1 HP1 B1 HB1) as (F1 & _). destruct (power_step p2 b2 P2 ltac:(lra) B2 ltac:(lra)) as (F2 & _).
  destruct (mul_cases p1 b1 P1 B1 ltac:(lra)) as [E|(_ & E1)]; [rewrite E in F1; discriminate|].
  destruct (mul_cases p2 b2 P2 B2 ltac:(lra)) as [E|(_ & E2)]; [rewrite E in F2; discriminate|].
  rewrite E1, E2. apply rnd_mono. lra.
Qed.

(** ** the bound after one more batch *)
Section Drift.
Variables (w S x : R).
Hypothesis W0 : 0 <= w.
Hypothesis S0 : 0 <= S.
Let f := (1 + 3 * u32) * (1 + w).
Lemma f_ge1 : 1 <= f.
Proof. unfold f. pose proof u32_pos. rewrite <- (Rmult_1_l 1) at 1. apply Rmult_le_compat; lra. Qed.
Lemma drift_total k : 0 <= f ^ k * (Rabs x + INR k * S) <= f ^ Datatypes.S k * (Rabs x + INR (Datatypes.S k) * S).
Proof.
  pose proof f_ge1 as F1. pose proof (pow_R1_Rle f k F1) as FK. pose proof (Rabs_pos x) as X0. pose proof (pos_INR k) as K0.
  assert (P : 0 <= Rabs x + INR k * S) by (assert (0 <= INR k * S) by (apply Rmult_le_pos; lra); lra).
  split; [apply Rmult_le_pos; lra|]. rewrite S_INR. cbn [pow]. apply Rmult_le_compat; [lra|exact P| |].
  - rewrite <- (Rmult_1_l (f ^ k)) at 1. apply Rmult_le_compat_r; lra.
  - lra.
Qed.
Lemma drift_step k y z : Rabs (y - x) <= drift f S x k -> moves y (S + w * Rabs y) z -> Rabs (z - x) <= drift f S x (Datatypes.S k).
Proof.
  intros Y M. unfold moves in M. pose proof u32_pos as U. pose proof (Rabs_pos x) as X0.
  set (T := Rabs x + drift f S x k). assert (ET : T = f ^ k * (Rabs x + INR k * S)) by (unfold T, drift; ring).
  assert (YT : Rabs y <= T). { replace y with ((y - x) + x) by ring. eapply Rle_trans; [apply Rabs_triang|]. unfold T. lra. }
  assert (T0 : 0 <= T) by (pose proof (Rabs_pos y); lra).
  assert (Z : Rabs (z - x) <= drift f S x k + (S + w * Rabs y) + 3 * u32 * (Rabs y + (S + w * Rabs y))).
  { replace (z - x) with ((y - x) + (z - y)) by ring. eapply Rle_trans; [apply Rabs_triang|]. lra. }
  assert (WY : w * Rabs y <= w * T) by (apply Rmult_le_compat_l; lra).
  assert (U3 : 3 * u32 * (Rabs y + (S + w * Rabs y)) <= 3 * u32 * (T + (S + w * T))) by (apply Rmult_le_compat_l; lra).
  assert (F1 : f * T + (1 + 3 * u32) * S <= f * f ^ k * (Rabs x + INR (Datatypes.S k) * S)).
  { rewrite S_INR. replace (f * f ^ k * (Rabs x + (INR k + 1) * S)) with (f * (f ^ k * (Rabs x + INR k * S)) + f * f ^ k * S) by ring. rewrite <- ET.
    apply Rplus_le_compat_l. apply Rmult_le_compat_r; [exact S0|]. pose proof (pow_R1_Rle f k f_ge1) as FK. pose proof f_ge1.
    assert (1 + 3 * u32 <= f) by (unfold f; rewrite <- (Rmult_1_r (1 + 3 * u32)) at 1; apply Rmult_le_compat_l; lra).
    assert (f * 1 <= f * f ^ k) by (apply Rmult_le_compat_l; lra). lra. }
  unfold drift at 1. cbn [pow]. eapply Rle_trans; [exact Z|]. eapply Rle_trans; [|apply Rplus_le_compat_r; exact F1].
  replace (drift f S x k) with (T - Rabs x) by (unfold T; ring). unfold f. lra.
Qed.
End Drift.

(** ** one component, one batch *)
Definition run_ok (f S : R) (k : nat) (x r y : b32) : Prop :=
  f ^ k * (Rabs (bv x) + INR k * S) <= 2 ^ 125 ->
  nan_or y (fun z => Rabs (z - bv x) <= drift f S (bv x) k) /\ (fin r = true -> fin y = true).
Lemma run_step (lr b1 wd p1' p2' : b32) A (x y m v v' : b32) (k : nat) :
  fin lr = true -> Rabs (bv lr) <= 2 ^ 30 -> 0 <= bv b1 <= 1 - / 2 ^ 7 -> fin wd = true -> bv wd <= 1 ->
  fin p1' = true -> 0 <= bv p1' <= bv b1 -> fin p2' = true -> bv p1' <= bv p2' < 1 -> 0 <= A <= 64 ->
  balanced A m v' -> (fin v' = true -> fin v = true) ->
  let S := adam_cap (bv lr) A (bv b1) (bv b1) in let w := Rmax 0 (bv wd) in let f := (1 + 3 * u32) * (1 + w) in
  let d := adam32 p1' p2' lr m v' in
  run_ok f S k x v y -> run_ok f S (Datatypes.S k) x v' (Bplus mode_NE y (if Bltb b32_zero wd then Bplus mode_NE d (Bmult mode_NE (Bopp wd) y) else d)).
Proof.
  intros FL HL HB FW HW F1 H1 F2 H2 HA BL FV S w f d RO LIM.
  assert (I7 : 0 < / 2 ^ 7) by (apply Rinv_0_lt_compat, pow_lt; lra).
  assert (W0 : 0 <= w) by apply Rmax_l.
  assert (R1 : 0 <= bv p1' <= 1 - / 2 ^ 7) by lra.
  assert (R2 : 0 <= bv p2' < 1) by lra. pose proof (cap_range lr p1' p2' A HL R1 R2 HA) as CR.
  pose proof (cap_mono (bv lr) A (bv b1) (bv p1') (bv p2') (proj1 HA) H1 ltac:(lra) H2) as CM. fold S in CM.
  assert (I60 : 0 < / 2 ^ 60) by (apply Rinv_0_lt_compat, pow_lt; lra).
  assert (S0 : 0 <= S) by lra.
  destruct (drift_total w S (bv x) W0 S0 k) as (D0 & D1). fold f in D0, D1.
  destruct (RO ltac:(eapply Rle_trans; [exact D1|exact LIM])) as (RN & RF). clear RO.
  destruct (adam_upd lr p1' p2' A FL HL F1 R1 F2 R2 HA _ _ BL) as (U1 & U2). fold d in U1, U2.
  destruct RN as [N|(Fy & Dy)].
  - split; [left; destruct y; try discriminate; reflexivity|]. intros F. apply FV in F. apply RF in F. destruct y; discriminate.
  - assert (Hy : Rabs (bv y) <= 2 ^ 125).
    { replace (bv y) with ((bv y - bv x) + bv x) by ring. eapply Rle_trans; [apply Rabs_triang|]. cbv beta in Dy. change (B2R y) with (bv y) in Dy. unfold drift in Dy.
      pose proof (Rle_trans _ _ _ D1 LIM). lra. }
    destruct (adam_move y d wd _ Fy Hy FW HW CR U1) as (M1 & M2). cbv zeta in M1, M2. split; [|intros F; apply M2, U2, F].
    destruct M1 as [M|(Fz & M)]; [left; exact M|right]. split; [exact Fz|]. cbv beta in M |- *.
    apply (drift_step w S (bv x) W0 S0 k (bv y)); [exact Dy|]. unfold moves in M |- *. fold w in M. pose proof u32_pos.
    eapply Rle_trans; [exact M|]. apply Rplus_le_compat; [lra|]. apply Rmult_le_compat_l; lra.
Qed.

(** ** one epoch *)
Section Run.
Variables (lm : libm) (c : cfg) (nn : neuralnet) (lf : loss) (X Y : ptr) (xs ts : list (list b32)).
Let OP := opsB32 lm.
Let np := total_n_parameters nn.
Variables (lr beta1 beta2 wd : b32) (Q W : ptr) (A : R).
Hypothesis QW : disjoint Q np W np.
Hypothesis FL : fin lr = true.
Hypothesis HL : Rabs (B2R lr) <= 2 ^ 30.
Hypothesis F1 : fin beta1 = true.
Hypothesis H1 : 0 <= B2R beta1 <= 1 - / 2 ^ 7.
Hypothesis F2 : fin beta2 = true.
Hypothesis H2 : / 2 <= B2R beta2 < 1.
Hypothesis H12 : B2R beta1 <= B2R beta2.
Hypothesis FW : fin wd = true.
Hypothesis HW : B2R wd <= 1.
Hypothesis HR : keeps_ratio (B2R beta1) (B2R beta2) A.
Let optimizer := @Build_adam OP lr beta1 beta2 wd Q W.
Let S := adam_cap (B2R lr) A (B2R beta1) (B2R beta1).
Let f := (1 + 3 * u32) * (1 + Rmax 0 (B2R wd)).

(** powers between 0 and 1, moments in proportion, and the bound after k batches from th0 *)
Definition on_course (k : nat) (th0 th r s : list b32) (p1 p2 : b32) : Prop :=
  (fin p1 = true /\ 0 <= B2R p1 <= 1) /\ (fin p2 = true /\ B2R p1 <= B2R p2 <= 1) /\
  (forall q, (q < np)%nat -> balanced A (nth q s NZ) (nth q r NZ)) /\
  (forall q, (q < np)%nat -> fin (nth q th0 NZ) = true -> run_ok f S k (nth q th0 NZ) (nth q r NZ) (nth q th NZ)).

Lemma course_step k th0 (G : list b32 -> list b32) th r s p1 p2 th' r' s' p1' p2' :
  length th = np -> length r = np -> length s = np -> length (G th) = np ->
  @ad_step_f OP c lr beta1 beta2 wd G (th, r, s, (p1, p2)) = (th', r', s', (p1', p2')) ->
  on_course k th0 th r s p1 p2 -> on_course (Datatypes.S k) th0 th' r' s' p1' p2'.
Proof.
  intros Lth Lr Ls LG ES ((FP1 & HP1) & (FP2 & HP2) & BL & RO).
  destruct (ad_step_nth lm c lr beta1 beta2 wd G th r s p1 p2 th' r' s' p1' p2' (eq_trans Lr (eq_sym Lth)) (eq_trans Ls (eq_sym Lth)) (eq_trans LG (eq_sym Lth)) ES) as (EP1 & EP2 & ST).
  assert (I7 : 0 < / 2 ^ 7) by (apply Rinv_0_lt_compat, pow_lt; lra).
  assert (NP1 : next_power p1 beta1 p1'). { rewrite EP1. apply power_step; auto. change (bv beta1) with (B2R beta1). lra. }
  assert (NP2 : next_power p2 beta2 p2'). { rewrite EP2. apply power_step; auto; [change (bv p2) with (B2R p2); lra|]. change (bv beta2) with (B2R beta2). lra. }
  assert (PM : bv p1' <= bv p2'). { rewrite EP1, EP2. apply power_mono; auto; change (bv beta1) with (B2R beta1); change (bv beta2) with (B2R beta2); lra. }
  destruct NP1 as (FB1 & RB1 & _). destruct NP2 as (FB2 & RB2 & _). pose proof HR as (HA & _).
  assert (BL' : forall q, (q < np)%nat -> balanced A (nth q s' NZ) (nth q r' NZ)).
  { intros q Hq. destruct (ST q (eq_ind_r (fun k => (q < k)%nat) Hq Lth)) as (lane & S1 & S2 & _). cbv zeta in S1, S2.
    apply (eq_ind_r (fun z => balanced A z (nth q r' NZ))) with (2 := S1). apply (eq_ind_r (fun z => balanced A _ z)) with (2 := S2).
    apply balanced_step; auto. }
  split; [split; [exact FB1|lra]|]. split; [split; [exact FB2|change (bv p1' <= bv p2' <= 1); split; [exact PM|change (bv p2') with (B2R p2'); lra]]|]. split; [exact BL'|].
  intros q Hq Fq. destruct (ST q (eq_ind_r (fun k => (q < k)%nat) Hq Lth)) as (lane & _ & S2 & S3). cbv zeta in S2, S3.
  refine (eq_ind_r (run_ok f S (Datatypes.S k) (nth q th0 NZ) (nth q r' NZ)) _ S3).
  apply (run_step lr beta1 wd p1' p2' A (nth q th0 NZ) (nth q th NZ) (nth q s' NZ) (nth q r NZ) (nth q r' NZ) k); auto.
  - split; [exact PM|]. change (bv p2') with (B2R p2'). lra.
  - intros Fr. destruct (fin (nth q r NZ)) eqn:Fo; [reflexivity|]. exfalso.
    pose proof (second_nonfin beta2 _ (nth q (G th) NZ) lane (or_introl Fo)) as NF.
    assert (K : fin (nth q r' NZ) = false) by exact (eq_ind_r (fun z => fin z = false) NF S2). congruence.
Qed.

Lemma adam_epoch_course (m : @mem OP) (e : @env OP) (o : opt) (n k : nat) (th0 th r s : list b32) (p1 p2 : b32) :
  @train_ready OP c nn lf X Y xs ts m th -> @state_array OP c nn X Y xs ts m Q r -> @state_array OP c nn X Y xs ts m W s ->
  @epoch_ready OP c nn lf (o_batchsize o) (length xs) (e, o, n) -> (0 < o_batchsize o)%nat -> on_course k th0 th r s p1 p2 ->
  exists m' th' r' s' p1' p2',
    @adam_epoch OP c (@exp256_lane OP) e o n X Y optimizer (p1, p2) m = Ok ((p1', p2'), m') /\
    @train_ready OP c nn lf X Y xs ts m' th' /\ @state_array OP c nn X Y xs ts m' Q r' /\ @state_array OP c nn X Y xs ts m' W s' /\
    on_course ((n + o_batchsize o - 1) / o_batchsize o + k) th0 th' r' s' p1' p2'.
Proof.
  intros TR SQ SW (E1 & E2 & E3 & E4 & E5 & E6) Hb OC0.
  destruct (ready_b32 lm c nn lf X Y xs ts m th TR) as ((PA & _) & TH). subst n.
  assert (AV : forall p l, @state_array OP c nn X Y xs ts m p l -> @svec OP c nn X Y xs ts m p l).
  { intros p l (A1 & A2 & A3 & A4). rewrite A2 in A3, A4. split; [exact A1|]. split; [exact A2|]. auto. }
  assert (VA : forall m1 p l, @svec OP c nn X Y xs ts m1 p l -> @state_array OP c nn X Y xs ts m1 p l).
  { intros m1 p l (A1 & A2 & A3 & A4). split; [exact A1|]. split; [exact A2|]. rewrite A2. auto. }
  set (P := fun (t : @adt OP * nat) => let '(th1, r1, s1, (q1, q2), k1) := t in on_course k1 th0 th1 r1 s1 q1 q2).
  destruct (@epoch_ok OP nn o (order o) (length (order o)) Hb eq_refl _ _ (@adam_step OP c (@exp256_lane OP) e o (length (order o)) X Y optimizer)
     (fun t m1 a => @ad_inv OP c nn lf X Y xs ts Q W m (fst t) m1 a /\ P t)
     (fun i t => (@ad_step_f OP c lr beta1 beta2 wd (@bgrad OP c (@exp256_lane OP) nn lf xs ts o (order o) (length (order o)) e i) (fst t), Datatypes.S (snd t))))
     with (t := ((th, r, s, (p1, p2)), k)) (m := m) (s := (p1, p2)) as (m' & s' & E & (II & PP)).
  - intros i [[[[th1 r1] s1] [q1 q2]] k1] m1 a Hi (I1 & P1). cbn [fst snd] in I1 |- *.
    destruct (@ad_step_ok OP c (@exp256_lane OP) (mulC_B32 lm) nn lf X Y xs ts PA o (order o) (length (order o)) e E1 Hb (order_some o E3) eq_refl E5 E6 lr beta1 beta2 wd Q W QW m i _ m1 a Hi I1) as (m2 & a2 & Q1 & Q2).
    exists m2, a2. split; [exact Q1|]. split; [exact Q2|]. pose proof I1 as (_ & T1 & (_ & Lr & _) & (_ & Ls & _) & _). cbn [fst snd] in T1, Lr, Ls. pose proof T1 as (_ & Lth & _).
    destruct (@calc_st OP c (@exp256_lane OP) (mulC_B32 lm) nn lf X Y xs ts o (order o) (length (order o)) e E1 Hb (order_some o E3) eq_refl E5 E6 m1 th1 i T1 Hi) as (_ & _ & LG).
    destruct (@ad_step_f OP c lr beta1 beta2 wd _ (th1, r1, s1, (q1, q2))) as [[[th2 r2] s2] [q1' q2']] eqn:ES.
    exact (course_step k1 th0 _ th1 r1 s1 q1 q2 th2 r2 s2 q1' q2' Lth Lr Ls LG ES P1).
  - split; [|exact OC0]. split; [reflexivity|]. cbn [fst snd]. split; [exact TH|]. split; [apply AV; exact SQ|]. split; [apply AV; exact SW|apply oci_refl].
  - assert (CNT : forall (l : list nat) (g : nat -> @adt OP -> @adt OP) (t : @adt OP * nat),
       snd (fold_left (fun t k => (g (k * o_batchsize o)%nat (fst t), Datatypes.S (snd t))) l t) = (length l + snd t)%nat).
    { clear. induction l as [|a l IH]; intros g t; [reflexivity|]. cbn [fold_left length]. rewrite IH. cbn [snd]. lia. }
    specialize (CNT (seq 0 (@n_batches o (length (order o)))) (fun i => @ad_step_f OP c lr beta1 beta2 wd (@bgrad OP c (@exp256_lane OP) nn lf xs ts o (order o) (length (order o)) e i)) ((th, r, s, (p1, p2)), k)).
    rewrite seq_length in CNT. cbn [snd] in CNT. unfold n_batches at 2 in CNT.
    destruct (fold_left _ _ _) as [[[[th' r'] s1'] [q1 q2]] k'] in II, PP, CNT. cbn [fst snd] in II, CNT. destruct II as (-> & TH' & SQ' & SW' & _). cbn [fst snd] in TH', SQ', SW', E.
    exists m', th', r', s1', q1, q2. split; [exact E|].
    split. { split; [exact PA|]. exists (@net_of OP (nn_layers nn) th'). destruct TH' as (A1 & A2 & A3). split; [exact A3|exact A1]. }
    split; [apply VA; exact SQ'|]. split; [apply VA; exact SW'|]. rewrite <- CNT. exact PP.
Qed.
End Run.

Lemma batches_cons bsz n ns k : (batches bsz ns + ((n + bsz - 1) / bsz + k) = batches bsz (n :: ns) + k)%nat.
Proof. change (batches bsz (n :: ns)) with ((n + bsz - 1) / bsz + batches bsz ns)%nat. lia. Qed.
(** ** a whole training run: C88 *)
Theorem adam_run_bounded (lm : libm) (c : cfg) (nn : neuralnet) (lf : loss) (X Y : ptr) (xs ts : list (list b32)) (bsz : nat)
    (h : list (@env (opsB32 lm) * opt * nat)) (lr beta1 beta2 wd : b32) (Q W : ptr) (A : R) :
  let OP := opsB32 lm in
  let np := total_n_parameters nn in
  let optimizer := {| ad_lr := lr; ad_beta1 := beta1; ad_beta2 := beta2; ad_wd := wd; ad_r := Q; ad_s := W |} : @adam OP in
  (0 < bsz)%nat -> Forall (@epoch_ready OP c nn lf bsz (length xs)) h -> disjoint Q np W np ->
  fin lr = true -> Rabs (B2R lr) <= 2 ^ 30 -> fin beta1 = true -> 0 <= B2R beta1 <= 1 - / 2 ^ 7 -> fin beta2 = true -> / 2 <= B2R beta2 < 1 -> B2R beta1 <= B2R beta2 ->
  fin wd = true -> B2R wd <= 1 -> keeps_ratio (B2R beta1) (B2R beta2) A ->
  forall (m : @mem OP) (th r s : list b32) (p1 p2 : b32),
  @train_ready OP c nn lf X Y xs ts m th -> @state_array OP c nn X Y xs ts m Q r -> @state_array OP c nn X Y xs ts m W s ->
  fin p1 = true -> 0 <= B2R p1 <= 1 -> fin p2 = true -> B2R p1 <= B2R p2 <= 1 ->
  (forall q, (q < np)%nat -> balanced A (nth q s NZ) (nth q r NZ)) ->
  let N := batches bsz (map snd h) in
  let S := adam_cap (B2R lr) A (B2R beta1) (B2R beta1) in
  let f := (1 + 3 * u32) * (1 + Rmax 0 (B2R wd)) in
  exists m' th' r' s' p1' p2',
    training (fun e o n => @adam_epoch OP c (@exp256_lane OP) e o n X Y optimizer) h (p1, p2) m = Ok ((p1', p2'), m') /\
    @train_ready OP c nn lf X Y xs ts m' th' /\ @state_array OP c nn X Y xs ts m' Q r' /\ @state_array OP c nn X Y xs ts m' W s' /\
    (fin p1' = true /\ 0 <= B2R p1' <= 1) /\ (fin p2' = true /\ B2R p1' <= B2R p2' <= 1) /\
    (forall q, (q < np)%nat -> balanced A (nth q s' NZ) (nth q r' NZ)) /\
    (forall q, (q < np)%nat -> fin (nth q th NZ) = true -> Rabs (vec (reals th) q) + drift f S (vec (reals th) q) N <= 2 ^ 125 ->
       nan_or (nth q th' NZ) (fun y => Rabs (y - vec (reals th) q) <= drift f S (vec (reals th) q) N) /\
       (fin (nth q r' NZ) = true -> fin (nth q th' NZ) = true)).
Proof.
  intros OP np optimizer Hb HH QW FL HL F1 H1 F2 H2 H12 FW HW HR m th r s p1 p2 TR SQ SW FP1 HP1 FP2 HP2 BL N S f.
  assert (G : forall (m : @mem OP) (k : nat) (th1 r s : list b32) (p1 p2 : b32),
    @train_ready OP c nn lf X Y xs ts m th1 -> @state_array OP c nn X Y xs ts m Q r -> @state_array OP c nn X Y xs ts m W s ->
    on_course nn lr beta1 wd A k th th1 r s p1 p2 ->
    exists m' th' r' s' p1' p2',
    training (fun e o n => @adam_epoch OP c (@exp256_lane OP) e o n X Y optimizer) h (p1, p2) m = Ok ((p1', p2'), m') /\
    @train_ready OP c nn lf X Y xs ts m' th' /\ @state_array OP c nn X Y xs ts m' Q r' /\ @state_array OP c nn X Y xs ts m' W s' /\
    on_course nn lr beta1 wd A (N + k) th th' r' s' p1' p2').
  { clear m r s p1 p2 TR SQ SW FP1 HP1 FP2 HP2 BL. subst N. induction HH as [|[[e o] n] h H0 HH IH]; intros m k th1 r s p1 p2 TR SQ SW OC.
    - exists m, th1, r, s, p1, p2. repeat (split; [assumption || reflexivity|]). exact OC.
    - assert (Eb : o_batchsize o = bsz) by apply H0. rewrite <- Eb in H0, Hb.
      destruct (adam_epoch_course lm c nn lf X Y xs ts lr beta1 beta2 wd Q W A QW FL HL F1 H1 F2 H2 H12 FW HW HR m e o n k th th1 r s p1 p2 TR SQ SW H0 Hb OC) as (m1 & th2 & r1 & s1 & q1 & q2 & E1 & TR1 & SQ1 & SW1 & OC1).
      rewrite Eb in Hb, OC1.
      destruct (IH m1 _ th2 r1 s1 q1 q2 TR1 SQ1 SW1 OC1) as (m2 & th3 & r2 & s2 & p1' & p2' & E2 & TR2 & SQ2 & SW2 & OC2).
      exists m2, th3, r2, s2, p1', p2'. split. { cbn [training]. erewrite bind_ok by exact E1. exact E2. }
      repeat (split; [assumption|]). refine (eq_ind _ (fun z => on_course nn lr beta1 wd A z th th3 r2 s2 p1' p2') OC2 _ _).
      exact (batches_cons bsz n (map snd h) k). }
  destruct (G m 0%nat th r s p1 p2 TR SQ SW) as (m' & th' & r' & s' & p1' & p2' & E & TR' & SQ' & SW' & (PP1 & PP2 & BL' & RO)).
  { split; [split; assumption|]. split; [split; assumption|]. split; [exact BL|]. intros q Hq Fq _. split; [|intros _; exact Fq].
    right. split; [exact Fq|]. unfold drift. cbn [pow INR]. rewrite Rminus_eq_0, Rabs_R0. lra. }
  exists m', th', r', s', p1', p2'. repeat (split; [assumption|]). intros q Hq Fq LIM. rewrite Nat.add_0_r in RO.
  assert (EV : vec (reals th) q = B2R (nth q th NZ)) by exact (vec_bv th q).
  rewrite EV in *. apply (RO q Hq Fq). unfold drift in LIM. fold f S. lra.
Qed.
Print Assumptions adam_run_bounded.

(** the network of [adam_step_bounded_case], all moments 0, three epochs with one batch of two samples each: no parameter
    leaves 0 by more than 72 learning rates, weight decay and all rounding included *)
Example adam_run_bounded_case :
  let lm := lm_rounded in let OP := opsB32 lm in
  let c := {| cfg_isa := AVX512; cfg_fma := true |} in
  let nn := @tc_nn in let xl := [b32_ofZ 1; b32_ofZ 1] in let tl := [b32_ofZ 1; b32_zero] in
  let xs := @rows OP xl in let ts := @rows OP tl in
  let th := [b32_zero; b32_zero] in let s := [b32_zero; b32_zero] in let r := [b32_zero; b32_zero] in
  let lr := b32_lit 1 1000 in let beta1 := b32_lit 9 10 in let beta2 := b32_lit 999 1000 in let wd := b32_lit 1 100 in let one := b32_ofZ 1 in let A := 73 / 10 in
  let o := tc_opt 2 [0%nat; 1%nat] in let e := @tc_env_omp OP c 2 2 in
  let h := [(e, o, 2%nat); (e, o, 2%nat); (e, o, 2%nat)] in
  let S := adam_cap (B2R lr) A (B2R beta1) (B2R beta1) in
  let f := (1 + 3 * u32) * (1 + Rmax 0 (B2R wd)) in
  @train_ready OP c nn MSE (mkptr 2 0) (mkptr 3 0) xs ts (@tc_mem OP xl tl) th /\
  @state_array OP c nn (mkptr 2 0) (mkptr 3 0) xs ts (@tc_mem OP xl tl) (mkptr 4 0) r /\
  @state_array OP c nn (mkptr 2 0) (mkptr 3 0) xs ts (@tc_mem OP xl tl) (mkptr 5 0) s /\
  disjoint (mkptr 4 0) (total_n_parameters nn) (mkptr 5 0) (total_n_parameters nn) /\
  Forall (@epoch_ready OP c nn MSE 2 (length xs)) h /\
  (fin lr = true /\ Rabs (B2R lr) <= 2 ^ 30) /\ (fin beta1 = true /\ 0 <= B2R beta1 <= 1 - / 2 ^ 7) /\ (fin beta2 = true /\ / 2 <= B2R beta2 < 1) /\ B2R beta1 <= B2R beta2 /\
  (fin wd = true /\ 0 < B2R wd <= 1) /\ (fin one = true /\ 0 <= B2R one <= B2R one /\ B2R one <= 1) /\ keeps_ratio (B2R beta1) (B2R beta2) A /\
  batches 2 (map snd h) = 3%nat /\
  (forall q, (q < total_n_parameters nn)%nat -> balanced A (nth q s NZ) (nth q r NZ) /\ fin (nth q th NZ) = true /\
     Rabs (vec (reals th) q) + drift f S (vec (reals th) q) 3 <= 2 ^ 125 /\ drift f S (vec (reals th) q) 3 <= 72 * B2R lr).
Proof.
  destruct adam_step_bounded_case as (C1 & C2 & C3 & C4 & C5 & _ & _ & C6 & C7 & C8 & C9 & C10 & C11 & C12 & _).
  cbv zeta. split; [exact C1|]. split; [exact C2|]. split; [exact C3|]. split; [exact C4|]. split; [repeat (apply Forall_cons; [exact C5|]); apply Forall_nil|].
  split; [exact C6|]. split; [exact C7|]. split; [exact C8|].
  assert (X1 : fin (b32_lit 9 10) = true /\ bv (b32_lit 9 10) = 15099494 / 16777216) by lit32. destruct X1 as (_ & X2).
  assert (Y1 : fin (b32_lit 999 1000) = true /\ bv (b32_lit 999 1000) = 16760439 / 16777216) by lit32. destruct Y1 as (_ & Y2).
  assert (L1 : fin (b32_lit 1 1000) = true /\ bv (b32_lit 1 1000) = 8589935 / 8589934592) by lit32. destruct L1 as (_ & L2).
  assert (W1 : fin (b32_lit 1 100) = true /\ bv (b32_lit 1 100) = 10737418 / 1073741824) by lit32. destruct W1 as (_ & W2).
  split; [rewrite X2, Y2; lra|]. split; [exact C9|]. split; [destruct C10 as (K1 & K2); split; [exact K1|lra]|]. split; [exact C11|]. split; [reflexivity|].
  intros q Hq. destruct (C12 q Hq) as (D1 & D2 & _). split; [exact D1|]. split; [exact D2|]. change (total_n_parameters tc_nn) with 2%nat in Hq.
  rewrite zero_reals, Rabs_R0.
  assert (D : drift ((1 + 3 * u32) * (1 + Rmax 0 (bv (b32_lit 1 100)))) (adam_cap (bv (b32_lit 1 1000)) (73 / 10) (bv (b32_lit 9 10)) (bv (b32_lit 9 10))) 0 3 <= 72 * bv (b32_lit 1 1000)).
  { unfold drift. rewrite Rabs_R0, L2, W2, X2. rewrite Rmax_right by lra.
    unfold adam_cap. rewrite Rabs_pos_eq by lra. rewrite u32_val.
    assert (S : sqrt (1 - 15099494 / 16777216) <= 31623 / 100000).
    { apply sq_le; [lra|]. rewrite <- Rsqr_pow2, Rsqr_sqrt by lra. lra. }
    pose proof (sqrt_pos (1 - 15099494 / 16777216)) as S0. set (z := sqrt _) in *. cbn [INR pow]. lra. }
  change (B2R (b32_lit 1 1000)) with (bv (b32_lit 1 1000)) in *. split; [|exact D]. rewrite Rplus_0_l. eapply Rle_trans; [exact D|]. rewrite L2. assert (1 <= 2 ^ 125) by (apply pow_R1_Rle; lra). lra.
Qed.
