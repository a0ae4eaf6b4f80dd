(** Prop_Frozen.v -- C83: a parameter stays trainable after a batch with a huge gradient *)
From Coquelicot Require Import Coquelicot.
From Flocq Require Import Core BinarySingleNaN.
From Coq Require Import ZArith Bool List Arith Reals Lia Lra Permutation FunctionalExtensionality.
From Verif Require Import Base BaseProofs Ops OpsR Mem MemProofs Kernels KernelProofs Activation ActivationProofs Loss Neuralnet
  ForwardProofs BackpropProofs OpsB32 B32Facts MetricB32 SpecReal RealForward RealGrad LossGrad GradProofs SpecBits BitsProofs SpecMem PredictProofs GradPropProofs
  ParamProofs Batch BatchProofs BlasProofs Optimizer OptKernels OptProofs OptEpochs SpecOpt OptReal OptTrain SpecDescent DescentProofs
  Exp256B32 SpecLibm SpecRound RoundProofs RoundNet SpecGradRound SlopeRound LossRound GradRound GradSample SpecStepRound SumRound BatchRound StepRound
  SpecAdapt AdaptRound AdaptStep Prop_Rules Prop_Descent Ex_Mem Ex_Train LibmCase Prop_Round Prop_GradRound Prop_StepRound Prop_Adapt SpecFrozen SpecGradRound SpecStepRound.
Import ListNotations.
Local Open Scope R_scope.
Local Notation NZ := b32_zero.
Local Notation INF := (B754_infinity false : b32).

(** ** one component *)
Lemma over_add (r z : b32) : overflowed r -> ge z 0 -> overflowed (Bplus mode_NE r z).
Proof.
  intros [N| ->] G.
  - left. destruct r; try discriminate. destruct z; reflexivity.
  - destruct G as [N|[->|(F & _)]]; [left; destruct z; try discriminate; reflexivity|right; reflexivity|right; destruct z; try discriminate; reflexivity].
Qed.
Lemma sqr_ge0 (g : b32) : ge (Bmult mode_NE g g) 0.
Proof. eapply ge_weaken; [apply ge_sqr|apply rnd_pos, Rle_0_sqr]. Qed.
Lemma over_mul (rho r : b32) : fin rho = true -> 0 < bv rho -> overflowed r -> overflowed (Bmult mode_NE rho r).
Proof.
  intros F P [N| ->].
  - left. destruct r; try discriminate. destruct rho; reflexivity.
  - right. destruct rho as [s|s| |s m e H]; try discriminate; [cbn in P; lra|].
    destruct s; [|reflexivity]. exfalso. assert (bv (B754_finite true m e H : b32) <= 0) by (apply F2R_le_0; cbn; lia). lra.
Qed.
Lemma over_update (lr g y : b32) : fin lr = true -> overflowed y -> is_nan (upd32 lr g y) = true \/ exists s, upd32 lr g y = B754_zero s.
Proof.
  intros F [N| ->].
  - left. destruct y; try discriminate. unfold upd32. cbn [Bsqrt]. destruct eps7; destruct lr; destruct g; reflexivity.
  - unfold upd32. assert (E : Bplus mode_NE eps7 (Bsqrt mode_NE INF) = INF).
    { destruct eps7_R as (E & _). cbn [Bsqrt]. destruct eps7; try discriminate; reflexivity. }
    rewrite E. destruct (div_by_inf (Bopp lr)) as (s & ->). { rewrite (proj1 (opp_R lr)). exact F. }
    destruct (fin g) eqn:Fg; [right; apply mul_zero; exact Fg|left]. destruct g; try discriminate; reflexivity.
Qed.
Lemma unmoved_add (x0 x d : b32) : unmoved x0 x -> (is_nan d = true \/ exists s, d = B754_zero s) -> unmoved x0 (Bplus mode_NE x d).
Proof.
  intros [N|(F & E)] [D|(s & ->)].
  - left. destruct x; try discriminate. reflexivity.
  - left. destruct x; try discriminate. reflexivity.
  - left. destruct d; try discriminate. destruct x; reflexivity.
  - right. destruct x as [s0|s0| |s0 m e H]; try discriminate.
    + assert (Q : fin (Bplus mode_NE (B754_zero s0 : b32) (B754_zero s)) = true /\ bv (Bplus mode_NE (B754_zero s0 : b32) (B754_zero s)) = 0) by (destruct s0, s; split; reflexivity).
      destruct Q as (Q1 & Q2). split; [exact Q1|]. rewrite Q2. exact E.
    + split; [reflexivity|exact E].
Qed.

(** ** one epoch *)
Section Epoch.
Variables (lm : libm) (c : cfg) (nn : neuralnet) (lf : loss) (X Y : ptr) (xs ts : list (list b32)).
Let OP := opsB32 lm.
Let np := total_n_parameters nn.
Definition stays (th r th' r' : list b32) : Prop := forall q x, (q < np)%nat -> overflowed (nth q r NZ) -> unmoved x (nth q th NZ) ->
  overflowed (nth q r' NZ) /\ unmoved x (nth q th' NZ).

Lemma adagrad_epoch_frozen (m : @mem OP) (e : @env OP) (o : opt) (n t : nat) (lr decay : b32) (Q : ptr) (th r : list b32) :
  let optimizer (t : nat) (lr : b32) := @Build_adagrad OP lr decay t Q in
  @train_ready OP c nn lf X Y xs ts m th -> @state_array OP c nn X Y xs ts m Q r ->
  @epoch_ready OP c nn lf (o_batchsize o) (length xs) (e, o, n) -> (0 < o_batchsize o)%nat ->
  fin lr = true -> fin decay = true ->
  exists m' th' r' lr' t',
    @adagrad_epoch OP c (@exp256_lane OP) e o n X Y (optimizer t lr) m = Ok (optimizer t' lr', m') /\
    @train_ready OP c nn lf X Y xs ts m' th' /\ @state_array OP c nn X Y xs ts m' Q r' /\ fin lr' = true /\ stays th r th' r'.
Proof.
  intros optimizer TR SA (E1 & E2 & E3 & E4 & E5 & E6) Hb FL FD.
  destruct (ready_b32 lm c nn lf X Y xs ts m th TR) as ((PA & _) & TH). subst n.
  set (P := fun (s : @agt OP) => let '(th1, r1, lr1, _) := s in fin lr1 = true /\ stays th r th1 r1).
  destruct (@epoch_ok OP nn o (order o) (length (order o)) Hb eq_refl _ _ (@adagrad_step OP c (@exp256_lane OP) e o (length (order o)) X Y)
     (fun s m1 a => @ag_inv OP c nn lf X Y xs ts decay Q m s m1 a /\ P s)
     (fun i => @ag_step_f OP decay (@bgrad OP c (@exp256_lane OP) nn lf xs ts o (order o) (length (order o)) e i))) with (t := (th, r, lr, t)) (m := m) (s := optimizer t lr)
     as (m' & s' & E & (II & PP)).
  - intros i [[[th1 r1] lr1] t1] m1 a Hi (I1 & (F1 & P1)).
    destruct (@ag_step_ok OP c (@exp256_lane OP) (mulC_B32 lm) nn lf X Y xs ts PA o (order o) (length (order o)) e E1 Hb (order_some o E3) eq_refl E5 E6 decay Q m i _ m1 a Hi I1) as (m2 & a2 & Q1 & Q2).
    exists m2, a2. split; [exact Q1|]. split; [exact Q2|]. pose proof I1 as (_ & T1 & (_ & Lr & _) & _). cbn [fst snd] in T1, Lr. pose proof T1 as (_ & Lth & _).
    destruct (@calc_st OP c (@exp256_lane OP) (mulC_B32 lm) nn lf X Y xs ts o (order o) (length (order o)) e E1 Hb (order_some o E3) eq_refl E5 E6 m1 th1 i T1 Hi) as (_ & _ & LG).
    destruct (@ag_step_f OP decay _ (th1, r1, lr1, t1)) as [[[th2 r2] lr2] t2] eqn:ES.
    destruct (ag_step_nth lm decay _ th1 r1 lr1 t1 th2 r2 lr2 t2 (eq_trans Lth (eq_sym Lr)) (eq_trans LG (eq_sym Lth)) ES) as (-> & -> & ST).
    destruct (decayed_shrinks lm lr1 decay t1 F1 FD) as (FR & _). split; [exact FR|].
    intros q x Hq OV FT. destruct (P1 q x Hq OV FT) as (OV1 & UM).
    destruct (ST q (eq_ind_r (fun k => (q < k)%nat) Hq Lth)) as (S1 & S2). cbv zeta in S1, S2.
    pose proof (over_add _ _ OV1 (sqr_ge0 (nth q (@bgrad OP c (@exp256_lane OP) nn lf xs ts o (order o) (length (order o)) e i th1) NZ))) as OY.
    split; [exact (eq_ind_r overflowed OY S1)|]. refine (eq_ind_r (unmoved x) _ S2). apply unmoved_add; [exact UM|]. apply over_update; [exact FR|exact OY].
  - split.
    + split; [reflexivity|]. cbn [fst snd]. split; [exact TH|]. split; [|apply oci_refl].
      destruct SA as (A1 & A2 & A3 & A4). rewrite A2 in A3, A4. split; [exact A1|]. split; [exact A2|]. auto.
    + split; [exact FL|]. intros q x Hq OV FT. split; assumption.
  - destruct (fold_left _ _ _) as [[[th' r'] lr'] t'] in II, PP. destruct II as (-> & TH' & SV' & _). cbn [fst snd] in TH', SV'. destruct PP as (FR & PP).
    exists m', th', r', lr', t'. split; [exact E|].
    split. { split; [exact PA|]. exists (@net_of OP (nn_layers nn) th'). destruct TH' as (A1 & A2 & A3). split; [exact A3|exact A1]. }
    split. { destruct SV' as (A1 & A2 & A3 & A4). split; [exact A1|]. split; [exact A2|]. rewrite A2. auto. }
    split; [exact FR|exact PP].
Qed.

Lemma rmsprop_epoch_frozen (m : @mem OP) (e : @env OP) (o : opt) (n t : nat) (lr decay rho mu : b32) (nest : bool) (V Q : ptr) (th v r : list b32) :
  let optimizer (t : nat) (lr : b32) := @Build_rmsprop OP lr decay rho mu nest t V Q in
  @train_ready OP c nn lf X Y xs ts m th -> @state_array OP c nn X Y xs ts m V v -> @state_array OP c nn X Y xs ts m Q r -> disjoint V np Q np ->
  @epoch_ready OP c nn lf (o_batchsize o) (length xs) (e, o, n) -> (0 < o_batchsize o)%nat ->
  fin lr = true -> fin decay = true -> fin rho = true -> 0 < B2R rho < 1 -> fin mu = true -> B2R mu <= 0 ->
  exists m' th' v' r' lr' t',
    @rmsprop_epoch OP c (@exp256_lane OP) e o n X Y (optimizer t lr) m = Ok (optimizer t' lr', m') /\
    @train_ready OP c nn lf X Y xs ts m' th' /\ @state_array OP c nn X Y xs ts m' V v' /\ @state_array OP c nn X Y xs ts m' Q r' /\ fin lr' = true /\ stays th r th' r'.
Proof.
  intros optimizer TR SV SA VQ (E1 & E2 & E3 & E4 & E5 & E6) Hb FL FD Frho Hrho FM HM.
  destruct (ready_b32 lm c nn lf X Y xs ts m th TR) as ((PA & _) & TH). subst n.
  destruct (rho_R rho Frho) as (K1 & _ & _ & K4). { change (bv rho) with (B2R rho). lra. }
  set (P := fun (s : @rmst OP) => let '(th1, _, r1, lr1, _) := s in fin lr1 = true /\ stays th r th1 r1).
  destruct (@epoch_ok OP nn o (order o) (length (order o)) Hb eq_refl _ _ (@rmsprop_step OP c (@exp256_lane OP) e o (length (order o)) X Y)
     (fun s m1 a => @rms_inv OP c nn lf X Y xs ts decay rho mu nest V Q m s m1 a /\ P s)
     (fun i => @rms_step_f OP decay rho mu nest (@bgrad OP c (@exp256_lane OP) nn lf xs ts o (order o) (length (order o)) e i))) with (t := (th, v, r, lr, t)) (m := m) (s := optimizer t lr)
     as (m' & s' & E & (II & PP)).
  - intros i [[[[th1 v1] r1] lr1] t1] m1 a Hi (I1 & (F1 & P1)).
    destruct (@rms_step_ok OP c (@exp256_lane OP) (mulC_B32 lm) nn lf X Y xs ts PA o (order o) (length (order o)) e E1 Hb (order_some o E3) eq_refl E5 E6 decay rho mu nest V Q VQ m i _ m1 a Hi I1) as (m2 & a2 & Q1 & Q2).
    exists m2, a2. split; [exact Q1|]. split; [exact Q2|]. pose proof I1 as (_ & T1 & (_ & Lv & _) & (_ & Lr & _) & _). cbn [fst snd] in T1, Lr, Lv. pose proof T1 as (_ & Lth & _).
    destruct (@calc_st OP c (@exp256_lane OP) (mulC_B32 lm) nn lf X Y xs ts o (order o) (length (order o)) e E1 Hb (order_some o E3) eq_refl E5 E6 m1 th1 i T1 Hi) as (_ & _ & LG).
    destruct (@rms_step_f OP decay rho mu nest _ (th1, v1, r1, lr1, t1)) as [[[[th2 v2] r2] lr2] t2] eqn:ES.
    destruct (rms_step_nth lm decay rho mu nest _ th1 v1 r1 lr1 t1 th2 v2 r2 lr2 t2 FM (eq_trans Lth (eq_sym Lv)) (eq_trans Lth (eq_sym Lr)) ES) as (-> & -> & ST).
    destruct (decayed_shrinks lm lr1 decay t1 F1 FD) as (FR & _). split; [exact FR|].
    intros q x Hq OV FT. destruct (P1 q x Hq OV FT) as (OV1 & UM).
    assert (EI : interim mu nest th1 v1 = th1) by (unfold interim; destruct (Rlt_dec 0 (B2R mu)); [lra|reflexivity]).
    destruct (ST q (eq_ind_r (fun k => (q < k)%nat) Hq Lth)) as (S1 & S2).
    { rewrite EI. exact (eq_trans LG (eq_sym Lth)). }
    cbv zeta in S1, S2. destruct (Rlt_dec 0 (bv mu)) as [HP|_]; [change (bv mu) with (B2R mu) in HP; lra|]. destruct S2 as (_ & S2). rewrite EI in S1, S2.
    set (g := nth q (@bgrad OP c (@exp256_lane OP) nn lf xs ts o (order o) (length (order o)) e i th1) NZ) in *.
    assert (GY : ge (Bmult mode_NE (Bminus mode_NE (b32_ofZ 1) rho) (Bmult mode_NE g g)) 0) 
      by (eapply ge_weaken; [apply (ge_mul _ _ (bv (Bminus mode_NE (b32_ofZ 1) rho)) 0 K4 (Rle_refl 0) (ge_self _ K1) (sqr_ge0 g))|rewrite Rmult_0_r; apply rnd_pos, Rle_refl]).
    pose proof (over_add _ _ (over_mul rho _ Frho (proj1 Hrho) OV1) GY) as OY.
    split; [exact (eq_ind_r overflowed OY S1)|]. refine (eq_ind_r (unmoved x) _ S2). apply unmoved_add; [exact UM|]. apply over_update; [exact FR|exact OY].
  - split.
    + split; [reflexivity|]. cbn [fst snd]. split; [exact TH|]. split; [|split; [|apply oci_refl]].
      * destruct SV as (A1 & A2 & A3 & A4). rewrite A2 in A3, A4. split; [exact A1|]. split; [exact A2|]. auto.
      * destruct SA as (A1 & A2 & A3 & A4). rewrite A2 in A3, A4. split; [exact A1|]. split; [exact A2|]. auto.
    + split; [exact FL|]. intros q x Hq OV FT. split; assumption.
  - destruct (fold_left _ _ _) as [[[[th' v'] r'] lr'] t'] in II, PP. destruct II as (-> & TH' & SV' & SQ' & _). cbn [fst snd] in TH', SV', SQ'. destruct PP as (FR & PP).
    exists m', th', v', r', lr', t'. split; [exact E|].
    split. { split; [exact PA|]. exists (@net_of OP (nn_layers nn) th'). destruct TH' as (A1 & A2 & A3). split; [exact A3|exact A1]. }
    split. { destruct SV' as (A1 & A2 & A3 & A4). split; [exact A1|]. split; [exact A2|]. rewrite A2. auto. }
    split. { destruct SQ' as (A1 & A2 & A3 & A4). split; [exact A1|]. split; [exact A2|]. rewrite A2. auto. }
    split; [exact FR|exact PP].
Qed.
End Epoch.

(** ** any number of epochs *)
(** Any number of epochs of Adagrad, in any order and with any batches, threads and data: a finite parameter whose accumulated
    square has overflowed keeps its value for ever, or becomes a NaN. *)
Theorem adagrad_frozen (lm : libm) (c : cfg) (nn : neuralnet) (lf : loss) (X Y : ptr) (xs ts : list (list b32)) (bsz : nat) (h : list (@env (opsB32 lm) * opt * nat)) :
  let OP := opsB32 lm in
  let np := total_n_parameters nn in
  (0 < bsz)%nat -> Forall (@epoch_ready OP c nn lf bsz (length xs)) h ->
  forall (m : @mem OP) (t : nat) (lr decay : b32) (Q : ptr) (th r : list b32),
  let optimizer (t : nat) (lr : b32) := @Build_adagrad OP lr decay t Q in
  @train_ready OP c nn lf X Y xs ts m th -> @state_array OP c nn X Y xs ts m Q r -> fin lr = true -> fin decay = true ->
  exists m' th' r' lr' t',
    training (fun e o n => @adagrad_epoch OP c (@exp256_lane OP) e o n X Y) h (optimizer t lr) m = Ok (optimizer t' lr', m') /\
    @train_ready OP c nn lf X Y xs ts m' th' /\ @state_array OP c nn X Y xs ts m' Q r' /\ fin lr' = true /\
    forall q, (q < np)%nat -> fin (nth q th NZ) = true -> overflowed (nth q r NZ) ->
      overflowed (nth q r' NZ) /\ unmoved (nth q th NZ) (nth q th' NZ).
Proof.
  intros OP np Hb HH.
  assert (G : forall (m : @mem OP) (t : nat) (lr decay : b32) (Q : ptr) (th r : list b32),
    let optimizer (t : nat) (lr : b32) := @Build_adagrad OP lr decay t Q in
    @train_ready OP c nn lf X Y xs ts m th -> @state_array OP c nn X Y xs ts m Q r -> fin lr = true -> fin decay = true ->
    exists m' th' r' lr' t',
      training (fun e o n => @adagrad_epoch OP c (@exp256_lane OP) e o n X Y) h (optimizer t lr) m = Ok (optimizer t' lr', m') /\
      @train_ready OP c nn lf X Y xs ts m' th' /\ @state_array OP c nn X Y xs ts m' Q r' /\ fin lr' = true /\ stays nn th r th' r').
  { induction HH as [|[[e o] n] h H0 HH IH]; intros m t lr decay Q th r optimizer TR SA FL FD.
    - exists m, th, r, lr, t. repeat (split; [assumption || reflexivity|]). assumption.
    - assert (Eb : o_batchsize o = bsz) by apply H0. rewrite <- Eb in H0, Hb.
      destruct (adagrad_epoch_frozen lm c nn lf X Y xs ts m e o n t lr decay Q th r TR SA H0 Hb FL FD) as (m1 & th1 & r1 & lr1 & t1 & E1 & TR1 & SA1 & FL1 & ST1).
      rewrite Eb in Hb.
      destruct (IH m1 t1 lr1 decay Q th1 r1 TR1 SA1 FL1 FD) as (m2 & th2 & r2 & lr2 & t2 & E2 & TR2 & SA2 & FL2 & ST2).
      exists m2, th2, r2, lr2, t2. split. { cbn [training]. erewrite bind_ok by exact E1. exact E2. }
      repeat (split; [assumption|]). intros q x Hq OV UM. destruct (ST1 q x Hq OV UM) as (A & B). exact (ST2 q x Hq A B). }
  intros m t lr decay Q th r optimizer TR SA FL FD.
  destruct (G m t lr decay Q th r TR SA FL FD) as (m' & th' & r' & lr' & t' & E & TR' & SA' & FL' & ST).
  exists m', th', r', lr', t'. repeat (split; [assumption|]). intros q Hq FT OV. apply ST; [exact Hq|exact OV|]. right. split; [exact FT|reflexivity].
Qed.
Print Assumptions adagrad_frozen.

(** The same for RMSprop without momentum. *)
Theorem rmsprop_frozen (lm : libm) (c : cfg) (nn : neuralnet) (lf : loss) (X Y : ptr) (xs ts : list (list b32)) (bsz : nat) (h : list (@env (opsB32 lm) * opt * nat)) :
  let OP := opsB32 lm in
  let np := total_n_parameters nn in
  (0 < bsz)%nat -> Forall (@epoch_ready OP c nn lf bsz (length xs)) h ->
  forall (m : @mem OP) (t : nat) (lr decay rho mu : b32) (nest : bool) (V Q : ptr) (th v r : list b32),
  let optimizer (t : nat) (lr : b32) := @Build_rmsprop OP lr decay rho mu nest t V Q in
  @train_ready OP c nn lf X Y xs ts m th -> @state_array OP c nn X Y xs ts m V v -> @state_array OP c nn X Y xs ts m Q r -> disjoint V np Q np ->
  fin lr = true -> fin decay = true -> fin rho = true -> 0 < B2R rho < 1 -> fin mu = true -> B2R mu <= 0 ->
  exists m' th' v' r' lr' t',
    training (fun e o n => @rmsprop_epoch OP c (@exp256_lane OP) e o n X Y) h (optimizer t lr) m = Ok (optimizer t' lr', m') /\
    @train_ready OP c nn lf X Y xs ts m' th' /\ @state_array OP c nn X Y xs ts m' V v' /\ @state_array OP c nn X Y xs ts m' Q r' /\ fin lr' = true /\
    forall q, (q < np)%nat -> fin (nth q th NZ) = true -> overflowed (nth q r NZ) ->
      overflowed (nth q r' NZ) /\ unmoved (nth q th NZ) (nth q th' NZ).
Proof.
  intros OP np Hb HH.
  assert (G : forall (m : @mem OP) (t : nat) (lr decay rho mu : b32) (nest : bool) (V Q : ptr) (th v r : list b32),
    let optimizer (t : nat) (lr : b32) := @Build_rmsprop OP lr decay rho mu nest t V Q in
    @train_ready OP c nn lf X Y xs ts m th -> @state_array OP c nn X Y xs ts m V v -> @state_array OP c nn X Y xs ts m Q r -> disjoint V np Q np ->
    fin lr = true -> fin decay = true -> fin rho = true -> 0 < B2R rho < 1 -> fin mu = true -> B2R mu <= 0 ->
    exists m' th' v' r' lr' t',
      training (fun e o n => @rmsprop_epoch OP c (@exp256_lane OP) e o n X Y) h (optimizer t lr) m = Ok (optimizer t' lr', m') /\
      @train_ready OP c nn lf X Y xs ts m' th' /\ @state_array OP c nn X Y xs ts m' V v' /\ @state_array OP c nn X Y xs ts m' Q r' /\ fin lr' = true /\ stays nn th r th' r').
  { induction HH as [|[[e o] n] h H0 HH IH]; intros m t lr decay rho mu nest V Q th v r optimizer TR SV SA VQ FL FD FP HP FM HM.
    - exists m, th, v, r, lr, t. repeat (split; [assumption || reflexivity|]). assumption.
    - assert (Eb : o_batchsize o = bsz) by apply H0. rewrite <- Eb in H0, Hb.
      destruct (rmsprop_epoch_frozen lm c nn lf X Y xs ts m e o n t lr decay rho mu nest V Q th v r TR SV SA VQ H0 Hb FL FD FP HP FM HM) as (m1 & th1 & v1 & r1 & lr1 & t1 & E1 & TR1 & SV1 & SA1 & FL1 & ST1).
      rewrite Eb in Hb.
      destruct (IH m1 t1 lr1 decay rho mu nest V Q th1 v1 r1 TR1 SV1 SA1 VQ FL1 FD FP HP FM HM) as (m2 & th2 & v2 & r2 & lr2 & t2 & E2 & TR2 & SV2 & SA2 & FL2 & ST2).
      exists m2, th2, v2, r2, lr2, t2. split. { cbn [training]. erewrite bind_ok by exact E1. exact E2. }
      repeat (split; [assumption|]). intros q x Hq OV UM. destruct (ST1 q x Hq OV UM) as (A & B). exact (ST2 q x Hq A B). }
  intros m t lr decay rho mu nest V Q th v r optimizer TR SV SA VQ FL FD FP HP FM HM.
  destruct (G m t lr decay rho mu nest V Q th v r TR SV SA VQ FL FD FP HP FM HM) as (m' & th' & v' & r' & lr' & t' & E & TR' & SV' & SA' & FL' & ST).
  exists m', th', v', r', lr', t'. repeat (split; [assumption|]). intros q Hq FT OV. apply ST; [exact Hq|exact OV|]. right. split; [exact FT|reflexivity].
Qed.
Print Assumptions rmsprop_frozen.

(** ** the counterexample: one linear unit with parameters 0 and two samples; the first epoch has batches of one sample *)
Definition is_inf (x : b32) : bool := match x with B754_infinity false => true | _ => false end.
Definition is_zero (x : b32) : bool := match x with B754_zero _ => true | _ => false end.
Lemma is_inf_over x : is_inf x = true -> overflowed x.
Proof. destruct x as [|[|]| |]; try discriminate. right. reflexivity. Qed.
Lemma is_zero_eq x : is_zero x = true -> fin x = true /\ bv x = 0.
Proof. destruct x; try discriminate. split; reflexivity. Qed.

(** the targets of the two samples: 2^64 and 1; both inputs are 1 *)
Definition huge_first : list b32 := [b32_ofZ (2 ^ 64); b32_ofZ 1].
Definition ones : list b32 := [b32_ofZ 1; b32_ofZ 1].

Section Case.
Variable (lm : libm) (c : cfg).
Let OP := opsB32 lm.
Let o : opt := tc_opt 1 [0%nat; 1%nat].
Let e : @env OP := @tc_env OP.
Let G (tl : list b32) (i : nat) := @bgrad OP c (@exp256_lane OP) tc_nn MSE (@rows OP ones) (@rows OP tl) o [0%nat; 1%nat] 2 e i.
Let ag_end (tl : list b32) := fold_left (fun t j => @ag_step_f OP NZ (G tl (j * 1)) t) (seq 0 (n_batches o 2)) ([NZ; NZ], [NZ; NZ], b32_lit 1 100, 0%nat).
Let rms_end (tl : list b32) := fold_left (fun t j => @rms_step_f OP NZ (b32_lit 9 10) NZ false (G tl (j * 1)) t) (seq 0 (n_batches o 2)) ([NZ; NZ], [NZ; NZ], [NZ; NZ], b32_lit 1 100, 0%nat).
Lemma ag_ends th r lr t : ag_end huge_first = (th, r, lr, t) -> forallb is_zero th && forallb is_inf r && fin lr = true.
Proof.
  intros H. assert (E : let '(th, r, lr, _) := ag_end huge_first in forallb is_zero th && forallb is_inf r && fin lr = true); [|rewrite H in E; exact E]. clear H.
  destruct c as [[] []]; vm_compute; reflexivity. Qed.
Lemma rms_ends th v r lr t : rms_end huge_first = (th, v, r, lr, t) -> forallb is_zero th && forallb is_inf r && fin lr = true.
Proof.
  intros H. assert (E : let '(th, _, r, lr, _) := rms_end huge_first in forallb is_zero th && forallb is_inf r && fin lr = true); [|rewrite H in E; exact E]. clear H.
  destruct c as [[] []]; vm_compute; reflexivity. Qed.
Lemma ag_ends_ones : forallb (Bltb NZ) (fst (fst (fst (ag_end ones)))) = true.
Proof. destruct c as [[] []]; vm_compute; reflexivity. Qed.
End Case.

(** A parameter does not stay trainable: two samples with input 1 and targets 2^64 and 1, parameters and optimizer state 0, learning rate 0.01.
    All of these are finite.  After one epoch of Adagrad or of RMSprop (rho = 0.9, no momentum) no further training, with any number of
    epochs in any order, moves a parameter again. *)
Theorem stays_trainable_refuted (lm : libm) (c : cfg) :
  let OP := opsB32 lm in
  exists (nn : neuralnet) (X Y V Q : ptr) (xl tl : list b32) (e : @env OP) (o : opt) (m : @mem OP) (th v r : list b32) (lr rho : b32),
  let xs := @rows OP xl in let ts := @rows OP tl in let np := total_n_parameters nn in
  (0 < np)%nat /\ (0 < length xs)%nat /\ Forall (fun x : b32 => fin x = true) (xl ++ tl ++ th ++ v ++ r ++ [lr; rho]) /\ 0 < B2R lr /\
  @train_ready OP c nn MSE X Y xs ts m th /\ @state_array OP c nn X Y xs ts m V v /\ @state_array OP c nn X Y xs ts m Q r /\
  @epoch_ready OP c nn MSE 1 (length xs) (e, o, length xs) /\
  forall h, Forall (@epoch_ready OP c nn MSE 1 (length xs)) h ->
  (exists m' th' t' lr',
    training (fun e o n => @adagrad_epoch OP c (@exp256_lane OP) e o n X Y) ((e, o, length xs) :: h) (@Build_adagrad OP lr NZ 0 Q) m
      = Ok (@Build_adagrad OP lr' NZ t' Q, m') /\
    @train_ready OP c nn MSE X Y xs ts m' th' /\ forall q, (q < np)%nat -> unmoved (nth q th NZ) (nth q th' NZ)) /\
  (exists m' th' t' lr',
    training (fun e o n => @rmsprop_epoch OP c (@exp256_lane OP) e o n X Y) ((e, o, length xs) :: h) (@Build_rmsprop OP lr NZ rho NZ false 0 V Q) m
      = Ok (@Build_rmsprop OP lr' NZ rho NZ false t' V Q, m') /\
    @train_ready OP c nn MSE X Y xs ts m' th' /\ forall q, (q < np)%nat -> unmoved (nth q th NZ) (nth q th' NZ)).
Proof.
  intros OP. exists tc_nn, (mkptr 2 0), (mkptr 3 0), (mkptr 4 0), (mkptr 5 0), ones, huge_first, (@tc_env OP), (tc_opt 1 [0%nat; 1%nat]), (@tc_mem OP ones huge_first),
    [NZ; NZ], [NZ; NZ], [NZ; NZ], (b32_lit 1 100), (b32_lit 9 10).
  cbv zeta. set (xs := @rows OP ones). set (ts := @rows OP huge_first). set (o := tc_opt 1 [0%nat; 1%nat]). set (m := @tc_mem OP ones huge_first).
  assert (TR : @train_ready OP c tc_nn MSE (mkptr 2 0) (mkptr 3 0) xs ts m [NZ; NZ]) by (apply (@tc_ready OP); reflexivity).
  assert (S4 : @state_array OP c tc_nn (mkptr 2 0) (mkptr 3 0) xs ts m (mkptr 4 0) [NZ; NZ]) by (apply (@tc_array OP); left; reflexivity).
  assert (S5 : @state_array OP c tc_nn (mkptr 2 0) (mkptr 3 0) xs ts m (mkptr 5 0) [NZ; NZ]) by (apply (@tc_array OP); right; reflexivity).
  assert (ER : @epoch_ready OP c tc_nn MSE 1 (length xs) (@tc_env OP, o, length xs)).
  { apply (@tc_epoch OP c 1 2 [0%nat; 1%nat]). intros k [<-|[<-|[]]]; lia. }
  split; [cbn; lia|]. split; [cbn; lia|]. split; [repeat constructor|].
  assert (LR : fin (b32_lit 1 100) = true /\ bv (b32_lit 1 100) = 10737418 / 1073741824) by lit32. destruct LR as (_ & LR).
  assert (RH : fin (b32_lit 9 10) = true /\ bv (b32_lit 9 10) = 15099494 / 16777216) by lit32. destruct RH as (_ & RH).
  split; [rewrite LR; lra|].
  split; [exact TR|]. split; [exact S4|]. split; [exact S5|]. split; [exact ER|].
  intros h HH. destruct ER as (E1 & E2 & E3 & E4 & E5 & E6).
  destruct (ready_b32 lm c tc_nn MSE _ _ xs ts m _ TR) as ((PA & _) & TH).
  assert (sv : forall Q, @state_array OP c tc_nn (mkptr 2 0) (mkptr 3 0) xs ts m Q [NZ; NZ] -> @svec OP c tc_nn (mkptr 2 0) (mkptr 3 0) xs ts m Q [NZ; NZ]).
  { intros Q (A1 & A2 & A3 & A4). rewrite A2 in A3, A4. split; [exact A1|]. split; [exact A2|]. auto. }
  assert (FN : forall (l : list b32) q P, forallb P l = true -> (q < length l)%nat -> P (nth q l NZ) = true).
  { intros l q P HP Hq. rewrite forallb_forall in HP. apply HP, nth_In, Hq. }
  split.
  - destruct (@ag_epoch_ok OP c (@exp256_lane OP) (mulC_B32 lm) tc_nn MSE (mkptr 2 0) (mkptr 3 0) xs ts PA o (order o) (length (order o)) (@tc_env OP) E1 ltac:(cbn; lia) (order_some o E3) eq_refl E5 E6 NZ (mkptr 5 0)
       m [NZ; NZ] [NZ; NZ] (b32_lit 1 100) 0 TH (sv _ S5)) as (m1 & A).
    cbv zeta in A. destruct A as (A1 & A2 & A3 & _). 
    change (fold_left _ _ _) with (fold_left (fun t j => @ag_step_f OP NZ (@bgrad OP c (@exp256_lane OP) tc_nn MSE xs ts o [0%nat; 1%nat] 2 (@tc_env OP) (j * 1)) t) (seq 0 (n_batches o 2)) ([NZ; NZ], [NZ; NZ], b32_lit 1 100, 0%nat)) in A1, A2, A3.
    destruct (fold_left _ _ _) as [[[th1 r1] lr1] t1] eqn:EF in A1, A2, A3. pose proof (ag_ends lm c _ _ _ _ EF) as EE. clear EF.
    apply andb_true_iff in EE as (EE & FL). apply andb_true_iff in EE as (Z & IN). cbn [fst snd] in A2, A3.
    pose proof A2 as (B1 & L1 & B3). pose proof A3 as (C1 & L2 & C3 & C4).
    assert (TR1 : @train_ready OP c tc_nn MSE (mkptr 2 0) (mkptr 3 0) xs ts m1 th1) by (split; [exact PA|]; exists (@net_of OP (nn_layers tc_nn) th1); split; [exact B3|exact B1]).
    assert (SA1 : @state_array OP c tc_nn (mkptr 2 0) (mkptr 3 0) xs ts m1 (mkptr 5 0) r1) by (split; [exact C1|]; split; [exact L2|]; rewrite L2; auto).
    destruct (adagrad_frozen lm c tc_nn MSE (mkptr 2 0) (mkptr 3 0) xs ts 1 h ltac:(lia) HH m1 t1 lr1 NZ (mkptr 5 0) th1 r1 TR1 SA1 FL eq_refl) as (m2 & th2 & r2 & lr2 & t2 & E & TR2 & _ & _ & ST).
    exists m2, th2, t2, lr2. split. { cbn [training]. erewrite bind_ok by exact A1. exact E. } split; [exact TR2|].
    intros q Hq. change (total_n_parameters tc_nn) with 2%nat in Hq.
    destruct (is_zero_eq _ (FN th1 q is_zero Z (eq_ind_r (fun k => (q < k)%nat) Hq L1))) as (F1 & V1).
    destruct (ST q Hq F1 (is_inf_over _ (FN r1 q is_inf IN (eq_ind_r (fun k => (q < k)%nat) Hq L2)))) as (_ & U).
    destruct U as [U|(U1 & U2)]; [left; exact U|right]. split; [exact U1|]. refine (eq_trans U2 (eq_trans V1 _)). destruct q as [|[|q]]; [reflexivity|reflexivity|lia].
  - assert (DJ : disjoint (mkptr 4 0) (total_n_parameters tc_nn) (mkptr 5 0) (total_n_parameters tc_nn)) by (left; cbn; lia).
    destruct (@rms_epoch_ok OP c (@exp256_lane OP) (mulC_B32 lm) tc_nn MSE (mkptr 2 0) (mkptr 3 0) xs ts PA o (order o) (length (order o)) (@tc_env OP) E1 ltac:(cbn; lia) (order_some o E3) eq_refl E5 E6 NZ (b32_lit 9 10) NZ false (mkptr 4 0) (mkptr 5 0) DJ
       m [NZ; NZ] [NZ; NZ] [NZ; NZ] (b32_lit 1 100) 0 TH (sv _ S4) (sv _ S5)) as (m1 & A).
    cbv zeta in A. destruct A as (A1 & A2 & A4 & A3 & _). 
    change (fold_left _ _ _) with (fold_left (fun t j => @rms_step_f OP NZ (b32_lit 9 10) NZ false (@bgrad OP c (@exp256_lane OP) tc_nn MSE xs ts o [0%nat; 1%nat] 2 (@tc_env OP) (j * 1)) t) (seq 0 (n_batches o 2)) ([NZ; NZ], [NZ; NZ], [NZ; NZ], b32_lit 1 100, 0%nat)) in A1, A2, A3, A4.
    destruct (fold_left _ _ _) as [[[[th1 v1] r1] lr1] t1] eqn:EF in A1, A2, A3, A4. pose proof (rms_ends lm c _ _ _ _ _ EF) as EE. clear EF.
    apply andb_true_iff in EE as (EE & FL). apply andb_true_iff in EE as (Z & IN). cbn [fst snd] in A2, A3, A4.
    pose proof A2 as (B1 & L1 & B3). pose proof A3 as (C1 & L2 & C3 & C4). destruct A4 as (D1 & L3 & D3 & D4).
    assert (TR1 : @train_ready OP c tc_nn MSE (mkptr 2 0) (mkptr 3 0) xs ts m1 th1) by (split; [exact PA|]; exists (@net_of OP (nn_layers tc_nn) th1); split; [exact B3|exact B1]).
    assert (SA1 : @state_array OP c tc_nn (mkptr 2 0) (mkptr 3 0) xs ts m1 (mkptr 5 0) r1) by (split; [exact C1|]; split; [exact L2|]; rewrite L2; auto).
    assert (SV1 : @state_array OP c tc_nn (mkptr 2 0) (mkptr 3 0) xs ts m1 (mkptr 4 0) v1) by (split; [exact D1|]; split; [exact L3|]; rewrite L3; auto).
    destruct (rmsprop_frozen lm c tc_nn MSE (mkptr 2 0) (mkptr 3 0) xs ts 1 h ltac:(lia) HH m1 t1 lr1 NZ (b32_lit 9 10) NZ false (mkptr 4 0) (mkptr 5 0) th1 v1 r1 TR1 SV1 SA1 DJ FL eq_refl eq_refl) as (m2 & th2 & v2 & r2 & lr2 & t2 & E & TR2 & _ & _ & _ & ST).
    { rewrite RH. lra. } { reflexivity. } { cbn. lra. }
    exists m2, th2, t2, lr2. split. { cbn [training]. erewrite bind_ok by exact A1. exact E. } split; [exact TR2|].
    intros q Hq. change (total_n_parameters tc_nn) with 2%nat in Hq.
    destruct (is_zero_eq _ (FN th1 q is_zero Z (eq_ind_r (fun k => (q < k)%nat) Hq L1))) as (F1 & V1).
    destruct (ST q Hq F1 (is_inf_over _ (FN r1 q is_inf IN (eq_ind_r (fun k => (q < k)%nat) Hq L2)))) as (_ & U).
    destruct U as [U|(U1 & U2)]; [left; exact U|right]. split; [exact U1|]. refine (eq_trans U2 (eq_trans V1 _)). destruct q as [|[|q]]; [reflexivity|reflexivity|lia].
Qed.
Print Assumptions stays_trainable_refuted.

(** ** the largest accumulated square after one batch *)
Definition upto (x : b32) (b : R) : Prop := fin x = true /\ 0 <= bv x <= b.
Lemma u32_facts : 0 < u32 <= 1 / 10 ^ 7 /\ 0 < eta32 <= 1 / 10 ^ 30.
Proof. pose proof u32_pos. pose proof u32_val. pose proof eta32_pos. pose proof eta32_tiny. lra. Qed.
Lemma upto_le x a b : upto x a -> a <= b -> upto x b.
Proof. intros (F & H) L. split; [exact F|lra]. Qed.
Lemma upto_mul x y a b : upto x a -> upto y b -> a * b <= 2 ^ 127 -> upto (Bmult mode_NE x y) ((1 + u32) * (a * b) + eta32).
Proof.
  intros (Fx & Hx) (Fy & Hy) H. assert (P : 0 <= bv x * bv y) by (apply Rmult_le_pos; lra). assert (Q : bv x * bv y <= a * b) by (apply Rmult_le_compat; lra).
  destruct (mul_R x y Fx Fy) as (F & E). { rewrite Rabs_pos_eq by exact P. lra. } rewrite (Rabs_pos_eq _ P) in E. apply around in E.
  split; [exact F|]. split.
  - destruct (mul_cases x y Fx Fy P) as [C|(_ & C)]; [rewrite C in F; discriminate|]. rewrite C. apply rnd_pos, P.
  - pose proof u32_facts. assert (u32 * (bv x * bv y) <= u32 * (a * b)) by (apply Rmult_le_compat_l; lra). lra.
Qed.
Lemma upto_add x y a b : upto x a -> upto y b -> a + b <= 2 ^ 127 -> upto (Bplus mode_NE x y) ((1 + u32) * (a + b)).
Proof.
  intros (Fx & Hx) (Fy & Hy) H. destruct (add_R x y Fx Fy) as (F & E). { rewrite Rabs_pos_eq by lra. lra. } rewrite (Rabs_pos_eq (bv x + bv y)) in E by lra. apply around in E.
  pose proof u32_facts. assert (u32 * (bv x + bv y) <= u32 * (a + b)) by (apply Rmult_le_compat_l; lra). assert (u32 * (bv x + bv y) <= 1 * (bv x + bv y)) by (apply Rmult_le_compat_r; lra).
  split; [exact F|lra].
Qed.
Lemma upto_sqr g C : fin g = true -> Rabs (bv g) <= C -> C * C <= 2 ^ 127 -> upto (Bmult mode_NE g g) ((1 + u32) * (C * C) + eta32).
Proof.
  intros F H HC. pose proof (Rabs_pos (bv g)). assert (P : 0 <= bv g * bv g) by apply Rle_0_sqr.
  assert (Q : bv g * bv g <= C * C). { replace (bv g * bv g) with (Rabs (bv g) * Rabs (bv g)) by (rewrite <- Rabs_mult; apply Rabs_pos_eq, P). apply Rmult_le_compat; assumption. }
  destruct (mul_R g g F F) as (F1 & E). { rewrite Rabs_pos_eq by exact P. lra. } rewrite (Rabs_pos_eq _ P) in E. apply around in E.
  split; [exact F1|]. split.
  - destruct (mul_cases g g F F P) as [K|(_ & K)]; [rewrite K in F1; discriminate|]. rewrite K. apply rnd_pos, P.
  - pose proof u32_facts. assert (u32 * (bv g * bv g) <= u32 * (C * C)) by (apply Rmult_le_compat_l; lra). lra.
Qed.
Lemma pow_60_120 C : 0 <= C -> C <= 2 ^ 60 -> C * C <= 2 ^ 120.
Proof. intros P H. replace (2 ^ 120) with (2 ^ 60 * 2 ^ 60) by (rewrite <- pow_add; f_equal). apply Rmult_le_compat; lra. Qed.
Lemma pows : 1000 <= 2 ^ 120 /\ 32 * 2 ^ 120 = 2 ^ 125 /\ 4 * 2 ^ 125 = 2 ^ 127.
Proof.
  split. { apply Rle_trans with (2 ^ 10); [lra|apply Rle_pow; [lra|lia]]. }
  split; [replace (2 ^ 125) with (2 ^ 5 * 2 ^ 120) by (rewrite <- pow_add; f_equal)|replace (2 ^ 127) with (2 ^ 2 * 2 ^ 125) by (rewrite <- pow_add; f_equal)]; ring.
Qed.
Lemma ag_top (r g : b32) C : fin g = true -> Rabs (bv g) <= C -> C <= 2 ^ 60 -> upto r (2 ^ 125) ->
  upto (Bplus mode_NE r (Bmult mode_NE g g)) ((1 + u32) ^ 2 * (bv r + C * C) + 2 * eta32).
Proof.
  intros F H HC (Fr & Hr). pose proof u32_facts as (U & T). pose proof (Rabs_pos (bv g)). pose proof (pow_60_120 C ltac:(lra) HC) as S. destruct pows as (P1 & P2 & P3).
  pose proof (Rle_0_sqr C) as CP. unfold Rsqr in CP.
  assert (U1 : u32 * (C * C) <= 1 * (C * C)) by (apply Rmult_le_compat_r; lra).
  eapply upto_le; [apply (upto_add _ _ (bv r) ((1 + u32) * (C * C) + eta32)); [split; [exact Fr|lra]|apply upto_sqr; [exact F|exact H|lra]|lra]|].
  assert (0 <= u32 * bv r * (1 + u32)) by (apply Rmult_le_pos; [apply Rmult_le_pos; lra|lra]).
  assert (u32 * eta32 <= 1 * eta32) by (apply Rmult_le_compat_r; lra). cbn [pow]. nra.
Qed.
Lemma rms_top (rho r g : b32) C : fin rho = true -> 0 <= bv rho < 1 -> fin g = true -> Rabs (bv g) <= C -> C <= 2 ^ 60 -> upto r (2 ^ 125) ->
  upto (Bplus mode_NE (Bmult mode_NE rho r) (Bmult mode_NE (Bminus mode_NE (b32_ofZ 1) rho) (Bmult mode_NE g g)))
    ((1 + u32) ^ 4 * (bv rho * bv r + (1 - bv rho) * (C * C)) + 5 * eta32).
Proof.
  intros Fp Hp F H HC (Fr & Hr). pose proof u32_facts as (U & T). pose proof (Rabs_pos (bv g)). pose proof (pow_60_120 C ltac:(lra) HC) as S. destruct pows as (P1 & P2 & P3).
  pose proof (Rle_0_sqr C) as CP. unfold Rsqr in CP. set (D := C * C) in *.
  assert (U1 : u32 * D <= 1 * D) by (apply Rmult_le_compat_r; lra).
  destruct (rho_R rho Fp Hp) as (K1 & K2 & _ & K4). apply around in K2. set (k := Bminus mode_NE (b32_ofZ 1) rho) in *. set (a := 1 - bv rho) in *.
  assert (UK : upto k ((1 + u32) * a)) by (split; [exact K1|lra]).
  assert (A1 : 0 <= a <= 1) by (unfold a; lra). assert (KB : (1 + u32) * a <= 2) by nra.
  pose proof (upto_sqr g C F H ltac:(fold D; lra)) as S1. fold D in S1.
  assert (Q1 : (1 + u32) * a * ((1 + u32) * D + eta32) <= 2 * (2 * 2 ^ 120 + 1)) by (apply Rmult_le_compat; nra || lra).
  pose proof (upto_mul _ _ _ _ UK S1 ltac:(lra)) as S2.
  assert (R1 : bv rho * bv r <= 1 * 2 ^ 125) by (apply Rmult_le_compat; lra). assert (R0 : 0 <= bv rho * bv r) by (apply Rmult_le_pos; lra).
  assert (S3 : upto (Bmult mode_NE rho r) ((1 + u32) * (bv rho * bv r) + eta32)).
  { apply upto_mul; [split; [exact Fp|lra]|split; [exact Fr|lra]|lra]. }
  set (t := bv rho * bv r) in *. set (w := (1 + u32) * a * ((1 + u32) * D + eta32)) in *.
  assert (W0 : 0 <= w) by (unfold w; apply Rmult_le_pos; [apply Rmult_le_pos; lra|nra]).
  assert (U2 : u32 * w <= 1 * w) by (apply Rmult_le_compat_r; lra). assert (U3 : u32 * t <= 1 * t) by (apply Rmult_le_compat_r; lra).
  eapply upto_le; [apply (upto_add _ _ _ _ S3 S2); lra|].
  assert (W1 : w <= (1 + u32) ^ 2 * (a * D) + 2 * eta32).
  { unfold w. replace ((1 + u32) * a * ((1 + u32) * D + eta32)) with ((1 + u32) ^ 2 * (a * D) + ((1 + u32) * a) * eta32) by (cbn [pow]; ring).
    apply Rplus_le_compat_l. apply Rmult_le_compat_r; lra. }
  assert (AD : 0 <= a * D) by (apply Rmult_le_pos; lra).
  replace ((1 + u32) * ((1 + u32) * t + eta32 + ((1 + u32) * w + eta32))) with ((1 + u32) ^ 2 * t + (1 + u32) ^ 2 * w + 2 * (1 + u32) * eta32) by (cbn [pow]; ring).
  assert (T1 : (1 + u32) ^ 2 * w <= (1 + u32) ^ 2 * ((1 + u32) ^ 2 * (a * D) + 2 * eta32)) by (apply Rmult_le_compat_l; [apply pow_le; lra|exact W1]).
  assert (T2 : (1 + u32) ^ 2 <= 1 + 1 / 10 ^ 6) by (cbn [pow]; nra). assert (T3 : 1 <= (1 + u32) ^ 2) by (apply pow_R1_Rle; lra).
  assert (T4 : (1 + u32) ^ 2 * t <= (1 + u32) ^ 4 * t). { apply Rmult_le_compat_r; [exact R0|]. apply Rle_pow; [lra|lia]. }
  assert (T5 : (1 + u32) ^ 2 * eta32 <= (1 + 1 / 10 ^ 6) * eta32) by (apply Rmult_le_compat_r; lra).
  assert (T6 : (1 + u32) * eta32 <= (1 + 1 / 10 ^ 6) * eta32) by (apply Rmult_le_compat_r; lra).
  replace ((1 + u32) ^ 4 * (t + a * D)) with ((1 + u32) ^ 4 * t + (1 + u32) ^ 2 * ((1 + u32) ^ 2 * (a * D))) by (cbn [pow]; ring). lra.
Qed.

(** What does hold: if the gradient is safe (C79) and a component of it, with its rounding error, is at most C <= 2^60, and the accumulated
    square is at most 2^125, then after one batch the accumulated square is still finite and has grown by no more than C^2, up to rounding. *)
Theorem adagrad_stays_trainable_partial (lm : libm) (c : cfg) (nn : neuralnet) (lf : loss) (X Y : ptr) (xs ts : list (list b32)) (m : @mem (opsB32 lm))
    (e : @env (opsB32 lm)) (o : opt) (n i t : nat) (lr decay : b32) (Q : ptr) (th r : list b32) (q : nat) (C : R) :
  let OP := opsB32 lm in
  let np := total_n_parameters nn in
  let b := firstn (o_batchsize o) (skipn i (order o)) in
  @train_ready OP c nn lf X Y xs ts m th -> @state_array OP c nn X Y xs ts m Q r ->
  @epoch_ready OP c nn lf (o_batchsize o) (length xs) (e, o, n) -> (0 < o_batchsize o)%nat -> (i < n)%nat ->
  gradient_safe lm nn lf xs ts o i th -> (q < np)%nat ->
  cap (batch_near lf (nn_shape nn) (in_size nn) (vec (reals th)) (map reals xs) (map reals ts) b q) <= C -> C <= 2 ^ 60 ->
  fin (nth q r NZ) = true -> 0 <= vec (reals r) q <= 2 ^ 125 ->
  exists i' s' m' r',
    @adagrad_step OP c (@exp256_lane OP) e o n X Y i (@Build_adagrad OP lr decay t Q) m = Ok ((i', s'), m') /\
    @state_array OP c nn X Y xs ts m' Q r' /\ fin (nth q r' NZ) = true /\
    0 <= vec (reals r') q <= (1 + u32) ^ 2 * (vec (reals r) q + C * C) + 2 * eta32.
Proof.
  intros OP np b TR SA (E1 & E2 & E3 & E4 & E5 & E6) Hb Hi (CV & TN & FT & FS & BS) Hq HC C60 Fr Hr.
  destruct (ready_b32 lm c nn lf X Y xs ts m th TR) as ((PA & Hne & Hch & HX & HY & HL) & TH). pose proof TH as (TM & Lth & PL).
  pose proof SA as (_ & Lr & _). fold np in Lth, Lr. subst n. pose proof (E6 i) as (_ & _ & _ & _ & SO & _).
  set (G := @bgrad OP c (@exp256_lane OP) nn lf xs ts o (order o) (length (order o)) e i).
  destruct (@calc_st OP c (@exp256_lane OP) (mulC_B32 lm) nn lf X Y xs ts o (order o) (length (order o)) e E1 Hb (order_some o E3) eq_refl E5 E6 m th i TH Hi) as (_ & _ & LG).
  destruct (@ag_step_ok OP c (@exp256_lane OP) (mulC_B32 lm) nn lf X Y xs ts PA o (order o) (length (order o)) e E1 Hb (order_some o E3) eq_refl E5 E6 decay Q m i
     (th, r, lr, t) m (@Build_adagrad OP lr decay t Q) Hi) as (m' & s' & E & II).
  { split; [reflexivity|]. cbn [fst snd]. split; [exact TH|]. split; [|apply oci_refl].
    destruct SA as (A1 & A2 & A3 & A4). rewrite A2 in A3, A4. split; [exact A1|]. split; [exact A2|]. auto. }
  destruct (@ag_step_f OP decay _ (th, r, lr, t)) as [[[th' r'] lr'] t'] eqn:ES. destruct II as (-> & TH' & SV' & OC). cbn [fst snd] in TH', SV'.
  destruct (ag_step_nth lm decay G th r lr t th' r' lr' t' (eq_trans Lth (eq_sym Lr)) (eq_trans LG (eq_sym Lth)) ES) as (_ & _ & ST).
  destruct (ST q (eq_ind_r (fun k => (q < k)%nat) Hq Lth)) as (S1 & _). cbv zeta in S1.
  assert (RNG : forall l q, vec (reals l) q = bv (nth q l b32_zero)) by (intros l k; exact (vec_bv l k)). rewrite !RNG in *.
  destruct (batch_grad_near lm c nn lf xs ts Hne Hch HX HY HL o (order o) (length (order o)) (e_sched e i) i Hb eq_refl E5 Hi SO th Lth CV FT FS TN BS q Hq) as (_ & Fg & D & _ & N1 & N2).
  eexists _, _, m', r'. split; [exact E|]. split. { destruct SV' as (A1 & A2 & A3 & A4). split; [exact A1|]. split; [exact A2|]. rewrite A2. auto. }
  assert (HG : Rabs (bv (nth q (G th) NZ)) <= C).
  { eapply Rle_trans; [|exact HC]. unfold cap. set (g := bv (nth q (G th) NZ)). replace g with (D + (g - D)) by ring. eapply Rle_trans; [apply Rabs_triang|]. apply Rplus_le_compat; assumption. }
  destruct (ag_top (nth q r NZ) (nth q (G th) NZ) C Fg HG C60 (conj Fr Hr)) as (T1 & T2).
  split; [exact (eq_ind_r (fun z : b32 => fin z = true) T1 S1)|]. rewrite RNG. exact (eq_ind_r (fun z : b32 => 0 <= bv z <= _) T2 S1).
Qed.
Print Assumptions adagrad_stays_trainable_partial.

Theorem rmsprop_stays_trainable_partial (lm : libm) (c : cfg) (nn : neuralnet) (lf : loss) (X Y : ptr) (xs ts : list (list b32)) (m : @mem (opsB32 lm))
    (e : @env (opsB32 lm)) (o : opt) (n i t : nat) (lr decay rho mu : b32) (nest : bool) (V Q : ptr) (th v r : list b32) (q : nat) (C : R) :
  let OP := opsB32 lm in
  let np := total_n_parameters nn in
  let b := firstn (o_batchsize o) (skipn i (order o)) in
  @train_ready OP c nn lf X Y xs ts m th -> @state_array OP c nn X Y xs ts m V v -> @state_array OP c nn X Y xs ts m Q r -> disjoint V np Q np ->
  @epoch_ready OP c nn lf (o_batchsize o) (length xs) (e, o, n) -> (0 < o_batchsize o)%nat -> (i < n)%nat ->
  fin rho = true -> 0 <= B2R rho < 1 -> fin mu = true ->
  gradient_safe lm nn lf xs ts o i (interim mu nest th v) -> (q < np)%nat ->
  cap (batch_near lf (nn_shape nn) (in_size nn) (vec (reals (interim mu nest th v))) (map reals xs) (map reals ts) b q) <= C -> C <= 2 ^ 60 ->
  fin (nth q r NZ) = true -> 0 <= vec (reals r) q <= 2 ^ 125 ->
  exists i' s' m' r',
    @rmsprop_step OP c (@exp256_lane OP) e o n X Y i (@Build_rmsprop OP lr decay rho mu nest t V Q) m = Ok ((i', s'), m') /\
    @state_array OP c nn X Y xs ts m' Q r' /\ fin (nth q r' NZ) = true /\
    0 <= vec (reals r') q <= (1 + u32) ^ 4 * (B2R rho * vec (reals r) q + (1 - B2R rho) * (C * C)) + 5 * eta32.
Proof.
  intros OP np b TR SA SQ VQ (E1 & E2 & E3 & E4 & E5 & E6) Hb Hi Frho Hrho FM (CV & TN & FT & FS & BS) Hq HC C60 Fr Hr.
  destruct (ready_b32 lm c nn lf X Y xs ts m th TR) as ((PA & Hne & Hch & HX & HY & HL) & TH). pose proof TH as (TM & Lth & PL).
  pose proof SA as (_ & Lv & _). pose proof SQ as (_ & Lr & _). fold np in Lth, Lv, Lr. subst n.
  pose proof (E6 i) as (_ & _ & _ & _ & SO & _).
  set (G := @bgrad OP c (@exp256_lane OP) nn lf xs ts o (order o) (length (order o)) e i).
  assert (SA' : @svec OP c nn X Y xs ts m V v). { destruct SA as (A1 & A2 & A3 & A4). rewrite A2 in A3, A4. split; [exact A1|]. split; [exact A2|]. auto. }
  assert (LI : length (interim mu nest th v) = np).
  { unfold interim. destruct (Rlt_dec 0 (B2R mu)); [|exact Lth]. destruct nest; [|exact Lth]. apply len_map2_b; [exact Lth|]. rewrite map_length. exact Lv. }
  destruct (batch_grad_near lm c nn lf xs ts Hne Hch HX HY HL o (order o) (length (order o)) (e_sched e i) i Hb eq_refl E5 Hi SO _ LI CV FT FS TN BS q Hq) as (LG & Fg & D & _ & N1 & N2).
  destruct (@rms_step_ok OP c (@exp256_lane OP) (mulC_B32 lm) nn lf X Y xs ts PA o (order o) (length (order o)) e E1 Hb (order_some o E3) eq_refl E5 E6 decay rho mu nest V Q VQ m i
     (th, v, r, lr, t) m (@Build_rmsprop OP lr decay rho mu nest t V Q) Hi) as (m' & s' & E & II).
  { split; [reflexivity|]. cbn [fst snd]. split; [exact TH|]. split; [exact SA'|]. split; [|apply oci_refl].
    destruct SQ as (A1 & A2 & A3 & A4). rewrite A2 in A3, A4. split; [exact A1|]. split; [exact A2|]. auto. }
  destruct (@rms_step_f OP decay rho mu nest _ (th, v, r, lr, t)) as [[[[th' v'] r'] lr'] t'] eqn:ES.
  destruct II as (-> & TH' & SV' & SQ' & OC). cbn [fst snd] in TH', SV', SQ'.
  destruct (rms_step_nth lm decay rho mu nest G th v r lr t th' v' r' lr' t' FM (eq_trans Lth (eq_sym Lv)) (eq_trans Lth (eq_sym Lr)) ES) as (_ & _ & ST).
  destruct (ST q (eq_ind_r (fun k => (q < k)%nat) Hq Lth) (eq_trans LG (eq_sym Lth))) as (S1 & _). cbv zeta in S1. set (gl := G (interim mu nest th v)) in *.
  assert (RNG : forall l q, vec (reals l) q = bv (nth q l b32_zero)) by (intros l k; exact (vec_bv l k)). rewrite !RNG in *.
  eexists _, _, m', r'. split; [exact E|]. split. { destruct SQ' as (A1 & A2 & A3 & A4). split; [exact A1|]. split; [exact A2|]. rewrite A2. auto. }
  assert (HG : Rabs (bv (nth q gl NZ)) <= C).
  { eapply Rle_trans; [|exact HC]. unfold cap. set (g := bv (nth q gl NZ)). replace g with (D + (g - D)) by ring. eapply Rle_trans; [apply Rabs_triang|]. apply Rplus_le_compat; assumption. }
  destruct (rms_top rho (nth q r NZ) (nth q gl NZ) C Frho Hrho Fg HG C60 (conj Fr Hr)) as (T1 & T2).
  split; [exact (eq_ind_r (fun z : b32 => fin z = true) T1 S1)|]. rewrite RNG. exact (eq_ind_r (fun z : b32 => 0 <= bv z <= _) T2 S1).
Qed.
Print Assumptions rmsprop_stays_trainable_partial.

(** ** concrete cases *)
(** With targets 1 and 1 the same epoch does move the parameters. *)
Example stays_trainable_contrast (lm : libm) (c : cfg) :
  let OP := opsB32 lm in let xs := @rows OP ones in let o := tc_opt 1 [0%nat; 1%nat] in
  exists m' s' th', @adagrad_epoch OP c (@exp256_lane OP) (@tc_env OP) o 2 (mkptr 2 0) (mkptr 3 0) (@Build_adagrad OP (b32_lit 1 100) NZ 0 (mkptr 5 0)) (@tc_mem OP ones ones) = Ok (s', m') /\
    @train_ready OP c tc_nn MSE (mkptr 2 0) (mkptr 3 0) xs xs m' th' /\ forallb (Bltb NZ) th' = true.
Proof.
  cbv zeta. set (OP := opsB32 lm). set (xs := @rows OP ones). set (o := tc_opt 1 [0%nat; 1%nat]). set (m := @tc_mem OP ones ones).
  assert (TR : @train_ready OP c tc_nn MSE (mkptr 2 0) (mkptr 3 0) xs xs m [NZ; NZ]) by (apply (@tc_ready OP); reflexivity).
  assert (S5 : @state_array OP c tc_nn (mkptr 2 0) (mkptr 3 0) xs xs m (mkptr 5 0) [NZ; NZ]) by (apply (@tc_array OP); right; reflexivity).
  assert (ER : @epoch_ready OP c tc_nn MSE 1 (length xs) (@tc_env OP, o, length xs)).
  { apply (@tc_epoch OP c 1 2 [0%nat; 1%nat]). intros k [<-|[<-|[]]]; lia. }
  destruct ER as (E1 & E2 & E3 & E4 & E5 & E6). destruct (ready_b32 lm c tc_nn MSE _ _ xs xs m _ TR) as ((PA & _) & TH).
  destruct (@ag_epoch_ok OP c (@exp256_lane OP) (mulC_B32 lm) tc_nn MSE (mkptr 2 0) (mkptr 3 0) xs xs PA o (order o) (length (order o)) (@tc_env OP) E1 ltac:(cbn; lia) (order_some o E3) eq_refl E5 E6 NZ (mkptr 5 0)
       m [NZ; NZ] [NZ; NZ] (b32_lit 1 100) 0 TH) as (m1 & A).
  { destruct S5 as (A1 & A2 & A3 & A4). rewrite A2 in A3, A4. split; [exact A1|]. split; [exact A2|]. auto. }
  cbv zeta in A. destruct A as (A1 & (B1 & L1 & B3) & _). eexists m1, _, _. split; [exact A1|].
  split. { split; [exact PA|]. eexists. split; [exact B3|exact B1]. }
  exact (ag_ends_ones lm c).
Qed.

(** The hypotheses of the two bounds: two samples with targets 1 and 0 in one batch; the gradient is at most 7. *)
Example stays_trainable_partial_case :
  let lm := lm_rounded in let OP := opsB32 lm in
  let c := {| cfg_isa := AVX512; cfg_fma := true |} in
  let nn := @tc_nn in let xl := [b32_ofZ 1; b32_ofZ 1] in let tl := [b32_ofZ 1; b32_zero] in
  let xs := @rows OP xl in let ts := @rows OP tl in
  let th := [b32_zero; b32_zero] in let r := [b32_zero; b32_zero] in
  let o := tc_opt 2 [0%nat; 1%nat] in let e := @tc_env_omp OP c 2 2 in let b := firstn (o_batchsize o) (skipn 0 (order o)) in
  @train_ready OP c nn MSE (mkptr 2 0) (mkptr 3 0) xs ts (@tc_mem OP xl tl) th /\
  @state_array OP c nn (mkptr 2 0) (mkptr 3 0) xs ts (@tc_mem OP xl tl) (mkptr 4 0) r /\
  @epoch_ready OP c nn MSE (o_batchsize o) (length xs) (e, o, 2%nat) /\ (0 < o_batchsize o)%nat /\ (0 < 2)%nat /\
  gradient_safe lm nn MSE xs ts o 0 th /\ interim b32_zero false th th = th /\
  (forall q, cap (batch_near MSE (nn_shape nn) (in_size nn) (vec (reals th)) (map reals xs) (map reals ts) b q) <= 7) /\ 7 <= 2 ^ 60 /\
  (forall q, (q < total_n_parameters nn)%nat -> fin (nth q r NZ) = true /\ 0 <= vec (reals r) q <= 2 ^ 125).
Proof.
  cbv zeta. assert (O1 : B2R (b32_ofZ 1) = 1) by exact one_R.
  split; [apply (@tc_ready (opsB32 lm_rounded)); reflexivity|]. split; [apply (@tc_array (opsB32 lm_rounded)); left; reflexivity|].
  split; [apply (@tc_epoch_omp (opsB32 lm_rounded)); intros k [<-|[<-|[]]]; cbn; lia|]. split; [cbn; lia|]. split; [lia|].
  split. { apply line_gradient_safe; [repeat constructor|]. intros q. rewrite zero_reals, Rabs_R0. lra. }
  split. { unfold interim. destruct (Rlt_dec 0 (B2R b32_zero)) as [H|H]; reflexivity. }
  split.
  { intros q. assert (W : within (batch_near MSE (nn_shape tc_nn) 1 (vec (reals [b32_zero; b32_zero])) (map reals (map (fun x => [x]) [b32_ofZ 1; b32_ofZ 1])) (map reals (map (fun x => [x]) [b32_ofZ 1; b32_zero])) [0%nat; 1%nat] q) 6 (2 / 10 ^ 5)).
    { apply line_batch.
      - intros k. rewrite zero_reals, Rabs_R0. lra.
      - apply row_bound. repeat (apply Forall_cons; [rewrite O1, Rabs_R1; lra|]). apply Forall_nil.
      - apply row_bound. apply Forall_cons; [rewrite O1, Rabs_R1; lra|]. apply Forall_cons; [|apply Forall_nil]. change (bv b32_zero) with 0. rewrite Rabs_R0. lra. }
    assert (K : forall b, within b 6 (2 / 10 ^ 5) -> cap b <= 7) by (intros b0 ((_ & A) & (_ & B)); unfold cap; lra). exact (K _ W). }
  split. { apply Rle_trans with (2 ^ 3); [lra|apply Rle_pow; [lra|lia]]. }
  intros q Hq. change (total_n_parameters tc_nn) with 2%nat in Hq. split; [destruct q as [|[|q]]; [reflexivity|reflexivity|lia]|]. rewrite zero_reals. split; [lra|apply pow_le; lra].
Qed.
