(** Prop_AdaptRun.v -- C88: how far a whole training run with Adagrad or RMSprop can move a parameter in float32 *)
From Coquelicot Require Import Coquelicot.
From Flocq Require Import Core BinarySingleNaN.
From Coq Require Import ZArith Bool List Arith Reals Lia Lra Permutation FunctionalExtensionality.
From Verif Require Import Base BaseProofs Ops OpsR Mem MemProofs Kernels KernelProofs Activation ActivationProofs Loss Neuralnet
  ForwardProofs BackpropProofs OpsB32 B32Facts MetricB32 SpecReal RealForward RealGrad LossGrad GradProofs SpecBits BitsProofs SpecMem PredictProofs GradPropProofs
  ParamProofs Batch BatchProofs BlasProofs Optimizer OptKernels OptProofs OptEpochs SpecOpt OptReal OptTrain SpecDescent DescentProofs
  Exp256B32 SpecLibm SpecRound RoundProofs RoundNet SpecGradRound SlopeRound LossRound GradRound GradSample SpecStepRound SumRound BatchRound StepRound
  SpecAdapt AdaptRound AdaptStep SpecAdamStep AdamRound Prop_Rules Prop_Descent Ex_Mem Ex_Train LibmCase Prop_Round Prop_GradRound Prop_StepRound Prop_Adapt Prop_AdamRun SpecGradRound SpecStepRound.
Import ListNotations.
Local Open Scope R_scope.
Local Notation NZ := b32_zero.
Local Notation f3 := (1 + 3 * u32).

Lemma f3_f : (1 + 3 * u32) * (1 + 0) = f3.
Proof. ring. Qed.
Lemma drift3 S x k y z : 0 <= S -> Rabs (y - x) <= drift f3 S x k -> moves y S z -> Rabs (z - x) <= drift f3 S x (Datatypes.S k).
Proof.
  intros HS Y M. pose proof (drift_step 0 S x (Rle_refl 0) HS k y z) as D. rewrite f3_f in D. apply D; [exact Y|].
  replace (S + 0 * Rabs y) with S by ring. exact M.
Qed.
Lemma total3 S x k : 0 <= S -> 0 <= f3 ^ k * (Rabs x + INR k * S) <= f3 ^ Datatypes.S k * (Rabs x + INR (Datatypes.S k) * S).
Proof. intros HS. pose proof (drift_total 0 S x (Rle_refl 0) HS k) as D. rewrite f3_f in D. exact D. Qed.
Lemma moves_mono th a b y : a <= b -> moves th a y -> moves th b y.
Proof. intros H M. unfold moves in *. pose proof u32_pos. eapply Rle_trans; [exact M|]. apply Rplus_le_compat; [exact H|]. apply Rmult_le_compat_l; lra. Qed.
Lemma within (x y : b32) S k : Rabs (bv y - bv x) <= drift f3 S (bv x) k -> f3 ^ k * (Rabs (bv x) + INR k * S) <= 2 ^ 125 -> Rabs (bv y) <= 2 ^ 125.
Proof.
  intros D H. replace (bv y) with ((bv y - bv x) + bv x) by ring. eapply Rle_trans; [apply Rabs_triang|]. unfold drift in D. lra.
Qed.
Lemma largest_mono a b k : 0 < k -> Rabs a <= Rabs b -> largest_step a k <= largest_step b k.
Proof.
  intros Hk H. unfold largest_step, Rdiv. pose proof u32_pos. apply Rplus_le_compat_r. apply Rmult_le_compat_r; [lra|].
  apply Rmult_le_compat_r; [|exact H]. left. apply Rinv_0_lt_compat, sqrt_lt_R0. exact Hk.
Qed.
Lemma nan_plus (a b : b32) : is_nan a = true -> is_nan (Bplus mode_NE a b) = true.
Proof. destruct a; try discriminate; reflexivity. Qed.
Lemma plus_nan (a b : b32) : is_nan b = true -> is_nan (Bplus mode_NE a b) = true.
Proof. destruct b; try discriminate. destruct a; reflexivity. Qed.

(** ** one component, one batch.  V is the bound for the velocity, if there is momentum *)
Definition reach (mu V S : R) (k : nat) (x v y : b32) : Prop :=
  f3 ^ k * (Rabs (bv x) + INR k * S) <= 2 ^ 125 ->
  nan_or y (fun z => Rabs (z - bv x) <= drift f3 S (bv x) k /\ (0 < mu -> fin v = true /\ Rabs (bv v) <= V)).

Lemma reach_plain mu V S k (x v y d : b32) : ~ 0 < mu -> 0 <= S <= 2 ^ 125 -> nan_or d (fun z => Rabs z <= S) ->
  reach mu V S k x v y -> forall v', reach mu V S (Datatypes.S k) x v' (Bplus mode_NE y d).
Proof.
  intros Hm HS U RO v' LIM. destruct (total3 S (bv x) k (proj1 HS)) as (D0 & D1). pose proof (Rle_trans _ _ _ D1 LIM) as LK. specialize (RO LK).
  destruct RO as [N|(Fy & Dy & _)]; [left; apply nan_plus, N|]. pose proof (within x y S k Dy LK) as Hy.
  assert (B126 : 2 ^ 125 <= 2 ^ 126) by (apply Rle_pow; [lra|lia]).
  destruct (move_plain y d S Fy ltac:(lra) HS U) as (M1 & _). destruct M1 as [N|(Fz & M)]; [left; exact N|right]. split; [exact Fz|].
  split; [exact (drift3 S (bv x) k (bv y) _ (proj1 HS) Dy M)|]. intros H. destruct (Hm H).
Qed.
Lemma reach_velocity (mu : b32) V S k (x v y d : b32) (nest : bool) : fin mu = true -> 0 < bv mu <= 1 -> / 2 ^ 60 <= S <= 2 ^ 110 -> V <= 2 ^ 120 ->
  velocity_cap (bv mu) V S <= V -> nan_or d (fun z => Rabs z <= S) ->
  reach (bv mu) V V k x v y ->
  reach (bv mu) V V (Datatypes.S k) x (Bplus mode_NE (Bmult mode_NE v mu) d)
    (Bplus mode_NE (if nest then Bplus mode_NE y (Bmult mode_NE v mu) else y) (if nest then d else Bplus mode_NE (Bmult mode_NE v mu) d)).
Proof.
  intros Fm Hm HS HV CV U RO LIM.
  assert (I60 : 0 < / 2 ^ 60) by (apply Rinv_0_lt_compat, pow_lt; lra).
  destruct (Rle_or_lt 0 V) as [V0|V0].
  2: { exfalso. unfold velocity_cap in CV. pose proof u32_pos. assert (0 <= bv mu * Rabs V) by (apply Rmult_le_pos; [lra|apply Rabs_pos]).
       assert (0 <= (1 + 3 * u32) * (bv mu * Rabs V + S)) by (apply Rmult_le_pos; lra). lra. }
  destruct (total3 V (bv x) k V0) as (D0 & D1). pose proof (Rle_trans _ _ _ D1 LIM) as LK. specialize (RO LK).
  destruct RO as [N|(Fy & Dy & Hv)]. { left. apply nan_plus. destruct nest; [apply nan_plus|]; exact N. }
  pose proof (within x y V k Dy LK) as Hy. destruct (Hv (proj1 Hm)) as (Fv & Bv).
  destruct (move_velocity y v mu d S nest Fy Hy Fv ltac:(lra) Fm Hm HS U) as (M1 & M2 & M3). cbv zeta in M1, M2, M3.
  assert (CP : velocity_cap (bv mu) (bv v) S <= V).
  { eapply Rle_trans; [|exact CV]. unfold velocity_cap. pose proof u32_pos. apply Rmult_le_compat_l; [lra|]. apply Rplus_le_compat_r. apply Rmult_le_compat_l; [lra|].
    rewrite (Rabs_pos_eq V) by exact V0. exact Bv. }
  destruct (is_nan d) eqn:Nd.
  { left. apply plus_nan. destruct nest; [exact Nd|]. apply plus_nan, Nd. }
  destruct (M3 eq_refl) as (N1 & N2). destruct M2 as [N|(Fz & M)]; [congruence|]. destruct M1 as [N|(Fw & Mw)]; [congruence|].
  right. split; [exact Fz|]. split; [exact (drift3 V (bv x) k (bv y) _ V0 Dy (moves_mono _ _ _ _ CP M))|]. intros _. split; [exact Fw|]. eapply Rle_trans; [exact Mw|exact CP].
Qed.

Section Run.
Variables (lm : libm) (c : cfg) (nn : neuralnet) (lf : loss) (X Y : ptr) (xs ts : list (list b32)).
Let OP := opsB32 lm.
Let np := total_n_parameters nn.
Lemma svec_arr (m : @mem OP) p l : @state_array OP c nn X Y xs ts m p l -> @svec OP c nn X Y xs ts m p l.
Proof. intros (A1 & A2 & A3 & A4). rewrite A2 in A3, A4. split; [exact A1|]. split; [exact A2|]. auto. Qed.
Lemma arr_svec (m : @mem OP) p l : @svec OP c nn X Y xs ts m p l -> @state_array OP c nn X Y xs ts m p l.
Proof. intros (A1 & A2 & A3 & A4). split; [exact A1|]. split; [exact A2|]. rewrite A2. auto. Qed.
Lemma count_steps {T} (b : nat) (l : list nat) (g : nat -> T -> T) (t : T * nat) :
  snd (fold_left (fun t k => (g (k * b)%nat (fst t), Datatypes.S (snd t))) l t) = (length l + snd t)%nat.
Proof. revert t. induction l as [|a l IH]; intros t; [reflexivity|]. cbn [fold_left length]. rewrite IH. cbn [snd]. lia. Qed.

(** *** Adagrad *)
Section Adagrad.
Variables (lr0 decay : b32) (Q : ptr).
Hypothesis FD : fin decay = true.
Hypothesis RL0 : Rabs (B2R lr0) <= 2 ^ 90.
Let S := largest_step (B2R lr0) 1.
Definition ag_course (k : nat) (th0 th r : list b32) (lr : b32) : Prop :=
  (fin lr = true /\ Rabs (B2R lr) <= Rabs (B2R lr0)) /\ Forall not_negative r /\
  (forall q, (q < np)%nat -> fin (nth q th0 NZ) = true -> reach 0 0 S k (nth q th0 NZ) NZ (nth q th NZ)).

Lemma ag_course_step k th0 (G : list b32 -> list b32) th r lr t th' r' lr' t' :
  length th = np -> length r = np -> length (G th) = np -> length r' = np ->
  @ag_step_f OP decay G (th, r, lr, t) = (th', r', lr', t') -> ag_course k th0 th r lr -> ag_course (Datatypes.S k) th0 th' r' lr'.
Proof.
  intros Lth Lr LG Lr' ES ((FL & HL) & NR & RO).
  destruct (ag_step_nth lm decay G th r lr t th' r' lr' t' (eq_trans Lth (eq_sym Lr)) (eq_trans LG (eq_sym Lth)) ES) as (-> & -> & ST).
  destruct (decayed_shrinks lm lr decay t FL FD) as (FR & HR). set (l' := @decayed OP lr decay t) in *.
  assert (HR0 : Rabs (bv l') <= Rabs (B2R lr0)) by (eapply Rle_trans; [exact HR|exact HL]).
  assert (RL' : Rabs (bv l') <= 2 ^ 90) by (eapply Rle_trans; [exact HR0|exact RL0]).
  assert (K1 : / 2 ^ 24 <= 1 <= 1) by (split; [rewrite <- Rinv_1; apply Rinv_le; lra|lra]).
  pose proof (largest_step_pos (B2R lr0) 1 K1 RL0) as LS. assert (I60 : 0 < / 2 ^ 60) by (apply Rinv_0_lt_compat, pow_lt; lra).
  assert (B110 : 2 ^ 110 <= 2 ^ 125) by (apply Rle_pow; [lra|lia]). fold S in LS.
  split; [split; [exact FR|exact HR0]|]. split.
  - apply (Forall_nth_b _ _ np Lr'). intros q Hq. destruct (ST q (eq_ind_r (fun k => (q < k)%nat) Hq Lth)) as (S1 & _). cbv zeta in S1.
    destruct (ag_update l' (nth q (G th) NZ) FR RL' (nth q r NZ) (Forall_get_b _ _ _ _ Lr Hq NR)) as (U1 & _). exact (eq_ind_r not_negative U1 S1).
  - intros q Hq Fq. destruct (ST q (eq_ind_r (fun k => (q < k)%nat) Hq Lth)) as (_ & S2). cbv zeta in S2.
    destruct (ag_update l' (nth q (G th) NZ) FR RL' (nth q r NZ) (Forall_get_b _ _ _ _ Lr Hq NR)) as (_ & U2 & _).
    refine (eq_ind_r (reach 0 0 S (Datatypes.S k) (nth q th0 NZ) NZ) _ S2).
    apply (reach_plain 0 0 S k _ NZ); [lra|lra| |exact (RO q Hq Fq)].
    destruct U2 as [N|(F & U)]; [left; exact N|right]. split; [exact F|]. cbv beta in U |- *. eapply Rle_trans; [exact U|]. apply largest_mono; [lra|exact HR0].
Qed.

Lemma ag_epoch_course (m : @mem OP) (e : @env OP) (o : opt) (n t k : nat) (lr : b32) (th0 th r : list b32) :
  let optimizer (t : nat) (lr : b32) := @Build_adagrad OP lr decay t Q in
  @train_ready OP c nn lf X Y xs ts m th -> @state_array OP c nn X Y xs ts m Q r ->
  @epoch_ready OP c nn lf (o_batchsize o) (length xs) (e, o, n) -> (0 < o_batchsize o)%nat -> ag_course k th0 th r lr ->
  exists m' th' r' lr' t',
    @adagrad_epoch OP c (@exp256_lane OP) e o n X Y (optimizer t lr) m = Ok (optimizer t' lr', m') /\
    @train_ready OP c nn lf X Y xs ts m' th' /\ @state_array OP c nn X Y xs ts m' Q r' /\
    ag_course ((n + o_batchsize o - 1) / o_batchsize o + k) th0 th' r' lr'.
Proof.
  intros optimizer TR SA (E1 & E2 & E3 & E4 & E5 & E6) Hb OC0.
  destruct (ready_b32 lm c nn lf X Y xs ts m th TR) as ((PA & _) & TH). subst n.
  set (P := fun (t : @agt OP * nat) => let '(th1, r1, lr1, _, k1) := t in ag_course k1 th0 th1 r1 lr1).
  destruct (@epoch_ok OP nn o (order o) (length (order o)) Hb eq_refl _ _ (@adagrad_step OP c (@exp256_lane OP) e o (length (order o)) X Y)
     (fun s m1 a => @ag_inv OP c nn lf X Y xs ts decay Q m (fst s) m1 a /\ P s)
     (fun i s => (@ag_step_f OP decay (@bgrad OP c (@exp256_lane OP) nn lf xs ts o (order o) (length (order o)) e i) (fst s), Datatypes.S (snd s)))) with (t := ((th, r, lr, t), k)) (m := m) (s := optimizer t lr)
     as (m' & s' & E & (II & PP)).
  - intros i [[[[th1 r1] lr1] t1] k1] m1 a Hi (I1 & P1). cbn [fst snd] in I1 |- *.
    destruct (@ag_step_ok OP c (@exp256_lane OP) (mulC_B32 lm) nn lf X Y xs ts PA o (order o) (length (order o)) e E1 Hb (order_some o E3) eq_refl E5 E6 decay Q m i _ m1 a Hi I1) as (m2 & a2 & Q1 & Q2).
    exists m2, a2. split; [exact Q1|]. split; [exact Q2|]. pose proof I1 as (_ & T1 & (_ & Lr & _) & _). cbn [fst snd] in T1, Lr. pose proof T1 as (_ & Lth & _).
    destruct (@calc_st OP c (@exp256_lane OP) (mulC_B32 lm) nn lf X Y xs ts o (order o) (length (order o)) e E1 Hb (order_some o E3) eq_refl E5 E6 m1 th1 i T1 Hi) as (_ & _ & LG).
    destruct (@ag_step_f OP decay _ (th1, r1, lr1, t1)) as [[[th2 r2] lr2] t2] eqn:ES.
    assert (Lr2 : length r2 = np) by (destruct Q2 as (_ & _ & (_ & L & _) & _); exact L).
    exact (ag_course_step k1 th0 _ th1 r1 lr1 t1 th2 r2 lr2 t2 Lth Lr LG Lr2 ES P1).
  - split; [|exact OC0]. split; [reflexivity|]. cbn [fst snd]. split; [exact TH|]. split; [|apply oci_refl]. exact (svec_arr m Q r SA).
  - pose proof (count_steps (o_batchsize o) (seq 0 (@n_batches o (length (order o)))) (fun i => @ag_step_f OP decay (@bgrad OP c (@exp256_lane OP) nn lf xs ts o (order o) (length (order o)) e i)) ((th, r, lr, t), k)) as CNT.
    rewrite seq_length in CNT. cbn [snd] in CNT. unfold n_batches at 2 in CNT.
    destruct (fold_left _ _ _) as [[[[th' r'] lr'] t'] k'] in II, PP, CNT. cbn [fst snd] in II, CNT. destruct II as (-> & TH' & SV' & _). cbn [fst snd] in TH', SV'.
    exists m', th', r', lr', t'. split; [exact E|].
    split. { split; [exact PA|]. exists (@net_of OP (nn_layers nn) th'). destruct TH' as (A1 & A2 & A3). split; [exact A3|exact A1]. }
    split; [exact (arr_svec m' Q r' SV')|]. rewrite <- CNT. exact PP.
Qed.
End Adagrad.

(** *** RMSprop *)
Lemma interim_holds (m1 : @mem OP) (V : ptr) (mu : b32) (nest : bool) (th1 v1 : list b32) :
  @params_apart OP nn X Y xs ts -> @holds_th OP c nn lf X Y xs ts m1 th1 -> @svec OP c nn X Y xs ts m1 V v1 ->
  exists m3, @holds_th OP c nn lf X Y xs ts m3 (interim mu nest th1 v1).
Proof.
  intros PA T1 SV1. pose proof SV1 as (_ & Lv & _).
  unfold interim. destruct (Rlt_dec 0 (B2R mu)); [|exists m1; exact T1]. destruct nest; [|exists m1; exact T1].
  set (w := map (fun y => Bmult mode_NE y mu) v1). assert (Lw : length w = np) by (unfold w; rewrite map_length; exact Lv).
  destruct (@sv_write OP c nn X Y xs ts m1 V v1 w SV1 Lw) as (S1 & _).
  pose proof (@th_sv OP c nn lf X Y xs ts m1 V v1 w th1 T1 SV1 Lw) as T2.
  destruct (@update_sv OP c nn lf X Y xs ts PA (writem m1 V w) [] th1 V w T2) as (m3 & _ & T3 & _). { rewrite app_nil_r. exact S1. }
  exists m3. exact T3.
Qed.
Section Rms.
Variables (lr0 decay rho mu : b32) (nest : bool) (V Q : ptr) (B : R).
Hypothesis FD : fin decay = true.
Hypothesis RL0 : Rabs (B2R lr0) <= 2 ^ 90.
Hypothesis Frho : fin rho = true.
Hypothesis Hrho : 0 <= B2R rho < 1.
Hypothesis FM : fin mu = true.
Hypothesis HM : B2R mu <= 1.
Hypothesis VQ : disjoint V np Q np.
Let S := largest_step (B2R lr0) (1 - B2R rho).
Hypothesis HB : 0 < B2R mu -> B <= 2 ^ 120 /\ velocity_cap (B2R mu) B S <= B.
Let D := if Rlt_dec 0 (B2R mu) then B else S.
Definition rms_course (k : nat) (th0 v0 th v r : list b32) (lr : b32) : Prop :=
  (fin lr = true /\ Rabs (B2R lr) <= Rabs (B2R lr0)) /\ Forall not_negative r /\
  (forall q, (q < np)%nat -> fin (nth q th0 NZ) = true -> (0 < B2R mu -> fin (nth q v0 NZ) = true /\ Rabs (B2R (nth q v0 NZ)) <= B) ->
     reach (B2R mu) B D k (nth q th0 NZ) (nth q v NZ) (nth q th NZ)).

Lemma rms_course_step k th0 v0 (G : list b32 -> list b32) th v r lr t th' v' r' lr' t' :
  length th = np -> length v = np -> length r = np -> length (G (interim mu nest th v)) = np -> length r' = np ->
  @rms_step_f OP decay rho mu nest G (th, v, r, lr, t) = (th', v', r', lr', t') -> rms_course k th0 v0 th v r lr -> rms_course (Datatypes.S k) th0 v0 th' v' r' lr'.
Proof.
  intros Lth Lv Lr LG Lr' ES ((FL & HL) & NR & RO).
  destruct (rms_step_nth lm decay rho mu nest G th v r lr t th' v' r' lr' t' FM (eq_trans Lth (eq_sym Lv)) (eq_trans Lth (eq_sym Lr)) ES) as (-> & -> & ST).
  destruct (decayed_shrinks lm lr decay t FL FD) as (FR & HR). set (l' := @decayed OP lr decay t) in *.
  assert (HR0 : Rabs (bv l') <= Rabs (B2R lr0)) by (eapply Rle_trans; [exact HR|exact HL]).
  assert (RL' : Rabs (bv l') <= 2 ^ 90) by (eapply Rle_trans; [exact HR0|exact RL0]).
  destruct (rho_R rho Frho Hrho) as (_ & _ & K0 & _).
  assert (K1 : / 2 ^ 24 <= 1 - bv rho <= 1) by (split; [exact K0|]; change (bv rho) with (B2R rho); lra).
  pose proof (largest_step_pos (B2R lr0) _ K1 RL0) as LS. assert (I60 : 0 < / 2 ^ 60) by (apply Rinv_0_lt_compat, pow_lt; lra).
  assert (B110 : 2 ^ 110 <= 2 ^ 125) by (apply Rle_pow; [lra|lia]). change (/ 2 ^ 60 <= S <= 2 ^ 110) in LS.
  split; [split; [exact FR|exact HR0]|]. split.
  - apply (Forall_nth_b _ _ np Lr'). intros q Hq. destruct (ST q (eq_ind_r (fun k => (q < k)%nat) Hq Lth) (eq_trans LG (eq_sym Lth))) as (S1 & _). cbv zeta in S1.
    destruct (rms_update l' (nth q (G (interim mu nest th v)) NZ) FR RL' rho (nth q r NZ) Frho Hrho (Forall_get_b _ _ _ _ Lr Hq NR)) as (U1 & _). exact (eq_ind_r not_negative U1 S1).
  - intros q Hq Fq Gq. specialize (RO q Hq Fq Gq). destruct (ST q (eq_ind_r (fun k => (q < k)%nat) Hq Lth) (eq_trans LG (eq_sym Lth))) as (_ & S2). cbv zeta in S2.
    destruct (rms_update l' (nth q (G (interim mu nest th v)) NZ) FR RL' rho (nth q r NZ) Frho Hrho (Forall_get_b _ _ _ _ Lr Hq NR)) as (_ & U2 & _).
    set (d := upd32 l' _ _) in *.
    assert (U : nan_or d (fun z => Rabs z <= S)).
    { destruct U2 as [N|(F & U)]; [left; exact N|right]. split; [exact F|]. cbv beta in U |- *. eapply Rle_trans; [exact U|]. apply largest_mono; [lra|exact HR0]. }
    unfold D in *. change (bv mu) with (B2R mu) in S2. destruct (Rlt_dec 0 (B2R mu)) as [Hm|Hm]; destruct S2 as (S2 & S3).
    + refine (eq_ind_r (fun z => reach (B2R mu) B B (Datatypes.S k) (nth q th0 NZ) z (nth q th' NZ)) _ S2).
      refine (eq_ind_r (fun z => reach (B2R mu) B B (Datatypes.S k) (nth q th0 NZ) _ z) _ S3).
      destruct (HB Hm) as (B1 & B2). exact (reach_velocity mu B S k _ _ _ d nest FM (conj Hm HM) LS B1 B2 U RO).
    + refine (eq_ind_r (fun z => reach (B2R mu) B S (Datatypes.S k) (nth q th0 NZ) _ z) _ S3).
      apply (reach_plain (B2R mu) B S k _ (nth q v NZ)); [exact Hm|lra|exact U|exact RO].
Qed.

Lemma rms_epoch_course (m : @mem OP) (e : @env OP) (o : opt) (n t k : nat) (lr : b32) (th0 v0 th v r : list b32) :
  let optimizer (t : nat) (lr : b32) := @Build_rmsprop OP lr decay rho mu nest t V Q in
  @train_ready OP c nn lf X Y xs ts m th -> @state_array OP c nn X Y xs ts m V v -> @state_array OP c nn X Y xs ts m Q r ->
  @epoch_ready OP c nn lf (o_batchsize o) (length xs) (e, o, n) -> (0 < o_batchsize o)%nat -> rms_course k th0 v0 th v r lr ->
  exists m' th' v' r' lr' t',
    @rmsprop_epoch OP c (@exp256_lane OP) e o n X Y (optimizer t lr) m = Ok (optimizer t' lr', m') /\
    @train_ready OP c nn lf X Y xs ts m' th' /\ @state_array OP c nn X Y xs ts m' V v' /\ @state_array OP c nn X Y xs ts m' Q r' /\
    rms_course ((n + o_batchsize o - 1) / o_batchsize o + k) th0 v0 th' v' r' lr'.
Proof.
  intros optimizer TR SV SA (E1 & E2 & E3 & E4 & E5 & E6) Hb OC0.
  destruct (ready_b32 lm c nn lf X Y xs ts m th TR) as ((PA & _) & TH). subst n.
  set (P := fun (t : @rmst OP * nat) => let '(th1, v1, r1, lr1, _, k1) := t in rms_course k1 th0 v0 th1 v1 r1 lr1).
  destruct (@epoch_ok OP nn o (order o) (length (order o)) Hb eq_refl _ _ (@rmsprop_step OP c (@exp256_lane OP) e o (length (order o)) X Y)
     (fun s m1 a => @rms_inv OP c nn lf X Y xs ts decay rho mu nest V Q m (fst s) m1 a /\ P s)
     (fun i s => (@rms_step_f OP decay rho mu nest (@bgrad OP c (@exp256_lane OP) nn lf xs ts o (order o) (length (order o)) e i) (fst s), Datatypes.S (snd s)))) with (t := ((th, v, r, lr, t), k)) (m := m) (s := optimizer t lr)
     as (m' & s' & E & (II & PP)).
  - intros i [[[[[th1 v1] r1] lr1] t1] k1] m1 a Hi (I1 & P1). cbn [fst snd] in I1 |- *.
    destruct (@rms_step_ok OP c (@exp256_lane OP) (mulC_B32 lm) nn lf X Y xs ts PA o (order o) (length (order o)) e E1 Hb (order_some o E3) eq_refl E5 E6 decay rho mu nest V Q VQ m i _ m1 a Hi I1) as (m2 & a2 & Q1 & Q2).
    exists m2, a2. split; [exact Q1|]. split; [exact Q2|]. pose proof I1 as (_ & T1 & SV1 & (_ & Lr & _) & _). cbn [fst snd] in T1, Lr, SV1. pose proof T1 as (_ & Lth & _). pose proof SV1 as (_ & Lv & _).
    set (G := @bgrad OP c (@exp256_lane OP) nn lf xs ts o (order o) (length (order o)) e i).
    assert (LG : length (G (interim mu nest th1 v1)) = np).
    { pose proof (interim_holds m1 V mu nest th1 v1 PA T1 SV1) as H1.
      destruct H1 as (m3 & T3).
      destruct (@calc_st OP c (@exp256_lane OP) (mulC_B32 lm) nn lf X Y xs ts o (order o) (length (order o)) e E1 Hb (order_some o E3) eq_refl E5 E6 m3 _ i T3 Hi) as (_ & _ & LG). exact LG. }
    destruct (@rms_step_f OP decay rho mu nest _ (th1, v1, r1, lr1, t1)) as [[[[th2 v2] r2] lr2] t2] eqn:ES.
    assert (Lr2 : length r2 = np) by (destruct Q2 as (_ & _ & _ & (_ & L & _) & _); exact L).
    exact (rms_course_step k1 th0 v0 _ th1 v1 r1 lr1 t1 th2 v2 r2 lr2 t2 Lth Lv Lr LG Lr2 ES P1).
  - split; [|exact OC0]. split; [reflexivity|]. cbn [fst snd]. split; [exact TH|]. split; [exact (svec_arr m V v SV)|]. split; [exact (svec_arr m Q r SA)|apply oci_refl].
  - pose proof (count_steps (o_batchsize o) (seq 0 (@n_batches o (length (order o)))) (fun i => @rms_step_f OP decay rho mu nest (@bgrad OP c (@exp256_lane OP) nn lf xs ts o (order o) (length (order o)) e i)) ((th, v, r, lr, t), k)) as CNT.
    rewrite seq_length in CNT. cbn [snd] in CNT. unfold n_batches at 2 in CNT.
    destruct (fold_left _ _ _) as [[[[[th' v'] r'] lr'] t'] k'] in II, PP, CNT. cbn [fst snd] in II, CNT. destruct II as (-> & TH' & SV' & SQ' & _). cbn [fst snd] in TH', SV', SQ'.
    exists m', th', v', r', lr', t'. split; [exact E|].
    split. { split; [exact PA|]. exists (@net_of OP (nn_layers nn) th'). destruct TH' as (A1 & A2 & A3). split; [exact A3|exact A1]. }
    split; [exact (arr_svec m' V v' SV')|]. split; [exact (arr_svec m' Q r' SQ')|]. rewrite <- CNT. exact PP.
Qed.
End Rms.
End Run.

(** ** C88, Adagrad: N batches of any epochs move a finite parameter by at most N learning rates, up to rounding, or make it a NaN *)
Theorem adagrad_run_bounded (lm : libm) (c : cfg) (nn : neuralnet) (lf : loss) (X Y : ptr) (xs ts : list (list b32)) (bsz : nat)
    (h : list (@env (opsB32 lm) * opt * nat)) (lr decay : b32) (Q : ptr) :
  let OP := opsB32 lm in
  let np := total_n_parameters nn in
  let optimizer (t : nat) (lr : b32) := {| ag_lr := lr; ag_decay := decay; ag_t := t; ag_r := Q |} : @adagrad OP in
  (0 < bsz)%nat -> Forall (@epoch_ready OP c nn lf bsz (length xs)) h ->
  fin lr = true -> fin decay = true -> Rabs (B2R lr) <= 2 ^ 90 ->
  forall (m : @mem OP) (t : nat) (th r : list b32),
  @train_ready OP c nn lf X Y xs ts m th -> @state_array OP c nn X Y xs ts m Q r -> Forall not_negative r ->
  let N := batches bsz (map snd h) in
  let S := largest_step (B2R lr) 1 in
  exists m' th' r' lr' t',
    training (fun e o n => @adagrad_epoch OP c (@exp256_lane OP) e o n X Y) h (optimizer t lr) m = Ok (optimizer t' lr', m') /\
    @train_ready OP c nn lf X Y xs ts m' th' /\ @state_array OP c nn X Y xs ts m' Q r' /\
    (fin lr' = true /\ Rabs (B2R lr') <= Rabs (B2R lr)) /\ Forall not_negative r' /\
    (forall q, (q < np)%nat -> fin (nth q th NZ) = true -> Rabs (vec (reals th) q) + drift (1 + 3 * u32) S (vec (reals th) q) N <= 2 ^ 125 ->
       nan_or (nth q th' NZ) (fun y => Rabs (y - vec (reals th) q) <= drift (1 + 3 * u32) S (vec (reals th) q) N)).
Proof.
  intros OP np optimizer Hb HH FL FD RL m t th r TR SA NR N S.
  assert (G : forall (m : @mem OP) (k t : nat) (th1 r : list b32) (lr1 : b32),
    @train_ready OP c nn lf X Y xs ts m th1 -> @state_array OP c nn X Y xs ts m Q r -> ag_course nn lr k th th1 r lr1 ->
    exists m' th' r' lr' t',
    training (fun e o n => @adagrad_epoch OP c (@exp256_lane OP) e o n X Y) h (optimizer t lr1) m = Ok (optimizer t' lr', m') /\
    @train_ready OP c nn lf X Y xs ts m' th' /\ @state_array OP c nn X Y xs ts m' Q r' /\ ag_course nn lr (N + k) th th' r' lr').
  { clear m t r TR SA NR. subst N. induction HH as [|[[e o] n] h H0 HH IH]; intros m k t th1 r lr1 TR SA OC.
    - exists m, th1, r, lr1, t. repeat (split; [assumption || reflexivity|]). exact OC.
    - assert (Eb : o_batchsize o = bsz) by apply H0. rewrite <- Eb in H0, Hb.
      destruct (ag_epoch_course lm c nn lf X Y xs ts lr decay Q FD RL m e o n t k lr1 th th1 r TR SA H0 Hb OC) as (m1 & th2 & r1 & lr2 & t1 & E1 & TR1 & SA1 & OC1).
      rewrite Eb in Hb, OC1.
      destruct (IH m1 _ t1 th2 r1 lr2 TR1 SA1 OC1) as (m2 & th3 & r2 & lr3 & t2 & E2 & TR2 & SA2 & OC2).
      exists m2, th3, r2, lr3, t2. split. { cbn [training]. erewrite bind_ok by exact E1. exact E2. }
      repeat (split; [assumption|]). refine (eq_ind _ (fun z => ag_course nn lr z th th3 r2 lr3) OC2 _ _). exact (batches_cons bsz n (map snd h) k). }
  destruct (G m 0%nat t th r lr TR SA) as (m' & th' & r' & lr' & t' & E & TR' & SA' & (FL' & NR' & RO)).
  { split; [split; [exact FL|apply Rle_refl]|]. split; [exact NR|]. intros q Hq Fq _. right. split; [exact Fq|]. split; [|lra].
    unfold drift. cbn [pow INR]. rewrite Rminus_eq_0, Rabs_R0. lra. }
  exists m', th', r', lr', t'. repeat (split; [assumption|]). intros q Hq Fq LIM. rewrite Nat.add_0_r in RO.
  assert (EV : vec (reals th) q = B2R (nth q th NZ)) by exact (vec_bv th q). rewrite EV in *.
  destruct (RO q Hq Fq) as [W|(W1 & W2 & _)]; [unfold drift in LIM; fold S; change (bv (nth q th NZ)) with (B2R (nth q th NZ)); lra|left; exact W|right; split; [exact W1|exact W2]].
Qed.
Print Assumptions adagrad_run_bounded.

(** ** C88, RMSprop: the same with the learning rate over sqrt (1 - rho).  With momentum mu every V with
    (1 + 3u) (mu V + S) <= V bounds the velocity for ever, and no step is longer than V *)
Theorem rmsprop_run_bounded (lm : libm) (c : cfg) (nn : neuralnet) (lf : loss) (X Y : ptr) (xs ts : list (list b32)) (bsz : nat)
    (h : list (@env (opsB32 lm) * opt * nat)) (lr decay rho mu : b32) (nest : bool) (V Q : ptr) (vmax : R) :
  let OP := opsB32 lm in
  let np := total_n_parameters nn in
  let optimizer (t : nat) (lr : b32) := {| rm_lr := lr; rm_decay := decay; rm_rho := rho; rm_mu := mu; rm_nesterov := nest; rm_t := t; rm_v := V; rm_r := Q |} : @rmsprop OP in
  let S := largest_step (B2R lr) (1 - B2R rho) in
  (0 < bsz)%nat -> Forall (@epoch_ready OP c nn lf bsz (length xs)) h -> disjoint V np Q np ->
  fin lr = true -> fin decay = true -> Rabs (B2R lr) <= 2 ^ 90 -> fin rho = true -> 0 <= B2R rho < 1 -> fin mu = true -> B2R mu <= 1 ->
  (0 < B2R mu -> vmax <= 2 ^ 120 /\ velocity_cap (B2R mu) vmax S <= vmax) ->
  forall (m : @mem OP) (t : nat) (th v r : list b32),
  @train_ready OP c nn lf X Y xs ts m th -> @state_array OP c nn X Y xs ts m V v -> @state_array OP c nn X Y xs ts m Q r -> Forall not_negative r ->
  let N := batches bsz (map snd h) in
  let D := if Rlt_dec 0 (B2R mu) then vmax else S in
  exists m' th' v' r' lr' t',
    training (fun e o n => @rmsprop_epoch OP c (@exp256_lane OP) e o n X Y) h (optimizer t lr) m = Ok (optimizer t' lr', m') /\
    @train_ready OP c nn lf X Y xs ts m' th' /\ @state_array OP c nn X Y xs ts m' V v' /\ @state_array OP c nn X Y xs ts m' Q r' /\
    (fin lr' = true /\ Rabs (B2R lr') <= Rabs (B2R lr)) /\ Forall not_negative r' /\
    (forall q, (q < np)%nat -> fin (nth q th NZ) = true -> (0 < B2R mu -> fin (nth q v NZ) = true /\ Rabs (vec (reals v) q) <= vmax) ->
       Rabs (vec (reals th) q) + drift (1 + 3 * u32) D (vec (reals th) q) N <= 2 ^ 125 ->
       nan_or (nth q th' NZ) (fun y => Rabs (y - vec (reals th) q) <= drift (1 + 3 * u32) D (vec (reals th) q) N /\
         (0 < B2R mu -> fin (nth q v' NZ) = true /\ Rabs (vec (reals v') q) <= vmax))).
Proof.
  intros OP np optimizer S Hb HH VQ FL FD RL FR HR FM HM HB m t th v r TR SV SA NR N D.
  assert (G : forall (m : @mem OP) (k t : nat) (th1 v1 r : list b32) (lr1 : b32),
    @train_ready OP c nn lf X Y xs ts m th1 -> @state_array OP c nn X Y xs ts m V v1 -> @state_array OP c nn X Y xs ts m Q r -> rms_course nn lr rho mu vmax k th v th1 v1 r lr1 ->
    exists m' th' v' r' lr' t',
    training (fun e o n => @rmsprop_epoch OP c (@exp256_lane OP) e o n X Y) h (optimizer t lr1) m = Ok (optimizer t' lr', m') /\
    @train_ready OP c nn lf X Y xs ts m' th' /\ @state_array OP c nn X Y xs ts m' V v' /\ @state_array OP c nn X Y xs ts m' Q r' /\ rms_course nn lr rho mu vmax (N + k) th v th' v' r' lr').
  { clear m t r TR SV SA NR. subst N. induction HH as [|[[e o] n] h H0 HH IH]; intros m k t th1 v1 r lr1 TR SV SA OC.
    - exists m, th1, v1, r, lr1, t. repeat (split; [assumption || reflexivity|]). exact OC.
    - assert (Eb : o_batchsize o = bsz) by apply H0. rewrite <- Eb in H0, Hb.
      destruct (rms_epoch_course lm c nn lf X Y xs ts lr decay rho mu nest V Q vmax FD RL FR HR FM HM VQ HB m e o n t k lr1 th v th1 v1 r TR SV SA H0 Hb OC) as (m1 & th2 & v2 & r1 & lr2 & t1 & E1 & TR1 & SV1 & SA1 & OC1).
      rewrite Eb in Hb, OC1.
      destruct (IH m1 _ t1 th2 v2 r1 lr2 TR1 SV1 SA1 OC1) as (m2 & th3 & v3 & r2 & lr3 & t2 & E2 & TR2 & SV2 & SA2 & OC2).
      exists m2, th3, v3, r2, lr3, t2. split. { cbn [training]. erewrite bind_ok by exact E1. exact E2. }
      repeat (split; [assumption|]). refine (eq_ind _ (fun z => rms_course nn lr rho mu vmax z th v th3 v3 r2 lr3) OC2 _ _). exact (batches_cons bsz n (map snd h) k). }
  destruct (G m 0%nat t th v r lr TR SV SA) as (m' & th' & v' & r' & lr' & t' & E & TR' & SV' & SA' & (FL' & NR' & RO)).
  { split; [split; [exact FL|apply Rle_refl]|]. split; [exact NR|]. intros q Hq Fq Gq _. right. split; [exact Fq|]. split; [|exact Gq].
    unfold drift. cbn [pow INR]. rewrite Rminus_eq_0, Rabs_R0. lra. }
  exists m', th', v', r', lr', t'. repeat (split; [assumption|]). intros q Hq Fq Gq LIM. rewrite Nat.add_0_r in RO.
  assert (EV : forall l, vec (reals l) q = B2R (nth q l NZ)) by (intros l; exact (vec_bv l q)). rewrite (EV th) in LIM |- *. rewrite (EV v) in Gq. rewrite (EV v').
  apply (RO q Hq Fq); [intros Hm; specialize (Gq Hm); exact Gq|]. unfold drift in LIM. assert (L2 : f3 ^ N * (Rabs (B2R (nth q th NZ)) + INR N * D) <= 2 ^ 125) by lra. exact L2.
Qed.
Print Assumptions rmsprop_run_bounded.

(** ** concrete cases: the line with all parameters and states 0, three epochs with one batch of two samples each *)
Example adagrad_run_bounded_case :
  let lm := lm_rounded in let OP := opsB32 lm in
  let c := {| cfg_isa := AVX512; cfg_fma := true |} in
  let nn := @tc_nn in let xl := [b32_ofZ 1; b32_ofZ 1] in let tl := [b32_ofZ 1; b32_zero] in
  let xs := @rows OP xl in let ts := @rows OP tl in
  let th := [b32_zero; b32_zero] in let r := [b32_zero; b32_zero] in let lr := b32_ofZ 1 in let decay := b32_ofZ 1 in
  let o := tc_opt 2 [0%nat; 1%nat] in let e := @tc_env_omp OP c 2 2 in
  let h := [(e, o, 2%nat); (e, o, 2%nat); (e, o, 2%nat)] in
  @train_ready OP c nn MSE (mkptr 2 0) (mkptr 3 0) xs ts (@tc_mem OP xl tl) th /\
  @state_array OP c nn (mkptr 2 0) (mkptr 3 0) xs ts (@tc_mem OP xl tl) (mkptr 4 0) r /\
  Forall (@epoch_ready OP c nn MSE 2 (length xs)) h /\ fin lr = true /\ fin decay = true /\ Rabs (B2R lr) <= 2 ^ 90 /\ Forall not_negative r /\
  batches 2 (map snd h) = 3%nat /\
  (forall q, (q < total_n_parameters nn)%nat -> fin (nth q th NZ) = true /\
     drift (1 + 3 * u32) (largest_step (B2R lr) 1) (vec (reals th) q) 3 <= 3 + 1 / 10 ^ 5 /\
     Rabs (vec (reals th) q) + drift (1 + 3 * u32) (largest_step (B2R lr) 1) (vec (reals th) q) 3 <= 2 ^ 125).
Proof.
  destruct adagrad_step_bounded_case as (C1 & C2 & C3 & _ & _ & C4 & C5 & C6 & C7 & _ & C8 & C9). cbv zeta.
  split; [exact C1|]. split; [exact C2|]. split; [repeat (apply Forall_cons; [exact C3|]); apply Forall_nil|].
  split; [exact C4|]. split; [exact C5|]. split; [exact C6|]. split; [exact C7|]. split; [reflexivity|].
  intros q Hq. destruct (C8 q Hq) as (_ & D1 & _). split; [exact D1|]. rewrite zero_reals. unfold drift. rewrite Rabs_R0, u32_val. cbn [INR pow].
  assert (0 <= largest_step (B2R (b32_ofZ 1)) 1) by (unfold largest_step; rewrite one_R, Rabs_R1, sqrt_1, u32_val; lra).
  set (L := largest_step _ 1) in *. lra.
Qed.
Example rmsprop_run_bounded_case :
  let lm := lm_rounded in let OP := opsB32 lm in
  let c := {| cfg_isa := AVX512; cfg_fma := true |} in
  let nn := @tc_nn in let xl := [b32_ofZ 1; b32_ofZ 1] in let tl := [b32_ofZ 1; b32_zero] in
  let xs := @rows OP xl in let ts := @rows OP tl in
  let th := [b32_zero; b32_zero] in let v := [b32_zero; b32_zero] in let r := [b32_zero; b32_zero] in
  let lr := b32_ofZ 1 in let decay := b32_ofZ 1 in let rho := b32_lit 3 4 in let mu := b32_lit 1 2 in let vmax := 401 / 100 in
  let o := tc_opt 2 [0%nat; 1%nat] in let e := @tc_env_omp OP c 2 2 in
  let h := [(e, o, 2%nat); (e, o, 2%nat); (e, o, 2%nat)] in
  let S := largest_step (B2R lr) (1 - B2R rho) in
  @train_ready OP c nn MSE (mkptr 2 0) (mkptr 3 0) xs ts (@tc_mem OP xl tl) th /\
  @state_array OP c nn (mkptr 2 0) (mkptr 3 0) xs ts (@tc_mem OP xl tl) (mkptr 4 0) v /\
  @state_array OP c nn (mkptr 2 0) (mkptr 3 0) xs ts (@tc_mem OP xl tl) (mkptr 5 0) r /\
  disjoint (mkptr 4 0) (total_n_parameters nn) (mkptr 5 0) (total_n_parameters nn) /\
  Forall (@epoch_ready OP c nn MSE 2 (length xs)) h /\
  fin lr = true /\ fin decay = true /\ Rabs (B2R lr) <= 2 ^ 90 /\ fin rho = true /\ 0 <= B2R rho < 1 /\ fin mu = true /\ B2R mu <= 1 /\ Forall not_negative r /\
  0 < B2R mu /\ vmax <= 2 ^ 120 /\ velocity_cap (B2R mu) vmax S <= vmax /\
  (forall q, (q < total_n_parameters nn)%nat -> fin (nth q th NZ) = true /\ fin (nth q v NZ) = true /\ Rabs (vec (reals v) q) <= vmax /\
     drift (1 + 3 * u32) vmax (vec (reals th) q) 3 <= 1204 / 100 /\ Rabs (vec (reals th) q) + drift (1 + 3 * u32) vmax (vec (reals th) q) 3 <= 2 ^ 125).
Proof.
  destruct rmsprop_step_bounded_case as (C1 & C2 & C3 & C4 & C5 & _ & _ & C6 & C7 & C8 & C9 & C10 & C11 & C12 & C13 & _ & _ & C14 & C15 & C16). cbv zeta.
  split; [exact C1|]. split; [exact C2|]. split; [exact C3|]. split; [exact C4|]. split; [repeat (apply Forall_cons; [exact C5|]); apply Forall_nil|].
  split; [exact C6|]. split; [exact C7|]. split; [exact C8|]. split; [exact C9|]. split; [exact C10|]. split; [exact C11|]. split; [exact C12|]. split; [exact C13|]. split; [exact C14|].
  assert (BIG : 100 <= 2 ^ 120) by lra. split; [lra|].
  assert (M2 : fin (b32_lit 1 2) = true /\ bv (b32_lit 1 2) = 1 / 2) by lit32. destruct M2 as (_ & M2).
  split. { unfold velocity_cap. rewrite M2, u32_val, (Rabs_pos_eq (401 / 100)) by lra. set (L := largest_step _ _) in *. lra. }
  intros q Hq. destruct (C15 q Hq) as (_ & D1 & _ & D2 & _). split; [exact D1|]. split; [exact D2|]. rewrite !zero_reals. unfold drift. rewrite Rabs_R0, u32_val. cbn [INR pow]. lra.
Qed.
