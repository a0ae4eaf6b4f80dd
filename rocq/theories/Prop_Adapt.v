(** Prop_Adapt.v -- C80: no step of Adagrad or RMSprop is longer than the learning rate allows *)
From Coquelicot Require Import Coquelicot.
From Flocq Require Import Core BinarySingleNaN.
From Coq Require Import ZArith Bool List Arith Reals Lia Lra Permutation FunctionalExtensionality.
From Verif Require Import Base BaseProofs Ops OpsR Mem MemProofs Kernels KernelProofs Activation ActivationProofs Loss Neuralnet
  ForwardProofs BackpropProofs OpsB32 B32Facts MetricB32 SpecReal RealForward RealGrad LossGrad GradProofs SpecBits BitsProofs SpecMem PredictProofs GradPropProofs
  ParamProofs Batch BatchProofs BlasProofs Optimizer OptKernels OptProofs OptEpochs SpecOpt OptReal OptTrain SpecDescent DescentProofs
  Exp256B32 SpecLibm SpecRound RoundProofs RoundNet SpecGradRound SlopeRound LossRound GradRound GradSample SpecStepRound SumRound BatchRound StepRound
  SpecAdapt AdaptRound AdaptStep Prop_Rules Prop_Descent Ex_Mem Ex_Train LibmCase Prop_Round Prop_GradRound Prop_StepRound SpecGradRound SpecStepRound.
Import ListNotations.
Local Open Scope R_scope.
Local Notation NZ := b32_zero.

(** ** the components of the step functions *)
Lemma ag_step_nth (lm : libm) (decay : b32) (G : list b32 -> list b32) (th r : list b32) (lr : b32) t (th' r' : list b32) (lr' : b32) t' :
  length th = length r -> length (G th) = length th ->
  @ag_step_f (opsB32 lm) decay G (th, r, lr, t) = (th', r', lr', t') ->
  lr' = @decayed (opsB32 lm) lr decay t /\ t' = (t + 1)%nat /\
  forall q, (q < length th)%nat -> let g := nth q (G th) NZ in let y := Bplus mode_NE (nth q r NZ) (Bmult mode_NE g g) in
    nth q r' NZ = y /\ nth q th' NZ = Bplus mode_NE (nth q th NZ) (upd32 lr' g y).
Proof.
  intros LR LG ES.
  assert (ES2 : let r1 := map2 (fun x y : b32 => Bplus mode_NE x (Bmult mode_NE y y)) r (G th) in
    (map2 (Bplus mode_NE) th (map2 (upd32 (@decayed (opsB32 lm) lr decay t)) (G th) r1), r1, @decayed (opsB32 lm) lr decay t, (t + 1)%nat) = (th', r', lr', t')) by exact ES.
  cbv zeta in ES2. clear ES. injection ES2 as <- <- <- <-. split; [reflexivity|]. split; [reflexivity|].
  intros q Hq. cbv zeta. set (gl := G th) in *.
  assert (L1 : length (map2 (fun x y : b32 => Bplus mode_NE x (Bmult mode_NE y y)) r gl) = length th) by (apply len_map2_b; [symmetry; exact LR|exact LG]).
  assert (L2 : length (map2 (upd32 (@decayed (opsB32 lm) lr decay t)) gl (map2 (fun x y : b32 => Bplus mode_NE x (Bmult mode_NE y y)) r gl)) = length th) by (apply len_map2_b; [exact LG|exact L1]).
  assert (N1 : nth q (map2 (fun x y : b32 => Bplus mode_NE x (Bmult mode_NE y y)) r gl) NZ = Bplus mode_NE (nth q r NZ) (Bmult mode_NE (nth q gl NZ) (nth q gl NZ))).
  { apply (nth_map2 (fun x y : b32 => Bplus mode_NE x (Bmult mode_NE y y))); [exact (eq_trans (eq_sym LR) (eq_sym LG))|rewrite <- LR; exact Hq]. }
  split; [exact N1|]. etransitivity; [apply (nth_map2 (Bplus mode_NE)); [exact (eq_sym L2)|exact Hq]|]. f_equal.
  etransitivity; [apply (nth_map2 (upd32 (@decayed (opsB32 lm) lr decay t))); [exact (eq_trans LG (eq_sym L1))|rewrite LG; exact Hq]|]. exact (f_equal (upd32 _ _) N1).
Qed.

Lemma rms_step_nth (lm : libm) (decay rho mu : b32) nest (G : list b32 -> list b32) (th v r : list b32) (lr : b32) t (th' v' r' : list b32) (lr' : b32) t' :
  fin mu = true -> length th = length v -> length th = length r ->
  @rms_step_f (opsB32 lm) decay rho mu nest G (th, v, r, lr, t) = (th', v', r', lr', t') ->
  let gl := G (interim mu nest th v) in
  lr' = @decayed (opsB32 lm) lr decay t /\ t' = (t + 1)%nat /\
  forall q, (q < length th)%nat -> length gl = length th ->
    let g := nth q gl NZ in
    let y := Bplus mode_NE (Bmult mode_NE rho (nth q r NZ)) (Bmult mode_NE (Bminus mode_NE (b32_ofZ 1) rho) (Bmult mode_NE g g)) in
    let d := upd32 lr' g y in
    let v1 := Bmult mode_NE (nth q v NZ) mu in
    let x := nth q th NZ in
    nth q r' NZ = y /\
    if Rlt_dec 0 (bv mu) then
      nth q v' NZ = Bplus mode_NE v1 d /\
      nth q th' NZ = Bplus mode_NE (if nest then Bplus mode_NE x v1 else x) (if nest then d else Bplus mode_NE v1 d)
    else nth q v' NZ = nth q v NZ /\ nth q th' NZ = Bplus mode_NE x d.
Proof.
  intros Fm LV LR ES gl. unfold rms_step_f, fgt in ES. change (@flt (opsB32 lm) (@f0 (opsB32 lm)) mu) with (Bltb NZ mu) in ES.
  rewrite ltb_R in ES by (auto; reflexivity). change (bv NZ) with 0 in ES.
  assert (EI : gl = G (interim mu nest th v)) by reflexivity. clearbody gl. unfold interim in EI.
  change (@F (opsB32 lm)) with b32 in *.
  set (f := fun x y : b32 => Bplus mode_NE (Bmult mode_NE rho x) (Bmult mode_NE (Bminus mode_NE (b32_ofZ 1) rho) y)).
  set (sq := fun x : b32 => Bmult mode_NE x x).
  set (l' := @decayed (opsB32 lm) lr decay t) in *.
  assert (LF : length gl = length th -> length (map2 f r (map sq gl)) = length th) by (intros LG; apply len_map2_b; [symmetry; exact LR|rewrite map_length; exact LG]).
  assert (NF : length gl = length th -> forall q, (q < length th)%nat -> nth q (map2 f r (map sq gl)) NZ = f (nth q r NZ) (sq (nth q gl NZ))).
  { intros LG q Hq. etransitivity; [apply (nth_map2 f); [rewrite map_length; exact (eq_trans (eq_sym LR) (eq_sym LG))|rewrite <- LR; exact Hq]|]. f_equal. apply nth_map_b. rewrite LG. exact Hq. }
  assert (LU : length gl = length th -> length (map2 (upd32 l') gl (map2 f r (map sq gl))) = length th) by (intros LG; apply len_map2_b; auto).
  assert (NU : length gl = length th -> forall q, (q < length th)%nat -> nth q (map2 (upd32 l') gl (map2 f r (map sq gl))) NZ = upd32 l' (nth q gl NZ) (f (nth q r NZ) (sq (nth q gl NZ)))).
  { intros LG q Hq. etransitivity; [apply (nth_map2 (upd32 l')); [exact (eq_trans LG (eq_sym (LF LG)))|rewrite LG; exact Hq]|]. exact (f_equal (upd32 _ _) (NF LG q Hq)). }
  destruct (Rlt_dec 0 (B2R mu)) as [Hm|Hm].
  - rewrite Rlt_bool_true in ES by exact Hm.
    assert (ES2 : let v1 := map (fun y : b32 => Bmult mode_NE y mu) v in let r1 := map2 f r (map sq gl) in let d := map2 (upd32 l') gl r1 in
      (map2 (Bplus mode_NE) (if nest then map2 (Bplus mode_NE) th v1 else th) (if negb nest then map2 (Bplus mode_NE) v1 d else d), map2 (Bplus mode_NE) v1 d, r1, l', (t + 1)%nat)
      = (th', v', r', lr', t')) by (cbv zeta; rewrite EI; exact ES).
    cbv zeta in ES2. clear ES. injection ES2 as <- <- <- <- <-. split; [reflexivity|]. split; [reflexivity|].
    intros q Hq Lg. cbv zeta. specialize (NF Lg q Hq). specialize (NU Lg q Hq). specialize (LF Lg). specialize (LU Lg). split; [exact NF|].
    set (d := map2 (upd32 l') gl (map2 f r (map sq gl))) in *.
    assert (L1 : length (map (fun y => Bmult mode_NE y mu) v) = length th) by (rewrite map_length; auto).
    assert (L3 : length (map2 (Bplus mode_NE) (map (fun y => Bmult mode_NE y mu) v) d) = length th) by (apply len_map2_b; auto).
    assert (L4 : length (map2 (Bplus mode_NE) th (map (fun y => Bmult mode_NE y mu) v)) = length th) by (apply len_map2_b; auto).
    assert (Qv : (q < length v)%nat) by (rewrite <- LV; exact Hq).
    assert (NV : nth q (map2 (Bplus mode_NE) (map (fun y => Bmult mode_NE y mu) v) d) NZ = Bplus mode_NE (Bmult mode_NE (nth q v NZ) mu) (upd32 l' (nth q gl NZ) (f (nth q r NZ) (sq (nth q gl NZ))))).
    { etransitivity; [apply (nth_map2 (Bplus mode_NE)); [exact (eq_trans L1 (eq_sym LU))|exact (eq_ind_r (fun k => (q < k)%nat) Hq L1)]|]. apply (f_equal2 (Bplus mode_NE)); [|exact NU]. apply (nth_map_b (fun y => Bmult mode_NE y mu)). exact Qv. }
    split; [exact NV|]. destruct nest; cbn [negb].
    + etransitivity; [apply (nth_map2 (Bplus mode_NE)); [exact (eq_trans L4 (eq_sym LU))|exact (eq_ind_r (fun k => (q < k)%nat) Hq L4)]|]. apply (f_equal2 (Bplus mode_NE)); [|exact NU].
      etransitivity; [apply (nth_map2 (Bplus mode_NE)); [exact (eq_sym L1)|exact Hq]|]. f_equal. apply (nth_map_b (fun y => Bmult mode_NE y mu)). exact Qv.
    + etransitivity; [apply (nth_map2 (Bplus mode_NE)); [exact (eq_sym L3)|exact Hq]|]. exact (f_equal (Bplus mode_NE _) NV).
  - rewrite Rlt_bool_false in ES by (apply Rnot_lt_le; exact Hm).
    assert (ES2 : let r1 := map2 f r (map sq gl) in (map2 (Bplus mode_NE) th (map2 (upd32 l') gl r1), v, r1, l', (t + 1)%nat) = (th', v', r', lr', t')) by (cbv zeta; rewrite EI; exact ES).
    cbv zeta in ES2. clear ES. injection ES2 as <- <- <- <- <-. split; [reflexivity|]. split; [reflexivity|].
    intros q Hq Lg. cbv zeta. specialize (NF Lg q Hq). specialize (NU Lg q Hq). specialize (LF Lg). specialize (LU Lg). split; [exact NF|]. split; [reflexivity|].
    etransitivity; [apply (nth_map2 (Bplus mode_NE)); [exact (eq_sym LU)|exact Hq]|]. exact (f_equal (Bplus mode_NE _) NU).
Qed.

Lemma Forall_nth_b (P : b32 -> Prop) (l : list b32) n : length l = n -> (forall q, (q < n)%nat -> P (nth q l NZ)) -> Forall P l.
Proof. intros L H. apply Forall_forall. intros x Hx. destruct (In_nth l x NZ Hx) as (q & Hq & <-). apply H. exact (eq_ind _ (fun k => (q < k)%nat) Hq _ L). Qed.
Lemma Forall_get_b (P : b32 -> Prop) (l : list b32) n q : length l = n -> (q < n)%nat -> Forall P l -> P (nth q l NZ).
Proof. intros L Hq H. rewrite Forall_forall in H. apply H, nth_In. exact (eq_ind_r (fun k => (q < k)%nat) Hq L). Qed.

(** what the gradient needs in order to be finite (C79) *)
Definition gradient_safe (lm : libm) (nn : neuralnet) (lf : loss) (xs ts : list (list b32)) (o : opt) (i : nat) (P : list b32) : Prop :=
  let b := firstn (o_batchsize o) (skipn i (order o)) in
  Forall (fun l => covered lm (l_act l)) (nn_layers nn) /\ trainable lf (nn_shape nn) /\
  Forall (fun v : b32 => fin v = true) P /\ finite_samples xs ts b /\
  batch_safe lf (nn_shape nn) (in_size nn) (vec (reals P)) (map reals xs) (map reals ts) b.

(** One batch of Adagrad, for arbitrary parameters, samples, targets and activation functions, also when values overflow:
    the learning rate does not grow, the accumulated squares do not become negative, and each parameter is afterwards a NaN or
    has moved by at most the learning rate, up to rounding.  If the gradient is safe (C79) there is no NaN. *)
Theorem adagrad_step_bounded (lm : libm) (c : cfg) (nn : neuralnet) (lf : loss) (X Y : ptr) (xs ts : list (list b32)) (m : @mem (opsB32 lm))
    (e : @env (opsB32 lm)) (o : opt) (n i t : nat) (lr decay : b32) (Q : ptr) (th r : list b32) :
  let OP := opsB32 lm in
  let np := total_n_parameters nn in
  let optimizer t lr := {| ag_lr := lr; ag_decay := decay; ag_t := t; ag_r := Q |} : @adagrad OP in
  @train_ready OP c nn lf X Y xs ts m th -> @state_array OP c nn X Y xs ts m Q r ->
  @epoch_ready OP c nn lf (o_batchsize o) (length xs) (e, o, n) -> (0 < o_batchsize o)%nat -> (i < n)%nat ->
  fin lr = true -> fin decay = true -> Rabs (B2R lr) <= 2 ^ 90 -> Forall not_negative r ->
  exists m' th' r' lr',
    @adagrad_step OP c (@exp256_lane OP) e o n X Y i (optimizer t lr) m = Ok ((i + Nat.min (o_batchsize o) (n - i))%nat, optimizer (t + 1)%nat lr', m') /\
    @train_ready OP c nn lf X Y xs ts m' th' /\ @state_array OP c nn X Y xs ts m' Q r' /\ only_changes_in m m' ((Q, np) :: regions (nn_layers nn)) /\
    fin lr' = true /\ Rabs (B2R lr') <= Rabs (B2R lr) /\ Forall not_negative r' /\
    (forall q, (q < np)%nat -> fin (nth q th NZ) = true -> Rabs (vec (reals th) q) <= 2 ^ 125 ->
       nan_or (nth q th' NZ) (moves (vec (reals th) q) (largest_step (B2R lr') 1))) /\
    (gradient_safe lm nn lf xs ts o i th -> forall q, (q < np)%nat -> is_nan (nth q r NZ) = false -> Rabs (vec (reals th) q) <= 2 ^ 125 ->
       is_nan (nth q r' NZ) = false /\ fin (nth q th' NZ) = true).
Proof.
  intros OP np optimizer TR SA (E1 & E2 & E3 & E4 & E5 & E6) Hb Hi FL FD RL NR.
  destruct (ready_b32 lm c nn lf X Y xs ts m th TR) as ((PA & Hne & Hch & HX & HY & HL) & TH). pose proof TH as (TM & Lth & PL).
  pose proof SA as (_ & Lr & _). fold np in Lth, Lr. subst n.
  pose proof (E6 i) as (_ & _ & _ & _ & SO & _).
  set (G := @bgrad OP c (@exp256_lane OP) nn lf xs ts o (order o) (length (order o)) e i).
  destruct (@calc_st OP c (@exp256_lane OP) (mulC_B32 lm) nn lf X Y xs ts o (order o) (length (order o)) e E1 Hb (order_some o E3) eq_refl E5 E6 m th i TH Hi) as (_ & _ & LG).
  destruct (@ag_step_ok OP c (@exp256_lane OP) (mulC_B32 lm) nn lf X Y xs ts PA o (order o) (length (order o)) e E1 Hb (order_some o E3) eq_refl E5 E6 decay Q m i
     (th, r, lr, t) m (optimizer t lr) Hi) as (m' & s' & E & II).
  { split; [reflexivity|]. cbn [fst snd]. split; [exact TH|]. split; [|apply oci_refl].
    destruct SA as (A1 & A2 & A3 & A4). rewrite A2 in A3, A4. split; [exact A1|]. split; [exact A2|]. auto. }
  destruct (@ag_step_f OP decay _ (th, r, lr, t)) as [[[th' r'] lr'] t'] eqn:ES.
  destruct II as (-> & TH' & SV' & OC). cbn [fst snd] in TH', SV'.
  destruct (ag_step_nth lm decay G th r lr t th' r' lr' t' (eq_trans Lth (eq_sym Lr)) (eq_trans LG (eq_sym Lth)) ES) as (-> & -> & ST).
  destruct (decayed_shrinks lm lr decay t FL FD) as (FR & HR). set (l' := @decayed OP lr decay t) in *.
  assert (RL' : Rabs (bv l') <= 2 ^ 90) by (eapply Rle_trans; [exact HR|exact RL]).
  assert (K1 : / 2 ^ 24 <= 1 <= 1) by (split; [rewrite <- Rinv_1; apply Rinv_le; lra|lra]).
  pose proof (largest_step_pos (bv l') 1 K1 RL') as LS. assert (I60 : 0 < / 2 ^ 60) by (apply Rinv_0_lt_compat, pow_lt; lra).
  assert (B110 : 2 ^ 110 <= 2 ^ 125) by (apply Rle_pow; [lra|lia]). assert (B126 : 2 ^ 125 <= 2 ^ 126) by (apply Rle_pow; [lra|lia]).
  exists m', th', r', l'. split.
  { etransitivity; [exact E|]. f_equal. f_equal. f_equal. unfold batch_size. destruct (Nat.ltb_spec (length (order o) - i) (o_batchsize o)); lia. }
  split. { split; [exact PA|]. exists (@net_of OP (nn_layers nn) th'). destruct TH' as (A1 & A2 & A3). split; [exact A3|exact A1]. }
  split. { destruct SV' as (A1 & A2 & A3 & A4). split; [exact A1|]. split; [exact A2|]. rewrite A2. auto. }
  split; [exact OC|]. split; [exact FR|]. split; [exact HR|].
  assert (Lr' : length r' = np) by apply SV'.
  assert (RNG : forall l q, vec (reals l) q = bv (nth q l b32_zero)) by (intros l q; exact (vec_bv l q)).
  assert (UP : forall q, (q < np)%nat -> let g := nth q (G th) NZ in exists y, nth q r' NZ = y /\
     nth q th' NZ = Bplus mode_NE (nth q th NZ) (upd32 l' g y) /\ not_negative y /\
     nan_or (upd32 l' g y) (fun z => Rabs z <= largest_step (bv l') 1) /\
     (fin g = true -> is_nan (nth q r NZ) = false -> is_nan y = false /\ is_nan (upd32 l' g y) = false)).
  { intros q Hq g. destruct (ST q (eq_ind_r (fun k => (q < k)%nat) Hq Lth)) as (S1 & S2). cbv zeta in S1, S2. fold g in S1, S2.
    destruct (ag_update l' g FR RL' (nth q r NZ) (Forall_get_b _ _ _ _ Lr Hq NR)) as (U1 & U2 & U3).
    eexists. split; [exact S1|]. split; [exact S2|]. auto. }
  split. { apply (Forall_nth_b _ _ np Lr'). intros q Hq. destruct (UP q Hq) as (y & Sy & _ & U & _). exact (eq_ind_r not_negative U Sy). }
  split.
  - intros q Hq Ft Ht. rewrite RNG in Ht. rewrite RNG. destruct (UP q Hq) as (y & _ & St & _ & U & _).
    refine (eq_ind_r (fun z => nan_or z _) _ St). apply move_plain; [exact Ft|lra|lra|exact U].
  - intros (CV & TN & FT & FS & BS) q Hq Nr Ht. rewrite RNG in Ht.
    destruct (batch_grad_near lm c nn lf xs ts Hne Hch HX HY HL o (order o) (length (order o)) (e_sched e i) i Hb eq_refl E5 Hi SO th Lth CV FT FS TN BS q Hq) as (_ & Fg & _).
    destruct (UP q Hq) as (y & Sy & St & _ & U & UN). destruct (UN Fg Nr) as (N1 & N2). split; [exact (eq_ind_r (fun z : b32 => is_nan z = false) N1 Sy)|].
    assert (Ft : fin (nth q th NZ) = true) by exact (Forall_get_b _ _ _ _ Lth Hq FT).
    destruct (move_plain (nth q th NZ) _ (largest_step (bv l') 1) Ft ltac:(lra) ltac:(lra) U) as (M1 & M2). specialize (M2 N2).
    refine (eq_ind_r (fun z : b32 => fin z = true) _ St). destruct M1 as [N|(F & _)]; [congruence|exact F].
Qed.
Print Assumptions adagrad_step_bounded.

(** The same for RMSprop: a step is at most the learning rate over sqrt (1 - rho); with momentum that much is added to the
    velocity, and the parameter moves with the velocity. *)
Theorem rmsprop_step_bounded (lm : libm) (c : cfg) (nn : neuralnet) (lf : loss) (X Y : ptr) (xs ts : list (list b32)) (m : @mem (opsB32 lm))
    (e : @env (opsB32 lm)) (o : opt) (n i t : nat) (lr decay rho mu : b32) (nest : bool) (V Q : ptr) (th v r : list b32) :
  let OP := opsB32 lm in
  let np := total_n_parameters nn in
  let optimizer t lr := {| rm_lr := lr; rm_decay := decay; rm_rho := rho; rm_mu := mu; rm_nesterov := nest; rm_t := t; rm_v := V; rm_r := Q |} : @rmsprop OP in
  @train_ready OP c nn lf X Y xs ts m th -> @state_array OP c nn X Y xs ts m V v -> @state_array OP c nn X Y xs ts m Q r ->
  disjoint V np Q np ->
  @epoch_ready OP c nn lf (o_batchsize o) (length xs) (e, o, n) -> (0 < o_batchsize o)%nat -> (i < n)%nat ->
  fin lr = true -> fin decay = true -> Rabs (B2R lr) <= 2 ^ 90 -> fin rho = true -> 0 <= B2R rho < 1 -> fin mu = true -> B2R mu <= 1 ->
  Forall not_negative r ->
  exists m' th' v' r' lr',
    @rmsprop_step OP c (@exp256_lane OP) e o n X Y i (optimizer t lr) m = Ok ((i + Nat.min (o_batchsize o) (n - i))%nat, optimizer (t + 1)%nat lr', m') /\
    @train_ready OP c nn lf X Y xs ts m' th' /\ @state_array OP c nn X Y xs ts m' V v' /\ @state_array OP c nn X Y xs ts m' Q r' /\
    only_changes_in m m' ((V, np) :: (Q, np) :: regions (nn_layers nn)) /\
    fin lr' = true /\ Rabs (B2R lr') <= Rabs (B2R lr) /\ Forall not_negative r' /\
    let S := largest_step (B2R lr') (1 - B2R rho) in
    (forall q, (q < np)%nat -> fin (nth q th NZ) = true -> Rabs (vec (reals th) q) <= 2 ^ 125 ->
       fin (nth q v NZ) = true -> Rabs (vec (reals v) q) <= 2 ^ 120 ->
       nan_or (nth q th' NZ) (rms_moves (B2R mu) (vec (reals v) q) S (vec (reals th) q)) /\
       if Rlt_dec 0 (B2R mu) then nan_or (nth q v' NZ) (fun z => Rabs z <= velocity_cap (B2R mu) (vec (reals v) q) S) else nth q v' NZ = nth q v NZ) /\
    (gradient_safe lm nn lf xs ts o i (interim mu nest th v) -> 0 < B2R rho ->
       forall q, (q < np)%nat -> is_nan (nth q r NZ) = false -> fin (nth q th NZ) = true -> Rabs (vec (reals th) q) <= 2 ^ 125 ->
       fin (nth q v NZ) = true -> Rabs (vec (reals v) q) <= 2 ^ 120 ->
       is_nan (nth q r' NZ) = false /\ fin (nth q v' NZ) = true /\ fin (nth q th' NZ) = true).
Proof.
  intros OP np optimizer TR SA SQ VQ (E1 & E2 & E3 & E4 & E5 & E6) Hb Hi FL FD RL Frho Hrho FM HM NR.
  destruct (ready_b32 lm c nn lf X Y xs ts m th TR) as ((PA & Hne & Hch & HX & HY & HL) & TH). pose proof TH as (TM & Lth & PL).
  pose proof SA as (_ & Lv & _). pose proof SQ as (_ & Lr & _). fold np in Lth, Lv, Lr. subst n.
  pose proof (E6 i) as (_ & _ & _ & _ & SO & _).
  set (G := @bgrad OP c (@exp256_lane OP) nn lf xs ts o (order o) (length (order o)) e i).
  assert (SA' : @svec OP c nn X Y xs ts m V v). { destruct SA as (A1 & A2 & A3 & A4). rewrite A2 in A3, A4. split; [exact A1|]. split; [exact A2|]. auto. }
  assert (LI : length (interim mu nest th v) = np).
  { unfold interim. destruct (Rlt_dec 0 (B2R mu)); [|exact Lth]. destruct nest; [|exact Lth]. apply len_map2_b; [exact Lth|]. rewrite map_length. exact Lv. }
  assert (LG : length (G (interim mu nest th v)) = np).
  { assert (H1 : exists m1, @holds_th OP c nn lf X Y xs ts m1 (interim mu nest th v)).
    { unfold interim. destruct (Rlt_dec 0 (B2R mu)); [|exists m; exact TH]. destruct nest; [|exists m; exact TH].
      set (w := map (fun y => Bmult mode_NE y mu) v). assert (Lw : length w = np) by (unfold w; rewrite map_length; exact Lv).
      destruct (@sv_write OP c nn X Y xs ts m V v w SA' Lw) as (S1 & _).
      pose proof (@th_sv OP c nn lf X Y xs ts m V v w th TH SA' Lw) as T1.
      destruct (@update_sv OP c nn lf X Y xs ts PA (writem m V w) [] th V w T1) as (m1 & _ & T2 & _). { rewrite app_nil_r. exact S1. }
      exists m1. exact T2. }
    destruct H1 as (m1 & T1).
    destruct (@calc_st OP c (@exp256_lane OP) (mulC_B32 lm) nn lf X Y xs ts o (order o) (length (order o)) e E1 Hb (order_some o E3) eq_refl E5 E6 m1 _ i T1 Hi) as (_ & _ & LG). exact LG. }
  destruct (@rms_step_ok OP c (@exp256_lane OP) (mulC_B32 lm) nn lf X Y xs ts PA o (order o) (length (order o)) e E1 Hb (order_some o E3) eq_refl E5 E6 decay rho mu nest V Q VQ m i
     (th, v, r, lr, t) m (optimizer t lr) Hi) as (m' & s' & E & II).
  { split; [reflexivity|]. cbn [fst snd]. split; [exact TH|]. split; [exact SA'|]. split; [|apply oci_refl].
    destruct SQ as (A1 & A2 & A3 & A4). rewrite A2 in A3, A4. split; [exact A1|]. split; [exact A2|]. auto. }
  destruct (@rms_step_f OP decay rho mu nest _ (th, v, r, lr, t)) as [[[[th' v'] r'] lr'] t'] eqn:ES.
  destruct II as (-> & TH' & SV' & SQ' & OC). cbn [fst snd] in TH', SV', SQ'.
  destruct (rms_step_nth lm decay rho mu nest G th v r lr t th' v' r' lr' t' FM (eq_trans Lth (eq_sym Lv)) (eq_trans Lth (eq_sym Lr)) ES) as (-> & -> & ST).
  set (gl := G (interim mu nest th v)) in *.
  destruct (decayed_shrinks lm lr decay t FL FD) as (FR & HR). set (l' := @decayed OP lr decay t) in *.
  assert (RL' : Rabs (bv l') <= 2 ^ 90) by (eapply Rle_trans; [exact HR|exact RL]).
  destruct (rho_R rho Frho Hrho) as (_ & _ & K0 & _).
  assert (K1 : / 2 ^ 24 <= 1 - bv rho <= 1) by (split; [exact K0|]; change (bv rho) with (B2R rho); lra).
  pose proof (largest_step_pos (bv l') _ K1 RL') as LS. assert (I60 : 0 < / 2 ^ 60) by (apply Rinv_0_lt_compat, pow_lt; lra).
  assert (B110 : 2 ^ 110 <= 2 ^ 125) by (apply Rle_pow; [lra|lia]). assert (B126 : 2 ^ 125 <= 2 ^ 126) by (apply Rle_pow; [lra|lia]).
  exists m', th', v', r', l'. split.
  { etransitivity; [exact E|]. f_equal. f_equal. f_equal. unfold batch_size. destruct (Nat.ltb_spec (length (order o) - i) (o_batchsize o)); lia. }
  split. { split; [exact PA|]. exists (@net_of OP (nn_layers nn) th'). destruct TH' as (A1 & A2 & A3). split; [exact A3|exact A1]. }
  split. { destruct SV' as (A1 & A2 & A3 & A4). split; [exact A1|]. split; [exact A2|]. rewrite A2. auto. }
  split. { destruct SQ' as (A1 & A2 & A3 & A4). split; [exact A1|]. split; [exact A2|]. rewrite A2. auto. }
  split; [exact OC|]. split; [exact FR|]. split; [exact HR|].
  assert (Lr' : length r' = np) by apply SQ'.
  assert (RNG : forall l q, vec (reals l) q = bv (nth q l b32_zero)) by (intros l q; exact (vec_bv l q)).
  set (S := largest_step (bv l') (1 - bv rho)) in *.
  assert (UP : forall q, (q < np)%nat -> let g := nth q gl NZ in exists y, nth q r' NZ = y /\ not_negative y /\
     (fin g = true -> is_nan (nth q r NZ) = false -> 0 < bv rho -> is_nan y = false) /\
     (fin (nth q th NZ) = true -> Rabs (bv (nth q th NZ)) <= 2 ^ 125 -> fin (nth q v NZ) = true -> Rabs (bv (nth q v NZ)) <= 2 ^ 120 ->
       nan_or (nth q th' NZ) (rms_moves (bv mu) (bv (nth q v NZ)) S (bv (nth q th NZ))) /\
       (if Rlt_dec 0 (bv mu) then nan_or (nth q v' NZ) (fun z => Rabs z <= velocity_cap (bv mu) (bv (nth q v NZ)) S) else nth q v' NZ = nth q v NZ) /\
       (fin g = true -> is_nan (nth q r NZ) = false -> 0 < bv rho -> is_nan (nth q v' NZ) = false /\ is_nan (nth q th' NZ) = false))).
  { intros q Hq g. destruct (ST q (eq_ind_r (fun k => (q < k)%nat) Hq Lth) (eq_trans LG (eq_sym Lth))) as (S1 & S2). cbv zeta in S1, S2. fold g in S1, S2.
    destruct (rms_update l' g FR RL' rho (nth q r NZ) Frho Hrho (Forall_get_b _ _ _ _ Lr Hq NR)) as (U1 & U2 & U3).
    eexists. split; [exact S1|]. split; [exact U1|]. split; [intros A B C; exact (proj1 (U3 A B C))|]. intros Ft Ht Fv Hv. fold S in U2. clear S1 U1.
    set (d := upd32 l' g _) in *. unfold rms_moves. destruct (Rlt_dec 0 (bv mu)) as [Hm|Hm].
    - destruct S2 as (S2 & S3). destruct (move_velocity (nth q th NZ) (nth q v NZ) mu d S nest Ft Ht Fv Hv FM (conj Hm HM) LS U2) as (M1 & M2 & M3).
      split; [exact (eq_ind_r (fun z => nan_or z _) M2 S3)|]. split; [exact (eq_ind_r (fun z => nan_or z _) M1 S2)|].
      intros A B C. destruct (M3 (proj2 (U3 A B C))) as (N1 & N2). split; [exact (eq_ind_r (fun z : b32 => is_nan z = false) N1 S2)|exact (eq_ind_r (fun z : b32 => is_nan z = false) N2 S3)].
    - destruct S2 as (S2 & S3). destruct (move_plain (nth q th NZ) d S Ft ltac:(lra) ltac:(lra) U2) as (M1 & M2).
      split; [exact (eq_ind_r (fun z => nan_or z _) M1 S3)|]. split; [exact S2|].
      intros A B C. split; [refine (eq_ind_r (fun z : b32 => is_nan z = false) _ S2); apply fin_not_nan; exact Fv|exact (eq_ind_r (fun z : b32 => is_nan z = false) (M2 (proj2 (U3 A B C))) S3)]. }
  split. { apply (Forall_nth_b _ _ np Lr'). intros q Hq. destruct (UP q Hq) as (y & Sy & U & _). exact (eq_ind_r not_negative U Sy). }
  split.
  - intros q Hq Ft Ht Fv Hv. rewrite RNG in Ht, Hv. rewrite !RNG. destruct (UP q Hq) as (y & _ & _ & _ & U). destruct (U Ft Ht Fv Hv) as (U1 & U2 & _). split; [exact U1|exact U2].
  - intros (CV & TN & FT & FS & BS) Hrp q Hq Nr Ft Ht Fv Hv. rewrite RNG in Ht, Hv.
    destruct (batch_grad_near lm c nn lf xs ts Hne Hch HX HY HL o (order o) (length (order o)) (e_sched e i) i Hb eq_refl E5 Hi SO _ LI CV FT FS TN BS q Hq) as (_ & Fg & _).
    destruct (UP q Hq) as (y & Sy & _ & UN & U). split; [exact (eq_ind_r (fun z : b32 => is_nan z = false) (UN Fg Nr Hrp) Sy)|].
    destruct (U Ft Ht Fv Hv) as (U1 & U2 & U3). destruct (U3 Fg Nr Hrp) as (N1 & N2). split.
    + destruct (Rlt_dec 0 (bv mu)); [|exact (eq_ind_r (fun z : b32 => fin z = true) Fv U2)]. destruct U2 as [N|(F & _)]; [congruence|exact F].
    + destruct U1 as [N|(F & _)]; [congruence|exact F].
Qed.
Print Assumptions rmsprop_step_bounded.

(** ** concrete cases: two samples, one linear unit, all parameters and states zero; the gradient is safe at the parameters *)
Lemma line_gradient_safe (P : list b32) : Forall (fun v : b32 => fin v = true) P -> (forall q, Rabs (vec (reals P) q) <= 1) ->
  gradient_safe lm_rounded tc_nn MSE (@rows (opsB32 lm_rounded) [b32_ofZ 1; b32_ofZ 1]) (@rows (opsB32 lm_rounded) [b32_ofZ 1; b32_zero]) (tc_opt 2 [0%nat; 1%nat]) 0 P.
Proof.
  intros FP HP. assert (O1 : B2R (b32_ofZ 1) = 1) by exact one_R.
  split; [repeat constructor|]. split; [discriminate|]. split; [exact FP|].
  split. { intros k [<-|[<-|[]]]; split; repeat constructor. }
  apply (line_batch_safe (vec (reals P)) (map reals (map (fun x => [x]) [b32_ofZ 1; b32_ofZ 1])) (map reals (map (fun x => [x]) [b32_ofZ 1; b32_zero])) HP).
  - apply row_bound. repeat (apply Forall_cons; [rewrite O1, Rabs_R1; lra|]). apply Forall_nil.
  - apply row_bound. apply Forall_cons; [rewrite O1, Rabs_R1; lra|]. apply Forall_cons; [|apply Forall_nil]. change (bv b32_zero) with 0. rewrite Rabs_R0. lra.
Qed.
Example adagrad_step_bounded_case :
  let lm := lm_rounded in let OP := opsB32 lm in
  let c := {| cfg_isa := AVX512; cfg_fma := true |} in
  let nn := @tc_nn in let xl := [b32_ofZ 1; b32_ofZ 1] in let tl := [b32_ofZ 1; b32_zero] in
  let xs := @rows OP xl in let ts := @rows OP tl in
  let th := [b32_zero; b32_zero] in let r := [b32_zero; b32_zero] in let lr := b32_ofZ 1 in let decay := b32_ofZ 1 in
  let o := tc_opt 2 [0%nat; 1%nat] in let e := @tc_env_omp OP c 2 2 in
  @train_ready OP c nn MSE (mkptr 2 0) (mkptr 3 0) xs ts (@tc_mem OP xl tl) th /\
  @state_array OP c nn (mkptr 2 0) (mkptr 3 0) xs ts (@tc_mem OP xl tl) (mkptr 4 0) r /\
  @epoch_ready OP c nn MSE (o_batchsize o) (length xs) (e, o, 2%nat) /\ (0 < o_batchsize o)%nat /\ (0 < 2)%nat /\
  fin lr = true /\ fin decay = true /\ Rabs (B2R lr) <= 2 ^ 90 /\ Forall not_negative r /\ gradient_safe lm nn MSE xs ts o 0 th /\
  (forall q, (q < total_n_parameters nn)%nat -> is_nan (nth q r NZ) = false /\ fin (nth q th NZ) = true /\ Rabs (vec (reals th) q) <= 2 ^ 125) /\
  largest_step (B2R lr) 1 <= 1 + 1 / 10 ^ 6.
Proof.
  cbv zeta. assert (O1 : B2R (b32_ofZ 1) = 1) by exact one_R.
  split; [apply (@tc_ready (opsB32 lm_rounded)); reflexivity|]. split; [apply (@tc_array (opsB32 lm_rounded)); left; reflexivity|].
  split; [apply (@tc_epoch_omp (opsB32 lm_rounded)); intros k [<-|[<-|[]]]; cbn; lia|]. split; [cbn; lia|]. split; [lia|].
  split; [reflexivity|]. split; [reflexivity|]. split; [rewrite O1, Rabs_R1; apply pow_R1_Rle; lra|]. split; [repeat constructor|].
  split. { apply line_gradient_safe; [repeat constructor|]. intros q. rewrite zero_reals, Rabs_R0. lra. }
  split.
  - intros q Hq. change (total_n_parameters tc_nn) with 2%nat in Hq. split; [destruct q as [|[|q]]; [reflexivity|reflexivity|lia]|].
    split; [destruct q as [|[|q]]; [reflexivity|reflexivity|lia]|]. rewrite zero_reals, Rabs_R0. apply pow_le. lra.
  - unfold largest_step. rewrite O1, Rabs_R1, sqrt_1, u32_val. lra.
Qed.
Example rmsprop_step_bounded_case :
  let lm := lm_rounded in let OP := opsB32 lm in
  let c := {| cfg_isa := AVX512; cfg_fma := true |} in
  let nn := @tc_nn in let xl := [b32_ofZ 1; b32_ofZ 1] in let tl := [b32_ofZ 1; b32_zero] in
  let xs := @rows OP xl in let ts := @rows OP tl in
  let th := [b32_zero; b32_zero] in let v := [b32_zero; b32_zero] in let r := [b32_zero; b32_zero] in
  let lr := b32_ofZ 1 in let decay := b32_ofZ 1 in let rho := b32_lit 3 4 in let mu := b32_lit 1 2 in
  let o := tc_opt 2 [0%nat; 1%nat] in let e := @tc_env_omp OP c 2 2 in
  @train_ready OP c nn MSE (mkptr 2 0) (mkptr 3 0) xs ts (@tc_mem OP xl tl) th /\
  @state_array OP c nn (mkptr 2 0) (mkptr 3 0) xs ts (@tc_mem OP xl tl) (mkptr 4 0) v /\
  @state_array OP c nn (mkptr 2 0) (mkptr 3 0) xs ts (@tc_mem OP xl tl) (mkptr 5 0) r /\
  disjoint (mkptr 4 0) (total_n_parameters nn) (mkptr 5 0) (total_n_parameters nn) /\
  @epoch_ready OP c nn MSE (o_batchsize o) (length xs) (e, o, 2%nat) /\ (0 < o_batchsize o)%nat /\ (0 < 2)%nat /\
  fin lr = true /\ fin decay = true /\ Rabs (B2R lr) <= 2 ^ 90 /\ fin rho = true /\ 0 <= B2R rho < 1 /\ fin mu = true /\ B2R mu <= 1 /\
  Forall not_negative r /\ gradient_safe lm nn MSE xs ts o 0 (interim mu true th v) /\ 0 < B2R rho /\ 0 < B2R mu /\
  (forall q, (q < total_n_parameters nn)%nat -> is_nan (nth q r NZ) = false /\ fin (nth q th NZ) = true /\ Rabs (vec (reals th) q) <= 2 ^ 125 /\
     fin (nth q v NZ) = true /\ Rabs (vec (reals v) q) <= 2 ^ 120) /\
  largest_step (B2R lr) (1 - B2R rho) <= 2 + 1 / 10 ^ 5.
Proof.
  cbv zeta. assert (O1 : B2R (b32_ofZ 1) = 1) by exact one_R.
  assert (R1 : fin (b32_lit 3 4) = true /\ bv (b32_lit 3 4) = 3 / 4) by lit32. destruct R1 as (R1 & R2).
  assert (M1 : fin (b32_lit 1 2) = true /\ bv (b32_lit 1 2) = 1 / 2) by lit32. destruct M1 as (M1 & M2).
  split; [apply (@tc_ready (opsB32 lm_rounded)); reflexivity|]. split; [apply (@tc_array (opsB32 lm_rounded)); left; reflexivity|].
  split; [apply (@tc_array (opsB32 lm_rounded)); right; reflexivity|]. split; [left; discriminate|].
  split; [apply (@tc_epoch_omp (opsB32 lm_rounded)); intros k [<-|[<-|[]]]; cbn; lia|]. split; [cbn; lia|]. split; [lia|].
  split; [reflexivity|]. split; [reflexivity|]. split; [rewrite O1, Rabs_R1; apply pow_R1_Rle; lra|].
  split; [exact R1|]. rewrite R2, M2. split; [lra|]. split; [exact M1|]. split; [lra|]. split; [repeat constructor|].
  split. { assert (EI : interim (b32_lit 1 2) true [b32_zero; b32_zero] [b32_zero; b32_zero] = [b32_zero; b32_zero]).
    { unfold interim. rewrite M2. destruct (Rlt_dec 0 (1 / 2)); [|lra]. reflexivity. }
    rewrite EI. apply line_gradient_safe; [repeat constructor|]. intros q. rewrite zero_reals, Rabs_R0. lra. }
  split; [lra|]. split; [lra|]. split.
  - intros q Hq. change (total_n_parameters tc_nn) with 2%nat in Hq. split; [destruct q as [|[|q]]; [reflexivity|reflexivity|lia]|].
    split; [destruct q as [|[|q]]; [reflexivity|reflexivity|lia]|]. split; [rewrite zero_reals, Rabs_R0; apply pow_le; lra|].
    split; [destruct q as [|[|q]]; [reflexivity|reflexivity|lia]|]. rewrite zero_reals, Rabs_R0. apply pow_le. lra.
  - unfold largest_step. rewrite O1, Rabs_R1, u32_val. replace (sqrt (1 - 3 / 4)) with (1 / 2); [lra|]. symmetry. apply sqrt_lem_1; lra.
Qed.
