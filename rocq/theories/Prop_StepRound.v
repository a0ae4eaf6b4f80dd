(** Prop_StepRound.v -- C79: a float32 training step is close to the exact one *)
From Coquelicot Require Import Coquelicot.
From Flocq Require Import Core BinarySingleNaN.
From Coq Require Import ZArith Bool List Arith Reals Lia Lra Permutation FunctionalExtensionality.
From Verif Require Import Base BaseProofs Ops OpsR Mem MemProofs Kernels KernelProofs Activation ActivationProofs Loss Neuralnet
  ForwardProofs BackpropProofs OpsB32 B32Facts MetricB32 SpecReal RealForward RealGrad LossGrad GradProofs SpecBits BitsProofs SpecMem PredictProofs GradPropProofs
  ParamProofs Batch BatchProofs BlasProofs Optimizer OptKernels OptProofs OptEpochs SpecOpt OptReal OptTrain SpecDescent DescentProofs
  Exp256B32 SpecLibm SpecRound RoundProofs RoundNet SpecGradRound SlopeRound LossRound GradRound GradSample SpecStepRound SumRound BatchRound StepRound Prop_Rules Prop_Descent Ex_Mem Ex_Train LibmCase Prop_Round Prop_GradRound SpecGradRound SpecStepRound.
Import ListNotations.
Local Open Scope R_scope.

(** all values of the samples of the batch are finite *)
Definition finite_samples (xs ts : list (list b32)) (b : list nat) : Prop :=
  forall k, In k b -> Forall (fun v : b32 => fin v = true) (nth k xs []) /\ Forall (fun v : b32 => fin v = true) (nth k ts []).

Lemma ready_b32 (lm : libm) c nn lf X Y xs ts m th : @train_ready (opsB32 lm) c nn lf X Y xs ts m th ->
  (params_apart nn X Y xs ts /\ nn_layers nn <> [] /\ chain (in_size nn) (nn_layers nn) /\
   (forall i x, nth_error xs i = Some x -> length x = in_size nn) /\
   (forall i t, nth_error ts i = Some t -> length t = out_size nn) /\ length ts = length xs) /\
  @holds_th (opsB32 lm) c nn lf X Y xs ts m th.
Proof.
  intros (P & net & <- & T). split; [|apply (@holds_th_intro (opsB32 lm)); auto].
  destruct T as (H1 & H2 & H3 & H4 & H5 & H6 & H7 & H8). split; auto. split; auto. split; [eapply (@net_holds_chain (opsB32 lm)); eauto|]. auto.
Qed.

(** In every build, for every batch, every assignment of the iterations to threads and every way in which the thread
    results are combined: the batch gradient which optimizer_calc_batch_gradient writes is finite, and each component is
    within an explicit bound of the exact partial derivative of the mean loss of the batch. *)
Theorem batch_gradient_rounding_error (lm : libm) (c : cfg) (nn : neuralnet) (lf : loss) (X Y : ptr) (xs ts : list (list b32)) (m : @mem (opsB32 lm)) (th : list b32)
    (o : opt) (pv : list nat) (s : sched) (n i : nat) (bg : ptr) (over : list b32) :
  let OP := opsB32 lm in
  let np := total_n_parameters nn in
  let sh := nn_shape nn in
  let b := firstn (o_batchsize o) (skipn i pv) in
  let T := vec (reals th) in
  @train_ready OP c nn lf X Y xs ts m th ->
  o_nn o = neuralnet_set_loss nn (Some lf) -> o_pivot o = Some pv -> length pv = n -> (forall k, In k pv -> (k < length xs)%nat) ->
  (0 < o_batchsize o)%nat -> (i < n)%nat ->
  (forall b, aligned_base c (s_grad s b)) -> (forall b, aligned_base c (s_work s b)) ->
  sched_ok s (batch_size o n i) ->
  @valid OP m bg np -> @holds OP m (padd bg np) over -> length over = over_len c nn s ->
  @OptProofs.clear OP nn X Y xs ts bg (np + length over) -> kal c np m bg ->
  (* libm is accurate for the activations, everything is finite, in range and away from kinks *)
  Forall (fun l => covered lm (l_act l)) (nn_layers nn) -> trainable lf sh ->
  Forall (fun v : b32 => fin v = true) th -> finite_samples xs ts b ->
  batch_safe lf sh (in_size nn) T (map reals xs) (map reals ts) b ->
  exists m' g, @calc_batch_gradient OP c (@exp256_lane OP) s o n X Y i bg m = Ok ((i + Nat.min (o_batchsize o) (n - i))%nat, m') /\
    @holds OP m' bg g /\ length g = np /\ @only_changes OP m m' bg (np + length over) /\
    forall q, (q < np)%nat -> fin (nth q g b32_zero) = true /\
      exists D, is_derive (fun v => mean_loss lf sh (in_size nn) (out_size nn) (map reals xs) (map reals ts) b (upd T q v)) (T q) D /\
        Rabs (B2R (nth q g b32_zero) - D) <= err (batch_near lf sh (in_size nn) T (map reals xs) (map reals ts) b q).
Proof.
  intros OP np sh b T TR Ho Hpv Hl Hin Hb Hi Hg Hw HS HV HO HOL HC HK CV TN FTH FS BS.
  destruct (ready_b32 lm c nn lf X Y xs ts m th TR) as ((PA & Hne & Hch & HX & HY & HL) & TH). pose proof TH as (TM & Lth & PL).
  assert (HC' : @OptProofs.clear OP nn X Y xs ts bg (total_n_parameters nn + over_len c nn s)) by (rewrite <- HOL; exact HC).
  destruct (@calc_ok OP c (@exp256_lane OP) (mulC_B32 lm) nn lf X Y xs ts o pv s i Ho Hpv Hin Hg Hw (@net_of OP (nn_layers nn) th) m bg over n TM Hl (Nat.lt_le_incl _ _ Hi) HV HO HOL HC' HK HS)
    as (E & L1 & L2).
  set (g := @batch_grad_f OP c (@exp256_lane OP) nn lf xs ts pv s i (@net_of OP (nn_layers nn) th) (batch_size o n i)) in *.
  set (ov := @sched_over OP c nn s over) in *.
  assert (VV : @valid OP m bg (length (g ++ ov))).
  { destruct HV as (bk & Hbk & HVL). destruct HO as (b' & Hbk' & HOL' & _). exists bk. split; auto. rewrite app_length, L1, L2.
    simpl in Hbk'. rewrite Hbk in Hbk'. inversion Hbk'; subst. simpl in HOL'. unfold np in HOL'. change (@F OP) with b32 in *. change (@F (opsB32 lm)) with b32 in *. lia. }
  exists (writem m bg (g ++ ov)), g. split.
  { etransitivity; [exact E|]. f_equal. f_equal. f_equal. unfold batch_size. destruct (Nat.ltb_spec (n - i) (o_batchsize o)); lia. }
  split. { pose proof (@holds_writem_same OP m bg (g ++ ov) VV) as HW. apply (@holds_app_inv OP) in HW. exact (proj1 HW). }
  split; [exact L1|]. split.
  { pose proof (@writem_only_changes OP m bg (g ++ ov) VV) as OC. rewrite app_length, L1, L2 in OC. exact OC. }
  intros q Hq. destruct (batch_grad_near lm c nn lf xs ts Hne Hch HX HY HL o pv n s i Hb Hl Hin Hi HS th Lth CV FTH FS TN BS q Hq) as (_ & Fq & D & HD & HN).
  split; [exact Fq|]. exists D. split; [exact HD|]. exact (proj2 HN).
Qed.
Print Assumptions batch_gradient_rounding_error.

(** One batch of gradient descent, with or without momentum and with or without Nesterov's variant, at any point of a training
    run: the step ends, and the new parameters, the new velocity and the new learning rate are finite and within explicit
    bounds of those of the exact rule [sgd_rule] for the exact gradient D.  The gradient is taken at the point the program
    moves to first, [interim]. *)
Theorem sgd_step_rounding_error (lm : libm) (c : cfg) (nn : neuralnet) (lf : loss) (X Y : ptr) (xs ts : list (list b32)) (m : @mem (opsB32 lm))
    (e : @env (opsB32 lm)) (o : opt) (n i t : nat) (lr decay mu : b32) (nest : bool) (V : ptr) (th v : list b32) :
  let OP := opsB32 lm in
  let np := total_n_parameters nn in
  let sh := nn_shape nn in
  let b := firstn (o_batchsize o) (skipn i (order o)) in
  let P := vec (reals (interim mu nest th v)) in
  let optimizer t lr := {| sg_lr := lr; sg_decay := decay; sg_mu := mu; sg_nesterov := nest; sg_t := t; sg_v := V |} : @sgd OP in
  let G := batch_near lf sh (in_size nn) P (map reals xs) (map reals ts) b in
  let R := rate_near (B2R lr) (B2R decay) t in
  let param q := sgd_param (B2R mu) nest (vec (reals th) q) (vec (reals v) q) (G q) R in
  let velocity q := sgd_velocity (B2R mu) (vec (reals v) q) (G q) R in
  @train_ready OP c nn lf X Y xs ts m th -> @state_array OP c nn X Y xs ts m V v ->
  @epoch_ready OP c nn lf (o_batchsize o) (length xs) (e, o, n) -> (0 < o_batchsize o)%nat -> (i < n)%nat ->
  (* libm is accurate for the activations, everything is finite, in range and away from kinks *)
  Forall (fun l => covered lm (l_act l)) (nn_layers nn) -> trainable lf sh ->
  Forall (fun v : b32 => fin v = true) (th ++ v ++ [lr; decay; mu] ++ interim mu nest th v) -> finite_samples xs ts b ->
  batch_safe lf sh (in_size nn) P (map reals xs) (map reals ts) b ->
  rate_fits (B2R lr) (B2R decay) -> (forall q, (q < np)%nat -> cap (param q) <= 2 ^ 127 /\ (0 < B2R mu -> cap (velocity q) <= 2 ^ 127)) ->
  exists D, length D = np /\
    (forall q, (q < np)%nat -> is_derive (fun y => mean_loss lf sh (in_size nn) (out_size nn) (map reals xs) (map reals ts) b (upd P q y)) (P q) (vec D q)) /\
  exists m' th' v' lr',
    @sgd_step OP c (@exp256_lane OP) e o n X Y i (optimizer t lr) m = Ok ((i + Nat.min (o_batchsize o) (n - i))%nat, optimizer (t + 1)%nat lr', m') /\
    @train_ready OP c nn lf X Y xs ts m' th' /\ @state_array OP c nn X Y xs ts m' V v' /\
    only_changes_in m m' ((V, np) :: regions (nn_layers nn)) /\
    fin lr' = true /\ Rabs (B2R lr' - rate (B2R lr) (B2R decay) t) <= err R /\
    exists th2 v2, sgd_rule (fun _ _ => D) (B2R mu) nest (rate (B2R lr) (B2R decay)) (reals th, reals v, t) b = (th2, v2, S t) /\
    forall q, (q < np)%nat ->
      fin (nth q th' b32_zero) = true /\ Rabs (vec (reals th') q - vec th2 q) <= err (param q) /\
      fin (nth q v' b32_zero) = true /\ Rabs (vec (reals v') q - vec v2 q) <= err (velocity q).
Proof.
  intros OP np sh b P optimizer G R param velocity TR SA (E1 & E2 & E3 & E4 & E5 & E6) Hb Hi CV TN FIN FS BS RF CAP.
  destruct (ready_b32 lm c nn lf X Y xs ts m th TR) as ((PA & Hne & Hch & HX & HY & HL) & TH). pose proof TH as (TM & Lth & PL).
  pose proof SA as (_ & Lv & _). fold np in Lth, Lv.
  apply Forall_app in FIN. destruct FIN as (FT & FIN). apply Forall_app in FIN. destruct FIN as (FV & FIN).
  inversion FIN as [|? ? FL FIN1]; subst. inversion FIN1 as [|? ? FD FIN2]; subst. inversion FIN2 as [|? ? FM FI]; subst. cbn [app] in FI. clear FIN FIN1 FIN2.
  pose proof (E6 i) as (_ & _ & _ & _ & SO & _).
  set (I := interim mu nest th v) in *. assert (LI : length I = np).
  { unfold I, interim. destruct (Rlt_dec 0 (B2R mu)); [|exact Lth]. destruct nest; [|exact Lth]. apply len_map2_b; [exact Lth|]. rewrite map_length. exact Lv. }
  set (gl := @bgrad OP c (@exp256_lane OP) nn lf xs ts o (order o) (length (order o)) e i I).
  pose proof (batch_grad_near lm c nn lf xs ts Hne Hch HX HY HL o (order o) (length (order o)) (e_sched e i) i Hb eq_refl E5 Hi SO I LI CV FI FS TN BS) as BG.
  fold np in BG.
  set (L := fun y q => mean_loss lf sh (in_size nn) (out_size nn) (map reals xs) (map reals ts) b (upd P q y)).
  set (D := map (fun q => Derive (fun y => L y q) (P q)) (seq 0 np)).
  assert (LD : length D = np) by (unfold D; rewrite map_length, seq_length; reflexivity).
  assert (ND : forall q, (q < np)%nat -> vec D q = Derive (fun y => L y q) (P q)).
  { intros q Hq. unfold vec, D. rewrite (nth_indep _ 0 (Derive (fun y => L y 0%nat) (P 0%nat))) by (rewrite map_length, seq_length; exact Hq).
    rewrite (map_nth (fun q => Derive (fun y => L y q) (P q))), seq_nth by exact Hq. reflexivity. }
  assert (GQ : forall q, (q < np)%nat -> fin (nth q gl b32_zero) = true /\ is_derive (fun y => L y q) (P q) (vec D q) /\ is_near (G q) (bv (nth q gl b32_zero)) (vec D q)).
  { intros q Hq. destruct (BG q Hq) as (_ & Fq & d & Hd & Hn). split; [exact Fq|].
    assert (EQ : vec D q = d). { rewrite ND by exact Hq. apply is_derive_unique. exact Hd. }
    rewrite EQ. split; [exact Hd|exact Hn]. }
  exists D. split; [exact LD|]. split; [intros q Hq; exact (proj1 (proj2 (GQ q Hq)))|].
  destruct (@sgd_step_ok OP c (@exp256_lane OP) (mulC_B32 lm) nn lf X Y xs ts PA o (order o) (length (order o)) e E1 Hb (order_some o E3) eq_refl E5 E6 decay mu nest V m i
     (th, v, lr, t) m (optimizer t lr) Hi) as (m' & s' & E & II).
  { split; [reflexivity|]. cbn [fst snd]. split; [exact TH|]. split; [|apply oci_refl].
    destruct SA as (A1 & A2 & A3 & A4). rewrite A2 in A3, A4. split; [exact A1|]. split; [exact A2|]. auto. }
  destruct (@sgd_step_f OP decay mu nest _ (th, v, lr, t)) as [[[th' v'] lr'] t'] eqn:ES.
  destruct II as (-> & TH' & SV' & OC). cbn [fst snd] in TH', SV'.
  destruct (sgd_step_nth lm decay mu nest _ th v lr t th' v' lr' t' FM (eq_trans Lth (eq_sym Lv)) ES) as (-> & -> & ST). fold I in ST. fold gl in ST.
  destruct (rate_is_near lm lr decay t FL FD RF) as (FR & NR). set (l' := @decayed OP lr decay t) in *.
  assert (RNG : forall l q, vec (reals l) q = bv (nth q l b32_zero)) by (intros l q; exact (vec_bv l q)).
  exists m', th', v', l'. split.
  { etransitivity; [exact E|]. f_equal. f_equal. f_equal. unfold batch_size. destruct (Nat.ltb_spec (length (order o) - i) (o_batchsize o)); lia. }
  split. { split; [exact PA|]. exists (@net_of OP (nn_layers nn) th'). destruct TH' as (A1 & A2 & A3). split; [exact A3|exact A1]. }
  split. { destruct SV' as (A1 & A2 & A3 & A4). split; [exact A1|]. split; [exact A2|]. rewrite A2. auto. }
  split; [exact OC|]. split; [exact FR|]. split; [exact (proj2 NR)|].
  assert (COMP : forall q, (q < np)%nat -> exists x y, (if Rlt_dec 0 (bv mu) then x = vec (reals th) q + y /\ y = bv mu * vec (reals v) q - rate (B2R lr) (B2R decay) t * vec D q
      else x = vec (reals th) q - rate (B2R lr) (B2R decay) t * vec D q /\ y = vec (reals v) q) /\
    fin (nth q th' b32_zero) = true /\ Rabs (vec (reals th') q - x) <= err (param q) /\ fin (nth q v' b32_zero) = true /\ Rabs (vec (reals v') q - y) <= err (velocity q)).
  { intros q Hq. destruct (BG q Hq) as (Lg & _). destruct (GQ q Hq) as (Fg & _ & Ng). specialize (ST q (eq_ind_r (fun k => (q < k)%nat) Hq Lth) (eq_trans Lg (eq_sym Lth))). cbv zeta in ST.
    destruct (CAP q Hq) as (C1 & C2). unfold param, velocity in *. rewrite !RNG in *.
    assert (Ft : fin (nth q th b32_zero) = true) by (rewrite Forall_forall in FT; apply FT, nth_In; exact (eq_ind_r (fun k => (q < k)%nat) Hq Lth)).
    assert (Fv : fin (nth q v b32_zero) = true) by (rewrite Forall_forall in FV; apply FV, nth_In; exact (eq_ind_r (fun k => (q < k)%nat) Hq Lv)).
    pose proof (sgd_comp (nth q th b32_zero) (nth q v b32_zero) (nth q gl b32_zero) l' mu nest (G q) R (vec D q) _ Ft Fv Fg FR FM Ng NR C2 C1) as SC. cbv zeta in SC.
    change (@F OP) with b32 in *. change (@F (opsB32 lm)) with b32 in *.
    destruct (Rlt_dec 0 (bv mu)) as [Hm|Hm].
    - destruct ST as (S1 & S2). rewrite S1, S2. destruct SC as (B1 & B2 & B3 & B4). eexists _, _. split; [split; reflexivity|].
      split; [exact B3|]. split; [exact (proj2 B4)|]. split; [exact B1|exact (proj2 B2)].
    - destruct ST as (S1 & S2). rewrite S1, S2. destruct SC as (B3 & B4). eexists _, _. split; [split; reflexivity|].
      split; [exact B3|]. split; [exact (proj2 B4)|]. split; [exact Fv|].
      unfold Rminus. rewrite Rplus_opp_r, Rabs_R0. unfold sgd_velocity. destruct (Rlt_dec 0 (bv mu)); [contradiction|]. cbn [exact err]. lra. }
  assert (LR : length (reals th) = np /\ length (reals v) = np) by (unfold reals; rewrite !map_length; split; [exact Lth|exact Lv]). destruct LR as (LR1 & LR2).
  unfold sgd_rule. change (B2R mu) with (bv mu). destruct (Rlt_dec 0 (bv mu)) as [Hm|Hm].
  - eexists _, _. split; [reflexivity|]. intros q Hq. destruct (COMP q Hq) as (x & y & (-> & ->) & A1 & A2 & A3 & A4).
    assert (EV : vec (vsub (vscale (bv mu) (reals v)) (vscale (rate (B2R lr) (B2R decay) t) D)) q = bv mu * vec (reals v) q - rate (B2R lr) (B2R decay) t * vec D q).
    { unfold vec. rewrite nth_vsub, !nth_vscale; [reflexivity|]. rewrite !length_vscale, LD. symmetry. exact LR2. }
    assert (LS : length (vsub (vscale (bv mu) (reals v)) (vscale (rate (B2R lr) (B2R decay) t) D)) = np).
    { unfold vsub. rewrite length_map2, !length_vscale, LD, LR2. lia. }
    assert (ET : vec (vadd (reals th) (vsub (vscale (bv mu) (reals v)) (vscale (rate (B2R lr) (B2R decay) t) D))) q = vec (reals th) q + (bv mu * vec (reals v) q - rate (B2R lr) (B2R decay) t * vec D q)).
    { rewrite <- EV. unfold vec. rewrite nth_vadd; [reflexivity|]. rewrite LS. symmetry. exact LR1. }
    rewrite ET, EV. auto.
  - eexists _, _. split; [reflexivity|]. intros q Hq. destruct (COMP q Hq) as (x & y & (-> & ->) & A1 & A2 & A3 & A4).
    assert (ET : vec (vsub (reals th) (vscale (rate (B2R lr) (B2R decay) t) D)) q = vec (reals th) q - rate (B2R lr) (B2R decay) t * vec D q).
    { unfold vec. rewrite nth_vsub, !nth_vscale; [reflexivity|]. rewrite length_vscale, LD. symmetry. exact LR1. }
    rewrite ET. auto.
Qed.
Print Assumptions sgd_step_rounding_error.

(** a move that differs from - r times the gradient by at most e goes downhill if r |D|^2 exceeds the sum of |D q| * e q *)
Lemma downhill nn lf xs ts b (th : list R) (D T' e : nat -> R) r : nn_layers nn <> [] -> chain (in_size nn) (nn_layers nn) ->
  length th = total_n_parameters nn ->
  (forall k, In k b -> length (nth k xs []) = in_size nn /\ length (nth k ts []) = out_size nn) ->
  let sh := nn_shape nn in let n := in_size nn in let no := out_size nn in let np := total_n_parameters nn in
  trainable lf sh -> differentiable lf sh n no xs ts b (vec th) ->
  (forall q, (q < np)%nat -> is_derive (fun y => mean_loss lf sh n no xs ts b (upd (vec th) q y)) (vec th q) (D q)) ->
  (forall q, (q < np)%nat -> Rabs (T' q - (vec th q - r * D q)) <= e q) ->
  sumf np (fun q => Rabs (D q) * e q) < r * sumf np (fun q => D q * D q) ->
  exists eps, 0 < eps /\ forall s, 0 < s < eps ->
    mean_loss lf sh n no xs ts b (fun q => vec th q + s * (T' q - vec th q)) < mean_loss lf sh n no xs ts b (vec th).
Proof.
  intros Hne Hch Lth HL sh n no np HT HD DD HE HS.
  set (G0 := Gr {| cfg_isa := SSE; cfg_fma := false |} nn lf).
  assert (HG0 : is_gradient nn lf G0) by (apply Gr_gradient; assumption).
  pose proof (mean_curve nn lf G0 xs ts b th Hne Hch HG0 Lth HL HT HD) as MC. cbv zeta in MC. fold sh n no np in MC.
  set (g := vec (batch_mean nn xs ts G0 b th)) in *.
  assert (EG : forall q, (q < np)%nat -> g q = D q).
  { intros q Hq. pose proof (MC (fun k => if Nat.eqb k q then 1 else 0) (fun s => upd (vec th) q s) (vec th q)) as M1.
    rewrite <- (is_derive_unique _ _ _ (DD q Hq)). symmetry. apply is_derive_unique. eapply is_derive_val; [apply M1|].
    - intros k. unfold upd. destruct (Nat.eqb_spec k q); [subst; reflexivity|reflexivity].
    - intros k. unfold upd. destruct (Nat.eqb_spec k q); [apply @is_derive_id|apply @is_derive_const].
    - clear - Hq. assert (K : forall m, sumf m (fun k => g k * (if Nat.eqb k q then 1 else 0)) = if Nat.ltb q m then g q else 0).
      { induction m as [|m IH]; [reflexivity|]. cbn [sumf]. rewrite IH. destruct (Nat.ltb_spec q m); destruct (Nat.ltb_spec q (S m)); destruct (Nat.eqb_spec m q); try lia; try lra. subst. lra. }
      rewrite K. destruct (Nat.ltb_spec q np); [reflexivity|lia]. }
  pose proof (MC (fun k => T' k - vec th k) (fun s k => vec th k + s * (T' k - vec th k)) 0) as M2.
  assert (M3 := M2 ltac:(intros k; lra) ltac:(intros k; auto_derive; [exact I|ring])).
  assert (NEG : sumf np (fun k => g k * (T' k - vec th k)) < 0).
  { apply Rle_lt_trans with (sumf np (fun q => Rabs (D q) * e q - r * (D q * D q))).
    - clear - EG HE. assert (K : forall m, (m <= np)%nat -> sumf m (fun k => g k * (T' k - vec th k)) <= sumf m (fun q => Rabs (D q) * e q - r * (D q * D q))).
      { induction m as [|m IH]; intros Hm; [cbn; lra|]. cbn [sumf]. apply Rplus_le_compat; [apply IH; lia|]. rewrite EG by lia.
        pose proof (HE m ltac:(lia)) as H. set (w := T' m - (vec th m - r * D m)) in *.
        replace (T' m - vec th m) with (w - r * D m) by (unfold w; ring).
        assert (D m * w <= Rabs (D m) * e m). { apply Rle_trans with (Rabs (D m * w)); [apply Rle_abs|]. rewrite Rabs_mult. apply Rmult_le_compat_l; [apply Rabs_pos|exact H]. }
        lra. }
      apply K. lia.
    - assert (K : forall m, sumf m (fun q => Rabs (D q) * e q - r * (D q * D q)) = sumf m (fun q => Rabs (D q) * e q) - r * sumf m (fun q => D q * D q)).
      { induction m as [|m IH]; cbn [sumf]; [ring|]. rewrite IH. ring. }
      rewrite K. lra. }
  destruct (goes_down _ _ M3 NEG) as (eps & E0 & E1). exists eps. split; [exact E0|]. intros s Hs. eapply Rlt_le_trans; [exact (E1 s Hs)|].
  right. f_equal. apply functional_extensionality_dep. intros k. ring.
Qed.

(** Without momentum: if the exact step is longer than the rounding errors, learning rate * |D|^2 > sum of |D q| * bound q, then
    the move which the program makes in float32 goes downhill: the exact loss of the batch falls along it. *)
Theorem sgd_step_downhill (lm : libm) (c : cfg) (nn : neuralnet) (lf : loss) (X Y : ptr) (xs ts : list (list b32)) (m : @mem (opsB32 lm))
    (e : @env (opsB32 lm)) (o : opt) (n i t : nat) (lr decay mu : b32) (nest : bool) (V : ptr) (th v : list b32) (D : nat -> R) :
  let OP := opsB32 lm in
  let np := total_n_parameters nn in
  let sh := nn_shape nn in
  let b := firstn (o_batchsize o) (skipn i (order o)) in
  let T := vec (reals th) in
  let L := mean_loss lf sh (in_size nn) (out_size nn) (map reals xs) (map reals ts) b in
  let G := batch_near lf sh (in_size nn) T (map reals xs) (map reals ts) b in
  let R := rate_near (B2R lr) (B2R decay) t in
  let param q := sgd_param (B2R mu) nest (T q) (vec (reals v) q) (G q) R in
  @train_ready OP c nn lf X Y xs ts m th -> @state_array OP c nn X Y xs ts m V v ->
  @epoch_ready OP c nn lf (o_batchsize o) (length xs) (e, o, n) -> (0 < o_batchsize o)%nat -> (i < n)%nat ->
  Forall (fun l => covered lm (l_act l)) (nn_layers nn) -> trainable lf sh ->
  Forall (fun v : b32 => fin v = true) (th ++ v ++ [lr; decay; mu]) -> finite_samples xs ts b ->
  batch_safe lf sh (in_size nn) T (map reals xs) (map reals ts) b ->
  rate_fits (B2R lr) (B2R decay) -> (forall q, (q < np)%nat -> cap (param q) <= 2 ^ 127) ->
  B2R mu <= 0 ->
  (forall q, (q < np)%nat -> is_derive (fun y => L (upd T q y)) (T q) (D q)) ->
  sumf np (fun q => Rabs (D q) * err (param q)) < rate (B2R lr) (B2R decay) t * sumf np (fun q => D q * D q) ->
  exists th', (exists s' m', @sgd_step OP c (@exp256_lane OP) e o n X Y i
       {| sg_lr := lr; sg_decay := decay; sg_mu := mu; sg_nesterov := nest; sg_t := t; sg_v := V |} m = Ok (s', m') /\
       @train_ready OP c nn lf X Y xs ts m' th') /\
    exists eps, 0 < eps /\ forall s, 0 < s < eps -> L (fun q => T q + s * (vec (reals th') q - T q)) < L T.
Proof.
  intros OP np sh b T L G R param TR SA ER Hb Hi CV TN FIN FS BS RF CAP MU DD HS.
  assert (EI : interim mu nest th v = th) by (unfold interim; destruct (Rlt_dec 0 (B2R mu)); [lra|reflexivity]).
  assert (FT : Forall (fun v : b32 => fin v = true) th) by (apply Forall_app in FIN; apply FIN).
  pose proof (sgd_step_rounding_error lm c nn lf X Y xs ts m e o n i t lr decay mu nest V th v) as SR. cbv zeta in SR. rewrite EI in SR.
  destruct SR as (D' & LD & HD & m' & th' & v' & lr' & E & TR' & _ & _ & _ & _ & th2 & v2 & ERL & HQ); auto.
  { rewrite !app_assoc. rewrite !app_assoc in FIN. apply Forall_app. split; [exact FIN|exact FT]. }
  { intros q Hq. split; [exact (CAP q Hq)|]. intros H. lra. }
  exists th'. split. { eexists _, m'. split; [exact E|exact TR']. }
  destruct (ready_b32 lm c nn lf X Y xs ts m th TR) as ((PA & Hne & Hch & HX & HY & HL) & (TM & Lth & PL)).
  destruct ER as (E1 & E2 & E3 & E4 & E5 & E6). subst n.
  apply (downhill nn lf (map reals xs) (map reals ts) b (reals th) D (vec (reals th')) (fun q => err (param q)) (rate (B2R lr) (B2R decay) t)); auto.
  - unfold reals. rewrite map_length. exact Lth.
  - intros k Hk. assert (Kx : (k < length xs)%nat). { apply E5. unfold b in Hk. apply in_firstn in Hk. rewrite <- (firstn_skipn i (order o)). apply in_or_app. right. exact Hk. }
    rewrite !nth_reals. unfold reals. rewrite !map_length. destruct (@nth_error_ex _ xs k Kx) as [x Hx]. destruct (@nth_error_ex _ ts k) as [y Hy]; [exact (eq_ind_r (fun z => (k < z)%nat) Kx HL)|].
    rewrite (nth_error_nth xs k [] Hx), (nth_error_nth ts k [] Hy). split; [exact (HX k x Hx)|exact (HY k y Hy)].
  - exact (batch_differentiable lm c nn lf xs ts Hne Hch HX HY HL o (order o) _ i Hb eq_refl E5 Hi th Lth CV FT FS TN BS).
  - intros q Hq. destruct (HQ q Hq) as (_ & A & _). assert (EV : vec th2 q = T q - rate (B2R lr) (B2R decay) t * D q).
    { unfold sgd_rule in ERL. destruct (Rlt_dec 0 (B2R mu)); [lra|]. injection ERL as <- _. unfold vec. rewrite nth_vsub, nth_vscale.
      - f_equal. f_equal. pose proof (is_derive_unique _ _ _ (HD q Hq)) as U1. pose proof (is_derive_unique _ _ _ (DD q Hq)) as U2. exact (eq_trans (eq_sym U1) U2).
      - rewrite length_vscale, LD. unfold reals. rewrite map_length. symmetry. exact Lth. }
    eapply Rle_trans; [|exact A]. rewrite EV. right. reflexivity.
Qed.
Print Assumptions sgd_step_downhill.

(** ** a case: one input, one linear unit, parameters and velocity 0, mean squared error, the two samples (1, 1) and (1, 0) in one batch that
    two threads share; learning rate 1, decay 1, momentum 1 with Nesterov's variant, second batch *)
Lemma within_plus b c M E M' E' : within b M E -> within c M' E' -> within (plus b c) (M + M') (E + E').
Proof. intros (A & B) (C & D). unfold within, plus. cbn [mag err]. lra. Qed.
Lemma within_exact x M : Rabs x <= M -> within (exact x) M 0.
Proof. intros H. pose proof (Rabs_pos x). unfold within, exact. cbn [mag err]. lra. Qed.
Lemma pow_small1 : (1 + u32) ^ 1 - 1 <= 12 / 10 ^ 8.
Proof. pose proof (pow_small 1 ltac:(lia)) as H. cbn [INR] in H. lra. Qed.
Lemma within_r1 b M E : within b M E -> within (rounded 1 b) M (E + 12 / 10 ^ 8 * (M + E) + 1 / 10 ^ 20).
Proof.
  intros H. pose proof (within_rounded 1 b M E _ H pow_small1) as W. cbn [INR] in W. pose proof eta32_tiny. eapply within_le; [exact W|lra|lra].
Qed.
Lemma within_cap b M E K : within b M E -> M + E <= K -> cap b <= K.
Proof. intros (A & B) H. unfold cap. lra. Qed.
Lemma big126 : 1000 <= 2 ^ 125 /\ 1000 <= 2 ^ 126 /\ 1000 <= 2 ^ 127.
Proof. repeat split; (apply Rle_trans with (2 ^ 10); [lra|apply Rle_pow; [lra|lia]]). Qed.

Section Line.
  Variables (T x t : nat -> R).
  Hypothesis HT : forall q, Rabs (T q) <= 1.
  Hypothesis HX : forall q, Rabs (x q) <= 1.
  Hypothesis HY : forall q, Rabs (t q) <= 1.
  Let sh := [(1%nat, Linear)].
  Let a := fun i => Rabs (x i).
  Let d : nat -> R := fun _ => 0.
  Lemma line_lin j : 0 <= abs_lin 1 1 T a j <= 2.
  Proof.
    unfold abs_lin, a. cbn [sumf]. pose proof (HT j) as H1. pose proof (HT (1 + (0 * 1 + j))%nat) as H2. pose proof (HX 0%nat) as H3.
    pose proof (Rabs_pos (T j)). pose proof (Rabs_pos (T (1 + (0 * 1 + j))%nat)). pose proof (Rabs_pos (x 0%nat)).
    assert (0 <= Rabs (x 0%nat) * Rabs (T (1 + (0 * 1 + j))%nat)) by (apply Rmult_le_pos; lra).
    assert (Rabs (x 0%nat) * Rabs (T (1 + (0 * 1 + j))%nat) <= 1 * 1) by (apply Rmult_le_compat; lra). lra.
  Qed.
  Lemma line_low j : 0 <= low_lin 1 1 T d j <= 1 / 10 ^ 30.
  Proof.
    unfold low_lin, d. cbn [sumf]. rewrite Rmult_0_l, !Rplus_0_l. pose proof eta32_pos. pose proof eta32_tiny. pose proof (up1 (1 + 1)) as U.
    pose proof (pow_small 2 ltac:(lia)) as P2. cbn [INR] in P2. change (1 + 1)%nat with 2%nat in *.
    assert (0 <= (1 + u32) ^ 2 * eta32) by (apply Rmult_le_pos; lra). assert ((1 + u32) ^ 2 * eta32 <= 2 * (1 / 10 ^ 40)) by (apply Rmult_le_compat; lra). lra.
  Qed.
  Lemma line_out j : within (out_near 1 1 Linear 0 T a d j) 2 (6 / 10 ^ 7).
  Proof.
    unfold out_near. cbn [act_roundings abs_act low_act]. pose proof (line_lin j). pose proof (line_low j). pose proof eta32_pos. pose proof eta32_tiny.
    eapply within_le; [apply within_value with (A := 2) (D := 1 / 10 ^ 20) (P := 24 / 10 ^ 8); try lra| |].
    - change (0 + 1 + 1 + 0)%nat with 2%nat. pose proof (pow_small 2 ltac:(lia)) as P2. cbn [INR] in P2. lra.
    - lra.
    - lra.
  Qed.
  Lemma line_delta j : within (delta MSE t sh 1 0 T a d j) 6 (5 / 10 ^ 6).
  Proof.
    unfold sh. cbn [delta]. cbn [last_through through]. unfold loss_slope.
    destruct (line_out j) as (M & E). pose proof (HY j). pose proof (Rabs_pos (t j)). pose proof eta32_tiny.
    pose proof (pow_small 3 ltac:(lia)) as P3. cbn [INR] in P3.
    eapply within_le; [apply within_rounded with (M := 6) (E := 12 / 10 ^ 7) (P := 36 / 10 ^ 8); [|lra]|lra|cbn [INR]; lra].
    unfold within. cbn [mag err INR]. unfold Rdiv. rewrite Rinv_1, !Rmult_1_r. lra.
  Qed.
  Lemma line_prod j : within (rounded 1 (times (value 0 (a j) (d j)) (delta MSE t sh 1 0 T a d 0))) 6 (1 / 10 ^ 5).
  Proof.
    assert (V : within (value 0 (a j) (d j)) 1 0).
    { unfold within, value, a, d. cbn [mag err pow]. pose proof (HX j). pose proof (Rabs_pos (x j)). lra. }
    eapply within_le; [apply within_r1; apply within_times; [exact V|exact (line_delta 0)]|lra|lra].
  Qed.
  Lemma line_grad q : within (grad_near MSE t sh 1 0 T a d q) 6 (1 / 10 ^ 5).
  Proof.
    unfold sh. cbn [grad_near]. destruct (Nat.ltb_spec q 1).
    - eapply within_le; [exact (line_delta q)|lra|lra].
    - destruct (Nat.ltb_spec q (1 + 1 * 1)); [|unfold within; cbn [mag err]; lra].
      assert (q = 1%nat) by lia. subst q. exact (line_prod _).
  Qed.
  Lemma line_range : in_range sh 1 0 T a d.
  Proof.
    unfold sh. cbn [in_range]. split; [exact I|]. split; [|exact I]. intros j Hj. pose proof (line_lin j). pose proof (line_low j). cbn [top]. destruct big126 as (_ & _ & B).
    change (0 + 1 + 1)%nat with 2%nat. pose proof (pow_small 2 ltac:(lia)) as P2. cbn [INR] in P2. pose proof (up1 2).
    assert ((1 + u32) ^ 2 * abs_lin 1 1 T a j <= 2 * 2) by (apply Rmult_le_compat; lra). lra.
  Qed.
  Lemma line_safe : safe MSE t sh 1 0 T a d x.
  Proof.
    destruct big126 as (B1 & B2 & B3). unfold sh. cbn [safe]. split; [|split].
    - intros j Hj. split; [|exact I]. eapply within_cap; [exact (line_delta j)|lra].
    - intros i j Hi Hj. assert (j = 0%nat) by lia. subst j. eapply within_cap; [exact (line_prod i)|lra].
    - intros j Hj. unfold clear_loss. cbn [INR]. pose proof (HY j). pose proof (Rabs_pos (t j)). destruct (line_out j) as (M & E).
      split; [lra|]. split; [|exact I]. unfold cap. lra.
  Qed.
End Line.

Section LineBatch.
  Variables (T : nat -> R) (xs ts : list (list R)).
  Hypothesis HT : forall q, Rabs (T q) <= 1.
  Hypothesis HX : forall k q, Rabs (vec (nth k xs []) q) <= 1.
  Hypothesis HY : forall k q, Rabs (vec (nth k ts []) q) <= 1.
  Let sh := [(1%nat, Linear)].
  Let b := [0%nat; 1%nat].
  Let nears q := sample_nears MSE sh 1 T xs ts b q.
  Lemma line_sums q : 0 <= rsum (map mag (nears q)) <= 12 /\ 0 <= rsum (map err (nears q)) <= 2 / 10 ^ 5.
  Proof.
    unfold nears, sample_nears, b, sample_near. cbn [map rsum fold_right].
    destruct (line_grad T _ _ HT (HX 0) (HY 0) q) as (A1 & A2). destruct (line_grad T _ _ HT (HX 1) (HY 1) q) as (B1 & B2). unfold sh. lra.
  Qed.
  Lemma line_batch q : within (batch_near MSE sh 1 T xs ts b q) 6 (2 / 10 ^ 5).
  Proof.
    unfold batch_near, mean_near. fold (nears q). change (length (nears q)) with 2%nat. change (INR 2) with 2.
    destruct (line_sums q) as (A & B). set (s := rsum (map mag (nears q))) in *. set (e := rsum (map err (nears q))) in *. clearbody s e.
    pose proof (pow_small 2 ltac:(lia)) as P2. cbn [INR] in P2. pose proof (up1 2).
    assert (0 <= ((1 + u32) ^ 2 - 1) * (s + e)) by (apply Rmult_le_pos; lra). assert (((1 + u32) ^ 2 - 1) * (s + e) <= 24 / 10 ^ 8 * 13) by (apply Rmult_le_compat; lra).
    eapply within_le; [apply within_r1 with (M := 6) (E := 15 / 10 ^ 6)|lra|lra]. unfold within. cbn [mag err]. lra.
  Qed.
  Lemma line_batch_safe : batch_safe MSE sh 1 T xs ts b.
  Proof.
    split.
    - intros k Hk. cbv zeta. split; [discriminate|]. split; [apply line_range; auto|apply line_safe; auto].
    - intros q Hq. unfold mean_fits. fold (nears q). change (length (nears q)) with 2%nat. change (INR 2) with 2. split; [lra|].
      assert (E : rsum (map cap (nears q)) = rsum (map mag (nears q)) + rsum (map err (nears q))).
      { unfold nears, sample_nears, b. cbn [map rsum fold_right]. unfold cap. ring. }
      rewrite E. destruct (line_sums q) as (A & B). pose proof (pow_small 2 ltac:(lia)) as P2. cbn [INR] in P2. pose proof (up1 2). destruct big126 as (_ & B2 & _).
      assert ((1 + u32) ^ 2 * (rsum (map mag (nears q)) + rsum (map err (nears q))) <= 2 * 13) by (apply Rmult_le_compat; lra). lra.
  Qed.
  Lemma line_step mu nest th v lr dec t q : Rabs th <= 1 -> Rabs v <= 1 -> 0 <= mu <= 1 -> 0 <= lr <= 1 -> 0 <= dec ->
    let G := batch_near MSE sh 1 T xs ts b q in let R := rate_near lr dec t in
    within (sgd_param mu nest th v G R) 8 (1 / 10 ^ 4) /\ within (sgd_velocity mu v G R) 7 (1 / 10 ^ 4).
  Proof.
    intros Hth Hv Hmu Hlr Hd G R.
    assert (RB : 0 <= rate lr dec t <= 1).
    { unfold rate. destruct (Rlt_dec 0 dec); [|lra]. pose proof (count32_range t) as C. assert (0 <= dec * count32 t) by (apply Rmult_le_pos; lra).
      split; [apply Rdiv_le_0_compat; lra|]. apply Rle_div_l; lra. }
    assert (WR : within R 1 (1 / 10 ^ 6)).
    { unfold R, rate_near, within. cbn [mag err]. rewrite (Rabs_pos_eq (rate lr dec t)) by lra. rewrite (Rabs_pos_eq lr) by lra. split; [lra|].
      destruct (Rlt_dec 0 dec); [|lra]. pose proof u32_val as U. pose proof eta32_pos. pose proof eta32_tiny. rewrite U.
      assert (0 <= (2 * lr + 1) * eta32) by (apply Rmult_le_pos; lra). assert ((2 * lr + 1) * eta32 <= 3 * (1 / 10 ^ 40)) by (apply Rmult_le_compat; lra). lra. }
    assert (WP : within (rounded 1 (times G R)) 6 (3 / 10 ^ 5)).
    { eapply within_le; [apply within_r1; apply within_times; [exact (line_batch q)|exact WR]|lra|lra]. }
    assert (MV : Rabs (mu * v) <= 1). { rewrite Rabs_mult, (Rabs_pos_eq mu) by lra. pose proof (Rabs_pos v). rewrite <- (Rmult_1_l 1). apply Rmult_le_compat; lra. }
    assert (WM : within (rounded 1 (exact (mu * v))) 1 (2 / 10 ^ 7)).
    { eapply within_le; [apply within_r1, within_exact; exact MV|lra|lra]. }
    assert (WV : within (sgd_velocity mu v G R) 7 (6 / 10 ^ 5)).
    { unfold sgd_velocity. destruct (Rlt_dec 0 mu).
      - eapply within_le; [apply within_r1, within_plus; [exact WM|exact WP]|lra|lra].
      - eapply within_le; [apply within_exact; exact Hv|lra|lra]. }
    split; [|eapply within_le; [exact WV|lra|lra]].
    unfold sgd_param. destruct (Rlt_dec 0 mu); [destruct nest|].
    - eapply within_le; [apply within_r1, within_plus; [apply within_r1, within_plus; [apply within_exact; exact Hth|exact WM]|exact WP]|lra|lra].
    - eapply within_le; [apply within_r1, within_plus; [apply within_exact; exact Hth|exact WV]|lra|lra].
    - eapply within_le; [apply within_r1, within_plus; [apply within_exact; exact Hth|exact WP]|lra|lra].
  Qed.
End LineBatch.

Lemma zero_reals q : vec (reals [b32_zero; b32_zero]) q = 0.
Proof. unfold vec, reals. destruct q as [|[|[|q]]]; reflexivity. Qed.
Lemma row_bound (l : list b32) : Forall (fun v => Rabs (bv v) <= 1) l -> forall k q, Rabs (vec (nth k (map reals (map (fun x => [x]) l)) []) q) <= 1.
Proof.
  intros H k q. destruct (lt_dec k (length l)) as [Hk|Hk].
  - rewrite nth_reals. rewrite (nth_indep _ [] [b32_zero]) by (rewrite map_length; exact Hk). rewrite (map_nth (fun x => [x])).
    unfold vec, reals. destruct q as [|q]; cbn [map nth].
    + rewrite Forall_forall in H. apply H, nth_In. exact Hk.
    + destruct q; rewrite Rabs_R0; lra.
  - rewrite nth_overflow by (rewrite !map_length; lia). unfold vec. destruct q; cbn [nth]; rewrite Rabs_R0; lra.
Qed.
Example sgd_step_rounding_case :
  let lm := lm_rounded in let OP := opsB32 lm in
  let c := {| cfg_isa := AVX512; cfg_fma := true |} in
  let nn := @tc_nn in let xl := [b32_ofZ 1; b32_ofZ 1] in let tl := [b32_ofZ 1; b32_zero] in
  let xs := @rows OP xl in let ts := @rows OP tl in
  let th := [b32_zero; b32_zero] in let v := [b32_zero; b32_zero] in
  let lr := b32_ofZ 1 in let decay := b32_ofZ 1 in let mu := b32_ofZ 1 in
  let o := tc_opt 2 [0%nat; 1%nat] in let e := @tc_env_omp OP c 2 2 in
  let b := firstn (o_batchsize o) (skipn 0 (order o)) in
  let P := vec (reals (interim mu true th v)) in
  let G := batch_near MSE (nn_shape nn) (in_size nn) P (map reals xs) (map reals ts) b in
  let R := rate_near (B2R lr) (B2R decay) 1 in
  let param q := sgd_param (B2R mu) true (vec (reals th) q) (vec (reals v) q) (G q) R in
  let velocity q := sgd_velocity (B2R mu) (vec (reals v) q) (G q) R in
  @train_ready OP c nn MSE (mkptr 2 0) (mkptr 3 0) xs ts (@tc_mem OP xl tl) th /\
  @state_array OP c nn (mkptr 2 0) (mkptr 3 0) xs ts (@tc_mem OP xl tl) (mkptr 4 0) v /\
  @epoch_ready OP c nn MSE (o_batchsize o) (length xs) (e, o, 2%nat) /\ (0 < o_batchsize o)%nat /\ (0 < 2)%nat /\
  Forall (fun l => covered lm (l_act l)) (nn_layers nn) /\ trainable MSE (nn_shape nn) /\
  Forall (fun v : b32 => fin v = true) (th ++ v ++ [lr; decay; mu] ++ interim mu true th v) /\ finite_samples xs ts b /\
  batch_safe MSE (nn_shape nn) (in_size nn) P (map reals xs) (map reals ts) b /\
  rate_fits (B2R lr) (B2R decay) /\
  (forall q, (q < total_n_parameters nn)%nat -> cap (param q) <= 2 ^ 127 /\ (0 < B2R mu -> cap (velocity q) <= 2 ^ 127)) /\
  forall q, err (param q) <= 1 / 10 ^ 4 /\ err (velocity q) <= 1 / 10 ^ 4.
Proof.
  intros lm OP c nn xl tl xs ts th v lr decay mu o e b P G R param velocity.
  assert (O1 : B2R (b32_ofZ 1) = 1) by exact one_R.
  assert (EI : forall q, P q = 0).
  { intros q. unfold P, interim. unfold mu. rewrite O1. destruct (Rlt_dec 0 1); [|lra].
    change (map2 (Bplus mode_NE) th (map (fun y => Bmult mode_NE y (b32_ofZ 1)) v)) with [Bplus mode_NE b32_zero (Bmult mode_NE b32_zero (b32_ofZ 1)); Bplus mode_NE b32_zero (Bmult mode_NE b32_zero (b32_ofZ 1))].
    unfold vec, reals. destruct q as [|[|[|q]]]; reflexivity. }
  assert (HP : forall q, Rabs (P q) <= 1) by (intros q; rewrite EI, Rabs_R0; lra).
  assert (HX : forall k q, Rabs (vec (nth k (map reals xs) []) q) <= 1).
  { apply row_bound. repeat (apply Forall_cons; [rewrite O1, Rabs_R1; lra|]). apply Forall_nil. }
  assert (HY : forall k q, Rabs (vec (nth k (map reals ts) []) q) <= 1).
  { apply row_bound. apply Forall_cons; [rewrite O1, Rabs_R1; lra|]. apply Forall_cons; [|apply Forall_nil]. change (bv b32_zero) with 0. rewrite Rabs_R0. lra. }
  assert (ST : forall q, within (param q) 8 (1 / 10 ^ 4) /\ within (velocity q) 7 (1 / 10 ^ 4)).
  { intros q. unfold param, velocity, G, R, mu, lr, decay. rewrite !O1. apply (line_step P (map reals xs) (map reals ts) HP HX HY); try lra.
    - unfold th. rewrite zero_reals, Rabs_R0. lra.
    - unfold v. rewrite zero_reals, Rabs_R0. lra. }
  split; [apply (@tc_ready OP); reflexivity|]. split; [apply (@tc_array OP); left; reflexivity|].
  split; [apply (@tc_epoch_omp OP); intros k [<-|[<-|[]]]; cbn; lia|]. split; [cbn; lia|]. split; [lia|].
  split; [repeat constructor|]. split; [discriminate|].
  split.
  { repeat (apply Forall_app; split); try (repeat constructor).
    unfold interim, mu. rewrite O1. destruct (Rlt_dec 0 1); [|lra]. repeat constructor. }
  split. { intros k [<-|[<-|[]]]; split; repeat constructor. }
  split; [exact (line_batch_safe P (map reals xs) (map reals ts) HP HX HY)|].
  split. { unfold rate_fits, lr, decay. rewrite O1, Rabs_R1. split; apply pow_R1_Rle; lra. }
  destruct big126 as (_ & _ & B).
  split.
  - intros q Hq. destruct (ST q) as (A1 & A2). split; [eapply within_cap; [exact A1|lra]|intros _; eapply within_cap; [exact A2|lra]].
  - intros q. destruct (ST q) as ((_ & A1) & (_ & A2)). lra.
Qed.

(** the same without momentum: the gradient is -1 in both components, the float32 move goes downhill *)
Lemma line_loss y y' : let ts := [[1]; [0]] in let xs := [[1]; [1]] in
  mean_loss MSE [(1%nat, Linear)] 1 1 xs ts [0%nat; 1%nat] (vec [y; y']) = ((y + y' - 1) * (y + y' - 1) + (y + y') * (y + y')) / 2.
Proof.
  cbv zeta. unfold mean_loss. cbn [map length INR rsum fold_right nth eval]. unfold loss_math, act_math, zf, vec. cbn [sumf nth]. cbn. field.
Qed.
Example sgd_step_downhill_case :
  let lm := lm_rounded in let OP := opsB32 lm in
  let nn := @tc_nn in
  let xs := @rows OP [b32_ofZ 1; b32_ofZ 1] in let ts := @rows OP [b32_ofZ 1; b32_zero] in
  let T := vec (reals [b32_zero; b32_zero]) in
  let b := [0%nat; 1%nat] in
  let G := batch_near MSE (nn_shape nn) (in_size nn) T (map reals xs) (map reals ts) b in
  let R := rate_near 1 1 1 in
  let param q := sgd_param 0 false 0 0 (G q) R in
  let D := fun _ : nat => (-1) in
  (forall q, (q < total_n_parameters nn)%nat ->
    is_derive (fun y => mean_loss MSE (nn_shape nn) (in_size nn) (out_size nn) (map reals xs) (map reals ts) b (upd T q y)) (T q) (D q)) /\
  sumf (total_n_parameters nn) (fun q => Rabs (D q) * err (param q)) < rate 1 1 1 * sumf (total_n_parameters nn) (fun q => D q * D q).
Proof.
  intros lm OP nn xs ts T b G R param D.
  assert (O1 : B2R (b32_ofZ 1) = 1) by exact one_R.
  assert (EX : map reals xs = [[1]; [1]]) by (unfold xs, rows, reals; cbn [map]; rewrite O1; reflexivity).
  assert (ET : map reals ts = [[1]; [0]]) by (unfold ts, rows, reals; cbn [map]; rewrite O1; reflexivity).
  split.
  - intros q Hq. rewrite EX, ET. change (nn_shape nn) with [(1%nat, Linear)]. change (in_size nn) with 1%nat. change (out_size nn) with 1%nat.
    change (total_n_parameters nn) with 2%nat in Hq.
    apply is_derive_ext with (f := fun y => ((y - 1) * (y - 1) + y * y) / 2).
    + intros y. pose proof (line_loss) as LL. cbv zeta in LL.
      assert (K : forall f g, f 0%nat = g 0%nat -> f 1%nat = g 1%nat -> mean_loss MSE [(1%nat, Linear)] 1 1 [[1]; [1]] [[1]; [0]] b f = mean_loss MSE [(1%nat, Linear)] 1 1 [[1]; [1]] [[1]; [0]] b g).
      { intros f g E0 E1. unfold mean_loss, b. cbn [map length INR rsum fold_right nth eval]. unfold loss_math, act_math, zf. cbn [sumf]. cbn. rewrite E0, E1. reflexivity. }
      destruct q as [|[|q]]; [| |lia].
      * rewrite (K _ (vec [y; 0])), LL; [f_equal; ring|reflexivity|]. exact (zero_reals 1).
      * rewrite (K _ (vec [0; y])), LL; [f_equal; ring| |reflexivity]. exact (zero_reals 0).
    + assert (E0 : T q = 0) by exact (zero_reals q). rewrite E0. auto_derive; [exact I|]. unfold D. field.
  - change (total_n_parameters nn) with 2%nat. cbn [sumf]. unfold D. rewrite (Rabs_left (-1)) by lra.
    assert (HX : forall k q, Rabs (vec (nth k (map reals xs) []) q) <= 1).
    { apply row_bound. repeat (apply Forall_cons; [rewrite O1, Rabs_R1; lra|]). apply Forall_nil. }
    assert (HY : forall k q, Rabs (vec (nth k (map reals ts) []) q) <= 1).
    { apply row_bound. apply Forall_cons; [rewrite O1, Rabs_R1; lra|]. apply Forall_cons; [|apply Forall_nil]. change (bv b32_zero) with 0. rewrite Rabs_R0. lra. }
    assert (ST : forall q, within (param q) 8 (1 / 10 ^ 4)).
    { intros q. apply (line_step T (map reals xs) (map reals ts)) with (q := q); try assumption; try lra; try (rewrite Rabs_R0; lra). intros k. unfold T. rewrite zero_reals, Rabs_R0. lra. }
    destruct (ST 0%nat) as (_ & A). destruct (ST 1%nat) as (_ & B).
    assert (RT : rate 1 1 1 = 1 / 2). { unfold rate. destruct (Rlt_dec 0 1); [|lra]. unfold count32. change (IZR (Z.of_nat 1 mod 2 ^ 32)) with 1. lra. }
    rewrite RT. lra.
Qed.
